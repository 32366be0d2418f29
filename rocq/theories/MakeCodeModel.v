(** AST node allocation and context reset: make_code, init's first code pool, reset.
    base/components/interface.cpp. sizeof(AST) = 128 (ast.hpp:355, static_assert ast.hpp:442). *)
From Coq Require Import ZArith List Bool.
From Verif Require Import Common MemModel AllocModel ArrayModel HashtableModel StrOpsModel StrModel InternModel.
Import ListNotations.
Open Scope Z_scope.

Definition AST_SIZE := 128.
(** memory.hpp:429-431 [pool_init]: alignment GEN_DEFAULT_MEMORY_ALIGNMENT = 16 *)
Definition pool_init (m : mem) (data num bsize : Z) : mem * pool := pool_init_align m data num bsize DEFAULT_ALIGNMENT.

Section Backing.
(** Allocator_Pool: memory, size -> memory, address *)
Variable bk : mem -> Z -> mem * Z.

(** bytes pool_init_align asks the backing allocator for (memory.cpp:470-472) *)
Definition pool_bytes (num : Z) : Z := num * (AST_SIZE + DEFAULT_ALIGNMENT).

(** interface.cpp:454-472 [make_code]. CodePools is the sequence of pools (C08). [num] is
    CodePool_NumBlocks. A null pool memory is a precondition violation: pool_init_align writes
    through it before make_code's own check. *)
Definition make_code (m : mem) (pools : list pool) (num : Z) : outcome (mem * list pool * Z) :=
  match back pools with
  | None => AssertFail
  | Some last =>
    let '(m, pools, last) :=
      if pl_free last =? 0 then
        let '(m, data) := bk m (pool_bytes num) in
        let '(m, np) := pool_init m data num AST_SIZE in
        (m, pools ++ [np], np)
      else (m, pools, last) in
    bind (pool_alloc m last AST_SIZE DEFAULT_ALIGNMENT) (fun '(m, last', c) =>
    bind (of_option (mem_set m c 0 AST_SIZE)) (fun m =>
    Ok (m, set_back pools last', c)))
  end.
End Backing.

(** interface.cpp:392-402, the pool part of [reset]: pool_clear on every pool (the do-while runs once
    per pool, there is always at least one) *)
Fixpoint clear_pools (m : mem) (pools : list pool) : mem * list pool :=
  match pools with
  | [] => (m, [])
  | p :: r => let '(m, p') := pool_clear m p in let '(m, r') := clear_pools m r in (m, p' :: r')
  end.

(** interface.cpp:404-412: every string arena's TotalUsed = 0 *)
Definition clear_arena (a : arena) : arena := {| ar_start := ar_start a; ar_size := ar_size a; ar_used := 0 |}.

(** interface.cpp:390-417 [reset] of an initialised context: define_constants returns immediately
    because context_counter > 0 (interface.cpp:77-79). *)
Definition reset (m : mem) (pools : list pool) (cx : ctx) : mem * list pool * ctx :=
  let '(m, pools) := clear_pools m pools in
  (m, pools, {| cx_arenas := map clear_arena (cx_arenas cx); cx_cache := ht_clear (cx_cache cx); cx_macros := ht_clear (cx_macros cx);
                cx_max_cache := cx_max_cache cx; cx_per_arena := cx_per_arena cx |}).
