(** Model of the Arena and Pool allocators and of default_resize_align.
    base/dependencies/memory.hpp, base/dependencies/memory.cpp *)
From Coq Require Import ZArith List Bool.
From Verif Require Import Common MemModel.
Import ListNotations.
Open Scope Z_scope.

(** GEN_DEFAULT_MEMORY_ALIGNMENT = 2 * sizeof(void* ): base/dependencies/memory.hpp:86-88 (64-bit) *)
Definition DEFAULT_ALIGNMENT : Z := 16.

(** ** Arena *)
(** struct Arena, base/dependencies/memory.hpp:188-195; [Backing] and [TempCount] are not needed by
    ALLOC/FREE/FREE_ALL and are left out. *)
Record arena := { ar_start : Z; ar_size : Z; ar_used : Z }.

(** base/dependencies/memory.hpp:239-250 [arena_init_from_memory] *)
Definition arena_init_from_memory (start size : Z) : arena :=
  {| ar_start := start; ar_size := size; ar_used := 0 |}.

(** Outcome of an allocator call: a pointer, GEN_FATAL (process stops), a failed GEN_ASSERT *)
Inductive outcome (A : Type) := Ok (a : A) | Fatal | AssertFail.
Arguments Ok {A}. Arguments Fatal {A}. Arguments AssertFail {A}.

(** base/dependencies/memory.cpp:339-367 [arena_allocator_proc], case EAllocation_ALLOC with
    flags = GEN_DEFAULT_ALLOCATOR_FLAGS = ALLOCATOR_FLAG_CLEAR_TO_ZERO (memory.hpp:81-92).
    The model also returns the memory after [zero_size]. A mem_set that does not finish cannot
    happen (C04) and is mapped to AssertFail. *)
Definition arena_alloc (m : mem) (ar : arena) (size alignment : Z) : outcome (mem * arena * Z) :=
  let e := ar_start ar + ar_used ar in
  let total_size := align_forward_s64 size alignment in
  if ar_used ar + total_size >? ar_size ar then Fatal else
  match align_forward e alignment with
  | None => AssertFail
  | Some ptr =>
    let ar' := {| ar_start := ar_start ar; ar_size := ar_size ar; ar_used := ar_used ar + total_size |} in
    match zero_size m ptr size with
    | None => AssertFail
    | Some m' => Ok (m', ar', ptr)
    end
  end.

(** memory.cpp:374-376, case EAllocation_FREE_ALL *)
Definition arena_free_all (ar : arena) : arena :=
  {| ar_start := ar_start ar; ar_size := ar_size ar; ar_used := 0 |}.

(** base/dependencies/memory.hpp:270-285 [arena_alignment_of] *)
Definition arena_alignment_of (ar : arena) (alignment : Z) : option Z :=
  if is_power_of_two alignment then
    let rp := ar_start ar + ar_used ar in
    let mask := alignment - 1 in
    Some (if Z.land rp mask =? 0 then 0 else alignment - Z.land rp mask)
  else None.

(** base/dependencies/memory.hpp:305-311 [arena_size_remaining] *)
Definition arena_size_remaining (ar : arena) (alignment : Z) : option Z :=
  option_map (fun o => ar_size ar - (ar_used ar + o)) (arena_alignment_of ar alignment).

(** Histories of a client: allocate, free-all, or store a byte inside a block it owns.  The
    client's view is the list of blocks (address, size, alignment) it was given since the last
    FREE_ALL, most recent first. *)
Inductive arena_op := AAlloc (size alignment : Z) | AFreeAll.
Definition block := (Z * Z * Z)%type.

Definition arena_step (st : mem * arena * list block) (o : arena_op) : outcome (mem * arena * list block) :=
  let '(m, ar, live) := st in
  match o with
  | AAlloc size al =>
    match arena_alloc m ar size al with
    | Ok (m', ar', p) => Ok (m', ar', (p, size, al) :: live)
    | Fatal => Fatal
    | AssertFail => AssertFail
    end
  | AFreeAll => Ok (m, arena_free_all ar, [])
  end.

Fixpoint arena_run (st : mem * arena * list block) (ops : list arena_op) : outcome (mem * arena * list block) :=
  match ops with
  | [] => Ok st
  | o :: r => match arena_step st o with Ok st' => arena_run st' r | Fatal => Fatal | AssertFail => AssertFail end
  end.

(** ** Pool *)
(** struct Pool, base/dependencies/memory.hpp:399-407 (without [Backing]) *)
Record pool := {
  pl_start : Z; pl_free : Z; pl_bsize : Z; pl_balign : Z; pl_total : Z; pl_num : Z }.

Definition load64 (m : mem) (a : Z) : Z := load_le 8 m a.
Definition store64 (m : mem) (a v : Z) : mem := store_le 8 m a v.

(** the loop building the intrusive free list: memory.cpp:436-448, 481-491 and 506-518.
    [k] = NumBlocks - 1 iterations, then the terminating NULL. *)
Fixpoint link_blocks (k : nat) (m : mem) (curr stride : Z) : mem :=
  match k with
  | O => store64 m curr 0
  | S k' => link_blocks k' (store64 m curr (curr + stride)) (curr + stride) stride
  end.

(** base/dependencies/memory.cpp:462-498 [pool_init_align]; [data] is the address the backing
    allocator returned for num_blocks * (block_size + block_align) bytes. *)
Definition pool_init_align (m : mem) (data num bsize balign : Z) : mem * pool :=
  (link_blocks (Z.to_nat (num - 1)) m data (bsize + balign),
   {| pl_start := data; pl_free := data; pl_bsize := bsize; pl_balign := balign; pl_total := 0; pl_num := num |}).

(** memory.cpp:398-414 [pool_allocator_proc], EAllocation_ALLOC (clears to zero, default flags) *)
Definition pool_alloc (m : mem) (p : pool) (size alignment : Z) : outcome (mem * pool * Z) :=
  if negb (size =? pl_bsize p) then AssertFail else
  if negb (alignment =? pl_balign p) then AssertFail else
  if pl_free p =? 0 then AssertFail else
  let next := load64 m (pl_free p) in
  let ptr := pl_free p in
  let p' := {| pl_start := pl_start p; pl_free := next; pl_bsize := pl_bsize p; pl_balign := pl_balign p;
               pl_total := pl_total p + pl_bsize p; pl_num := pl_num p |} in
  match zero_size m ptr size with
  | None => AssertFail
  | Some m' => Ok (m', p', ptr)
  end.

(** memory.cpp:416-427, EAllocation_FREE *)
Definition pool_free_block (m : mem) (p : pool) (old : Z) : mem * pool :=
  if old =? 0 then (m, p) else
  (store64 m old (pl_free p),
   {| pl_start := pl_start p; pl_free := old; pl_bsize := pl_bsize p; pl_balign := pl_balign p;
      pl_total := pl_total p - pl_bsize p; pl_num := pl_num p |}).

(** memory.cpp:429-451, EAllocation_FREE_ALL *)
Definition pool_free_all (m : mem) (p : pool) : mem * pool :=
  (link_blocks (Z.to_nat (pl_num p - 1)) m (pl_start p) (pl_bsize p + pl_balign p),
   {| pl_start := pl_start p; pl_free := pl_start p; pl_bsize := pl_bsize p; pl_balign := pl_balign p;
      pl_total := 0; pl_num := pl_num p |}).

(** memory.cpp:500-520 [pool_clear]: as FREE_ALL but TotalSize is not reset *)
Definition pool_clear (m : mem) (p : pool) : mem * pool :=
  (link_blocks (Z.to_nat (pl_num p - 1)) m (pl_start p) (pl_bsize p + pl_balign p),
   {| pl_start := pl_start p; pl_free := pl_start p; pl_bsize := pl_bsize p; pl_balign := pl_balign p;
      pl_total := pl_total p; pl_num := pl_num p |}).

(** Client histories. [PWrite b i v] stores byte [v] at offset [i] of the owned block [b]. The
    client must free only blocks it owns and write only inside blocks it owns; a client that does
    not gets [Fatal] (its history is outside the property). *)
Inductive pool_op := PAlloc (size alignment : Z) | PFree (p : Z) | PFreeAll | PClear | PWrite (b i v : Z).

Definition pstate := (mem * pool * list Z)%type.

Definition pool_step (st : pstate) (o : pool_op) : outcome pstate :=
  let '(m, p, live) := st in
  match o with
  | PAlloc size al =>
    match pool_alloc m p size al with
    | Ok (m', p', b) => Ok (m', p', b :: live)
    | Fatal => Fatal
    | AssertFail => AssertFail
    end
  | PFree b =>
    if existsb (Z.eqb b) live then
      let '(m', p') := pool_free_block m p b in Ok (m', p', remove Z.eq_dec b live)
    else Fatal
  | PFreeAll => let '(m', p') := pool_free_all m p in Ok (m', p', [])
  | PClear => let '(m', p') := pool_clear m p in Ok (m', p', [])
  | PWrite b i v =>
    if existsb (Z.eqb b) live && (0 <=? i) && (i <? pl_bsize p) then Ok (store8 m (b + i) v, p, live) else Fatal
  end.

Fixpoint pool_run (st : pstate) (ops : list pool_op) : outcome pstate :=
  match ops with
  | [] => Ok st
  | o :: r => match pool_step st o with Ok st' => pool_run st' r | Fatal => Fatal | AssertFail => AssertFail end
  end.

(** ** default_resize_align *)
(** base/dependencies/memory.hpp:636-665. The allocator is a pair of functions: [al] for
    EAllocation_ALLOC (new memory, address; 0 = NULL) and [fr] for EAllocation_FREE. *)
Definition default_resize_align (al : mem -> Z -> Z -> mem * Z) (fr : mem -> Z -> mem)
    (m : mem) (old old_size new_size alignment : Z) : option (mem * Z) :=
  if old =? 0 then Some (al m new_size alignment) else
  if new_size =? 0 then Some ((if old =? 0 then m else fr m old), 0) else
  let new_size := if new_size <? old_size then old_size else new_size in
  if old_size =? new_size then Some (m, old) else
  let '(m1, p) := al m new_size alignment in
  if p =? 0 then Some (m1, 0) else
  match mem_move m1 p old (Z.min new_size old_size) with
  | None => None
  | Some m2 => Some ((if old =? 0 then m2 else fr m2 old), p)
  end.
