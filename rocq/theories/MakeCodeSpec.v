(** What a user of make_code / reset relies on. *)
From Coq Require Import ZArith List Bool.
From Verif Require Import Common AllocModel InternModel MakeCodeModel.
Import ListNotations.
Open Scope Z_scope.

(** address [x] lies in the memory of the node [c]; in the memory of the pool [p] *)
Definition in_node (c x : Z) : Prop := c <= x < c + 128.
Definition in_pool (p : pool) (x : Z) : Prop := pl_start p <= x < pl_start p + pl_num p * 144.

(** Contract of the pool's backing allocator: a non-null block, apart from the pools in use, which it
    does not change. *)
Definition pool_backing_ok (m : mem) (pools : list pool) (num : Z) (bk : mem -> Z -> mem * Z) : Prop :=
  let '(m1, a) := bk m (num * 144) in
  0 < a /\ a + num * 144 <= 2 ^ 64 /\
  forall p x, In p pools -> in_pool p x -> m1 x = m x /\ ~ (a <= x < a + num * 144).

(** A context's history from init with a first pool at [start] of [num] nodes: node creations, resets,
    and anything a client may do in between: change its own nodes and everything outside the pools.
    [codes] are the nodes made since the last reset, newest first. *)
Inductive code_history (m0 : mem) (start num : Z) : mem -> list pool -> list Z -> Prop :=
| CH_init m p : pool_init m0 start num 128 = (m, p) -> code_history m0 start num m [p] []
| CH_env m pools codes m1 : code_history m0 start num m pools codes ->
    (forall x, m1 x = m x \/ (exists c, In c codes /\ in_node c x) \/ (forall p, In p pools -> ~ in_pool p x)) ->
    code_history m0 start num m1 pools codes
| CH_make m pools codes bk m1 pools1 c : code_history m0 start num m pools codes ->
    pool_backing_ok m pools num bk -> make_code bk m pools num = Ok (m1, pools1, c) ->
    code_history m0 start num m1 pools1 (c :: codes)
| CH_reset m pools codes m1 pools1 cx cx1 : code_history m0 start num m pools codes ->
    reset m pools cx = (m1, pools1, cx1) -> code_history m0 start num m1 pools1 [].

(** the first pool as init asks for it *)
Definition pools_start_ok (start num : Z) : Prop := 0 < start /\ 1 <= num /\ start + num * 144 <= 2 ^ 64.
