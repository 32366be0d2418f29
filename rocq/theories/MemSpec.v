(** Specification vocabulary for the memory properties (C01-C07): what a caller expects, stated
    without reference to how the routines work. *)
From Coq Require Import ZArith List Bool.
From Verif Require Import Common MemModel AllocModel.
Import ListNotations.
Open Scope Z_scope.

(** [q] is the least multiple of [a] that is at least [p] *)
Definition least_multiple_ge (p a q : Z) : Prop :=
  (a | q) /\ p <= q /\ forall r, (a | r) -> p <= r -> q <= r.

(** [m'] is [m] with the [n] bytes from [dst] all equal to [c] *)
Definition filled (m m' : mem) (dst c n : Z) : Prop :=
  (forall x, dst <= x < dst + n -> m' x = c) /\ (forall x, ~ (dst <= x < dst + n) -> m' x = m x).

(** [m'] is [m] with the old contents of [src,src+n) placed at [dst,dst+n) *)
Definition moved_bytes (m m' : mem) (dst src n : Z) : Prop :=
  (forall i, 0 <= i < n -> m' (dst + i) = m (src + i)) /\ (forall x, ~ (dst <= x < dst + n) -> m' x = m x).

(** [r] is the first address in [data, data+n) holding byte [c], or [None] if there is none *)
Definition first_occ (m : mem) (data c n : Z) (r : option Z) : Prop :=
  match r with
  | Some a => data <= a < data + n /\ m a = c /\ forall x, data <= x < a -> m x <> c
  | None => forall x, data <= x < data + n -> m x <> c
  end.


(** ** Arena blocks: (address, size, alignment) *)
Definition disjoint (b1 b2 : block) : Prop :=
  let '(p1, s1, _) := b1 in let '(p2, s2, _) := b2 in p1 + s1 <= p2 \/ p2 + s2 <= p1.

Definition arena_ok (start size : Z) (live : list block) : Prop :=
  (forall p s a, In (p, s, a) live -> start <= p /\ p + s <= start + size /\ (a | p)) /\
  ForallOrdPairs disjoint live.

(** requests: sizes >= 0, power-of-two alignments that divide the start address, and since the
    last FREE_ALL each alignment divides the previous one *)
Fixpoint descending (start lim : Z) (cur : option Z) (ops : list arena_op) : Prop :=
  match ops with
  | [] => True
  | AFreeAll :: r => descending start lim None r
  | AAlloc s a :: r =>
    0 <= s /\ is_power_of_two a = true /\ (a | start) /\ a <= lim /\
    match cur with None => True | Some c => (a | c) end /\
    descending start lim (Some a) r
  end.


(** the [i]-th block of a pool and the pool's own blocks *)
Definition is_pool_block (start num bsize balign b : Z) : Prop :=
  exists i, 0 <= i < num /\ b = start + i * (bsize + balign).

(** pool geometry the library uses: at least one block, room for the link, addresses below 2^64 *)
Definition pool_geometry (start num bsize balign : Z) : Prop :=
  0 < start /\ 1 <= num /\ 0 <= bsize /\ 0 <= balign /\ 8 <= bsize + balign /\
  start + num * (bsize + balign) <= 2 ^ 64.
