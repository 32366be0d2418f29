(** What a client of the fallback allocator relies on. *)
From Coq Require Import ZArith List Bool.
From Verif Require Import Common MemModel AllocModel MemSpec FallbackModel.
Import ListNotations.
Open Scope Z_scope.

(** a region (address, size) of memory that heap() handed out *)
Definition region_ok (size : Z) (r : Z) : Prop := 0 < r /\ r + size + 16 <= 2 ^ 64 /\ (16 | r).
Definition apart (s1 s2 : Z) (r1 r2 : Z) : Prop := r1 + s1 <= r2 \/ r2 + s2 <= r1.
(** the addresses heap() would return during a history *)
Definition fresh_of (ops : list fb_op) : list Z := flat_map (fun o => match o with FAlloc _ f => [f] | _ => [] end) ops.
Definition sizes_in (ops : list fb_op) (P : Z -> Prop) : Prop := forall s f, In (FAlloc s f) ops -> P s.
(** heap() hands out aligned regions that do not overlap *)
Definition heap_ok (bucket_size first first_size : Z) (ops : list fb_op) : Prop :=
  region_ok first_size first /\ Forall (region_ok bucket_size) (fresh_of ops) /\
  Forall (apart first_size bucket_size first) (fresh_of ops) /\ ForallOrdPairs (apart bucket_size bucket_size) (fresh_of ops).
(** every block is aligned, and lies in one of the regions; no two overlap *)
Definition in_region (first first_size bucket_size : Z) (fresh : list Z) (p s : Z) : Prop :=
  (first <= p /\ p + s <= first + first_size) \/ exists f, In f fresh /\ f <= p /\ p + s <= f + bucket_size.
Definition blocks_ok (first first_size bucket_size : Z) (fresh : list Z) (live : list block) : Prop :=
  (forall p s a, In (p, s, a) live -> (16 | p) /\ in_region first first_size bucket_size fresh p s) /\ ForallOrdPairs disjoint live.
