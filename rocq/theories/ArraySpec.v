(** What "the array variable at h holds the sequence xs" means, what each operation does to a
    mathematical sequence, and what is required of the allocator. *)
From Coq Require Import ZArith List Bool.
From Verif Require Import Common AllocModel ArrayModel.
Import ListNotations.
Open Scope Z_scope.

(** the [n] elements of [sz] bytes stored from address [d] *)
Definition elements (m : mem) (d sz : Z) (n : nat) : list (list Z) :=
  map (fun i => load_bytes m (d + Z.of_nat i * sz) (Z.to_nat sz)) (seq 0 n).

(** bytes that belong to the array variable at [h] whose Data is [d]: the variable and its block *)
Definition owned (h d cap sz x : Z) : Prop := h <= x < h + 8 \/ d - 32 <= x < d + cap * sz.

(** The variable at [h] is an array of [sz]-byte elements with contents [xs] and capacity [cap].
    All addresses lie below 2^60 (real address spaces are smaller still). *)
Definition is_array (sz : Z) (m : mem) (h : Z) (xs : list (list Z)) (cap : Z) : Prop :=
  let d := ld64 m h in
  byte_mem m /\ 0 < h /\
  32 < d /\ d + cap * sz <= 2 ^ 60 /\ (h + 8 <= d - 32 \/ d + cap * sz <= h) /\
  ld64 m (d - 16) = cap /\ 0 < cap /\
  ld64 m (d - 8) = Z.of_nat (length xs) /\ Z.of_nat (length xs) <= cap /\
  elements m d sz (length xs) = xs.

(** allocator contract at the state ([m],[h]): it returns nullptr, or a block below 2^60 apart from
    everything the array owns, and it does not touch what the array owns *)
Definition alloc_respects (sz : Z) (m : mem) (h : Z) (al : mem -> Z -> mem * Z) : Prop :=
  let d := ld64 m h in let cap := ld64 m (d - 16) in
  forall n, let '(m1, p) := al m n in
    byte_mem m1 /\ (forall x, owned h d cap sz x -> m1 x = m x) /\
    (p = 0 \/ (0 < p /\ p + n <= 2 ^ 60 /\ (p + n <= h \/ h + 8 <= p) /\ (p + n <= d - 32 \/ d + cap * sz <= p))).
(** freeing the array's block changes nothing outside that block *)
Definition free_respects (sz : Z) (m : mem) (h : Z) (fr : mem -> Z -> mem) : Prop :=
  let d := ld64 m h in let cap := ld64 m (d - 16) in
  forall mm, byte_mem mm -> byte_mem (fr mm (d - 32)) /\
    forall x, ~ (d - 32 <= x < d + cap * sz) -> fr mm (d - 32) x = mm x.

(** arguments: Type values have sz bytes; requested counts are addressable *)
Definition op_wf (sz : Z) (o : arr_op) : Prop :=
  match o with
  | AAppend v | AFill _ _ v => Z.of_nat (length v) = sz /\ Forall (fun b => 0 <= b < 256) v
  | AResize n => 0 <= n /\ n * sz < 2 ^ 60
  | ASetCapacity n => 0 < n /\ n * sz < 2 ^ 60
  | _ => True
  end /\
  match o with ARemoveAt i => 0 <= i | AFill b e _ => 0 <= b /\ 0 <= e | _ => True end.

(** documented (asserted) precondition of each operation, on the sequence *)
Definition op_pre (o : arr_op) (xs : list (list Z)) : Prop :=
  match o with
  | APop => xs <> []
  | ARemoveAt i => i < Z.of_nat (length xs)
  | AFill b e _ => b <= e
  | _ => True
  end.

(** effect on a mathematical sequence; [r] is the returned bool *)
Definition op_effect (o : arr_op) (xs : list (list Z)) (r : bool) (xs' : list (list Z)) : Prop :=
  match o with
  | AAppend v => xs' = if r then xs ++ [v] else xs
  | APop => r = true /\ xs' = removelast xs
  | AClear => r = true /\ xs' = []
  | ARemoveAt i => r = true /\ xs' = firstn (Z.to_nat i) xs ++ skipn (Z.to_nat i + 1) xs
  | AFill b e v =>
      if e <=? Z.of_nat (length xs) then
        r = true /\ xs' = firstn (Z.to_nat b) xs ++ repeat v (Z.to_nat (e - b)) ++ skipn (Z.to_nat e) xs
      else r = false /\ xs' = xs
  | AResize n =>
      if r then length xs' = Z.to_nat n /\
                firstn (length xs) xs' = firstn (Z.to_nat n) xs      (* new elements are unspecified *)
      else xs' = xs
  | ASetCapacity n => xs' = if r then firstn (Z.to_nat n) xs else xs
  end.

(** Histories: steps by the client on this array, each with whatever allocator answers respect the
    contract, interleaved with arbitrary writes by others to bytes the array does not own. *)
Inductive history (sz h : Z) : mem -> list (arr_op * bool) -> mem -> Prop :=
| H_nil m : history sz h m [] m
| H_env m m1 tr m2 :
    byte_mem m1 ->
    (forall x, owned h (ld64 m h) (ld64 m (ld64 m h - 16)) sz x -> m1 x = m x) ->
    history sz h m1 tr m2 -> history sz h m tr m2
| H_op m o al fr m1 r tr m2 :
    op_wf sz o -> alloc_respects sz m h al -> free_respects sz m h fr ->
    arr_step al fr sz m h o = Ok (m1, r) ->
    history sz h m1 tr m2 -> history sz h m ((o, r) :: tr) m2.

(** the same history on a mathematical sequence *)
Inductive seq_history : list (list Z) -> list (arr_op * bool) -> list (list Z) -> Prop :=
| SH_nil xs : seq_history xs [] xs
| SH_op xs o r xs1 tr xs2 : op_pre o xs -> op_effect o xs r xs1 -> seq_history xs1 tr xs2 ->
    seq_history xs ((o, r) :: tr) xs2.
