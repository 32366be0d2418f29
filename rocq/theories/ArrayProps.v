(** Property theorems C08, C09, C10 (dynamic array). *)
From Coq Require Import ZArith List Bool.
From Verif Require Import Common AllocModel ArrayModel ArraySpec ArrayProofs ArrayPropProofs.
Import ListNotations.
Open Scope Z_scope.

(** *** C08: an array variable behaves as a sequence under every history of operations, allocator
    answers (including failures and relocations) and foreign writes elsewhere. *)
Theorem c08_array_history_partial : forall sz, 0 < sz < 2 ^ 32 -> forall h m tr m' xs cap,
  is_array sz m h xs cap -> history sz h m tr m' ->
  exists xs' cap', is_array sz m' h xs' cap' /\ Z.of_nat (length xs') <= cap' /\ seq_history xs tr xs'.
Proof.
  intros sz Hsz h m tr m' xs cap HA HH. destruct (history_spec sz Hsz h m tr m' HH xs cap HA) as (xs' & cap' & V & S).
  exists xs', cap'. split; [exact V|]. split; [|exact S]. apply (view_d _ _ _ _ _ V).
Qed.
Print Assumptions c08_array_history_partial.

(** each operation runs to completion exactly when its asserted precondition holds *)
Theorem c08_array_step_partial : forall sz, 0 < sz < 2 ^ 32 -> forall m h xs cap al fr o,
  is_array sz m h xs cap -> alloc_respects sz m h al -> free_respects sz m h fr -> op_wf sz o ->
  (op_pre o xs /\ exists m' r xs' cap', arr_step al fr sz m h o = Ok (m', r) /\
     op_effect o xs r xs' /\ is_array sz m' h xs' cap') \/
  (~ op_pre o xs /\ arr_step al fr sz m h o = AssertFail).
Proof. exact step_spec. Qed.
Print Assumptions c08_array_step_partial.

(** init gives the empty sequence (or a null array if the allocator fails) *)
Theorem c08_array_init : forall sz, 0 < sz < 2 ^ 32 -> forall al m h c,
  byte_mem m -> 0 < h -> 0 < c -> c * sz < 2 ^ 60 ->
  (forall n, let '(m1, p) := al m n in byte_mem m1 /\
     (p = 0 \/ (0 < p /\ p + n <= 2 ^ 60 /\ (p + n <= h \/ h + 8 <= p)))) ->
  exists m', array_init_reserve al sz m h c = Ok m' /\ (ld64 m' h = 0 \/ is_array sz m' h [] c).
Proof. exact init_spec. Qed.
Print Assumptions c08_array_init.

(** observations: num, indexing, back *)
Theorem c08_array_num : forall sz m h xs cap, is_array sz m h xs cap ->
  array_num m (ld64 m h) = Ok (Z.of_nat (length xs)).
Proof. exact num_spec. Qed.
Print Assumptions c08_array_num.
Theorem c08_array_index : forall sz m h xs cap i x, 0 < sz -> is_array sz m h xs cap -> nth_error xs i = Some x ->
  load_bytes m (ld64 m h + Z.of_nat i * sz) (Z.to_nat sz) = x.
Proof. exact index_spec. Qed.
Print Assumptions c08_array_index.
Theorem c08_array_back : forall sz m h xs cap, 0 < sz -> is_array sz m h xs cap ->
  match rev xs with
  | [] => array_back sz m (ld64 m h) = Ok 0
  | x :: _ => exists p, array_back sz m (ld64 m h) = Ok p /\ p <> 0 /\ load_bytes m p (Z.to_nat sz) = x
  end.
Proof. exact back_spec. Qed.
Print Assumptions c08_array_back.

Example c08_hypotheses_met : exists m m', is_array 4 m 100 [] 2 /\
  alloc_respects 4 m 100 alT /\ free_respects 4 m 100 fr0 /\
  history 4 100 m [(AAppend [1;2;3;4], true); (AAppend [5;6;7;8], true); (AAppend [9;9;9;9], false); (ARemoveAt 0, true)] m'.
Proof. exact ex_history. Qed.

(** set_capacity(0) on an empty array succeeds and leaves an array to which nothing can be appended *)
Theorem c08_set_capacity_zero_refuted : exists m m', is_array 4 m 100 [] 2 /\ alloc_respects 4 m 100 alT /\
  arr_step alT fr0 4 m 100 (ASetCapacity 0) = Ok (m', true) /\
  forall al v, arr_step al fr0 4 m' 100 (AAppend v) = AssertFail.
Proof. exact set_capacity_zero. Qed.
Print Assumptions c08_set_capacity_zero_refuted.

(** resize to a count whose byte size overflows: succeeds although only 32 bytes were allocated *)
Theorem c08_resize_size_wraps_refuted : exists m m', is_array 4 m 100 [] 2 /\ alloc_respects 4 m 100 al32 /\
  arr_step al32 fr0 4 m 100 (AResize (2 ^ 62)) = Ok (m', true) /\ ld64 m' (ld64 m' 100 - 8) = 2 ^ 62.
Proof. exact resize_wraps. Qed.
Print Assumptions c08_resize_size_wraps_refuted.

(** *** C09: violated. The items are copied over the memory at the address of the array variable. *)
Theorem c09_append_items_refuted : exists m m', is_array 4 m 100 [] 2 /\
  load_bytes m 500 8 = repeat 7 8 /\
  array_append_items al1000 fr0 4 m 100 500 2 = Ok (m', true) /\
  ld64 m' 100 = 0x0707070707070707.            (* the Data pointer itself is now item bytes *)
Proof. exact append_items_clobbers. Qed.
Print Assumptions c09_append_items_refuted.

(** For every array with room whose variable is not next to its block, the appended elements are the
    stale bytes of the block, whatever the items were. *)
Theorem c09_append_items_stale : forall sz, 0 < sz < 2 ^ 32 -> forall al fr m h xs cap items n,
  is_array sz m h xs cap -> 0 < n -> Z.of_nat (length xs) + n <= cap -> items <> 0 ->
  8 <= Z.of_nat (length xs) * sz ->
  (h + (Z.of_nat (length xs) + n) * sz <= ld64 m h - 32 \/ ld64 m h + cap * sz <= h) ->
  exists m', array_append_items al fr sz m h items n = Ok (m', true) /\
    is_array sz m' h (elements m (ld64 m h) sz (length xs + Z.to_nat n)) cap.
Proof. exact append_items_spec. Qed.
Print Assumptions c09_append_items_stale.

(** *** C10: violated. The item is never stored; the element at the slot is duplicated. *)
Theorem c10_append_at_refuted : exists m m' item, is_array 4 m 100 [[1;2;3;4]] 2 /\
  array_append_at al_null fr0 4 m 100 item 0 = Ok (m', true) /\ item <> [1;2;3;4] /\
  elements m' (ld64 m' 100) 4 2 = [[1;2;3;4]; [1;2;3;4]].
Proof. exact append_at_witness. Qed.
Print Assumptions c10_append_at_refuted.

Theorem c10_append_at_duplicates : forall sz, 0 < sz < 2 ^ 32 -> forall al fr m h xs cap item idx,
  is_array sz m h xs cap -> alloc_respects sz m h al -> free_respects sz m h fr ->
  (cap + 1) * sz < 2 ^ 61 -> 0 <= idx -> xs <> [] ->
  let slot := Nat.min (Z.to_nat idx) (length xs - 1) in
  exists m' r cap', array_append_at al fr sz m h item idx = Ok (m', r) /\
    is_array sz m' h (if r then firstn (slot + 1) xs ++ skipn slot xs else xs) cap'.
Proof. exact append_at_spec. Qed.
Print Assumptions c10_append_at_duplicates.
