From Coq Require Import ZArith List Bool Lia ZifyBool ZifyNat.
From Verif Require Import Common MemModel CommonProofs MemProofs AllocModel ArrayModel ArraySpec ArrayProofs.
Import ListNotations.
Open Scope Z_scope.

Lemma init_spec sz (Hsz : 0 < sz < 2 ^ 32) al m h c :
  byte_mem m -> 0 < h -> 0 < c -> c * sz < 2 ^ 60 ->
  (forall n, let '(m1, p) := al m n in byte_mem m1 /\
     (p = 0 \/ (0 < p /\ p + n <= 2 ^ 60 /\ (p + n <= h \/ h + 8 <= p)))) ->
  exists m', array_init_reserve al sz m h c = Ok m' /\ (ld64 m' h = 0 \/ is_array sz m' h [] c).
Proof.
  intros Hb Hh Hc Hcs Hal. unfold array_init_reserve. replace (c >? 0) with true by lia.
  assert (P : c <= c * sz) by nia.
  assert (Hw : w64 (HEADER_SIZE + sz * c) = 32 + sz * c) by (unfold w64, HEADER_SIZE; apply Z.mod_small; lia).
  rewrite Hw. pose proof (Hal (32 + sz * c)) as H. destruct (al m (32 + sz * c)) as [m1 p].
  destruct H as [Hb1 Hp]. destruct (p =? 0) eqn:E.
  - eexists. split; [reflexivity|]. left. apply ld_st64. lia.
  - destruct Hp as [?|(H1 & H2 & H3)]; [lia|]. eexists. split; [reflexivity|]. right.
    unfold is_array, hdr_cap, hdr_num, HEADER_SIZE. cbv zeta. rewrite ld_st64 by lia.
    split; [repeat apply st64_byte; auto|]. split; [lia|]. split; [lia|]. split; [lia|]. split; [lia|].
    split. { rewrite 2 ld_st64_other by lia. apply ld_st64. lia. }
    split; [lia|]. split. { rewrite ld_st64_other by lia. apply (ld_st64 _ _ 0). lia. }
    cbn. split; [lia|reflexivity].
Qed.

Lemma num_spec sz m h xs cap : is_array sz m h xs cap -> array_num m (ld64 m h) = Ok (Z.of_nat (length xs)).
Proof.
  intros HA. pose proof (view_d _ _ _ _ _ HA) as (Hd & Hcap & Hnum & _).
  unfold array_num, hdr_num. rewrite Hnum. replace (ld64 m h =? 0) with false by lia. reflexivity.
Qed.
Lemma index_spec sz m h xs cap i x : 0 < sz -> is_array sz m h xs cap -> nth_error xs i = Some x ->
  load_bytes m (ld64 m h + Z.of_nat i * sz) (Z.to_nat sz) = x.
Proof.
  intros Hs HA Hx. pose proof (view_d _ _ _ _ _ HA) as (_ & _ & _ & _ & _ & _ & _ & Hel).
  rewrite <- Hel in Hx. rewrite elements_nth in Hx. { congruence. }
  assert (H : nth_error xs i <> None) by (rewrite <- Hel; congruence). apply nth_error_Some in H. auto.
Qed.
Lemma back_spec sz m h xs cap : 0 < sz -> is_array sz m h xs cap ->
  match rev xs with
  | [] => array_back sz m (ld64 m h) = Ok 0
  | x :: _ => exists p, array_back sz m (ld64 m h) = Ok p /\ p <> 0 /\ load_bytes m p (Z.to_nat sz) = x
  end.
Proof.
  intros Hs HA. pose proof (view_d _ _ _ _ _ HA) as (Hd & Hcap & Hnum & _).
  unfold array_back, hdr_num. rewrite Hnum. replace (ld64 m h =? 0) with false by lia.
  destruct (rev xs) as [|x r] eqn:E.
  - assert (xs = []) as -> by (rewrite <- (rev_involutive xs), E; reflexivity). reflexivity.
  - assert (Exs : xs = rev r ++ [x]) by (rewrite <- (rev_involutive xs), E; reflexivity).
    assert (Hl : length xs = S (length r)). { rewrite <- rev_length, E. reflexivity. }
    replace (Z.of_nat (length xs) <=? 0) with false by lia. eexists. split; [reflexivity|]. split.
    + destruct HA as (_ & _ & H32 & _). cbv zeta in H32. nia.
    + replace (Z.of_nat (length xs) - 1) with (Z.of_nat (length r)) by lia.
      eapply index_spec; eauto. rewrite Exs, nth_error_app2 by (rewrite rev_length; lia).
      rewrite rev_length, Nat.sub_diag. reflexivity.
Qed.

(** bulk append really does this: Num grows, the new elements are whatever the block held before *)
Lemma append_items_spec sz (Hsz : 0 < sz < 2 ^ 32) al fr m h xs cap items n :
  is_array sz m h xs cap -> 0 < n -> Z.of_nat (length xs) + n <= cap -> items <> 0 ->
  8 <= Z.of_nat (length xs) * sz ->
  (h + (Z.of_nat (length xs) + n) * sz <= ld64 m h - 32 \/ ld64 m h + cap * sz <= h) ->
  exists m', array_append_items al fr sz m h items n = Ok (m', true) /\
    is_array sz m' h (elements m (ld64 m h) sz (length xs + Z.to_nat n)) cap.
Proof.
  intros HA Hn Hr Hi H8 Hdisj. pose proof (view_d _ _ _ _ _ HA) as (Hd & Hcap & Hnum & Hcp & Hcs & Hle & Hbm & Hel).
  pose proof HA as (_ & Hh & Hd32 & _). cbv zeta in Hd32.
  unfold array_append_items, hdr_num, hdr_cap. replace (ld64 m h =? 0) with false by lia.
  replace (items =? 0) with false by lia. cbn [orb]. replace (n >? 0) with true by lia. rewrite Hnum, Hcap.
  replace (Z.of_nat (length xs) + n >? cap) with false by lia.
  eexists. split; [reflexivity|].
  assert (P0 : (Z.of_nat (length xs) + n) * sz <= cap * sz) by (apply Z.mul_le_mono_nonneg_r; lia).
  assert (P : cap <= cap * sz) by nia.
  unfold mem_copy. replace (h + Z.of_nat (length xs) * sz =? 0) with false by lia.
  assert (HO : forall x, owned h (ld64 m h) cap sz x -> copy_region m (h + Z.of_nat (length xs) * sz) items (n * sz) x = m x).
  { intros x Ho. unfold copy_region. destruct (_ && _) eqn:E; [|auto]. unfold owned in Ho. lia. }
  apply (set_num_view sz Hsz m h xs cap HA (Z.of_nat (length xs) + n)).
  - intros x Ho H1 H2. rewrite st64_out by lia. apply HO; auto.
  - apply st64_byte. intros x. unfold copy_region. destruct (_ && _); apply Hbm.
  - unfold w64. rewrite Z.mod_small by lia. apply ld_st64. lia.
  - rewrite elements_len. lia.
  - lia.
  - rewrite elements_len. apply elements_ext; [lia|]. intros i Hi'. rewrite st64_out by lia. apply HO. unfold owned. lia.
Qed.

(** insert-at really does this: the element at the slot is duplicated; [item] is never stored *)
Lemma append_at_spec sz (Hsz : 0 < sz < 2 ^ 32) al fr m h xs cap item idx :
  is_array sz m h xs cap -> alloc_respects sz m h al -> free_respects sz m h fr ->
  (cap + 1) * sz < 2 ^ 61 -> 0 <= idx -> xs <> [] ->
  let slot := Nat.min (Z.to_nat idx) (length xs - 1) in
  exists m' r cap', array_append_at al fr sz m h item idx = Ok (m', r) /\
    is_array sz m' h (if r then firstn (slot + 1) xs ++ skipn slot xs else xs) cap'.
Proof.
  intros HA Hal Hfr Hc Hi Hx slot. pose proof (view_d _ _ _ _ _ HA) as (Hd & Hcap & Hnum & Hcp & Hcs & Hle & Hbm & Hel).
  assert (Hl : (0 < length xs)%nat) by (destruct xs; [congruence|cbn; lia]).
  unfold array_append_at, hdr_num, hdr_cap. replace (ld64 m h =? 0) with false by lia. rewrite Hnum, Hcap.
  set (s1 := if idx >=? Z.of_nat (length xs) then Z.of_nat (length xs) - 1 else idx).
  assert (Es : (if s1 <? 0 then 0 else s1) = Z.of_nat slot).
  { unfold s1, slot. destruct (idx >=? Z.of_nat (length xs)) eqn:E; destruct (_ <? 0) eqn:E2; lia. }
  rewrite Es. clear Es s1.
  assert (FIN : forall m1 cap1, is_array sz m1 h xs cap1 -> Z.of_nat (length xs) < cap1 ->
     exists m', match mem_move m1 (ld64 m1 h + Z.of_nat slot * sz + sz) (ld64 m1 h + Z.of_nat slot * sz)
                 ((ld64 m1 (ld64 m1 h - 8) - Z.of_nat slot) * sz) with
     | None => AssertFail | Some m2 => Ok (st64 m2 (ld64 m1 h - 8) (w64 (ld64 m1 (ld64 m1 h - 8) + 1)), true) end = Ok (m', true) /\
     is_array sz m' h (firstn (slot + 1) xs ++ skipn slot xs) cap1).
  { intros m1 cap1 V1 Hr. pose proof (view_d _ _ _ _ _ V1) as (Hd1 & Hcap1 & Hnum1 & Hcp1 & Hcs1 & Hle1 & Hbm1 & Hel1).
    pose proof V1 as (_ & _ & H32 & _). cbv zeta in H32.
    rewrite Hnum1. set (d := ld64 m1 h) in *.
    assert (P0 : 0 <= Z.of_nat slot * sz) by nia.
    assert (P1 : Z.of_nat slot * sz + sz <= Z.of_nat (length xs) * sz) by (unfold slot; nia).
    assert (P2 : Z.of_nat (length xs) * sz + sz <= cap1 * sz) by nia.
    assert (P3 : cap1 <= cap1 * sz) by nia.
    destruct (mem_move_correct m1 (d + Z.of_nat slot * sz + sz) (d + Z.of_nat slot * sz) ((Z.of_nat (length xs) - Z.of_nat slot) * sz) Hbm1) as (m2 & -> & Hm2); [unfold slot; nia|lia|].
    eexists. split; [reflexivity|].
    assert (Hlen : length (firstn (slot + 1) xs ++ skipn slot xs) = (length xs + 1)%nat).
    { rewrite app_length, firstn_length, skipn_length. unfold slot. lia. }
    apply (set_num_view sz Hsz m1 h xs cap1 V1 (Z.of_nat (length xs) + 1)); fold d; rewrite ?Hlen.
    - intros x Ho H1 H2. rewrite st64_out by lia. rewrite Hm2. destruct (_ && _) eqn:E; [lia|auto].
    - apply st64_byte. intros x. rewrite Hm2. destruct (_ && _); apply Hbm1.
    - unfold w64. rewrite Z.mod_small by lia. apply ld_st64. lia.
    - lia.
    - lia.
    - replace (length xs + 1)%nat with ((slot + 1) + (length xs - slot))%nat by (unfold slot; lia).
      rewrite elements_app. f_equal.
      + rewrite <- (firstn_elements sz m1 h xs cap1 V1) by (unfold slot; lia). fold d.
        apply elements_ext; [lia|]. intros i Hi'. rewrite st64_out by lia. rewrite Hm2.
        destruct (_ && _) eqn:E; [nia|auto].
      + rewrite <- (skipn_elements sz m1 h xs cap1 V1) by (unfold slot; lia). fold d.
        apply elements_ext; [lia|]. intros i Hi'.
        assert (i < (Z.of_nat (length xs) - Z.of_nat slot) * sz) by (replace (Z.of_nat (length xs) - Z.of_nat slot) with (Z.of_nat (length xs - slot)) by (unfold slot; lia); lia).
        rewrite st64_out by lia. rewrite Hm2. zb. f_equal. lia. }
  destruct (cap <? Z.of_nat (length xs) + 1) eqn:E.
  - destruct (grow_spec sz Hsz al fr m h xs cap HA Hal Hfr (cap + 1)) as (m1 & r & -> & cap' & V & Hr); [lia|lia|lia|].
    cbn [bind]. destruct r.
    + destruct (Hr eq_refl). destruct (FIN m1 cap' V) as (m' & -> & V'); [lia|]. exists m', true, cap'. auto.
    + exists m1, false, cap'. auto.
  - destruct (FIN m cap HA) as (m' & E' & V'); [lia|].  rewrite Hnum in E'. exists m', true, cap. auto.
Qed.

(** ** concrete arrays *)
Definition zmem : mem := fun _ => 0.
Definition al1000 : mem -> Z -> mem * Z := fun m _ => (m, 1000).
Definition fr0 : mem -> Z -> mem := fun m _ => m.

Lemma ex_init : exists m', array_init_reserve al1000 4 zmem 100 2 = Ok m' /\ is_array 4 m' 100 [] 2.
Proof.
  destruct (init_spec 4 ltac:(lia) (fun m n => if n <=? 10000 then (m, 1000) else (m, 0)) zmem 100 2) as (m' & E & [H|H]).
  - intros x; unfold zmem; lia.
  - lia.
  - lia.
  - lia.
  - intros n. destruct (n <=? 10000) eqn:E; (split; [intros x; unfold zmem; lia|]); lia.
  - injection E as <-. vm_compute in H. discriminate.
  - exists m'. split; auto.
Qed.

Definition alT : mem -> Z -> mem * Z := fun m n => if n <=? 10000 then (m, 3000) else (m, 0).
Definition al_null : mem -> Z -> mem * Z := fun m _ => (m, 0).
(** a history: two appends fit, the third fails for lack of memory, then one removal *)
Lemma ex_history : exists m m', is_array 4 m 100 [] 2 /\
  alloc_respects 4 m 100 alT /\ free_respects 4 m 100 fr0 /\
  history 4 100 m [(AAppend [1;2;3;4], true); (AAppend [5;6;7;8], true); (AAppend [9;9;9;9], false); (ARemoveAt 0, true)] m'.
Proof.
  destruct ex_init as (m0 & E0 & V0). exists m0.
  assert (D0 : ld64 m0 100 = 1032). { injection E0 as <-. vm_compute. reflexivity. }
  assert (RF : forall m, free_respects 4 m 100 fr0). { intros m mm Hb. split; auto. }
  assert (RN : forall m, byte_mem m -> alloc_respects 4 m 100 al_null). { intros m Hb n. split; auto. }
  assert (W4 : forall a b c d, 0 <= a < 256 -> 0 <= b < 256 -> 0 <= c < 256 -> 0 <= d < 256 -> op_wf 4 (AAppend [a;b;c;d])).
  { intros. cbn. split; auto. split; auto. }
  assert (B : forall xs cap m, is_array 4 m 100 xs cap -> byte_mem m) by (intros ? ? ? (H & _); exact H).
  injection E0 as E0. symmetry in E0.
  set (m1 := match arr_step al_null fr0 4 m0 100 (AAppend [1;2;3;4]) with Ok (m, _) => m | _ => m0 end).
  assert (S1 : arr_step al_null fr0 4 m0 100 (AAppend [1;2;3;4]) = Ok (m1, true)).
  { unfold m1. clear -E0. assert (H : match arr_step al_null fr0 4 m0 100 (AAppend [1;2;3;4]) with Ok (m, b) => b = true | _ => False end).
    { subst m0. vm_compute. reflexivity. } destruct (arr_step _ _ _ _ _ _) as [[? ?]| |]; [subst; auto|easy..]. }
  set (m2 := match arr_step al_null fr0 4 m1 100 (AAppend [5;6;7;8]) with Ok (m, _) => m | _ => m0 end).
  assert (S2 : arr_step al_null fr0 4 m1 100 (AAppend [5;6;7;8]) = Ok (m2, true)).
  { unfold m2. assert (H : match arr_step al_null fr0 4 m1 100 (AAppend [5;6;7;8]) with Ok (m, b) => b = true | _ => False end).
    { subst m1 m0. vm_compute. reflexivity. } destruct (arr_step _ _ _ m1 _ _) as [[? ?]| |]; [subst; auto|easy..]. }
  set (m3 := match arr_step al_null fr0 4 m2 100 (AAppend [9;9;9;9]) with Ok (m, _) => m | _ => m0 end).
  assert (S3 : arr_step al_null fr0 4 m2 100 (AAppend [9;9;9;9]) = Ok (m3, false)).
  { unfold m3. assert (H : match arr_step al_null fr0 4 m2 100 (AAppend [9;9;9;9]) with Ok (m, b) => b = false | _ => False end).
    { subst m2 m1 m0. vm_compute. reflexivity. } destruct (arr_step _ _ _ m2 _ _) as [[? ?]| |]; [subst; auto|easy..]. }
  set (m4 := match arr_step al_null fr0 4 m3 100 (ARemoveAt 0) with Ok (m, _) => m | _ => m0 end).
  assert (S4 : arr_step al_null fr0 4 m3 100 (ARemoveAt 0) = Ok (m4, true)).
  { unfold m4. assert (H : match arr_step al_null fr0 4 m3 100 (ARemoveAt 0) with Ok (m, b) => b = true | _ => False end).
    { subst m3 m2 m1 m0. vm_compute. reflexivity. } destruct (arr_step _ _ _ m3 _ _) as [[? ?]| |]; [subst; auto|easy..]. }
  clearbody m1 m2 m3 m4.
  assert (NX : forall m o m' r xs cap, is_array 4 m 100 xs cap -> op_wf 4 o -> arr_step al_null fr0 4 m 100 o = Ok (m', r) ->
     exists xs' cap', is_array 4 m' 100 xs' cap').
  { intros m o m' r xs cap V Hw E. destruct (step_spec 4 ltac:(lia) m 100 xs cap al_null fr0 o V (RN _ (B _ _ _ V)) (RF _) Hw) as [(_ & m'' & r' & xs1 & c1 & E1 & _ & V1)|[_ E1]]; [|congruence].
    rewrite E in E1. injection E1 as -> ->. eauto. }
  destruct (NX _ _ _ _ _ _ V0 (W4 1 2 3 4 ltac:(lia) ltac:(lia) ltac:(lia) ltac:(lia)) S1) as (x1 & c1 & V1).
  destruct (NX _ _ _ _ _ _ V1 (W4 5 6 7 8 ltac:(lia) ltac:(lia) ltac:(lia) ltac:(lia)) S2) as (x2 & c2 & V2).
  destruct (NX _ _ _ _ _ _ V2 (W4 9 9 9 9 ltac:(lia) ltac:(lia) ltac:(lia) ltac:(lia)) S3) as (x3 & c3 & V3).
  exists m4. split; [auto|]. split.
  { pose proof (view_d _ _ _ _ _ V0) as (_ & Hcap & _). unfold alloc_respects. rewrite Hcap. cbv zeta. rewrite D0.
    intros n. unfold alT. destruct (n <=? 10000) eqn:E; (split; [eapply B; eauto|]); (split; [auto|]); lia. }
  split; [auto|].
  eapply H_op; [apply W4; lia|apply RN; eapply B; eauto|apply RF|exact S1|].
  eapply H_op; [apply W4; lia|apply RN; eapply B; eauto|apply RF|exact S2|].
  eapply H_op; [apply W4; lia|apply RN; eapply B; eauto|apply RF|exact S3|].
  eapply H_op; [cbn; split; [auto|lia]|apply RN; eapply B; eauto|apply RF|exact S4|].
  constructor.
Qed.

(** set_capacity(0) on an empty array, then append: a failed assertion *)
Lemma set_capacity_zero : exists m m', is_array 4 m 100 [] 2 /\ alloc_respects 4 m 100 alT /\
  arr_step alT fr0 4 m 100 (ASetCapacity 0) = Ok (m', true) /\
  forall al v, arr_step al fr0 4 m' 100 (AAppend v) = AssertFail.
Proof.
  destruct ex_init as (m0 & E0 & V0). exists m0.
  assert (D0 : ld64 m0 100 = 1032). { injection E0 as <-. vm_compute. reflexivity. }
  injection E0 as E0. symmetry in E0.
  set (m1 := match arr_step alT fr0 4 m0 100 (ASetCapacity 0) with Ok (m, _) => m | _ => m0 end).
  assert (S1 : arr_step alT fr0 4 m0 100 (ASetCapacity 0) = Ok (m1, true)).
  { unfold m1. clear -E0. assert (H : match arr_step alT fr0 4 m0 100 (ASetCapacity 0) with Ok (m, b) => b = true | _ => False end).
    { subst m0. vm_compute. reflexivity. } destruct (arr_step _ _ _ _ _ _) as [[? ?]| |]; [subst; auto|easy..]. }
  exists m1. split; [auto|]. split.
  { pose proof (view_d _ _ _ _ _ V0) as (_ & Hcap & _). unfold alloc_respects. rewrite Hcap. cbv zeta. rewrite D0.
    destruct V0 as (Hb & _).
    intros n. unfold alT. destruct (n <=? 10000) eqn:E; (split; [auto|]); (split; [auto|]); lia. }
  split; [auto|]. intros al v. cbn [arr_step]. unfold array_append, array_grow, hdr_cap, hdr_num.
  assert (A1 : ld64 m1 100 = 3032) by (subst m1 m0; vm_compute; reflexivity).
  assert (A2 : ld64 m1 (3032 - 16) = 0) by (subst m1 m0; vm_compute; reflexivity).
  assert (A3 : ld64 m1 (3032 - 8) = 0) by (subst m1 m0; vm_compute; reflexivity).
  rewrite A1, A2, A3. reflexivity.
Qed.

(** C09 witness: appending one item to an empty array overwrites the array variable itself *)
Lemma append_items_clobbers : exists m m', is_array 4 m 100 [] 2 /\
  load_bytes m 500 8 = repeat 7 8 /\
  array_append_items al1000 fr0 4 m 100 500 2 = Ok (m', true) /\
  ld64 m' 100 = 0x0707070707070707.
Proof.
  destruct ex_init as (m0 & E0 & V0).
  injection E0 as E0. symmetry in E0.
  exists (store_bytes m0 500 (repeat 7 8)).
  set (m0' := store_bytes m0 500 (repeat 7 8)).
  set (m1 := match array_append_items al1000 fr0 4 m0' 100 500 2 with Ok (m, _) => m | _ => m0 end).
  exists m1. split; [|split; [|split]].
  - apply (env_view 4 ltac:(lia) m0); auto.
    + apply store_bytes_byte; [repeat constructor; lia|]. apply V0.
    + assert (D0 : ld64 m0 100 = 1032) by (subst m0; vm_compute; reflexivity).
      assert (D1 : ld64 m0 (1032 - 16) = 2) by (subst m0; vm_compute; reflexivity).
      rewrite D0, D1. intros x Ho. unfold owned in Ho. unfold m0'. rewrite store_bytes_spec by (repeat constructor; lia).
      destruct (_ && _) eqn:E; [cbn in E; lia|auto].
  - apply (load_store_bytes (repeat 7 8)). repeat constructor; lia.
  - unfold m1. assert (H : match array_append_items al1000 fr0 4 m0' 100 500 2 with Ok (m, b) => b = true | _ => False end).
    { subst m0' m0. vm_compute. reflexivity. } destruct (array_append_items _ _ _ _ _ _ _) as [[? ?]| |]; [subst; auto|easy..].
  - subst m1 m0' m0. vm_compute. reflexivity.
Qed.

(** resize(2^62) on 4-byte elements: the byte count wraps, a 32-byte block is requested and accepted *)
Definition al32 : mem -> Z -> mem * Z := fun m n => if n <=? 32 then (m, 3000) else (m, 0).
Lemma resize_wraps : exists m m', is_array 4 m 100 [] 2 /\ alloc_respects 4 m 100 al32 /\
  arr_step al32 fr0 4 m 100 (AResize (2 ^ 62)) = Ok (m', true) /\
  ld64 m' (ld64 m' 100 - 8) = 2 ^ 62.
Proof.
  destruct ex_init as (m0 & E0 & V0). exists m0.
  assert (D0 : ld64 m0 100 = 1032). { injection E0 as <-. vm_compute. reflexivity. }
  injection E0 as E0. symmetry in E0.
  set (m1 := match arr_step al32 fr0 4 m0 100 (AResize (2 ^ 62)) with Ok (m, _) => m | _ => m0 end).
  exists m1. split; [auto|]. split.
  { pose proof (view_d _ _ _ _ _ V0) as (_ & Hcap & _). unfold alloc_respects. rewrite Hcap. cbv zeta. rewrite D0.
    destruct V0 as (Hb & _).
    intros n. unfold al32. destruct (n <=? 32) eqn:E; (split; [auto|]); (split; [auto|]); lia. }
  split.
  - unfold m1. clear -E0. assert (H : match arr_step al32 fr0 4 m0 100 (AResize (2 ^ 62)) with Ok (m, b) => b = true | _ => False end).
    { subst m0. vm_compute. reflexivity. } destruct (arr_step _ _ _ _ _ _) as [[? ?]| |]; [subst; auto|easy..].
  - subst m1 m0. vm_compute. reflexivity.
Qed.
Lemma append_at_witness : exists m m' item, is_array 4 m 100 [[1;2;3;4]] 2 /\
  array_append_at al_null fr0 4 m 100 item 0 = Ok (m', true) /\ item <> [1;2;3;4] /\
  elements m' (ld64 m' 100) 4 2 = [[1;2;3;4]; [1;2;3;4]].
Proof.
  destruct ex_init as (m0 & E0 & V0).
  injection E0 as E0. symmetry in E0.
  pose proof (append_room 4 ltac:(lia) m0 100 [] 2 V0 [1;2;3;4] ltac:(cbn; lia) eq_refl ltac:(repeat constructor; lia)) as V1.
  match type of V1 with is_array _ ?mm _ _ _ => set (m1 := mm) in * end.
  set (m2 := match array_append_at al_null fr0 4 m1 100 [9;9;9;9] 0 with Ok (m, _) => m | _ => m0 end).
  exists m1, m2, [9;9;9;9]. split; [exact V1|]. split.
  - unfold m2. assert (H : match array_append_at al_null fr0 4 m1 100 [9;9;9;9] 0 with Ok (m, b) => b = true | _ => False end).
    { subst m1 m0. vm_compute. reflexivity. } destruct (array_append_at _ _ _ _ _ _ _) as [[? ?]| |]; [subst; auto|easy..].
  - split; [discriminate|]. subst m2 m1 m0. vm_compute. reflexivity.
Qed.
