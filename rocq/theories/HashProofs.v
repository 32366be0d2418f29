From Coq Require Import ZArith List Bool Lia ZifyBool.
From Verif Require Import CommonProofs HashModel HashSpec.
Import ListNotations.
Open Scope Z_scope.

Lemma iter_succ_r {A} (f : A -> A) n : forall x, Nat.iter (S n) f x = Nat.iter n f (f x).
Proof. induction n as [|n IH]; intros x; [reflexivity|]. change (Nat.iter (S (S n)) f x) with (f (Nat.iter (S n) f x)). rewrite IH. reflexivity. Qed.

Section Poly.
Variable poly : Z.
Definition s0 (r : Z) : Z := lfsr poly r false.
Definition s8 (r : Z) : Z := s0 (s0 (s0 (s0 (s0 (s0 (s0 (s0 r))))))).

Lemma s0_xor a b : s0 (Z.lxor a b) = Z.lxor (s0 a) (s0 b).
Proof.
  unfold s0, lfsr. rewrite !xorb_false_r, Z.lxor_spec, Z.shiftr_lxor.
  destruct (Z.testbit a 0), (Z.testbit b 0); cbn [xorb];
  apply Z.bits_inj; intros i; rewrite ?Z.lxor_spec;
  destruct (Z.testbit (Z.shiftr a 1) i), (Z.testbit (Z.shiftr b 1) i), (Z.testbit poly i); reflexivity.
Qed.
Lemma s0_even a : s0 (2 * a) = a.
Proof.
  unfold s0, lfsr. rewrite Z.testbit_even_0. cbn [xorb]. rewrite Z.shiftr_div_pow2 by lia.
  change (2 ^ 1) with 2. rewrite Z.mul_comm, Z.div_mul; lia.
Qed.
Lemma s8_xor a b : s8 (Z.lxor a b) = Z.lxor (s8 a) (s8 b).
Proof. unfold s8. rewrite !s0_xor. reflexivity. Qed.
Lemma s8_shift a : s8 (256 * a) = a.
Proof.
  unfold s8. replace (256 * a) with (2 * (2 * (2 * (2 * (2 * (2 * (2 * (2 * a)))))))) by lia. rewrite !s0_even. reflexivity.
Qed.
Lemma split8 r : r = Z.lxor (256 * Z.shiftr r 8) (Z.land r 255).
Proof.
  apply Z.bits_inj. intros i. rewrite Z.lxor_spec. change 256 with (2 ^ 8). rewrite Z.mul_comm, <- Z.shiftl_mul_pow2 by lia.
  destruct (Z.ltb_spec i 0) as [Hi|Hi].
  - rewrite !Z.testbit_neg_r by lia. reflexivity.
  - rewrite Z.shiftl_spec by lia. rewrite Z.land_spec. change 255 with (Z.ones 8).
    destruct (Z.ltb_spec i 8).
    + rewrite (Z.testbit_neg_r _ (i - 8)) by lia. rewrite Z.ones_spec_low by lia. rewrite andb_true_r, xorb_false_l. auto.
    + rewrite Z.shiftr_spec by lia. rewrite Z.ones_spec_high by lia. rewrite andb_false_r, xorb_false_r. f_equal. lia.
Qed.
(** feeding a bit equals xoring it into bit 0 first *)
Lemma lfsr_bit r (b : bool) : lfsr poly r b = s0 (Z.lxor r (Z.b2z b)).
Proof.
  unfold s0, lfsr. rewrite Z.lxor_spec, xorb_false_r.
  replace (Z.testbit (Z.b2z b) 0) with b by (destruct b; reflexivity).
  replace (Z.shiftr (Z.lxor r (Z.b2z b)) 1) with (Z.shiftr r 1); auto.
  rewrite Z.shiftr_lxor. replace (Z.shiftr (Z.b2z b) 1) with 0 by (destruct b; reflexivity). rewrite Z.lxor_0_r. auto.
Qed.
Lemma s0_double_bit r m : s0 (Z.lxor r m) = Z.lxor (s0 (Z.lxor r (Z.b2z (Z.testbit m 0)))) (Z.shiftr m 1).
Proof.
  assert (E : m = Z.lxor (Z.b2z (Z.testbit m 0)) (2 * Z.shiftr m 1)).
  { apply Z.bits_inj. intros i. rewrite Z.lxor_spec. destruct (Z.ltb_spec i 0) as [Hi|Hi]; [rewrite !Z.testbit_neg_r by lia; auto|].
    destruct (Z.eq_dec i 0) as [->|Hn].
    - rewrite Z.testbit_even_0, xorb_false_r. destruct (Z.testbit m 0); reflexivity.
    - replace i with (Z.succ (i - 1)) by lia. rewrite Z.double_bits_succ by lia.
      rewrite Z.shiftr_spec by lia. replace (Z.testbit (Z.b2z _) (Z.succ (i - 1))) with false.
      + rewrite xorb_false_l. f_equal; lia.
      + destruct (Z.testbit m 0); cbn [Z.b2z]; [rewrite Z.bits_above_log2; cbn; auto; lia|rewrite Z.bits_0; auto]. }
  rewrite E at 1. rewrite <- Z.lxor_assoc, s0_xor, s0_even. reflexivity.
Qed.
Lemma s0_fold k : forall m r, fold_left (lfsr poly) (map (fun i => Z.testbit m (Z.of_nat i)) (seq 0 k)) r =
  Z.lxor (Nat.iter k s0 (Z.lxor r m)) (Z.shiftr m (Z.of_nat k)).
Proof.
  induction k as [|k IH]; intros m r.
  - cbn. rewrite Z.lxor_assoc, Z.lxor_nilpotent, Z.lxor_0_r. auto.
  - cbn [seq map fold_left].
    rewrite lfsr_bit. change (Z.of_nat 0) with 0.
    rewrite <- seq_shift, map_map.
    rewrite (map_ext _ (fun i => Z.testbit (Z.shiftr m 1) (Z.of_nat i))).
    2:{ intros i. rewrite Z.shiftr_spec by lia. f_equal. lia. }
    rewrite IH. rewrite iter_succ_r. rewrite <- s0_double_bit.
    rewrite Z.shiftr_shiftr by lia. do 3 f_equal. lia.
Qed.

Variable table : list Z.
Hypothesis table_ok : forall i, 0 <= i < 256 -> nth (Z.to_nat i) table 0 = s8 i.

Lemma step_serial r c : 0 <= c < 256 -> crc_step table r c = fold_left (lfsr poly) (bits_of_byte c) r.
Proof.
  intros Hc. unfold crc_step, bits_of_byte. rewrite s0_fold.
  replace (Z.shiftr c (Z.of_nat 8)) with 0. 2:{ rewrite Z.shiftr_div_pow2 by lia. symmetry. apply Z.div_small. exact Hc. }
  rewrite Z.lxor_0_r. change (Nat.iter 8 s0 (Z.lxor r c)) with (s8 (Z.lxor r c)).
  rewrite table_ok. 2:{ change 255 with (Z.ones 8). rewrite Z.land_ones by lia. apply Z.mod_pos_bound. lia. }
  rewrite (split8 (Z.lxor r c)) at 2. rewrite s8_xor, s8_shift. f_equal.
  rewrite Z.shiftr_lxor. replace (Z.shiftr c 8) with 0; [rewrite Z.lxor_0_r; auto|].
  rewrite Z.shiftr_div_pow2 by lia. symmetry. apply Z.div_small. exact Hc.
Qed.
Lemma fold_serial data : forall r, Forall (fun b => 0 <= b < 256) data ->
  fold_left (crc_step table) data r = fold_left (lfsr poly) (flat_map bits_of_byte data) r.
Proof.
  induction data as [|c data IH]; intros r HF; [reflexivity|]. inversion HF; subst.
  cbn [fold_left flat_map]. rewrite fold_left_app, step_serial by auto. apply IH. auto.
Qed.
End Poly.

Definition check_table (poly : Z) (table : list Z) : bool :=
  forallb (fun i => nth (Z.to_nat i) table 0 =? s8 poly i) (zrange 256).
Lemma table32_ok : forall i, 0 <= i < 256 -> nth (Z.to_nat i) crc32_table 0 = s8 0xEDB88320 i.
Proof.
  intros i Hi. apply Z.eqb_eq.
  refine (zrange_forallb 256 (fun i => nth (Z.to_nat i) crc32_table 0 =? s8 0xEDB88320 i) _ i Hi). vm_compute. reflexivity.
Qed.
Lemma table64_ok : forall i, 0 <= i < 256 -> nth (Z.to_nat i) crc64_table 0 = s8 0x95ac9329ac4bc9b5 i.
Proof.
  intros i Hi. apply Z.eqb_eq.
  refine (zrange_forallb 256 (fun i => nth (Z.to_nat i) crc64_table 0 =? s8 0x95ac9329ac4bc9b5 i) _ i Hi). vm_compute. reflexivity.
Qed.

Lemma p14_32 data : Forall (fun b => 0 <= b < 256) data -> crc32 data = serial_crc 0xEDB88320 0xffffffff 0xffffffff data.
Proof. intros H. unfold crc32, serial_crc. rewrite (fold_serial 0xEDB88320 _ table32_ok) by auto. reflexivity. Qed.
Lemma p14_64 data : Forall (fun b => 0 <= b < 256) data -> crc64 data = serial_crc 0x95ac9329ac4bc9b5 0 0 data.
Proof. intros H. unfold crc64, serial_crc. rewrite (fold_serial 0x95ac9329ac4bc9b5 _ table64_ok) by auto. rewrite Z.lxor_0_r. reflexivity. Qed.

(** ** injectivity of crc32 on short messages of one length *)
Definition P32 : Z := 0xEDB88320.
Lemma testbit_small r k : 0 <= r < 2 ^ 32 -> 32 <= k -> Z.testbit r k = false.
Proof.
  intros Hr Hk. destruct (Z.eq_dec r 0) as [->|Hn]; [apply Z.bits_0|].
  apply Z.bits_above_log2; [lia|]. assert (Z.log2 r < 32); [|lia]. apply Z.log2_lt_pow2; lia.
Qed.
Lemma lt_of_bits r : (forall k, 32 <= k -> Z.testbit r k = false) -> 0 <= r -> r < 2 ^ 32.
Proof.
  intros H H0. destruct (Z.lt_ge_cases r (2 ^ 32)) as [|Hge]; auto. exfalso.
  assert (Hl : 32 <= Z.log2 r) by (apply Z.log2_le_pow2; lia).
  specialize (H _ Hl). rewrite Z.bit_log2 in H by lia. discriminate.
Qed.
Lemma s0_range r : 0 <= r < 2 ^ 32 -> 0 <= s0 P32 r < 2 ^ 32.
Proof.
  intros Hr. assert (Hs : 0 <= Z.shiftr r 1 < 2 ^ 32).
  { rewrite Z.shiftr_div_pow2 by lia. split; [apply Z.div_pos; lia|]. apply Z.div_lt_upper_bound; lia. }
  unfold s0, lfsr. destruct (xorb _ _); [|auto].
  assert (0 <= Z.lxor (Z.shiftr r 1) P32) by (apply Z.lxor_nonneg; unfold P32; lia).
  split; auto. apply lt_of_bits; auto. intros k Hk. rewrite Z.lxor_spec, !testbit_small by (auto; unfold P32; lia). reflexivity.
Qed.
Lemma s0_inj a b : 0 <= a < 2 ^ 32 -> 0 <= b < 2 ^ 32 -> s0 P32 a = s0 P32 b -> a = b.
Proof.
  intros Ha Hb H.
  assert (T : forall r, 0 <= r < 2 ^ 32 -> Z.testbit (s0 P32 r) 31 = Z.testbit r 0).
  { intros r Hr. unfold s0, lfsr. rewrite xorb_false_r. destruct (Z.testbit r 0) eqn:E.
    - rewrite Z.lxor_spec, Z.shiftr_spec by lia. rewrite testbit_small by lia. reflexivity.
    - rewrite Z.shiftr_spec by lia. apply testbit_small; lia. }
  assert (H0 : Z.testbit a 0 = Z.testbit b 0) by (rewrite <- !T by auto; congruence).
  assert (H1 : Z.shiftr a 1 = Z.shiftr b 1).
  { unfold s0, lfsr in H. rewrite !xorb_false_r, H0 in H. destruct (Z.testbit b 0); auto.
    assert (Z.lxor (Z.lxor (Z.shiftr a 1) P32) P32 = Z.lxor (Z.lxor (Z.shiftr b 1) P32) P32) by congruence.
    rewrite !Z.lxor_assoc, Z.lxor_nilpotent, !Z.lxor_0_r in H1. auto. }
  apply Z.bits_inj. intros i. destruct (Z.ltb_spec i 0); [rewrite !Z.testbit_neg_r by lia; auto|].
  destruct (Z.eq_dec i 0) as [->|]; auto.
  replace i with (i - 1 + 1) by lia. rewrite <- !(Z.shiftr_spec _ 1) by lia. congruence.
Qed.
Lemma iter_inj n : forall a b, 0 <= a < 2 ^ 32 -> 0 <= b < 2 ^ 32 -> Nat.iter n (s0 P32) a = Nat.iter n (s0 P32) b -> a = b.
Proof.
  induction n as [|n IH]; intros a b Ha Hb H; auto. rewrite !iter_succ_r in H.
  apply IH in H; try (apply s0_range; auto). apply s0_inj; auto.
Qed.
Fixpoint le_int (data : list Z) : Z := match data with [] => 0 | b :: r => b + 256 * le_int r end.
Lemma le_int_range data : Forall (fun b => 0 <= b < 256) data -> 0 <= le_int data < 256 ^ Z.of_nat (length data).
Proof.
  induction 1 as [|b r Hb HF IH]; [cbn; lia|]. cbn [le_int length]. rewrite Nat2Z.inj_succ, Z.pow_succ_r by lia. lia.
Qed.
Lemma le_int_inj d1 : forall d2, Forall (fun b => 0 <= b < 256) d1 -> Forall (fun b => 0 <= b < 256) d2 ->
  length d1 = length d2 -> le_int d1 = le_int d2 -> d1 = d2.
Proof.
  induction d1 as [|a d1 IH]; intros [|b d2] H1 H2 Hl H; try discriminate; auto.
  inversion H1; inversion H2; subst. cbn [le_int] in H. f_equal; [lia|]. apply IH; auto. lia.
Qed.
Lemma bits_le_int data : Forall (fun b => 0 <= b < 256) data ->
  flat_map bits_of_byte data = map (fun i => Z.testbit (le_int data) (Z.of_nat i)) (seq 0 (8 * length data)).
Proof.
  induction 1 as [|b r Hb HF IH]; [reflexivity|]. cbn [flat_map le_int length].
  replace (8 * S (length r))%nat with (8 + 8 * length r)%nat by lia. rewrite seq_app, map_app. f_equal.
  - apply map_ext_in. intros i Hi. apply in_seq in Hi.
    rewrite <- (Z.mod_small b 256) at 1 by lia. replace b with (b + le_int r * 256 - le_int r * 256) at 1 by lia.
    change 256 with (2 ^ 8) at 3. rewrite <- (Z.mod_pow2_bits_low (b + 256 * le_int r) 8) by lia.
    f_equal. rewrite (Z.mul_comm 256), Z.mod_add by lia. f_equal. lia.
  - rewrite IH. replace (seq (0 + 8) (8 * length r)) with (map (fun i => 8 + i)%nat (seq 0 (8 * length r))).
    + rewrite map_map. apply map_ext_in. intros i _. replace (Z.of_nat (8 + i)) with (Z.of_nat i + 8) by lia.
      rewrite <- Z.shiftr_spec by lia. f_equal. rewrite Z.shiftr_div_pow2 by lia. change (2 ^ 8) with 256.
      symmetry. rewrite Z.mul_comm, Z.div_add by lia. rewrite Z.div_small by lia. lia.
    + clear. generalize (8 * length r)%nat as n. intros n. cbn [Nat.add].
      assert (forall s, map (fun i => S (S (S (S (S (S (S (S i)))))))) (seq s n) = seq (8 + s) n) as H.
      { induction n as [|n IH]; intros s; cbn [seq map]; auto. f_equal. apply IH. }
      exact (H O).
Qed.
Lemma p14_inj d1 d2 : Forall (fun b => 0 <= b < 256) d1 -> Forall (fun b => 0 <= b < 256) d2 ->
  length d1 = length d2 -> (length d1 <= 4)%nat -> crc32 d1 = crc32 d2 -> d1 = d2.
Proof.
  intros H1 H2 Hl H4 H. rewrite !p14_32 in H by auto. unfold serial_crc in H.
  assert (X : forall x, Z.lxor (Z.lxor x 4294967295) 4294967295 = x) by (intros; rewrite Z.lxor_assoc, Z.lxor_nilpotent, Z.lxor_0_r; auto).
  apply (f_equal (fun x => Z.lxor x 4294967295)) in H. rewrite !X in H.
  rewrite !bits_le_int in H by auto. rewrite !s0_fold in H.
  assert (R : forall d, Forall (fun b => 0 <= b < 256) d -> (length d <= 4)%nat -> 0 <= le_int d < 2 ^ 32 /\ Z.shiftr (le_int d) (Z.of_nat (8 * length d)) = 0).
  { intros d HF Hd. pose proof (le_int_range d HF) as HR.
    assert (E : 256 ^ Z.of_nat (length d) = 2 ^ Z.of_nat (8 * length d)). { rewrite Nat2Z.inj_mul, Z.pow_mul_r by lia. reflexivity. }
    split.
    - assert (256 ^ Z.of_nat (length d) <= 256 ^ 4) by (apply Z.pow_le_mono_r; lia). change (256 ^ 4) with (2 ^ 32) in *. lia.
    - rewrite Z.shiftr_div_pow2 by lia. apply Z.div_small. lia. }
  destruct (R d1) as [R1 S1]; auto. destruct (R d2) as [R2 S2]; auto; [lia|].
  rewrite S1, S2, !Z.lxor_0_r, Hl in H.
  assert (XR : forall m, 0 <= m < 2 ^ 32 -> 0 <= Z.lxor 4294967295 m < 2 ^ 32).
  { intros m Hm. assert (0 <= Z.lxor 4294967295 m) by (apply Z.lxor_nonneg; lia). split; auto. apply lt_of_bits; auto.
    intros k Hk. rewrite Z.lxor_spec, !testbit_small by lia. reflexivity. }
  apply iter_inj in H; auto. apply le_int_inj; auto.
  apply (f_equal (Z.lxor 4294967295)) in H. rewrite <- !Z.lxor_assoc, Z.lxor_nilpotent, !Z.lxor_0_l in H. auto.
Qed.
