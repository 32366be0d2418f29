From Coq Require Import ZArith List Bool Lia ZifyBool ZifyNat.
From Verif Require Import Common CommonProofs MemModel MemSpec.
Import ListNotations.
Open Scope Z_scope.
Ltac Zify.zify_post_hook ::= Z.div_mod_to_equations.

(** ** alignment helpers *)
Lemma is_pow2_spec x : is_power_of_two x = true <-> exists k, 0 <= k /\ x = 2 ^ k.
Proof.
  unfold is_power_of_two. destruct (Z.leb_spec x 0) as [Hx|Hx].
  - split; [discriminate|]. intros (k & Hk & ->). pose proof (Z.pow_pos_nonneg 2 k). lia.
  - rewrite Z.eqb_eq. split.
    + intros H. exists (Z.log2 x). split; [apply Z.log2_nonneg|].
      destruct (Z.log2_spec x Hx) as [H1 H2].
      destruct (Z.eq_dec x (2 ^ Z.log2 x)) as [|Hne]; [auto|exfalso].
      assert (Hb1 : Z.testbit x (Z.log2 x) = true) by (apply Z.bit_log2; auto).
      assert (Hb2 : Z.testbit (x - 1) (Z.log2 x) = true).
      { replace (Z.log2 x) with (Z.log2 (x - 1)).
        - apply Z.bit_log2. pose proof (Z.pow_pos_nonneg 2 (Z.log2 x)).
          pose proof (Z.log2_nonneg x). lia.
        - apply Z.log2_unique; [apply Z.log2_nonneg|]. lia. }
      assert (Z.testbit (Z.land x (x - 1)) (Z.log2 x) = true) by (rewrite Z.land_spec, Hb1, Hb2; auto).
      rewrite H, Z.bits_0 in H0. discriminate.
    + intros (k & Hk & ->). replace (2 ^ k - 1) with (Z.ones k) by (rewrite Z.ones_equiv; lia).
      rewrite Z.land_ones by lia. apply Z_mod_same_full.
Qed.

Lemma land_lnot_mod v k : 0 <= v < 2 ^ 64 -> 0 <= k ->
  Z.land v (Z.lnot (2 ^ k - 1) mod 2 ^ 64) = v / 2 ^ k * 2 ^ k.
Proof.
  intros Hv Hk.
  replace (Z.land v (Z.lnot (2 ^ k - 1) mod 2 ^ 64)) with (Z.land v (Z.lnot (2 ^ k - 1))).
  2:{ rewrite <- (Z.land_ones _ 64) by lia. rewrite (Z.land_comm (Z.lnot _)), Z.land_assoc.
      rewrite (Z.land_ones v 64) by lia. rewrite (Z.mod_small v) by lia. reflexivity. }
  replace (2 ^ k - 1) with (Z.ones k) by (rewrite Z.ones_equiv; lia).
  rewrite <- Z.ldiff_land, Z.ldiff_ones_r by lia.
  rewrite Z.shiftl_mul_pow2, Z.shiftr_div_pow2 by lia. reflexivity.
Qed.

Lemma align_forward_eq p k : 0 <= p -> 0 <= k -> p + 2 ^ k - 1 < 2 ^ 64 ->
  align_forward p (2 ^ k) = Some ((p + 2 ^ k - 1) / 2 ^ k * 2 ^ k).
Proof.
  intros Hp Hk Hov. unfold align_forward.
  replace (is_power_of_two (2 ^ k)) with true by (symmetry; apply is_pow2_spec; eauto).
  pose proof (Z.pow_pos_nonneg 2 k).
  rewrite (Z.mod_small (p + (2 ^ k - 1))) by lia. rewrite land_lnot_mod by lia.
  replace (p + (2 ^ k - 1)) with (p + 2 ^ k - 1) by lia. reflexivity.
Qed.

Lemma align_up_least p a : 0 < a ->
  (a | (p + a - 1) / a * a) /\ p <= (p + a - 1) / a * a /\
  forall r, (a | r) -> p <= r -> (p + a - 1) / a * a <= r.
Proof.
  intros Ha. split; [apply Z.divide_factor_r|]. split; [nia|].
  intros r [z ->] H. assert ((p + a - 1) / a <= z); [|nia].
  assert ((p + a - 1) / a < z + 1); [|lia]. apply Z.div_lt_upper_bound; nia.
Qed.

Lemma align_s64_eq v a : 0 <= v -> 0 < a -> align_forward_s64 v a = (v + a - 1) / a * a.
Proof.
  intros Hv Ha. unfold align_forward_s64.
  rewrite (Z.rem_mod_nonneg v a) by lia.
  rewrite Z.rem_mod_nonneg by (pose proof (Z.mod_pos_bound v a); lia).
  pose proof (Z.mod_pos_bound v a Ha) as Hm. pose proof (Z.div_mod v a) as Hdm.
  destruct (Z.eq_dec (v mod a) 0) as [E|E].
  - rewrite E, Z.sub_0_r, Z_mod_same_full.
    replace ((v + a - 1) / a) with (v / a); [lia|].
    apply Z.div_unique with (r := a - 1); lia.
  - rewrite (Z.mod_small (a - v mod a)) by lia.
    replace ((v + a - 1) / a) with (v / a + 1); [lia|].
    apply Z.div_unique with (r := v mod a - 1); lia.
Qed.

(** ** the zero-byte test *)
Fixpoint ones8 (n : nat) : Z := match n with O => 0 | S k => 1 + 256 * ones8 k end.
Definition nz (n : nat) (x : Z) : Prop :=
  exists i, 0 <= i < Z.of_nat n /\ Z.testbit (x - ones8 n) (8 * i + 7) = true /\ Z.testbit x (8 * i + 7) = false.

Lemma testbit_hi b y i : 0 <= b < 256 -> 0 <= i -> Z.testbit (b + 256 * y) (8 + i) = Z.testbit y i.
Proof.
  intros Hb Hi. rewrite (Z.add_comm 8 i). rewrite <- (Z.shiftr_spec _ 8) by lia. f_equal. rewrite Z.shiftr_div_pow2 by lia.
  change (2 ^ 8) with 256. lia.
Qed.
Lemma testbit_lo b y i : 0 <= b < 256 -> 0 <= i < 8 -> Z.testbit (b + 256 * y) i = Z.testbit b i.
Proof.
  intros Hb Hi. rewrite <- (Z.mod_pow2_bits_low _ 8) by lia. change (2 ^ 8) with 256.
  rewrite Z.mul_comm, Z.mod_add by lia. now rewrite Z.mod_small by lia.
Qed.

Lemma bit7_pred b : 1 <= b < 256 -> Z.testbit (b - 1) 7 = true -> Z.testbit b 7 = false -> False.
Proof.
  intros Hb H1 H2.
  assert (H := zrange_forallb 256 (fun b => (b =? 0) || negb (Z.testbit (b - 1) 7 && negb (Z.testbit b 7)))
    ltac:(vm_compute; reflexivity) b ltac:(lia)).
  cbv beta in H. rewrite H1, H2 in H. cbn [andb negb] in H. lia.
Qed.

Lemma nz_spec n : forall x, nz n x <-> exists i, 0 <= i < Z.of_nat n /\ (x / 256 ^ i) mod 256 = 0.
Proof.
  induction n as [|n IH]; intros x.
  - split; intros (i & Hi & _); lia.
  - set (b := x mod 256). set (y := x / 256).
    assert (Hx : x = b + 256 * y) by (unfold b, y; lia). assert (Hb : 0 <= b < 256) by (unfold b; lia).
    assert (Hsub : x - ones8 (S n) = (b - 1) + 256 * (y - ones8 n)) by (cbn [ones8]; lia).
    destruct (Z.eq_dec b 0) as [E|E].
    + split; intros _.
      * exists 0. split; [lia|]. rewrite Z.pow_0_r, Z.div_1_r. exact E.
      * exists 0. split; [lia|]. rewrite Hsub, E. change (8 * 0 + 7) with 7. split.
        -- replace (0 - 1 + 256 * (y - ones8 n)) with (255 + 256 * (y - ones8 n - 1)) by lia.
           rewrite testbit_lo by lia. reflexivity.
        -- rewrite Hx, E, testbit_lo by lia. reflexivity.
    + split.
      * intros (i & Hi & H1 & H2). rewrite Hsub in H1. rewrite Hx in H2.
        destruct (Z.eq_dec i 0) as [->|Hi0].
        -- change (8 * 0 + 7) with 7 in *. rewrite testbit_lo in H1, H2 by lia.
           exfalso. apply (bit7_pred b); auto; lia.
        -- replace (8 * i + 7) with (8 + (8 * (i - 1) + 7)) in H1, H2 by lia.
           rewrite testbit_hi in H1, H2 by lia.
           destruct (IH y) as [IH1 _]. destruct IH1 as (j & Hj & Hz).
           { exists (i - 1). repeat split; auto; lia. }
           exists (j + 1). split; [lia|]. rewrite Z.add_comm, Z.pow_add_r by lia.
           rewrite Z.pow_1_r, <- Z.div_div by lia. exact Hz.
      * intros (i & Hi & Hz). destruct (Z.eq_dec i 0) as [->|Hi0].
        -- rewrite Z.pow_0_r, Z.div_1_r in Hz. fold b in Hz. lia.
        -- destruct (IH y) as [_ IH2]. destruct IH2 as (j & Hj & H1 & H2).
           { exists (i - 1). split; [lia|]. unfold y. rewrite Z.div_div by lia.
             rewrite <- Z.pow_succ_r by lia. replace (Z.succ (i - 1)) with i by lia. exact Hz. }
           exists (j + 1). split; [lia|]. rewrite Hsub, Hx.
           replace (8 * (j + 1) + 7) with (8 + (8 * j + 7)) by lia.
           rewrite !testbit_hi by lia. auto.
Qed.

Lemma highs_bit k : 0 <= k < 64 -> Z.testbit GEN_HIGHS k = (k mod 8 =? 7).
Proof.
  intros Hk.
  assert (forallb (fun k => Bool.eqb (Z.testbit GEN_HIGHS (Z.of_nat k)) (Z.of_nat k mod 8 =? 7)) (seq 0 64) = true)
    as H by (vm_compute; reflexivity).
  rewrite forallb_forall in H. specialize (H (Z.to_nat k)). rewrite Z2Nat.id in H by lia.
  apply eqb_prop, H, in_seq. lia.
Qed.

Lemma has_zero_spec x :
  GEN_HAS_ZERO x = true <-> exists i, 0 <= i < 8 /\ (x / 256 ^ i) mod 256 = 0.
Proof.
  pose proof (nz_spec 8 x) as N. change (Z.of_nat 8) with 8 in N. rewrite <- N. clear N.
  unfold GEN_HAS_ZERO. rewrite negb_true_iff, Z.eqb_neq.
  change GEN_ONES with (ones8 8).
  split.
  - intros H.
    set (v := Z.land (Z.land ((x - ones8 8) mod 2 ^ 64) (Z.lnot x mod 2 ^ 64)) GEN_HIGHS) in *.
    assert (Hv : 0 <= v) by (unfold v; apply Z.land_nonneg; right; vm_compute; discriminate).
    assert (Hb : Z.testbit v (Z.log2 v) = true) by (apply Z.bit_log2; lia).
    set (k := Z.log2 v) in *. assert (Hk : 0 <= k) by apply Z.log2_nonneg.
    unfold v in Hb. rewrite !Z.land_spec in Hb.
    apply andb_true_iff in Hb as [Hb Hb3]. apply andb_true_iff in Hb as [Hb1 Hb2].
    assert (Hk64 : k < 64).
    { destruct (Z.lt_ge_cases k 64); auto. rewrite Z.mod_pow2_bits_high in Hb1 by lia. discriminate. }
    rewrite Z.mod_pow2_bits_low in Hb1, Hb2 by lia. rewrite Z.lnot_spec in Hb2 by lia.
    rewrite highs_bit in Hb3 by lia. apply Z.eqb_eq in Hb3.
    exists (k / 8). split; [lia|]. replace (8 * (k / 8) + 7) with k by lia.
    split; auto. now apply negb_true_iff in Hb2.
  - intros (i & Hi & H1 & H2) H0.
    change (Z.of_nat 8) with 8 in Hi.
    apply (f_equal (fun z => Z.testbit z (8 * i + 7))) in H0.
    rewrite !Z.land_spec, Z.bits_0, highs_bit, !Z.mod_pow2_bits_low, Z.lnot_spec, H1, H2 in H0 by lia.
    replace ((8 * i + 7) mod 8 =? 7) with true in H0 by lia. discriminate.
Qed.

Lemma lxor_byte x y i : 0 <= i ->
  (Z.lxor x y / 256 ^ i) mod 256 = Z.lxor ((x / 256 ^ i) mod 256) ((y / 256 ^ i) mod 256).
Proof.
  intros Hi. change 256 with (2 ^ 8) at 2 4 6. replace (256 ^ i) with (2 ^ (8 * i)) by (rewrite Z.pow_mul_r by lia; reflexivity).
  rewrite <- !Z.shiftr_div_pow2, <- !Z.land_ones by lia.
  rewrite Z.shiftr_lxor. apply Z.bits_inj'. intros k Hk.
  rewrite ?Z.land_spec, ?Z.lxor_spec, ?Z.land_spec.
  destruct (Z.testbit (Z.ones 8) k); now rewrite ?andb_true_r, ?andb_false_r.
Qed.

Lemma ones_mul_byte c i : 0 <= c < 256 -> 0 <= i < 8 -> ((GEN_ONES * c) mod 2 ^ 64 / 256 ^ i) mod 256 = c.
Proof.
  intros Hc Hi.
  assert (forallb (fun c => forallb (fun i => ((GEN_ONES * Z.of_nat c) mod 2 ^ 64 / 256 ^ (Z.of_nat i)) mod 256 =? Z.of_nat c)
             (seq 0 8)) (seq 0 256) = true) as H by (vm_compute; reflexivity).
  rewrite forallb_forall in H. specialize (H (Z.to_nat c)).
  rewrite forallb_forall in H. specialize (fun a => H a (Z.to_nat i)). cbv beta in H.
  rewrite !Z2Nat.id in H by lia. apply Z.eqb_eq, H; apply in_seq; lia.
Qed.

Lemma word_has_byte m s c : byte_mem m -> 0 <= c < 256 ->
  GEN_HAS_ZERO (Z.lxor (load_le 8 m s) ((GEN_ONES * c) mod 2 ^ 64)) = true <->
  exists i, 0 <= i < 8 /\ m (s + i) = c.
Proof.
  intros Hm Hc. rewrite has_zero_spec.
  split; intros (i & Hi & H); exists i; split; auto.
  - rewrite lxor_byte, load_le_byte, ones_mul_byte in H by (auto; lia).
    now apply Z.lxor_eq in H.
  - rewrite lxor_byte, load_le_byte, ones_mul_byte by (auto; lia). rewrite H. apply Z.lxor_nilpotent.
Qed.

(** ** mem_find *)
Lemma mem_find_correct m data c n : byte_mem m -> 0 <= c < 256 -> 0 <= n ->
  exists r, mem_find m data c n = Some r /\ first_occ m data c n r.
Proof.
  intros Hm Hc Hn. unfold mem_find.
  set (Inv := fun st : mf_st => let '(s, k) := st in
     0 <= k <= n /\ s + k = data + n /\ forall x, data <= x < s -> m x <> c).
  destruct (while_inv Inv snd (mf_align_cond m c) mf_step1) with (fuel := Z.to_nat n) (s := (data, n))
    as (st1 & W1 & I1 & C1).
  { intros [s k] (H1 & H2 & H3) Hcd. unfold mf_align_cond in Hcd. cbn.
    split; [|lia]. split; [lia|]. split; [lia|]. intros x Hx. destruct (Z.eq_dec x s) as [->|]; [lia|].
    apply H3; lia. }
  { cbn. repeat split; try lia. }
  { intros _. cbn. lia. }
  rewrite W1. destruct st1 as [s1 n1]. destruct I1 as (H1 & H2 & H3).
  assert (Hfin : forall st, Inv st -> mf_rest_cond m c st = false ->
     first_occ m data c n (let '(s, n) := st in if n =? 0 then None else Some s)).
  { intros [s k] (J1 & J2 & J3) Hcd. unfold mf_rest_cond in Hcd. destruct (k =? 0) eqn:Ek; cbn.
    - intros x Hx. apply J3. lia.
    - cbn in Hcd. split; [lia|]. split; [lia|]. apply J3. }
  destruct (negb (n1 =? 0) && negb (m s1 =? c)) eqn:E1.
  - destruct (while_inv Inv snd (mf_word_cond m c) mf_step8) with (fuel := Z.to_nat n) (s := (s1, n1))
      as (st2 & W2 & I2 & C2).
    { intros [s k] (J1 & J2 & J3) Hcd. unfold mf_word_cond in Hcd. apply andb_true_iff in Hcd as [Hk Hz].
      cbn. split; [|lia]. split; [lia|]. split; [lia|]. intros x Hx.
      destruct (Z.lt_ge_cases x s); [apply J3; lia|]. intros Heq.
      apply negb_true_iff in Hz. apply not_true_iff_false in Hz. apply Hz.
      apply word_has_byte; auto. exists (x - s). split; [lia|]. rewrite <- Heq. f_equal; lia. }
    { cbn. auto. }
    { intros _. cbn. lia. }
    rewrite W2.
    destruct (while_inv Inv snd (mf_rest_cond m c) mf_step1) with (fuel := Z.to_nat n) (s := st2)
      as (st3 & W3 & I3 & C3); auto.
    { intros [s k] (J1 & J2 & J3) Hcd. unfold mf_rest_cond in Hcd. cbn.
      split; [|lia]. split; [lia|]. split; [lia|]. intros x Hx. destruct (Z.eq_dec x s) as [->|]; [lia|].
      apply J3; lia. }
    { intros _. destruct st2. destruct I2. cbn. lia. }
    rewrite W3. cbn [option_map]. eexists. split; [reflexivity|]. apply Hfin; auto.
  - eexists. split; [reflexivity|]. apply (Hfin (s1, n1)); [cbn; auto|]. exact E1.
Qed.

Lemma c_str_len_capped_correct m s n : byte_mem m -> 0 <= n ->
  exists k, c_str_len_capped m s n = Some k /\ 0 <= k <= n /\
    (forall i, 0 <= i < k -> m (s + i) <> 0) /\ (k < n -> m (s + k) = 0).
Proof.
  intros Hm Hn. unfold c_str_len_capped.
  destruct (mem_find_correct m s 0 n) as (r & -> & Hr); auto; [lia|].
  destruct r as [a|].
  - destruct Hr as (H1 & H2 & H3). exists (a - s). repeat split; try lia.
    + intros i Hi. apply H3. lia.
    + intros _. rewrite <- H2. f_equal. lia.
  - exists n. repeat split; try lia. intros i Hi. apply Hr. lia.
Qed.
