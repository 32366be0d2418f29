From Coq Require Import ZArith List Bool Lia ZifyBool ZifyNat.
From Verif Require Import Common MemModel CommonProofs MemProofs AllocModel ArrayModel ArraySpec.
Import ListNotations.
Open Scope Z_scope.

(** ** memory lemmas *)
Lemma st64_spec m a v x : st64 m a v x = if (a <=? x) && (x <? a + 8) then (v / 256 ^ (x - a)) mod 256 else m x.
Proof. apply (store_le_spec 8). Qed.
Lemma st64_out m a v x : ~ (a <= x < a + 8) -> st64 m a v x = m x.
Proof. intros. rewrite st64_spec. replace ((a <=? x) && (x <? a + 8)) with false by lia. auto. Qed.
Lemma st64_byte m a v : byte_mem m -> byte_mem (st64 m a v).
Proof. apply store_le_bytes. Qed.

Lemma store8_eq m a v : store8 m a v a = v mod 256.
Proof. unfold store8. rewrite Z.eqb_refl. auto. Qed.
Lemma load_store_le n : forall m a v, 0 <= v < 256 ^ Z.of_nat n -> load_le n (store_le n m a v) a = v.
Proof.
  induction n as [|n IH]; intros m a v Hv.
  - cbn in *. lia.
  - rewrite Nat2Z.inj_succ, Z.pow_succ_r in Hv by lia.
    cbn [load_le store_le]. rewrite IH.
    2:{ split; [apply Z.div_pos; lia|]. apply Z.div_lt_upper_bound; lia. }
    rewrite store_le_spec. replace ((a + 1 <=? a) && _) with false by lia.
    rewrite store8_eq. pose proof (Z.div_mod v 256). lia.
Qed.
Lemma ld_st64 m a v : 0 <= v < 2 ^ 64 -> ld64 (st64 m a v) a = v.
Proof. intros H. apply (load_store_le 8). exact H. Qed.
Lemma ld64_ext m m' a : (forall x, a <= x < a + 8 -> m x = m' x) -> ld64 m a = ld64 m' a.
Proof. intros H. apply (load_le_ext 8). intros i Hi. apply H. lia. Qed.
Lemma load_le_shift n : forall m m' a b, (forall i, 0 <= i < Z.of_nat n -> m (a + i) = m' (b + i)) -> load_le n m a = load_le n m' b.
Proof.
  induction n as [|n IH]; intros m m' a b H; [reflexivity|]. cbn [load_le].
  rewrite (IH m m' (a + 1) (b + 1)). 2:{ intros i Hi. rewrite <- !Z.add_assoc. apply H. lia. }
  specialize (H 0). rewrite !Z.add_0_r in H. rewrite H by lia. reflexivity.
Qed.
Lemma ld64_shift m m' a b : (forall i, 0 <= i < 8 -> m (a + i) = m' (b + i)) -> ld64 m a = ld64 m' b.
Proof. intros H. apply (load_le_shift 8). intros i Hi. apply H. lia. Qed.
Lemma ld_st64_other m a b v : b + 8 <= a \/ a + 8 <= b -> ld64 (st64 m a v) b = ld64 m b.
Proof. intros H. apply ld64_ext. intros x Hx. apply st64_out. lia. Qed.
Lemma ld64_range m a : byte_mem m -> 0 <= ld64 m a < 2 ^ 64.
Proof. intros H. apply (load_le_range 8 m a H). Qed.

Lemma store_bytes_spec bs : forall m a x, Forall (fun b => 0 <= b < 256) bs ->
  store_bytes m a bs x =
  if (a <=? x) && (x <? a + Z.of_nat (length bs)) then nth (Z.to_nat (x - a)) bs 0 else m x.
Proof.
  induction bs as [|b r IH]; intros m a x HF.
  - cbn. destruct ((a <=? x) && (x <? a + 0)) eqn:E; [lia|auto].
  - inversion HF; subst. cbn [store_bytes length]. rewrite IH by auto.
    destruct (Z.eq_dec x a) as [->|Hne].
    + replace ((a + 1 <=? a) && _) with false by lia.
      replace ((a <=? a) && (a <? a + Z.of_nat (S (length r)))) with true by lia.
      rewrite store8_eq, Z.mod_small by lia. rewrite Z.sub_diag. reflexivity.
    + destruct ((a + 1 <=? x) && (x <? a + 1 + Z.of_nat (length r))) eqn:E.
      * replace ((a <=? x) && (x <? a + Z.of_nat (S (length r)))) with true by lia.
        replace (Z.to_nat (x - a)) with (S (Z.to_nat (x - (a + 1)))) by lia. reflexivity.
      * replace ((a <=? x) && (x <? a + Z.of_nat (S (length r)))) with false by lia.
        unfold store8. replace (x =? a) with false by lia. auto.
Qed.
Lemma store_bytes_byte bs m a : Forall (fun b => 0 <= b < 256) bs -> byte_mem m -> byte_mem (store_bytes m a bs).
Proof.
  intros HF Hm x. rewrite store_bytes_spec by auto. destruct (_ && _) eqn:E; [|apply Hm].
  rewrite Forall_forall in HF. apply HF. apply nth_In. lia.
Qed.
Lemma load_bytes_ext m m' a n : (forall x, a <= x < a + Z.of_nat n -> m x = m' x) -> load_bytes m a n = load_bytes m' a n.
Proof. intros H. apply map_ext_in. intros i Hi. apply in_seq in Hi. apply H. lia. Qed.
Lemma load_store_bytes bs m a : Forall (fun b => 0 <= b < 256) bs -> load_bytes (store_bytes m a bs) a (length bs) = bs.
Proof.
  intros HF. apply (nth_ext _ _ 0 0).
  - unfold load_bytes. rewrite map_length, seq_length. auto.
  - unfold load_bytes. rewrite map_length, seq_length. intros i Hi.
    rewrite (nth_indep _ 0 (store_bytes m a bs (a + Z.of_nat 0))) by (rewrite map_length, seq_length; lia).
    rewrite (map_nth (fun i => store_bytes m a bs (a + Z.of_nat i))).
    rewrite seq_nth by lia. cbn [Nat.add]. rewrite store_bytes_spec by auto.
    replace ((a <=? a + Z.of_nat i) && (a + Z.of_nat i <? a + Z.of_nat (length bs))) with true by lia.
    f_equal. lia.
Qed.
(** shifting: the object at [b] in [m'] is the object at [a] in [m] *)
Lemma load_bytes_shift m m' a b n : (forall i, 0 <= i < Z.of_nat n -> m' (b + i) = m (a + i)) -> load_bytes m' b n = load_bytes m a n.
Proof. intros H. apply map_ext_in. intros i Hi. apply in_seq in Hi. apply H. lia. Qed.

Lemma skipn_skipn {A} (a b : nat) : forall l : list A, skipn a (skipn b l) = skipn (a + b) l.
Proof.
  induction b as [|b IH]; intros l; [rewrite Nat.add_0_r; reflexivity|].
  rewrite Nat.add_succ_r. destruct l as [|x l]; [rewrite !skipn_nil; auto|]. cbn [skipn]. apply IH.
Qed.

(** ** elements *)
Lemma elements_len m d sz n : length (elements m d sz n) = n.
Proof. unfold elements. rewrite map_length, seq_length. auto. Qed.
Lemma elements_nth m d sz n i : (i < n)%nat ->
  nth_error (elements m d sz n) i = Some (load_bytes m (d + Z.of_nat i * sz) (Z.to_nat sz)).
Proof.
  intros H. unfold elements. erewrite map_nth_error; [reflexivity|].
  rewrite (nth_error_nth' _ O) by (rewrite seq_length; auto). rewrite seq_nth; auto.
Qed.
Lemma list_ext {A} (l l' : list A) : (forall i, nth_error l i = nth_error l' i) -> l = l'.
Proof.
  revert l'; induction l as [|a l IH]; intros [|b l'] H; auto.
  - specialize (H O). discriminate.
  - specialize (H O). discriminate.
  - pose proof (H O) as H0. injection H0 as ->. f_equal. apply IH. intros i. apply (H (S i)).
Qed.
Lemma elements_ext m m' d d' sz n : 0 < sz ->
  (forall i, 0 <= i < Z.of_nat n * sz -> m' (d' + i) = m (d + i)) -> elements m' d' sz n = elements m d sz n.
Proof.
  intros Hs H. apply map_ext_in. intros i Hi. apply in_seq in Hi. apply load_bytes_shift. intros j Hj.
  rewrite <- !Z.add_assoc. apply H. nia.
Qed.
Lemma elements_prefix m d sz n k : (k <= n)%nat -> elements m d sz k = firstn k (elements m d sz n).
Proof.
  intros H. unfold elements. rewrite firstn_map. f_equal.
  replace n with (k + (n - k))%nat by lia. rewrite seq_app.
  rewrite firstn_app, seq_length, Nat.sub_diag. cbn [firstn]. rewrite app_nil_r.
  rewrite firstn_all2; auto. rewrite seq_length. auto.
Qed.
Lemma elements_S m d sz n : elements m d sz (S n) = elements m d sz n ++ [load_bytes m (d + Z.of_nat n * sz) (Z.to_nat sz)].
Proof. unfold elements. rewrite seq_S, map_app. reflexivity. Qed.
Lemma elements_app m d sz a b : elements m d sz (a + b) = elements m d sz a ++ elements m (d + Z.of_nat a * sz) sz b.
Proof.
  unfold elements. rewrite seq_app, map_app. f_equal. cbn [Nat.add].
  assert (E : forall s, seq (a + s) b = map (fun i => (a + i)%nat) (seq s b)).
  { clear. induction b as [|b IH]; intros s; cbn [seq map]; auto. f_equal. rewrite <- IH. f_equal. lia. }
  specialize (E O). rewrite Nat.add_0_r in E. rewrite E, map_map. apply map_ext. intros i. f_equal. lia.
Qed.
Lemma elements_split m d sz n xs k : elements m d sz n = xs -> (k <= n)%nat ->
  elements m d sz k = firstn k xs /\ elements m (d + Z.of_nat k * sz) sz (n - k) = skipn k xs.
Proof.
  intros <- H.
  assert (E : elements m d sz n = elements m d sz k ++ elements m (d + Z.of_nat k * sz) sz (n - k)).
  { rewrite <- elements_app. f_equal. lia. }
  rewrite E.
  rewrite firstn_app, skipn_app, elements_len, Nat.sub_diag. cbn [firstn skipn].
  rewrite app_nil_r, firstn_all2, skipn_all2 by (rewrite elements_len; lia).
  split; auto. 
Qed.

Ltac zb := repeat match goal with |- context [if ?b then _ else _] =>
  first [replace b with true by lia | replace b with false by lia] end.

Section Step.
Variable sz : Z.
Hypothesis Hsz : 0 < sz < 2 ^ 32.
Variables (al : mem -> Z -> mem * Z) (fr : mem -> Z -> mem).
Variables (m : mem) (h : Z) (xs : list (list Z)) (cap : Z).
Hypothesis HA : is_array sz m h xs cap.
Hypothesis Hal : alloc_respects sz m h al.
Hypothesis Hfr : free_respects sz m h fr.
Let d := ld64 m h.
Let num := Z.of_nat (length xs).

Lemma set_num_view n m' xs' :
  (forall x, owned h d cap sz x -> ~ (d - 8 <= x < d) -> ~ (d <= x < d + cap * sz) -> m' x = m x) -> byte_mem m' ->
  ld64 m' (d - 8) = n -> n = Z.of_nat (length xs') -> n <= cap -> elements m' d sz (length xs') = xs' ->
  is_array sz m' h xs' cap.
Proof.
  intros Hm Hb Hn Hl Hc He. destruct HA as (_ & Hh & Hd & Hhi & Hdis & Hcap & Hcp & _). fold d in Hd, Hhi, Hdis, Hcap.
  assert (P1 : 0 < cap * sz) by (apply Z.mul_pos_pos; lia).
  assert (Eh : ld64 m' h = d). { apply ld64_ext. intros x Hx. apply Hm; unfold owned; lia. }
  unfold is_array. cbv zeta. rewrite Eh. 
  assert (Ec : ld64 m' (d - 16) = cap). { rewrite <- Hcap. apply ld64_ext. intros x Hx. apply Hm; unfold owned; lia. }
  split; [auto|]. split; [auto|]. split; [auto|]. split; [auto|]. split; [auto|]. split; [auto|]. split; [auto|].
  split; [lia|]. split; [lia|]. auto.
Qed.

Lemma set_capacity_spec n : 0 < n -> n * sz < 2 ^ 62 ->
  exists m' r, array_set_capacity al fr sz m h n = Ok (m', r) /\
    is_array sz m' h (if r then firstn (Z.to_nat n) xs else xs) (if r then (if n <? num then cap else n) else cap).
Proof.
  intros Hn Hns. pose proof HA as (Hbm & Hh & Hd & Hhi & Hdis & Hcap & Hcp & Hnum & Hle & Hel). fold d in Hd, Hhi, Hdis, Hcap, Hnum, Hel.
  assert (P1 : num * sz <= cap * sz) by (apply Z.mul_le_mono_nonneg_r; lia).
  assert (P2 : cap <= cap * sz) by nia. assert (P4 : 0 <= num * sz) by nia. assert (P5 : n <= n * sz) by nia.
  unfold array_set_capacity. fold d. unfold hdr_cap, hdr_num, HEADER_SIZE. rewrite Hcap, Hnum. fold num.
  replace (d =? 0) with false by lia.
  destruct (n =? cap) eqn:E1.
  { exists m, true. split; auto. rewrite firstn_all2 by lia. replace (n <? num) with false by lia.
    replace n with cap by lia. auto. }
  destruct (n <? num) eqn:E2.
  { exists (st64 m (d - 8) n), true. split; auto.
    apply (set_num_view n).
    - intros x _ H1 _. apply st64_out. lia.
    - apply st64_byte; auto.
    - apply ld_st64. unfold num in *. lia.
    - rewrite firstn_length. lia.
    - lia.
    - rewrite firstn_length. replace (Nat.min (Z.to_nat n) (length xs)) with (Z.to_nat n) by lia.
      rewrite <- (proj1 (elements_split m d sz (length xs) xs (Z.to_nat n) Hel ltac:(lia))).
      apply elements_ext; [lia|]. intros i Hi. apply st64_out. lia. }
  assert (P3 : num * sz <= n * sz) by (apply Z.mul_le_mono_nonneg_r; lia).
  assert (Hw : w64 (32 + sz * n) = 32 + sz * n) by (unfold w64; apply Z.mod_small; lia).
  assert (Hw2 : w64 (32 + sz * num) = 32 + sz * num) by (unfold w64; apply Z.mod_small; lia).
  rewrite Hw, Hw2.
  pose proof (Hal (32 + sz * n)) as H. destruct (al m (32 + sz * n)) as [m1 p].
  fold d in H. rewrite Hcap in H. destruct H as (Hb1 & Hag & Hp).
  destruct (p =? 0) eqn:Ep.
  { exists m1, false. split; auto.
    apply (set_num_view num); auto.
    - unfold num. rewrite <- Hnum. apply ld64_ext. intros x Hx. apply Hag. unfold owned. lia.
    - rewrite <- Hel at 2. apply elements_ext; [lia|]. intros i Hi. apply Hag. unfold owned. lia. }
  destruct Hp as [->|(Hp & Hpn & Hph & Hpd)]; [lia|].
  destruct (mem_move_correct m1 p (d - 32) (32 + sz * num) Hb1) as (m2 & -> & Hm2); [lia|lia|].
  assert (Hb2 : byte_mem m2). { intros x. rewrite Hm2. destruct (_ && _); apply Hb1. }
  set (m3 := st64 m2 (p + 32 - 16) n).
  assert (Hb3 : byte_mem m3) by (apply st64_byte; auto).
  pose proof (Hfr m3 Hb3) as H. fold d in H. rewrite Hcap in H. destruct H as (Hb4 & Hf).
  set (m4 := fr m3 (d - 32)) in *.
  exists (st64 m4 h (p + 32)), true. split; auto.
  rewrite firstn_all2 by lia. 
  assert (Hd' : ld64 (st64 m4 h (p + 32)) h = p + 32) by (apply ld_st64; lia).
  assert (Hnew : forall x, p <= x < p + 32 + sz * n -> st64 m4 h (p + 32) x = m3 x).
  { intros x Hx. rewrite st64_out by lia. apply Hf. lia. }
  unfold is_array. cbv zeta. rewrite Hd'.
  split; [apply st64_byte; auto|]. split; [auto|]. split; [lia|]. split; [lia|]. split; [lia|].
  split. { rewrite (ld64_ext _ m3). 2:{ intros x Hx. apply Hnew. lia. } unfold m3. apply ld_st64. lia. }
  split; [lia|].
  split. { rewrite (ld64_ext _ m3). 2:{ intros x Hx. apply Hnew. lia. }
    unfold m3. rewrite ld_st64_other by lia. unfold num. rewrite <- Hnum.
    apply ld64_shift. intros i Hi. rewrite Hm2. zb. rewrite Hag by (unfold owned; lia). f_equal. lia. }
  split; [lia|].
  rewrite <- Hel at 2. apply elements_ext; [lia|]. intros i Hi. rewrite Hnew by lia.
  unfold m3. rewrite st64_out by lia. rewrite Hm2. zb. replace (d - 32 + (p + 32 + i - p)) with (d + i) by lia.
  apply Hag. unfold owned. lia.
Qed.

Lemma grow_spec n : 0 < n -> n * sz < 2 ^ 61 -> num <= n ->
  exists m' r, array_grow al fr sz m h n = Ok (m', r) /\
    exists cap', is_array sz m' h xs cap' /\ (r = true -> n <= cap' /\ cap < cap').
Proof.
  intros Hn Hns Hnn. pose proof HA as (Hbm & Hh & Hd & Hhi & Hdis & Hcap & Hcp & Hnum & Hle & Hel). fold d in Hd, Hhi, Hdis, Hcap, Hnum, Hel.
  assert (P2 : cap <= cap * sz) by nia.
  unfold array_grow. fold d. unfold hdr_cap. rewrite Hcap.
  replace (d =? 0) with false by lia. replace (n >? 0) with true by lia.
  unfold array_grow_formula. assert (Hw : w64 (2 * cap + 8) = 2 * cap + 8) by (unfold w64; apply Z.mod_small; lia).
  rewrite Hw. set (nc := if 2 * cap + 8 <? n then n else 2 * cap + 8).
  assert (Hnc : 0 < nc /\ nc * sz < 2 ^ 62 /\ n <= nc /\ cap < nc).
  { unfold nc. destruct (2 * cap + 8 <? n) eqn:E; lia. }
  destruct (set_capacity_spec nc) as (m' & r & E & V); [lia|lia|].
  exists m', r. split; auto. destruct r.
  - rewrite firstn_all2 in V by lia. replace (nc <? num) with false in V by lia. exists nc. split; auto. lia.
  - exists cap. split; auto. discriminate.
Qed.

Lemma skipn_elements k : (k <= length xs)%nat -> elements m (d + Z.of_nat k * sz) sz (length xs - k) = skipn k xs.
Proof.
  intros H. pose proof HA as (_ & _ & _ & _ & _ & _ & _ & _ & _ & Hel). apply (elements_split m d sz (length xs) xs k Hel H).
Qed.
Lemma firstn_elements k : (k <= length xs)%nat -> elements m d sz k = firstn k xs.
Proof.
  intros H. pose proof HA as (_ & _ & _ & _ & _ & _ & _ & _ & _ & Hel). apply (elements_split m d sz (length xs) xs k Hel H).
Qed.

Lemma pop_spec : xs <> [] -> exists m', array_pop m d = Ok m' /\ is_array sz m' h (removelast xs) cap.
Proof.
  intros Hx. pose proof HA as (Hbm & Hh & Hd & Hhi & Hdis & Hcap & Hcp & Hnum & Hle & Hel). fold d in Hd, Hhi, Hdis, Hcap, Hnum, Hel.
  assert (P2 : cap <= cap * sz) by nia.
  assert (length xs <> O) by (destruct xs; [congruence|discriminate]).
  assert (Hrl : removelast xs = firstn (length xs - 1) xs). { rewrite removelast_firstn_len. f_equal. lia. }
  unfold array_pop. unfold hdr_num. rewrite Hnum. replace (d =? 0) with false by lia.
  replace (Z.of_nat (length xs) >? 0) with true by lia.
  eexists. split; [reflexivity|].
  rewrite Hrl. apply (set_num_view (Z.of_nat (length xs) - 1)).
  - intros x _ H1 _. apply st64_out. lia.
  - apply st64_byte; auto.
  - unfold w64. rewrite Z.mod_small by lia. apply ld_st64. lia.
  - rewrite firstn_length. lia.
  - lia.
  - rewrite firstn_length, Nat.min_l by lia.
    rewrite <- firstn_elements by lia.
    apply elements_ext; [lia|]. intros i Hi. apply st64_out. lia.
Qed.
Lemma clear_spec : exists m', array_clear m d = Ok m' /\ is_array sz m' h [] cap.
Proof.
  pose proof HA as (Hbm & Hh & Hd & Hhi & Hdis & Hcap & Hcp & Hnum & Hle & Hel). fold d in Hd, Hhi, Hdis, Hcap, Hnum, Hel.
  unfold array_clear, hdr_num. replace (d =? 0) with false by lia. eexists. split; [reflexivity|].
  apply (set_num_view 0).
  - intros x _ H1 _. apply st64_out. lia.
  - apply st64_byte; auto.
  - apply ld_st64. lia.
  - reflexivity.
  - lia.
  - reflexivity.
Qed.

Lemma remove_at_spec i : 0 <= i < num -> exists m', array_remove_at sz m d i = Ok m' /\
  is_array sz m' h (firstn (Z.to_nat i) xs ++ skipn (Z.to_nat i + 1) xs) cap.
Proof.
  intros Hi. pose proof HA as (Hbm & Hh & Hd & Hhi & Hdis & Hcap & Hcp & Hnum & Hle & Hel). fold d in Hd, Hhi, Hdis, Hcap, Hnum, Hel.
  assert (P1 : num * sz <= cap * sz) by (apply Z.mul_le_mono_nonneg_r; lia).
  assert (P2 : num <= num * sz) by nia. assert (P3 : i * sz + sz <= num * sz) by nia. assert (P4 : 0 <= i * sz) by nia.
  unfold array_remove_at, hdr_num. rewrite Hnum. fold num. replace (d =? 0) with false by lia.
  replace (i <? num) with true by lia.
  destruct (mem_move_correct m (d + i * sz) (d + (i + 1) * sz) (sz * (num - i - 1)) Hbm) as (m1 & -> & Hm1); [nia|lia|].
  eexists. split; [reflexivity|].
  assert (Hlen : length (firstn (Z.to_nat i) xs ++ skipn (Z.to_nat i + 1) xs) = (length xs - 1)%nat).
  { rewrite app_length, firstn_length, skipn_length. lia. }
  apply (set_num_view (num - 1)).
  - intros x Ho H1 H2. rewrite st64_out by lia. rewrite Hm1.
    destruct (_ && _) eqn:E; [lia|auto].
  - apply st64_byte. intros x. rewrite Hm1. destruct (_ && _); apply Hbm.
  - unfold w64. rewrite Z.mod_small by lia. apply ld_st64. lia.
  - lia.
  - lia.
  - rewrite Hlen. replace (length xs - 1)%nat with (Z.to_nat i + (length xs - (Z.to_nat i + 1)))%nat by lia.
    rewrite elements_app. f_equal.
    + rewrite <- firstn_elements by lia. apply elements_ext; [lia|]. intros j Hj.
      rewrite st64_out by lia. rewrite Hm1. destruct (_ && _) eqn:E; [nia|auto].
    + rewrite <- skipn_elements by lia. apply elements_ext; [lia|]. intros j Hj.
      assert (j < (num - i - 1) * sz) by nia.
      rewrite st64_out by lia. rewrite Hm1. 
      replace (Z.of_nat (Z.to_nat i) * sz) with (i * sz) by lia.
      zb. f_equal. lia.
Qed.

Lemma store_elem_view m0 v k n : Z.of_nat (length v) = sz -> Forall (fun b => 0 <= b < 256) v -> (k < n)%nat ->
  elements (store_bytes m0 (d + Z.of_nat k * sz) v) d sz n =
  firstn k (elements m0 d sz n) ++ [v] ++ skipn (S k) (elements m0 d sz n).
Proof.
  intros Hl HF Hk.
  assert (HS : forall x, ~ (d + Z.of_nat k * sz <= x < d + Z.of_nat k * sz + sz) -> store_bytes m0 (d + Z.of_nat k * sz) v x = m0 x).
  { intros x Hx. rewrite store_bytes_spec by auto. destruct (_ && _) eqn:E; [lia|auto]. }
  replace n with (k + S (n - S k))%nat at 1 by lia. rewrite elements_app.
  destruct (elements_split m0 d sz n _ k eq_refl ltac:(lia)) as [<- _].
  destruct (elements_split m0 d sz n _ (S k) eq_refl ltac:(lia)) as [_ <-].
  f_equal.
  - apply elements_ext; [lia|]. intros i Hi. apply HS. lia.
  - replace (S (n - S k)) with (1 + (n - S k))%nat by lia. rewrite elements_app. f_equal.
    + unfold elements. cbn [seq map]. f_equal. replace (Z.to_nat sz) with (length v) by lia.
      rewrite Z.mul_0_l, Z.add_0_r. apply load_store_bytes; auto.
    + replace (d + Z.of_nat k * sz + Z.of_nat 1 * sz) with (d + Z.of_nat (S k) * sz) by lia.
      apply elements_ext; [lia|]. intros i Hi. apply HS. lia.
Qed.

Lemma append_room v : num < cap -> Z.of_nat (length v) = sz -> Forall (fun b => 0 <= b < 256) v ->
  is_array sz (st64 (store_bytes m (d + num * sz) v) (d - 8) (w64 (num + 1))) h (xs ++ [v]) cap.
Proof.
  intros Hr Hl HF. pose proof HA as (Hbm & Hh & Hd & Hhi & Hdis & Hcap & Hcp & Hnum & Hle & Hel). fold d in Hd, Hhi, Hdis, Hcap, Hnum, Hel.
  assert (P1 : num * sz + sz <= cap * sz) by nia. assert (P2 : cap <= cap * sz) by nia. assert (P3 : 0 <= num * sz) by nia.
  assert (HS : forall x, ~ (d + num * sz <= x < d + num * sz + sz) -> store_bytes m (d + num * sz) v x = m x).
  { intros x Hx. rewrite store_bytes_spec by auto. destruct (_ && _) eqn:E; [lia|auto]. }
  apply (set_num_view (num + 1)).
  - intros x Ho H1 H2. rewrite st64_out by lia. apply HS. lia.
  - apply st64_byte, store_bytes_byte; auto.
  - unfold w64. rewrite Z.mod_small by lia. apply ld_st64. lia.
  - rewrite app_length. cbn. lia.
  - lia.
  - rewrite app_length. cbn [length]. 
    transitivity (elements (store_bytes m (d + num * sz) v) d sz (length xs + 1)).
    + apply elements_ext; [lia|]. intros i Hi. apply st64_out. lia.
    + unfold num. rewrite store_elem_view by (auto; lia).
      rewrite skipn_all2 by (rewrite elements_len; lia). cbn [app]. f_equal.
      rewrite <- elements_prefix by lia. auto.
Qed.

Lemma fill_loop_spec v (HF : Forall (fun b => 0 <= b < 256) v) (Hl : Z.of_nat (length v) = sz) n :
  forall k m0, (k + n <= length xs)%nat ->
  byte_mem m0 ->
  let m1 := fill_loop sz n m0 d (Z.of_nat k) v in
  byte_mem m1 /\
  (forall x, ~ (d + Z.of_nat k * sz <= x < d + (Z.of_nat k + Z.of_nat n) * sz) -> m1 x = m0 x) /\
  elements m1 d sz (length xs) = firstn k (elements m0 d sz (length xs)) ++ repeat v n ++ skipn (k + n) (elements m0 d sz (length xs)).
Proof.
  induction n as [|n IH]; intros k m0 Hk Hb; cbn [fill_loop].
  - cbn zeta. split; auto. split; auto. cbn [repeat app]. rewrite Nat.add_0_r, firstn_skipn. auto.
  - replace (Z.of_nat k + 1) with (Z.of_nat (S k)) by lia.
    destruct (IH (S k) (store_bytes m0 (d + Z.of_nat k * sz) v)) as (B & F & E); [lia|apply store_bytes_byte; auto|].
    split; auto. split.
    + intros x Hx. rewrite F by nia. rewrite store_bytes_spec by auto. destruct (_ && _) eqn:E1; [nia|auto].
    + rewrite E. rewrite store_elem_view by (auto; lia).
      set (l := elements m0 d sz (length xs)). assert (Hlen : length l = length xs) by apply elements_len.
      assert (Hk2 : length (firstn k l) = k) by (rewrite firstn_length; lia).
      assert (E1 : firstn (S k) (firstn k l ++ [v] ++ skipn (S k) l) = firstn k l ++ [v]).
      { rewrite firstn_app, Hk2. rewrite (firstn_all2 (firstn k l)) by lia.
        replace (S k - k)%nat with 1%nat by lia. reflexivity. }
      assert (E2 : skipn (S k + n) (firstn k l ++ [v] ++ skipn (S k) l) = skipn (k + S n) l).
      { rewrite skipn_app, Hk2. rewrite (skipn_all2 (firstn k l)) by lia.
        replace (S k + n - k)%nat with (S n) by lia. cbn [app].
        change (skipn (S n) (v :: skipn (S k) l)) with (skipn n (skipn (S k) l)).
        rewrite skipn_skipn. f_equal. lia. }
      rewrite E1, E2. cbn [repeat]. rewrite <- app_assoc. reflexivity.
Qed.

Lemma fill_spec b e v : 0 <= b <= e -> e <= num -> Z.of_nat (length v) = sz -> Forall (fun b => 0 <= b < 256) v ->
  is_array sz (fill_loop sz (Z.to_nat (e - b)) m d b v) h
   (firstn (Z.to_nat b) xs ++ repeat v (Z.to_nat (e - b)) ++ skipn (Z.to_nat e) xs) cap.
Proof.
  intros Hbe He Hl HF. pose proof HA as (Hbm & Hh & Hd & Hhi & Hdis & Hcap & Hcp & Hnum & Hle & Hel). fold d in Hd, Hhi, Hdis, Hcap, Hnum, Hel.
  assert (P1 : num * sz <= cap * sz) by (apply Z.mul_le_mono_nonneg_r; lia).
  assert (P2 : 0 <= b * sz) by nia. assert (P3 : e * sz <= num * sz) by (apply Z.mul_le_mono_nonneg_r; lia).
  destruct (fill_loop_spec v HF Hl (Z.to_nat (e - b)) (Z.to_nat b) m ltac:(lia) Hbm) as (B & F & E).
  replace (Z.of_nat (Z.to_nat b)) with b in * by lia.
  replace (b + Z.of_nat (Z.to_nat (e - b))) with e in F by lia.
  replace (Z.to_nat b + Z.to_nat (e - b))%nat with (Z.to_nat e) in E by lia.
  rewrite Hel in E.
  assert (Hlen : length (firstn (Z.to_nat b) xs ++ repeat v (Z.to_nat (e - b)) ++ skipn (Z.to_nat e) xs) = length xs).
  { rewrite !app_length, firstn_length, repeat_length, skipn_length. lia. }
  apply (set_num_view num); rewrite ?Hlen; auto.
  - intros x Ho H1 H2. apply F. lia.
  - unfold num. rewrite <- Hnum. apply ld64_ext. intros x Hx. apply F. lia.
Qed.
End Step.

Lemma view_d sz m h xs cap : is_array sz m h xs cap -> ld64 m h <> 0 /\ ld64 m (ld64 m h - 16) = cap /\
  ld64 m (ld64 m h - 8) = Z.of_nat (length xs) /\ 0 < cap /\ cap * sz <= 2 ^ 60 - 32 /\ Z.of_nat (length xs) <= cap /\ byte_mem m
  /\ elements m (ld64 m h) sz (length xs) = xs.
Proof. intros (?&?&?&?&?&?&?&?&?&?). repeat (split; [solve [auto|lia]|]). auto. Qed.

Lemma step_spec sz (Hsz : 0 < sz < 2 ^ 32) m h xs cap al fr o :
  is_array sz m h xs cap -> alloc_respects sz m h al -> free_respects sz m h fr -> op_wf sz o ->
  (op_pre o xs /\ exists m' r xs' cap', arr_step al fr sz m h o = Ok (m', r) /\
     op_effect o xs r xs' /\ is_array sz m' h xs' cap') \/
  (~ op_pre o xs /\ arr_step al fr sz m h o = AssertFail).
Proof.
  intros HA Hal Hfr Hwf. pose proof (view_d _ _ _ _ _ HA) as (Hd & Hcap & Hnum & Hcp & Hcs & Hle & Hbm & Hel).
  destruct o as [v| | |i|b e v|n|n]; cbn [op_pre op_wf arr_step op_effect] in *.
  - left. split; auto. destruct Hwf as [[Hl HF] _].
    unfold array_append, hdr_cap, hdr_num. replace (ld64 m h =? 0) with false by lia. rewrite Hcap, Hnum.
    destruct (Z.of_nat (length xs) =? cap) eqn:E.
    + destruct (grow_spec sz Hsz al fr m h xs cap HA Hal Hfr cap) as (m1 & r & -> & cap' & V & Hr); [lia|lia|lia|].
      cbn [bind]. destruct r.
      * pose proof (view_d _ _ _ _ _ V) as (_ & _ & Hn1 & _ & _ & _). destruct (Hr eq_refl). rewrite Hn1.
        eexists _, true, _, cap'. split; [reflexivity|]. split; [reflexivity|].
        apply append_room; auto. lia.
      * eexists _, false, _, cap'. split; [reflexivity|]. split; [reflexivity|]. auto.
    + eexists _, true, _, cap. split; [reflexivity|]. split; [reflexivity|]. apply append_room; auto. lia.
  - destruct xs as [|x0 xs0] eqn:Ex; [right|left].
    + split; [congruence|]. unfold array_pop, hdr_num. rewrite Hnum. replace (ld64 m h =? 0) with false by lia. reflexivity.
    + split; [congruence|]. rewrite <- Ex in *. destruct (pop_spec sz Hsz m h xs cap HA) as (m' & -> & V); [congruence|].
      cbn [bind]. eexists _, _, _, _. split; [reflexivity|]. split; [split; reflexivity|]. exact V.
  - left. split; auto. destruct (clear_spec sz Hsz m h xs cap HA) as (m' & -> & V). cbn [bind].
    eexists _, _, _, _. split; [reflexivity|]. split; [split; reflexivity|]. exact V.
  - destruct Hwf as [_ Hi0]. destruct (Z_lt_ge_dec i (Z.of_nat (length xs))) as [H|H]; [left|right].
    + split; auto. destruct (remove_at_spec sz Hsz m h xs cap HA i) as (m' & -> & V); [lia|].
      cbn [bind]. eexists _, _, _, _. split; [reflexivity|]. split; [split; reflexivity|]. exact V.
    + split; [lia|]. unfold array_remove_at, hdr_num. rewrite Hnum. replace (ld64 m h =? 0) with false by lia.
      replace (i <? Z.of_nat (length xs)) with false by lia. reflexivity.
  - destruct Hwf as [[Hl HF] [Hb He]]. unfold array_fill, hdr_num. replace (ld64 m h =? 0) with false by lia. cbn [orb].
    rewrite Hnum. destruct (Z_le_gt_dec b e) as [Hbe|Hbe]; [left|right].
    + split; auto. replace (b <=? e) with true by lia. cbn [negb].
      destruct (e >? Z.of_nat (length xs)) eqn:E.
      * replace (e <=? Z.of_nat (length xs)) with false by lia. eexists _, _, _, _. split; [reflexivity|]. split; [split; reflexivity|]. eauto.
      * replace (e <=? Z.of_nat (length xs)) with true by lia. eexists _, _, _, _. split; [reflexivity|]. split; [split; reflexivity|].
        apply (fill_spec sz Hsz m h xs cap HA); auto; lia.
    + split; [lia|]. replace (b <=? e) with false by lia. reflexivity.
  - left. split; auto. destruct Hwf as [[Hn Hns] _].
    assert (FIN : forall m1 cap1, is_array sz m1 h xs cap1 -> n <= cap1 ->
      exists xs', length xs' = Z.to_nat n /\ firstn (length xs) xs' = firstn (Z.to_nat n) xs /\
      is_array sz (st64 m1 (ld64 m1 h - 8) n) h xs' cap1).
    { intros m1 cap1 V1 Hc1. pose proof (view_d _ _ _ _ _ V1) as (_ & _ & Hn1 & Hc0 & Hcs1 & Hle1 & Hb1 & Hel1).
      exists (elements m1 (ld64 m1 h) sz (Z.to_nat n)). rewrite elements_len. split; auto. split.
      - destruct (le_lt_dec (length xs) (Z.to_nat n)).
        + rewrite <- elements_prefix by lia. rewrite firstn_all2 by lia. auto.
        + rewrite firstn_all2 by (rewrite elements_len; lia). rewrite <- Hel1 at 1. apply elements_prefix. lia.
      - eapply set_num_view with (n := n) (m := m1) (xs := xs); rewrite ?elements_len; auto.
        + intros x _ H1 _. apply st64_out. lia.
        + apply st64_byte; auto.
        + apply ld_st64. nia.
        + lia.
        + apply elements_ext; [lia|]. intros j Hj. apply st64_out. lia. }
    unfold array_resize, hdr_cap, hdr_num. replace (ld64 m h =? 0) with false by lia. rewrite Hcap.
    destruct (cap <? n) eqn:E.
    + destruct (grow_spec sz Hsz al fr m h xs cap HA Hal Hfr n) as (m1 & r & -> & cap' & V & Hr); [lia|lia|lia|].
      cbn [bind]. destruct r.
      * destruct (Hr eq_refl). destruct (FIN m1 cap' V) as (xs' & H1 & H2 & H3); [lia|].
        eexists _, true, xs', cap'. split; [reflexivity|]. cbn beta iota. auto.
      * eexists _, false, xs, cap'. split; [reflexivity|]. cbn beta iota. auto.
    + destruct (FIN m cap HA) as (xs' & H1 & H2 & H3); [lia|].
      eexists _, true, xs', cap. split; [reflexivity|]. cbn beta iota. auto.
  - left. split; auto. destruct Hwf as [[Hn Hns] _].
    destruct (set_capacity_spec sz Hsz al fr m h xs cap HA Hal Hfr n) as (m' & r & -> & V); [lia|lia|].
    eexists _, r, _, _. split; [reflexivity|]. split; [reflexivity|]. exact V.
Qed.

Lemma env_view sz (Hsz : 0 < sz < 2 ^ 32) m h xs cap m1 : is_array sz m h xs cap -> byte_mem m1 ->
  (forall x, owned h (ld64 m h) (ld64 m (ld64 m h - 16)) sz x -> m1 x = m x) -> is_array sz m1 h xs cap.
Proof.
  intros HA Hb H. pose proof (view_d _ _ _ _ _ HA) as (Hd & Hcap & Hnum & Hcp & Hcs & Hle & Hbm & Hel).
  rewrite Hcap in H. 
  assert (P1 : Z.of_nat (length xs) * sz <= cap * sz) by (apply Z.mul_le_mono_nonneg_r; lia).
  apply (set_num_view sz Hsz m h xs cap HA (Z.of_nat (length xs))); auto.
  - rewrite <- Hnum. apply ld64_ext. intros x Hx. apply H. unfold owned. nia.
  - rewrite <- Hel at 2. apply elements_ext; [lia|]. intros i Hi. apply H. unfold owned. nia.
Qed.

Lemma history_spec sz (Hsz : 0 < sz < 2 ^ 32) h m tr m' : history sz h m tr m' ->
  forall xs cap, is_array sz m h xs cap -> exists xs' cap', is_array sz m' h xs' cap' /\ seq_history xs tr xs'.
Proof.
  induction 1 as [m|m m1 tr m2 Hb Hag Hh IH|m o al fr m1 r tr m2 Hwf Hal Hfr Hst Hh IH]; intros xs cap HA.
  - exists xs, cap. split; auto. constructor.
  - eapply IH, env_view; eauto.
  - destruct (step_spec sz Hsz m h xs cap al fr o HA Hal Hfr Hwf) as [(Hp & m'' & r' & xs1 & cap1 & E & He & V)|[_ E]].
    + rewrite E in Hst. injection Hst as -> ->. destruct (IH xs1 cap1 V) as (xs' & cap' & V' & Hs).
      exists xs', cap'. split; auto. econstructor; eauto.
    + congruence.
Qed.
