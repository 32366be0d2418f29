From Coq Require Import String ZArith List Bool Lia ZifyBool ZifyNat.
From Verif Require Import Common CommonProofs MemModel MemSpec MemPropProofs Text ArrayModel ArrayProofs StrOpsModel StrOpsSpec StrOpsProofs StrOpsProofs2 StrOpsProofs3 StrModel StrSpec.
Import ListNotations.
Open Scope Z_scope.
Ltac sp7 := unfold is_builder; refine (conj _ (conj _ (conj _ (conj _ (conj _ (conj _ _)))))).

Lemma load_bytes_bytes m a n : byte_mem m -> Forall (fun b => 0 <= b < 256) (load_bytes m a n).
Proof. intros H. unfold load_bytes. rewrite Forall_map. apply Forall_forall. intros; apply H. Qed.

(** setting the length once the text is in place *)
Lemma set_len_builder m s t cap : byte_mem m -> 32 < s -> s + cap < 2 ^ 60 -> ld64 m (s - 16) = cap -> zlen t <= cap ->
  load_bytes m s (length t) = t -> is_builder (sb_set_length m s (zlen t)) s t cap.
Proof.
  intros Hm Hs Hc Hcap Hl Ht. pose proof (zlen_nonneg t). unfold sb_set_length. sp7; auto.
  - apply st64_byte; auto.
  - rewrite ld_st64_other by lia. auto.
  - apply ld_st64. lia.
  - etransitivity; [|exact Ht]. apply load_bytes_ext. intros x Hx. rewrite st64_out by lia. auto.
Qed.

Lemma copy_region_byte m d s n : byte_mem m -> byte_mem (copy_region m d s n).
Proof. intros H x. unfold copy_region. destruct (_ && _); apply H. Qed.

Lemma append_finish m s t cap src t2 : is_builder m s t cap -> load_bytes m src (length t2) = t2 -> apart s cap src (zlen t2) ->
  zlen t + zlen t2 <= cap ->
  let m1 := sb_set_length (store8 (copy_region m (s + zlen t) src (zlen t2)) (s + zlen t + zlen t2) 0) s (zlen t + zlen t2) in
  is_builder m1 s (t ++ t2) cap /\ terminated m1 s (t ++ t2) /\ (forall x, ~ sb_owned s cap x -> m1 x = m x).
Proof.
  intros (Hm & Hs & Hc & Hcap & Hlen & Hl & Ht) H2 HA Hfit. pose proof (zlen_nonneg t). pose proof (zlen_nonneg t2). cbv zeta.
  rewrite <- zlen_app.
  set (m0 := store8 (copy_region m (s + zlen t) src (zlen t2)) (s + zlen t + zlen t2) 0).
  assert (B0 : byte_mem m0) by (apply store8_byte, copy_region_byte; auto).
  assert (OUT : forall x, ~ (s + zlen t <= x <= s + zlen t + zlen t2) -> m0 x = m x).
  { intros x Hx. unfold m0, store8. replace (x =? s + zlen t + zlen t2) with false by lia.
    unfold copy_region. replace ((s + zlen t <=? x) && (x <? s + zlen t + zlen t2)) with false by lia. auto. }
  assert (T0 : load_bytes m0 s (length (t ++ t2)) = t ++ t2).
  { rewrite app_length, load_bytes_app. f_equal.
    - etransitivity; [|exact Ht]. apply load_bytes_ext. intros x Hx. apply OUT. unfold zlen in *. lia.
    - etransitivity; [|exact H2]. apply load_bytes_shift. intros i Hi. unfold m0, store8. replace (s + Z.of_nat (length t) + i =? s + zlen t + zlen t2) with false by (unfold zlen; lia).
      unfold copy_region. replace ((s + zlen t <=? s + Z.of_nat (length t) + i) && (s + Z.of_nat (length t) + i <? s + zlen t + zlen t2)) with true by (unfold zlen; lia).
      f_equal. unfold zlen. lia. }
  split; [|split].
  - apply set_len_builder; auto.
    + etransitivity; [|exact Hcap]. apply ld64_ext. intros x Hx. apply OUT. lia.
    + rewrite zlen_app. lia.
  - unfold terminated, sb_set_length. rewrite st64_out by (rewrite zlen_app; lia). rewrite zlen_app. unfold m0. replace (s + (zlen t + zlen t2)) with (s + zlen t + zlen t2) by lia. apply store8_eq.
  - intros x Hx. unfold sb_owned in Hx. unfold sb_set_length. rewrite st64_out by lia. apply OUT. lia.
Qed.

Lemma make_space m s t cap src n rs : is_builder m s t cap -> 0 <= n < 2 ^ 57 -> zlen t < 2 ^ 57 -> apart s cap src n ->
  resize_respects m s cap src n rs ->
  exists m1 s1 ok, strbuilder_make_space_for rs m s n = (m1, s1, ok) /\
    (forall x, src <= x < src + n -> m1 x = m x) /\
    (ok = false -> s1 = s /\ is_builder m1 s t cap /\ (terminated m s t -> terminated m1 s t) /\ cap - zlen t < n) /\
    (ok = true -> exists cap1, is_builder m1 s1 t cap1 /\ zlen t + n <= cap1 /\ apart s1 cap1 src n) /\
    (n <= cap - zlen t -> m1 = m /\ s1 = s /\ ok = true).
Proof.
  intros HB Hn Htl HA HR. pose proof HB as (Hm & Hs & Hc & Hcap & Hlen & Hl & Ht). pose proof (zlen_nonneg t).
  unfold strbuilder_make_space_for, sb_avail_space, sb_capacity, sb_length. rewrite Hcap, Hlen.
  destruct (cap - zlen t >=? n) eqn:E.
  - exists m, s, true. split; [reflexivity|]. split; [auto|]. split; [congruence|]. split; [intros _; exists cap; split; [auto|split; [lia|auto]]|auto].
  - unfold strbuilder_grow_formula, w64. rewrite Z.mod_small by lia. unfold SB_HEADER.
    specialize (HR (32 + zlen t + 1) (32 + (4 * (zlen t + n) + 8) + 1) ltac:(lia) ltac:(lia)).
    destruct (rs m (s - 32) (32 + zlen t + 1) (32 + (4 * (zlen t + n) + 8) + 1)) as [m1 p]. destruct HR as (B1 & SRC & HR).
    destruct (p =? 0) eqn:P0.
    + exists m1, s, false. split; auto. split; auto. split; [intros _|split; [congruence|lia]]. unfold sb_owned in HR.
      split; [reflexivity|]. split; [|split; [|lia]].
      * sp7; auto.
        -- etransitivity; [|exact Hcap]. apply ld64_ext. intros; apply HR; lia.
        -- etransitivity; [|exact Hlen]. apply ld64_ext. intros; apply HR; lia.
        -- etransitivity; [|exact Ht]. apply load_bytes_ext. intros x Hx. apply HR. unfold zlen in *. lia.
      * unfold terminated. intros <-. apply HR. lia.
    + destruct HR as (Hp & Hpn & CP & DIS). exists (sb_set_capacity m1 (p + 32) (4 * (zlen t + n) + 8)), (p + 32), true.
      split; auto. split.
      { intros x Hx. unfold sb_set_capacity. rewrite st64_out; [auto|]. specialize (DIS x Hx). lia. }
      split; [congruence|]. split; [|lia].
      intros _. exists (4 * (zlen t + n) + 8). split; [|split; [lia|]].
      * unfold sb_set_capacity. sp7.
        -- apply st64_byte; auto. -- lia. -- lia. -- rewrite ld_st64; [auto|lia].
        -- rewrite ld_st64_other by lia. etransitivity; [|exact Hlen]. apply ld64_shift. intros i Hi.
           replace (p + 32 - 8 + i) with (p + (24 + i)) by lia. rewrite CP by lia. f_equal. lia.
        -- lia.
        -- etransitivity; [|exact Ht]. apply load_bytes_shift. intros i Hi. rewrite st64_out by lia.
           replace (p + 32 + i) with (p + (32 + i)) by lia. rewrite CP by (unfold zlen; lia). f_equal. lia.
      * intros x Hx. unfold sb_owned. specialize (DIS x Hx). lia.
Qed.

Lemma append_spec m s t cap src t2 rs : is_builder m s t cap -> zlen t < 2 ^ 57 -> source_ok m s cap src t2 ->
  resize_respects m s cap src (zlen t2) rs ->
  exists m1 s1 ok, strbuilder_append_c_str_len rs m s src (zlen t2) = Done (m1, s1, ok) /\
    (exists cap1, is_builder m1 s1 (if ok then t ++ t2 else t) cap1) /\
    (ok = true -> terminated m1 s1 (t ++ t2)) /\ (ok = false -> terminated m s t -> terminated m1 s1 t) /\
    (zlen t2 <= cap - zlen t -> ok = true /\ s1 = s /\ forall x, ~ sb_owned s cap x -> m1 x = m x).
Proof.
  intros HB Htl (Hsrc & Hl2 & Hn & HA) HR. pose proof HB as (Hm & Hs & Hc & Hcap & Hlen & Hl & Ht). pose proof (zlen_nonneg t). pose proof (zlen_nonneg t2).
  destruct (make_space m s t cap src (zlen t2) rs HB ltac:(lia) Htl HA HR) as (m1 & s1 & ok & E & SRC & F & T & R).
  unfold strbuilder_append_c_str_len. replace (src >? 0) with true by lia. rewrite E. unfold sb_length. rewrite Hlen.
  destruct ok.
  - destruct (T eq_refl) as (cap1 & HB1 & Hfit & HA1). pose proof HB1 as (Hm1 & Hs1 & Hc1 & Hcap1 & Hlen1 & Hl1 & Ht1).
    unfold mem_copy_s. replace (zlen t2 <? 0) with false by lia. unfold mem_copy. replace (s1 + zlen t =? 0) with false by lia. cbn [rbind].
    assert (L2 : load_bytes m1 src (length t2) = t2).
    { etransitivity; [|exact Hl2]. apply load_bytes_ext. intros x Hx. apply SRC. unfold zlen. lia. }
    destruct (append_finish m1 s1 t cap1 src t2 HB1 L2 HA1 Hfit) as (B & TM & O).
    do 3 eexists. split; [reflexivity|]. split; [exists cap1; exact B|]. split; [intros _; exact TM|]. split; [congruence|].
    intros Hr. destruct (R ltac:(lia)) as (-> & -> & _). rewrite Hcap in Hcap1. subst cap1. auto.
  - destruct (F eq_refl) as (-> & HB1 & TM & Hno). do 3 eexists. split; [reflexivity|].
    split; [exists cap; exact HB1|]. split; [congruence|]. split; [auto|]. lia.
Qed.

(** ** clear *)
Lemma clear_spec' m s t cap : is_builder m s t cap -> is_builder (strbuilder_clear m s) s [] cap /\ (forall x, ~ (s - 8 <= x < s) -> strbuilder_clear m s x = m x).
Proof.
  intros (Hm & Hs & Hc & Hcap & Hlen & Hl & Ht). unfold strbuilder_clear. pose proof (zlen_nonneg t). split.
  - apply (set_len_builder m s [] cap); auto. unfold zlen in *. cbn in *. lia.
  - intros x Hx. unfold sb_set_length. apply st64_out. lia.
Qed.

(** ** trim *)
Lemma in_cut_spec m cut cs c fuel : cstr m cut cs -> (length cs <= fuel)%nat -> in_cut fuel m cut c = Some ((c =? 0) || existsb (Z.eqb c) cs).
Proof. intros Hc Hf. unfold in_cut. rewrite (p46_first _ _ _ _ _ Hc Hf). unfold mem_z. cbn [option_map]. destruct ((c =? 0) || existsb (Z.eqb c) cs); auto. Qed.

Section Trim.
Variables (m : mem) (cut : Z) (cs : list Z) (cf : nat).
Hypothesis Hcut : cstr m cut cs.
Hypothesis Hcf : (length cs <= cf)%nat.
Notation f := (fun b => (b =? 0) || existsb (Z.eqb b) cs).
Lemma trim_front_spec : forall t s fuel, load_bytes m s (length t) = t -> (length t <= fuel)%nat ->
  trim_front fuel cf m cut s (s + zlen t - 1) = Some (s + (zlen t - zlen (drop_while f t))) /\
  exists a, t = a ++ drop_while f t.
Proof.
  induction t as [|b t IH]; intros s fuel Hl Hf.
  - unfold zlen. cbn [length drop_while]. split; [|exists []; auto]. destruct fuel; cbn [trim_front]; replace (s <=? s + Z.of_nat 0 - 1) with false by lia; eqz.
  - apply load_bytes_cons_inv in Hl as [E Hl]. pose proof (zlen_nonneg t). cbn [drop_while].
    assert (L : s <=? s + zlen (b :: t) - 1 = true) by (rewrite zlen_cons; lia).
    destruct (f b) eqn:C.
    + destruct fuel as [|fuel]; [cbn in Hf; lia|]. cbn [trim_front]. rewrite L, (in_cut_spec _ _ _ _ _ Hcut Hcf), E, C.
      destruct (IH (s + 1) fuel Hl ltac:(cbn in Hf; lia)) as (I1 & a & I2). rewrite zlen_cons.
      replace (s + (1 + zlen t) - 1) with (s + 1 + zlen t - 1) by lia. rewrite I1. split; [f_equal; lia|]. exists (b :: a). cbn [app]. f_equal. auto.
    + split; [|exists []; auto]. destruct fuel as [|fuel]; cbn [trim_front]; rewrite L, (in_cut_spec _ _ _ _ _ Hcut Hcf), E, C; f_equal; lia.
Qed.
Lemma trim_back_spec b : f b = false -> forall t s fuel, load_bytes m s (length (b :: rev t)) = b :: rev t -> (length t <= fuel)%nat ->
  trim_back fuel cf m cut s (s + zlen t) = Some (s + zlen (drop_while f t)).
Proof.
  intros Hb. induction t as [|c t IH]; intros s fuel Hl Hf.
  - unfold zlen. cbn [length drop_while]. destruct fuel; cbn [trim_back]; replace (s + Z.of_nat 0 >? s) with false by lia; auto.
  - assert (L : s + zlen (c :: t) >? s = true) by (rewrite zlen_cons; pose proof (zlen_nonneg t); lia).
    assert (LL : load_bytes m s (length (b :: rev t)) = b :: rev t /\ m (s + zlen (c :: t)) = c).
    { cbn [rev] in Hl. rewrite app_comm_cons in Hl. apply load_app in Hl as [H1 H2]. split; auto.
      apply load_bytes_cons_inv in H2 as [H2 _]. rewrite <- H2. f_equal. rewrite !zlen_cons. unfold zlen. rewrite rev_length. lia. }
    destruct LL as [LL E]. cbn [drop_while]. destruct (f c) eqn:C.
    + destruct fuel as [|fuel]; [cbn in Hf; lia|]. cbn [trim_back]. rewrite L, (in_cut_spec _ _ _ _ _ Hcut Hcf), E, C.
      replace (s + zlen (c :: t) - 1) with (s + zlen t) by (rewrite zlen_cons; lia). apply IH; auto. cbn in Hf. lia.
    + destruct fuel as [|fuel]; cbn [trim_back]; rewrite L, (in_cut_spec _ _ _ _ _ Hcut Hcf), E, C; auto.
Qed.
End Trim.
Lemma drop_while_hd f l : match drop_while f l with [] => True | b :: _ => f b = false end.
Proof. induction l as [|b l IH]; cbn; auto. destruct (f b) eqn:E; auto. Qed.
Lemma drop_while_snoc f l b : f b = false -> drop_while f (l ++ [b]) = drop_while f l ++ [b].
Proof. intros H. induction l as [|c l IH]; cbn; [rewrite H; auto|]. destruct (f c); auto. Qed.
Lemma drop_while_suffix f l : exists a, l = a ++ drop_while f l.
Proof. induction l as [|b l [a IH]]; cbn; [exists []; auto|]. destruct (f b); [exists (b :: a); cbn; f_equal; auto|exists []; auto]. Qed.

Lemma trim_spec m s t cap cut cs fuel : is_builder m s t cap -> cstr m cut cs -> (length cs <= fuel)%nat ->
  let t' := trimmed (fun b => (b =? 0) || existsb (Z.eqb b) cs) t in
  exists m1, strbuilder_trim fuel m s cut = Done m1 /\ is_builder m1 s t' cap /\ terminated m1 s t' /\
    (forall x, ~ sb_owned s cap x -> m1 x = m x).
Proof.
  intros HB Hcut Hcf t'. pose proof HB as (Hm & Hs & Hc & Hcap & Hlen & Hl & Ht). pose proof (zlen_nonneg t).
  set (f := fun b => (b =? 0) || existsb (Z.eqb b) cs) in *.
  unfold strbuilder_trim, sb_length. rewrite Hlen.
  destruct (trim_front_spec m cut cs fuel Hcut Hcf t s (S (Z.to_nat (zlen t))) Ht ltac:(unfold zlen; lia)) as (E1 & a & E2).
  fold f in E1, E2. rewrite E1. cbn [of_opt rbind]. set (u := drop_while f t) in *.
  assert (LA : zlen t - zlen u = zlen a) by (rewrite E2 at 1; rewrite zlen_app; lia).
  assert (LU : load_bytes m (s + zlen a) (length u) = u) by (rewrite E2 in Ht; apply load_app in Ht as [_ Ht]; auto).
  rewrite LA. pose proof (zlen_nonneg a). pose proof (zlen_nonneg u).
  (* the end pointer *)
  assert (K : exists fin, trim_back (S (Z.to_nat (zlen t))) fuel m cut (s + zlen a) (s + zlen t - 1) = Some fin /\
     (if s + zlen a >? fin then 0 else fin - (s + zlen a) + 1) = zlen t' /\ load_bytes m (s + zlen a) (length t') = t' /\ zlen t' <= zlen u).
  { pose proof (drop_while_hd f t) as HD. fold u in HD. unfold t', trimmed. fold u. destruct u as [|b u'].
    - exists (s + zlen t - 1). cbn [rev drop_while]. change (zlen (@nil Z)) with 0 in LA.
      cbn [trim_back]. replace (s + zlen t - 1 >? s + zlen a) with false by lia. replace (s + zlen a >? s + zlen t - 1) with true by lia.
      split; [reflexivity|]. split; [reflexivity|]. split; [reflexivity|]. change (zlen (@nil Z)) with 0. lia.
    - rewrite zlen_cons in *. cbn [rev]. rewrite drop_while_snoc, rev_app_distr by auto. cbn [rev app].
      pose proof (trim_back_spec m cut cs fuel Hcut Hcf b HD (rev u') (s + zlen a) (S (Z.to_nat (zlen t)))) as TB. fold f in TB.
      rewrite rev_involutive in TB. specialize (TB LU ltac:(rewrite rev_length; unfold zlen in *; lia)).
      assert (LR : zlen (rev u') = zlen u') by (unfold zlen; rewrite rev_length; auto).
      rewrite LR in TB. replace (s + zlen a + zlen u') with (s + zlen t - 1) in TB by lia. rewrite TB. eexists. split; [reflexivity|].
      destruct (drop_while_suffix f (rev u')) as (z & Z1). pose proof (zlen_nonneg (drop_while f (rev u'))).
      assert (LZ : zlen (rev (drop_while f (rev u'))) = zlen (drop_while f (rev u'))) by (unfold zlen; rewrite rev_length; auto).
      rewrite zlen_cons, LZ. split; [|split].
      + replace (s + zlen a >? s + zlen a + zlen (drop_while f (rev u'))) with false by lia. lia.
      + assert (U : b :: u' = (b :: rev (drop_while f (rev u'))) ++ rev z).
        { cbn [app]. f_equal. rewrite <- rev_app_distr, <- Z1, rev_involutive. auto. }
        rewrite U in LU. apply load_app in LU as [LU _]. exact LU.
      + pose proof (zlen_nonneg z). assert (zlen (rev u') = zlen z + zlen (drop_while f (rev u'))) by (rewrite Z1 at 1; apply zlen_app). lia. }
  destruct K as (fin & -> & KL & KT & KU). cbn [of_opt rbind]. rewrite KL. pose proof (zlen_nonneg t').
  assert (MV : exists m0, (if negb (s =? s + zlen a) then of_opt (mem_move m s (s + zlen a) (zlen t')) else Done m) = Done m0 /\
     moved_bytes m m0 s (s + zlen a) (zlen t') /\ byte_mem m0).
  { destruct (Z.eq_dec (zlen a) 0) as [Z0|N0].
    - replace (s =? s + zlen a) with true by lia. exists m. cbn [negb]. repeat split; auto. + intros. f_equal. lia. + apply Hm. + apply Hm.
    - replace (s =? s + zlen a) with false by lia. destruct (p05 m s (s + zlen a) (zlen t') Hm ltac:(lia) ltac:(lia)) as (m0 & W & M).
      exists m0. cbn [negb]. rewrite W. cbn [of_opt]. split; auto. split; auto. intros x. destruct M as [M1 M2].
      destruct (Z_lt_ge_dec x s); [rewrite M2 by lia; auto|]. destruct (Z_lt_ge_dec x (s + zlen t')); [|rewrite M2 by lia; auto].
      replace x with (s + (x - s)) by lia. rewrite M1 by lia. auto. }
  destruct MV as (m0 & -> & (M1 & M2) & B0). cbn [rbind]. eexists. split; [reflexivity|].
  assert (B1 : byte_mem (store8 m0 (s + zlen t') 0)) by (apply store8_byte; auto).
  split; [|split].
  - apply set_len_builder; auto; try lia.
    + etransitivity; [|exact Hcap]. apply ld64_ext. intros x Hx. unfold store8. replace (x =? s + zlen t') with false by lia. apply M2. lia.
    + etransitivity; [|exact KT]. apply load_bytes_shift. intros i Hi. unfold store8. replace (s + i =? s + zlen t') with false by (unfold zlen; lia). apply M1. unfold zlen. lia.
  - unfold terminated, sb_set_length. rewrite st64_out by lia. apply store8_eq.
  - intros x Hx. unfold sb_owned in Hx. unfold sb_set_length. rewrite st64_out by lia. unfold store8. replace (x =? s + zlen t') with false by lia. apply M2. lia.
Qed.

(** ** strip_space *)
Lemma filter_len {A} f (l : list A) : zlen (filter f l) <= zlen l.
Proof. unfold zlen. induction l as [|b l IH]; cbn [filter length]; [lia|]. destruct (f b); cbn [length]; lia. Qed.
Lemma strip_loop_spec : forall t m w r fuel, byte_mem m -> cstr m r t -> w <= r -> (length t <= fuel)%nat ->
  let t' := filter (fun b => negb (char_is_space b)) t in
  exists m1, strip_loop fuel m w r = Done (m1, w + zlen t') /\ load_bytes m1 w (length t') = t' /\ byte_mem m1 /\
     (forall x, ~ (w <= x < w + zlen t') -> m1 x = m x).
Proof.
  induction t as [|b t IH]; intros m w r fuel Hm Hc Hw Hf t'; subst t'.
  - pose proof (cstr_nil _ _ Hc) as E. exists m. cbn [filter]. change (zlen (@nil Z)) with 0. split; [|repeat split; auto; apply Hm].
    destruct fuel; cbn [strip_loop]; rewrite E; cbn [Z.eqb]; f_equal; eqz.
  - destruct (cstr_cons _ _ _ _ Hc) as (E & R & Hc'). destruct fuel as [|fuel]; [cbn in Hf; lia|]. cbn [strip_loop filter]. rewrite E.
    replace (b =? 0) with false by lia. destruct (char_is_space b); cbn [negb].
    + apply IH; auto; try lia. cbn in Hf. lia.
    + destruct (IH (store8 m w b) (w + 1) (r + 1) fuel) as (m1 & W & L & B & O).
      * apply store8_byte; auto.
      * apply (cstr_ext m); auto. intros x Hx. unfold store8. replace (x =? w) with false by lia. auto.
      * lia. * cbn in Hf. lia.
      * exists m1. rewrite zlen_cons. pose proof (zlen_nonneg (filter (fun b => negb (char_is_space b)) t)). split; [rewrite W; f_equal; eqz|]. split; [|split; auto].
        -- cbn [length]. rewrite load_bytes_cons, L. f_equal. rewrite O by lia. rewrite store8_eq, Z.mod_small by lia. auto.
        -- intros x Hx. rewrite O by lia. unfold store8. replace (x =? w) with false by lia. auto.
Qed.
Lemma strip_spec m s t cap fuel : is_builder m s t cap -> terminated m s t -> Forall (fun b => b <> 0) t -> (length t <= fuel)%nat ->
  let t' := filter (fun b => negb (char_is_space b)) t in
  exists m1, strbuilder_strip_space fuel m s = Done m1 /\ is_builder m1 s t' cap /\ terminated m1 s t' /\ (forall x, ~ sb_owned s cap x -> m1 x = m x).
Proof.
  intros HB HT HF Hf t'. pose proof HB as (Hm & Hs & Hc & Hcap & Hlen & Hl & Ht). pose proof (zlen_nonneg t).
  assert (C : cstr m s t).
  { split; [auto|]. split; [|apply HT]. pose proof (load_bytes_bytes m s (length t) Hm) as FB. rewrite Ht in FB. rewrite Forall_forall in *.
    intros x Hx. specialize (HF x Hx). specialize (FB x Hx). cbv beta in *. lia. }
  unfold strbuilder_strip_space. destruct (strip_loop_spec t m s s fuel Hm C ltac:(lia) Hf) as (m1 & W & L & B & O). fold t' in W, L, O. rewrite W. cbn [rbind].
  assert (LT : 0 <= zlen t' <= zlen t) by (split; [apply zlen_nonneg|apply filter_len]).
  eexists. split; [reflexivity|]. replace (s + zlen t' - s) with (zlen t') by lia. split; [|split].
  - apply set_len_builder; auto; try lia.
    + apply store8_byte; auto.
    + etransitivity; [|exact Hcap]. apply ld64_ext. intros x Hx. unfold store8. replace (x =? s + zlen t') with false by lia. apply O. lia.
    + etransitivity; [|exact L]. apply load_bytes_ext. intros x Hx. unfold store8. replace (x =? s + zlen t') with false by (unfold zlen; lia). auto.
  - unfold terminated, sb_set_length. rewrite st64_out by lia. apply store8_eq.
  - intros x Hx. unfold sb_owned in Hx. unfold sb_set_length. rewrite st64_out by lia. unfold store8. replace (x =? s + zlen t') with false by lia. apply O. lia.
Qed.
