From Coq Require Import String ZArith List Bool Lia ZifyBool ZifyNat.
From Verif Require Import Common CommonProofs MemModel MemSpec MemPropProofs Text ArrayModel ArrayProofs StrOpsModel StrOpsSpec StrOpsProofs StrOpsProofs2 StrOpsProofs3 StrModel StrSpec StrProofs.
Import ListNotations.
Open Scope Z_scope.

Lemma step_spec m s t cap rs fuel o m1 s1 r t1 : is_builder m s t cap -> zlen t < 2 ^ 57 ->
  sb_step rs fuel m s o = Done (m1, s1, r) -> sb_effect m s cap rs fuel o t r t1 ->
  (exists cap1, is_builder m1 s1 t1 cap1) /\ (o <> SClear -> terminated m s t -> terminated m1 s1 t1).
Proof.
  intros HB Hl HS HE. destruct HE as [p n t t2 r SI SO RR|p t t2 r C SO RR Hf|other t t2 cap2 r B2 SO RR|t|cut cs t C Hf HA|t TM NZ Hf]; cbn [sb_step] in HS.
  - destruct SI as [-> _]. unfold strbuilder_append_str in HS.
    destruct (append_spec m s t cap p t2 rs HB Hl SO RR) as (m2 & s2 & ok & E & B & T1 & T2 & _). rewrite E in HS. injection HS as <- <- <-.
    split; auto. intros _ T. destruct ok; auto.
  - unfold strbuilder_append_c_str in HS. rewrite (p46_len m p t2) in HS; auto; [|destruct SO; lia]. cbn [of_opt rbind] in HS.
    destruct (append_spec m s t cap p t2 rs HB Hl SO RR) as (m2 & s2 & ok & E & B & T1 & T2 & _). rewrite E in HS. injection HS as <- <- <-.
    split; auto. intros _ T. destruct ok; auto.
  - unfold strbuilder_append_string in HS. destruct B2 as (_ & _ & _ & _ & L2 & _). unfold sb_length in HS. rewrite L2 in HS.
    destruct (append_spec m s t cap other t2 rs HB Hl SO RR) as (m2 & s2 & ok & E & B & T1 & T2 & _). rewrite E in HS. injection HS as <- <- <-.
    split; auto. intros _ T. destruct ok; auto.
  - injection HS as <- <-. split; [exists cap; apply (clear_spec' m s t cap HB)|congruence].
  - destruct (trim_spec m s t cap cut cs fuel HB C Hf) as (m2 & E & B & T & _). rewrite E in HS. cbn [rbind] in HS. injection HS as <- <-.
    split; [exists cap; auto|auto].
  - destruct (strip_spec m s t cap fuel HB TM NZ Hf) as (m2 & E & B & T & _). rewrite E in HS. cbn [rbind] in HS. injection HS as <- <-.
    split; [exists cap; auto|auto].
Qed.
Lemma env_builder m m1 s t cap : is_builder m s t cap -> byte_mem m1 -> (forall x, sb_owned s cap x -> m1 x = m x) -> is_builder m1 s t cap.
Proof.
  intros (Hm & Hs & Hc & Hcap & Hlen & Hl & Ht) B H. pose proof (zlen_nonneg t). unfold sb_owned in H. sp7; auto.
  - etransitivity; [|exact Hcap]. apply ld64_ext. intros; apply H; lia.
  - etransitivity; [|exact Hlen]. apply ld64_ext. intros; apply H; lia.
  - etransitivity; [|exact Ht]. apply load_bytes_ext. intros x Hx; apply H. unfold zlen in *. lia.
Qed.
Lemma history_builder m s t ops m2 s2 t2 : sb_history m s t ops m2 s2 t2 -> forall cap, is_builder m s t cap -> zlen t < 2 ^ 57 ->
  (exists cap2, is_builder m2 s2 t2 cap2) /\ (~ In SClear ops -> terminated m s t -> terminated m2 s2 t2).
Proof.
  induction 1 as [m s t|m m1 s t ops m2 s2 t2 B O H IH|m s t o rs fuel m1 s1 r t1 ops m2 s2 t2 S E L H IH]; intros cap HB HL.
  - split; [exists cap; auto|auto].
  - assert (Hcap : sb_capacity m s = cap) by apply HB. rewrite Hcap in O.
    destruct (IH cap) as [I1 I2]; auto; [apply (env_builder m m1 s t cap); auto|]. split; auto. intros N T. apply I2; auto.
    unfold terminated in *. rewrite O; auto. unfold sb_owned. destruct HB as (_ & _ & _ & _ & _ & HL2 & _). pose proof (zlen_nonneg t). lia.
  - assert (Hcap : sb_capacity m s = cap) by apply HB. rewrite Hcap in E.
    destruct (step_spec m s t cap rs fuel o m1 s1 r t1 HB HL S E) as [(cap1 & B1) T1]. destruct (IH cap1 B1 L) as [I1 I2]. split; auto.
    intros N T. apply I2; [intros C; apply N; right; auto|]. apply T1; auto. intros ->. apply N. left; auto.
Qed.

(** ** construction *)
Lemma to_s32_id z : - 2 ^ 31 <= z < 2 ^ 31 -> to_s32 z = z.
Proof. intros H. unfold to_s32. rewrite Z.mod_small; lia. Qed.
Lemma make_length_core m src t al m1 p : byte_mem m1 -> 0 < src -> load_bytes m1 src (length t) = t -> zlen t < 2 ^ 31 - 33 ->
  al m (SB_HEADER + zlen t + 1) = (m1, p) -> 0 < p -> p + (SB_HEADER + zlen t + 1) <= 2 ^ 60 ->
  (forall x, src <= x < src + zlen t -> ~ (p <= x < p + (SB_HEADER + zlen t + 1))) ->
  exists m2, strbuilder_make_length al m src (zlen t) = Done (m2, p + 32) /\ is_builder m2 (p + 32) t (zlen t) /\ terminated m2 (p + 32) t /\
    forall x, ~ (p <= x < p + 33 + zlen t) -> m2 x = m1 x.
Proof.
  intros B1 Hs Ht Hn EA P1 P2 P3. pose proof (zlen_nonneg t). unfold strbuilder_make_length. rewrite to_s32_id by (unfold SB_HEADER; lia). rewrite EA.
  replace (p =? 0) with false by lia. unfold SB_HEADER in *.
  set (s := p + 32) in *. set (m2 := sb_set_length (sb_set_capacity m1 s (zlen t)) s (zlen t)).
  assert (B2 : byte_mem m2) by (unfold m2, sb_set_length, sb_set_capacity; apply st64_byte, st64_byte; auto).
  assert (O2 : forall x, ~ (s - 16 <= x < s) -> m2 x = m1 x) by (intros x Hx; unfold m2, sb_set_length, sb_set_capacity; rewrite !st64_out by lia; auto).
  assert (K : exists m3, (if negb (zlen t =? 0) && negb (src =? 0) then mem_copy_s m2 s src (zlen t) else of_opt (mem_set m2 s 0 (32 + zlen t + 1 - 32))) = Done m3 /\
     byte_mem m3 /\ load_bytes m3 s (length t) = t /\ forall x, ~ (s <= x <= s + zlen t) -> m3 x = m2 x).
  { destruct (Z.eq_dec (zlen t) 0) as [Z0|N0].
    - rewrite Z0 in *. cbn [Z.eqb negb andb]. destruct (p04 m2 s 0 (32 + 0 + 1 - 32) ltac:(lia) ltac:(lia) ltac:(lia)) as (m3 & W & F1 & F2). exists m3. rewrite W. cbn [of_opt]. split; auto. split; [|split].
      + intros x. destruct (Z.eq_dec x s) as [->|]; [rewrite F1 by lia; lia|rewrite F2 by lia; apply B2].
      + destruct t; [reflexivity|rewrite zlen_cons in Z0; pose proof (zlen_nonneg t); lia].
      + intros x Hx. apply F2. lia.
    - replace (negb (zlen t =? 0) && negb (src =? 0)) with true by lia. unfold mem_copy_s, mem_copy. replace (zlen t <? 0) with false by lia. replace (s =? 0) with false by lia.
      eexists. split; [reflexivity|]. split; [apply copy_region_byte; auto|]. split.
      + etransitivity; [|exact Ht]. apply load_bytes_shift. intros i Hi. unfold copy_region. replace ((s <=? s + i) && (s + i <? s + zlen t)) with true by (unfold zlen; lia).
        replace (src + (s + i - s)) with (src + i) by lia. apply O2. specialize (P3 (src + i) ltac:(unfold zlen; lia)). lia.
      + intros x Hx. unfold copy_region. replace ((s <=? x) && (x <? s + zlen t)) with false by lia. auto. }
  destruct K as (m3 & -> & B3 & T3 & O3). cbn [rbind]. eexists. split; [reflexivity|].
  assert (O4 : forall x, x <> s + zlen t -> store8 m3 (s + zlen t) 0 x = m3 x) by (intros x Hx; unfold store8; replace (x =? s + zlen t) with false by lia; auto).
  split; [|split; [apply store8_eq|]].
  - sp7; try lia.
    + apply store8_byte; auto.
    + rewrite (ld64_ext _ m2); [|intros; rewrite O4, O3 by lia; auto]. unfold m2, sb_set_length, sb_set_capacity. rewrite ld_st64_other by lia. apply ld_st64. lia.
    + rewrite (ld64_ext _ m2); [|intros; rewrite O4, O3 by lia; auto]. unfold m2, sb_set_length. apply ld_st64. lia.
    + etransitivity; [|exact T3]. apply load_bytes_ext. intros x Hx. apply O4. unfold zlen. lia.
  - intros x Hx. rewrite O4, O3, O2 by lia. auto.
Qed.
Lemma make_length_spec m src t al : byte_mem m -> 0 < src -> load_bytes m src (length t) = t -> zlen t < 2 ^ 31 - 33 -> alloc_ok m src (zlen t) al ->
  exists m1 s, strbuilder_make_length al m src (zlen t) = Done (m1, s) /\ (s = 0 \/ (is_builder m1 s t (zlen t) /\ terminated m1 s t)).
Proof.
  intros Hm Hs Ht Hn HA. pose proof (zlen_nonneg t). specialize (HA (SB_HEADER + zlen t + 1)).
  destruct (al m (SB_HEADER + zlen t + 1)) as [m1 p] eqn:EA. destruct HA as (B1 & SRC & P).
  destruct P as [->|(P1 & P2 & P3)].
  - unfold strbuilder_make_length. rewrite to_s32_id by (unfold SB_HEADER; lia). rewrite EA. cbn [Z.eqb]. eauto.
  - destruct (make_length_core m src t al m1 p B1 Hs) as (m2 & E & B & T & _); auto.
    + etransitivity; [|exact Ht]. apply load_bytes_ext. intros x Hx. apply SRC. unfold zlen. lia.
    + exists m2, (p + 32). auto.
Qed.
Lemma make_reserve_spec m cap al : byte_mem m -> 0 <= cap < 2 ^ 31 - 33 -> alloc_ok m 0 0 al ->
  exists m1 s, strbuilder_make_reserve al m cap = Done (m1, s) /\ (s = 0 \/ (is_builder m1 s [] cap /\ terminated m1 s [])).
Proof.
  intros Hm Hn HA. unfold strbuilder_make_reserve. rewrite to_s32_id by (unfold SB_HEADER; lia).
  specialize (HA (SB_HEADER + cap + 1)). destruct (al m (SB_HEADER + cap + 1)) as [m1 p]. destruct HA as (B1 & _ & P).
  destruct (p =? 0) eqn:E0; [exists m1, 0; split; auto|]. destruct P as [P|(P1 & P2 & _)]; [lia|]. unfold SB_HEADER in *.
  destruct (p04 m1 p 0 (32 + cap + 1) ltac:(lia) ltac:(lia) ltac:(lia)) as (m2 & -> & F1 & F2). cbn [of_opt rbind].
  assert (B2 : byte_mem m2). { intros x. destruct (Z_lt_ge_dec x p); [rewrite F2 by lia; apply B1|]. destruct (Z_lt_ge_dec x (p + (32 + cap + 1))); [rewrite F1 by lia; lia|rewrite F2 by lia; apply B1]. }
  do 2 eexists. split; [reflexivity|]. right. split.
  - change 0 with (zlen (@nil Z)) at 1. apply set_len_builder; try lia; auto.
    + unfold sb_set_capacity. apply st64_byte; auto.
    + unfold sb_set_capacity. apply ld_st64. lia.
    + unfold zlen; cbn; lia.
  - unfold terminated, sb_set_length, sb_set_capacity. change (zlen (@nil Z)) with 0. rewrite !st64_out by lia. apply F1. lia.
Qed.

(** ** predicates *)
Lemma equal_loop_spec : forall n m a b, equal_loop n m a b = true <-> load_bytes m a n = load_bytes m b n.
Proof.
  induction n as [|n IH]; intros m a b; cbn [equal_loop]; [tauto|]. rewrite !load_bytes_cons. destruct (Z.eqb_spec (m a) (m b)) as [E|N].
  - rewrite IH. split; [intros ->; congruence|intros H; injection H; auto].
  - split; [discriminate|intros H; injection H; intros; contradiction].
Qed.
Lemma p19_equal m lp ll lt rp rl rt : str_is m lp ll lt -> str_is m rp rl rt -> (str_are_equal m lp ll rp rl = true <-> lt = rt).
Proof.
  intros [-> L1] [-> L2]. unfold str_are_equal. destruct (zlen lt =? zlen rt) eqn:E; cbn [negb].
  - rewrite equal_loop_spec. unfold zlen in *. rewrite Nat2Z.id. rewrite L1. replace (length lt) with (length rt) by lia. rewrite L2. tauto.
  - split; [discriminate|]. intros ->. lia.
Qed.
Lemma builder_str m s t cap : is_builder m s t cap -> str_is m s (sb_length m s) t.
Proof. intros (_ & _ & _ & _ & L & _ & T). split; auto. Qed.
Lemma until_nul_nonul l : Forall (fun b => b <> 0) l -> until_nul l = l.
Proof. induction 1 as [|b l Hb HF IH]; cbn; auto. replace (b =? 0) with false by lia. congruence. Qed.
Lemma until_nul_full l : length (until_nul l) = length l -> until_nul l = l.
Proof.
  assert (LE : forall l, (length (until_nul l) <= length l)%nat) by (clear; induction l as [|b l IH]; cbn; [lia|destruct (b =? 0); cbn; lia]).
  induction l as [|b l IH]; cbn; auto. destruct (b =? 0); cbn; [lia|]. intros H. f_equal. apply IH. lia.
Qed.
(** comparing [len sub] bytes with a NUL-free [sub] *)
Lemma cmp_sub m p sub st : load_bytes m sub (length st) = st -> Forall (fun b => b <> 0) st ->
  exists c, c_str_compare_len m p sub (zlen st) = Some c /\ ((c =? 0) = true <-> load_bytes m p (length st) = st).
Proof.
  intros L NZ. destruct (p46_compare_len m p sub (zlen st) (zlen_nonneg st)) as (c & E & H & _). exists c. split; auto.
  unfold zlen in H. rewrite Nat2Z.id, L, (until_nul_nonul st NZ) in H. rewrite Z.eqb_eq, H. split.
  - intros U. rewrite until_nul_full in U; auto. rewrite U, load_bytes_len. auto.
  - intros ->. apply until_nul_nonul. auto.
Qed.
Lemma load_sub m p t i n : load_bytes m p (length t) = t -> (i + n <= length t)%nat -> load_bytes m (p + Z.of_nat i) n = firstn n (skipn i t).
Proof.
  intros L H. rewrite <- L. replace (length t) with (i + (n + (length t - i - n)))%nat by lia. rewrite load_bytes_app, load_bytes_app.
  rewrite skipn_app. rewrite (skipn_all2 (load_bytes m p i)) by (rewrite load_bytes_len; lia). rewrite load_bytes_len, Nat.sub_diag. cbn [skipn app].
  rewrite firstn_app, load_bytes_len, Nat.sub_diag. cbn [firstn]. rewrite app_nil_r. rewrite firstn_all2; auto. rewrite load_bytes_len. lia.
Qed.
Lemma contains_loop_spec m sub st : load_bytes m sub (length st) = st -> Forall (fun b => b <> 0) st ->
  forall n p, exists r, contains_loop n m p sub (zlen st) = Some r /\
    (r = true <-> exists i, (i < n)%nat /\ load_bytes m (p + Z.of_nat i) (length st) = st).
Proof.
  intros L NZ. induction n as [|n IH]; intros p; cbn [contains_loop].
  - exists false. split; auto. split; [discriminate|]. intros (i & Hi & _). lia.
  - destruct (cmp_sub m p sub st L NZ) as (c & -> & HC). destruct (c =? 0) eqn:C.
    + exists true. split; auto. split; auto. intros _. exists 0%nat. split; [lia|]. replace (p + Z.of_nat 0) with p by lia. tauto.
    + destruct (IH (p + 1)) as (r & -> & HR). exists r. split; auto. rewrite HR. split.
      * intros (i & Hi & E). exists (S i). split; [lia|]. replace (p + Z.of_nat (S i)) with (p + 1 + Z.of_nat i) by lia. auto.
      * intros (i & Hi & E). destruct i as [|i]; [replace (p + Z.of_nat 0) with p in E by lia; rewrite <- HC in E; discriminate|].
        exists i. split; [lia|]. replace (p + 1 + Z.of_nat i) with (p + Z.of_nat (S i)) by lia. auto.
Qed.
Lemma p19_contains m p l t sub subl st : str_is m p l t -> str_is m sub subl st -> Forall (fun b => b <> 0) st ->
  exists r, str_contains m p l sub subl = Some r /\ (r = true <-> is_substring st t).
Proof.
  intros [-> L1] [-> L2] NZ. unfold str_contains. destruct (zlen st >? zlen t) eqn:E.
  - exists false. split; auto. split; [discriminate|]. intros (a & b & ->). rewrite !zlen_app in E. pose proof (zlen_nonneg a). pose proof (zlen_nonneg b). lia.
  - destruct (contains_loop_spec m sub st L2 NZ (Z.to_nat (zlen t - zlen st + 1)) p) as (r & -> & H). exists r. split; auto. rewrite H. unfold zlen in *. split.
    + intros (i & Hi & EQ). rewrite (load_sub m p t) in EQ by (auto; lia). exists (firstn i t), (skipn (length st) (skipn i t)).
      rewrite <- EQ at 1. rewrite firstn_skipn, firstn_skipn. auto.
    + intros (a & b & ->). exists (length a). split; [rewrite !app_length in E |- *; lia|]. rewrite (load_sub m p (a ++ st ++ b)) by (auto; rewrite !app_length; lia).
      rewrite skipn_app, skipn_all, Nat.sub_diag. cbn [skipn app]. rewrite firstn_app, firstn_all, Nat.sub_diag. cbn [firstn]. apply app_nil_r.
Qed.
Lemma p19_starts m p l t sub subl st : str_is m p l t -> str_is m sub subl st -> Forall (fun b => b <> 0) st ->
  exists r, str_starts_with m p l sub subl = Some r /\ (r = true <-> is_prefix st t).
Proof.
  intros [-> L1] [-> L2] NZ. unfold str_starts_with. destruct (zlen st >? zlen t) eqn:E.
  - exists false. split; auto. split; [discriminate|]. intros (b & ->). rewrite !zlen_app in E. pose proof (zlen_nonneg b). lia.
  - destruct (cmp_sub m p sub st L2 NZ) as (c & -> & HC). eexists. split; [reflexivity|]. rewrite HC. unfold zlen in E.
    replace p with (p + Z.of_nat 0) by lia. rewrite (load_sub m p t 0) by (auto; lia). cbn [skipn]. split.
    + intros F. exists (skipn (length st) t). rewrite <- F at 1. rewrite firstn_skipn. auto.
    + intros (b & ->). rewrite firstn_app, firstn_all, Nat.sub_diag. cbn [firstn]. apply app_nil_r.
Qed.

(** ** join *)
Fixpoint joined (parts : list (list Z)) (glue : list Z) : list Z :=
  match parts with [] => [] | [p] => p | p :: rest => p ++ glue ++ joined rest glue end.
Lemma appends_concat m s ts m2 s2 : sb_appends m s ts m2 s2 -> forall t cap, is_builder m s t cap -> zlen t + zlen (concat ts) < 2 ^ 57 -> terminated m s t ->
  (exists cap2, is_builder m2 s2 (t ++ concat ts) cap2) /\ terminated m2 s2 (t ++ concat ts).
Proof.
  induction 1 as [m s|m m1 s ts m2 s2 BM F HA IH|m s t2 p rs m1 s1 ts m2 s2 SO RR E HA IH]; intros t cap B HL T.
  - cbn [concat]. rewrite app_nil_r. split; [exists cap|]; auto.
  - assert (HB := B). destruct B as (_ & _ & _ & C & _). unfold sb_capacity in F. rewrite C in F.
    pose proof (env_builder m m1 s t cap HB BM F) as B1. eapply IH; eauto.
    unfold terminated in *. rewrite F; auto. destruct HB as (_ & _ & _ & _ & _ & LC & _). pose proof (zlen_nonneg t). unfold sb_owned. lia.
  - assert (HB := B). destruct B as (_ & _ & _ & C & _). unfold sb_capacity in SO, RR. rewrite C in SO, RR.
    cbn [concat] in *. rewrite zlen_app in HL. pose proof (zlen_nonneg t2). pose proof (zlen_nonneg (concat ts)).
    destruct (append_spec m s t cap p t2 rs HB ltac:(lia) SO RR) as (m3 & s3 & ok & E3 & (cap3 & B3) & T3 & _).
    unfold strbuilder_append_str in E. rewrite E in E3. injection E3 as <- <- <-.
    rewrite app_assoc. eapply IH; eauto. rewrite zlen_app. lia.
Qed.
Lemma p19_builders m a ta ca b tb cb : is_builder m a ta ca -> is_builder m b tb cb ->
  (strbuilder_are_equal_string m a b = true <-> ta = tb) /\
  (Forall (fun b => b <> 0) tb -> exists r, strbuilder_contains_string m a b = Some r /\ (r = true <-> is_substring tb ta)).
Proof.
  intros A B. apply builder_str in A, B. split.
  - exact (p19_equal m _ _ _ _ _ _ A B).
  - intros NZ. exact (p19_contains m _ _ _ _ _ _ A B NZ).
Qed.
Lemma p19_builder_str m a ta ca p l t : is_builder m a ta ca -> str_is m p l t ->
  (strbuilder_are_equal_str m a p l = true <-> ta = t) /\
  (Forall (fun b => b <> 0) t -> (exists r, strbuilder_contains_StrC m a p l = Some r /\ (r = true <-> is_substring t ta)) /\
     (exists r, strbuilder_starts_with_str m a p l = Some r /\ (r = true <-> is_prefix t ta))).
Proof.
  intros A B. apply builder_str in A. split.
  - exact (p19_equal m _ _ _ _ _ _ A B).
  - intros NZ. split; [exact (p19_contains m _ _ _ _ _ _ A B NZ)|exact (p19_starts m _ _ _ _ _ _ A B NZ)].
Qed.
Lemma p19_builder_starts_partial m a ta ca b tb cb : is_builder m a ta ca -> is_builder m b tb cb -> tb <> [] -> Forall (fun b => b <> 0) tb ->
  exists r, strbuilder_starts_with_string m a b = Some r /\ (r = true <-> zlen tb <= zlen ta /\ is_prefix (removelast tb) ta).
Proof.
  intros A B NE NZ. apply builder_str in A, B. destruct A as [LA TA], B as [LB TB]. unfold strbuilder_starts_with_string. rewrite LA, LB.
  destruct (zlen tb >? zlen ta) eqn:E.
  - exists false. split; auto. split; [discriminate|]. lia.
  - pose proof (app_removelast_last 0 NE) as ET. set (u := removelast tb) in *.
    assert (LU : zlen tb - 1 = zlen u) by (rewrite ET, zlen_app; unfold zlen; cbn [length]; lia).
    assert (TU : load_bytes m b (length u) = u).
    { replace b with (b + Z.of_nat 0) by lia. rewrite (load_sub m b tb 0) by (auto; unfold zlen in LU; lia). cbn [skipn]. rewrite ET, firstn_app, firstn_all, Nat.sub_diag. cbn [firstn]. apply app_nil_r. }
    assert (NU : Forall (fun b => b <> 0) u) by (rewrite ET in NZ; apply Forall_app in NZ; tauto).
    destruct (p19_starts m a (zlen ta) ta b (zlen u) u (conj eq_refl TA) (conj eq_refl TU) NU) as (r & ER & HR).
    unfold str_starts_with in ER. replace (zlen u >? zlen ta) with false in ER by lia. rewrite LU, ER. exists r. split; auto. rewrite HR. split; [|tauto]. split; auto; lia.
Qed.
Lemma drop_while_split f l : exists a, l = a ++ drop_while f l /\ forallb f a = true.
Proof.
  induction l as [|b l (a & E & F)]; cbn; [exists []; auto|]. destruct (f b) eqn:H; [|exists []; auto].
  exists (b :: a). cbn [app forallb]. rewrite H, <- E. auto.
Qed.
Lemma drop_while_head f l : match drop_while f l with [] => True | b :: _ => f b = false end.
Proof. induction l as [|b l IH]; cbn; auto. destruct (f b) eqn:E; auto. Qed.
Lemma forallb_rev (f : Z -> bool) l : forallb f (rev l) = forallb f l.
Proof. induction l; cbn; auto. rewrite forallb_app. cbn. rewrite IHl, andb_true_r, andb_comm. auto. Qed.
Lemma trimmed_middle f t : exists a b, t = a ++ trimmed f t ++ b /\ forallb f a = true /\ forallb f b = true.
Proof.
  destruct (drop_while_split f t) as (a & E & F). destruct (drop_while_split f (rev (drop_while f t))) as (b & E2 & F2).
  exists a, (rev b). rewrite forallb_rev. split; auto. unfold trimmed. rewrite <- rev_app_distr, <- E2, rev_involutive. auto.
Qed.
Lemma trimmed_ends f t : match trimmed f t with [] => forallb f t = true | b :: _ => f b = false /\ f (last (trimmed f t) b) = false end.
Proof.
  destruct (trimmed_middle f t) as (a & b & E & Fa & Fb). destruct (trimmed f t) as [|x l] eqn:T.
  - rewrite E. cbn [app]. rewrite forallb_app, Fa, Fb. auto.
  - split.
    + unfold trimmed in T. destruct (drop_while_split f (rev (drop_while f t))) as (c & E2 & _). 
      pose proof (f_equal (@rev Z) E2) as E3. rewrite rev_involutive, rev_app_distr, T in E3. cbn [app] in E3.
      pose proof (drop_while_head f t) as H. rewrite E3 in H. auto.
    + unfold trimmed in T. pose proof (drop_while_head f (rev (drop_while f t))) as H.
      destruct (drop_while f (rev (drop_while f t))) as [|y l2] eqn:D; [discriminate|]. cbn [rev] in T. rewrite <- T, last_last. auto.
Qed.
