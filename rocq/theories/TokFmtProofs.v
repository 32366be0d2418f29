From Coq Require Import String ZArith List Bool Lia ZifyBool ZifyNat.
From Verif Require Import Common CommonProofs Text ArrayModel ArrayProofs HashModel HashtableModel HashtableSpec HashtableProofs HashtablePropProofs
  StrOpsModel StrOpsSpec StrOpsProofs StrOpsProofs2 StrProofs InternProofs FmtProofs TokFmtModel TokFmtSpec.
Import ListNotations.
Open Scope Z_scope.

Ltac tup := repeat match goal with |- (_, _) = (_, _) => apply f_equal2 | |- Some _ = Some _ => apply f_equal | |- Done _ = Done _ => apply f_equal end; try lia; auto.
Lemma load_in m a t : load_bytes m a (length t) = t -> byte_mem m -> Forall (fun b => 0 <= b < 256) t.
Proof. intros H Hb. rewrite <- H. apply load_bytes_bytes. auto. Qed.

(** ** populate *)
Definition addr_run (f : Z -> option (Z * Z)) (toks : list tok) : Z -> option (Z * Z) :=
  fold_left (fun f t k => if k =? crc32 (t_name t) then Some (v_ptr t, zlen (v_text t)) else f k) toks f.
Definition tok_set (t : tok) : ht_op (Z * Z) := HSet (crc32 (t_name t)) (v_ptr t, zlen (v_text t)).
Lemma populate_ok fuel m buf size : byte_mem m -> forall toks t f, HashtablePropProofs.denotes t f -> Forall (tok_ok m buf size) toks ->
  Forall (fun t => (length (t_name t) <= fuel)%nat) toks ->
  exists t', populate fuel m t (map tok_arg toks) = Done t' /\ HashtablePropProofs.denotes t' (addr_run f toks) /\
    Forall ht_op_wf (map tok_set toks) /\ ht_run (Z * Z) (0, 0) t (map tok_set toks) = Some t'.
Proof.
  intros Hb. induction toks as [|k toks IH]; intros t f HD HF HL; [exists t; split; [|split; [|split]]; auto; constructor|].
  apply Forall_cons_iff in HF as [(H0 & HC & _) HF]. apply Forall_cons_iff in HL as [HL1 HL].
  unfold tok_arg. cbn [map populate]. rewrite (p46_len m (t_ptr k) (t_name k)) by auto. cbn [of_opt rbind].
  rewrite (Nat2Z.id (length (t_name k)) : Z.to_nat (zlen (t_name k)) = _). destruct HC as (C1 & _). rewrite C1.
  assert (W : @ht_op_wf (Z * Z) (tok_set k)) by (apply crc32_range; eapply load_in; eauto).
  destruct (step_denotes (0, 0) t f (tok_set k) HD W) as (t1 & E & HD1 & _).
  unfold tok_set in E. cbn [ht_step] in E. rewrite E. cbn [opt_run rbind].
  destruct (IH t1 _ HD1 HF HL) as (t2 & E2 & HD2 & F2 & R2). exists t2. split; auto. split; auto. split; [constructor; auto|].
  unfold ht_run in *. cbn [fold_left bindo tok_set ht_step]. rewrite E. auto.
Qed.

(** ** the loops *)
Lemma text_ok : forall p (m m0 : mem) buf fmt size fuel, byte_mem m -> (forall x, m0 x = m x) ->
  load_bytes m fmt (length p) = p -> Forall (fun b => 1 <= b < 256) p -> ~ In 60 p -> m (fmt + zlen p) = 0 \/ m (fmt + zlen p) = 60 ->
  zlen p <= size -> (length p <= fuel)%nat -> disjoint fmt (zlen p + 1) buf size ->
  exists m1, text_loop fuel m0 buf fmt size = Some (m1, buf + zlen p, fmt + zlen p, size - zlen p) /\ forall x, m1 x = put m buf p x.
Proof.
  unfold text_loop. induction p as [|b p IH]; intros m m0 buf fmt size fuel Hb Hm HL HC HN HE HS Hf HD.
  - exists m0. unfold zlen in *. cbn [length] in *. rewrite !Z.add_0_r in *. rewrite Z.sub_0_r. split; [|intros; rewrite put_nil; auto].
    assert (C : negb (m0 fmt =? 0) && negb (m0 fmt =? 60) && negb (size =? 0) = false) by (rewrite Hm; destruct HE as [-> | ->]; reflexivity).
    destruct fuel; cbn [while]; rewrite C; auto.
  - apply load_bytes_cons_inv in HL as [E1 E2]. rewrite zlen_cons in *. pose proof (zlen_nonneg p). pose proof (Forall_inv HC) as Hbb. cbv beta in Hbb.
    assert (b <> 60) by (intros ->; apply HN; left; auto). destruct fuel as [|fuel]; [cbn in Hf; lia|]. cbn [while]. rewrite Hm, E1.
    replace (negb (b =? 0) && negb (b =? 60) && negb (size =? 0)) with true by lia.
    destruct (IH (store8 m buf b) (store8 m0 buf b) (buf + 1) (fmt + 1) (size - 1) fuel) as (m1 & W & P).
    + apply store8_byte. auto.
    + intros x. unfold store8. rewrite Hm. auto.
    + rewrite <- E2 at 2. apply load_bytes_ext. intros x Hx. unfold store8. destruct (Z.eqb_spec x buf) as [->|]; auto.
      exfalso. apply (HD buf); unfold zlen in *; lia.
    + apply (Forall_inv_tail HC).
    + intros HI. apply HN. right. auto.
    + unfold store8. destruct (Z.eqb_spec (fmt + 1 + zlen p) buf) as [E|]; [exfalso; apply (HD buf); lia|].
      replace (fmt + 1 + zlen p) with (fmt + (1 + zlen p)) by lia. auto.
    + lia.
    + cbn in Hf. lia.
    + intros x Hx Hy. apply (HD x); lia.
    + exists m1. split; [rewrite W; tup|]. intros x. rewrite P. apply put_step. lia.
Qed.
Lemma close_ok m : forall name scanner k fuel, load_bytes m scanner (length name) = name -> Forall (fun b => 1 <= b < 256) name -> ~ In 62 name ->
  m (scanner + zlen name) = 62 -> (length name <= fuel)%nat -> scan_close fuel m scanner k = Done (scanner + zlen name, k + zlen name).
Proof.
  induction name as [|b name IH]; intros scanner k fuel HL HC HN HE Hf.
  - unfold zlen in *. cbn [length] in *. rewrite !Z.add_0_r in *. destruct fuel; cbn [scan_close]; rewrite HE; auto.
  - apply load_bytes_cons_inv in HL as [E1 E2]. rewrite zlen_cons in *. pose proof (Forall_inv HC) as Hb. cbv beta in Hb.
    assert (b <> 62) by (intros ->; apply HN; left; auto). destruct fuel as [|fuel]; [cbn in Hf; lia|]. cbn [scan_close]. rewrite E1.
    replace (b =? 62) with false by lia. replace (b =? 0) with false by lia.
    rewrite IH; [tup|auto|apply (Forall_inv_tail HC)|intros HI; apply HN; right; auto|rewrite <- HE; f_equal; lia|cbn in Hf; lia].
Qed.
Lemma value_ok : forall v (m m0 : mem) buf str r fuel, byte_mem m -> (forall x, m0 x = m x) -> load_bytes m str (length v) = v ->
  disjoint str (zlen v) buf (zlen v) -> (length v <= fuel)%nat ->
  exists m1, value_loop fuel m0 buf str (zlen v) r = Some (m1, buf + zlen v, r - zlen v) /\ forall x, m1 x = put m buf v x.
Proof.
  unfold value_loop. intros v.
  assert (G : forall v (m m0 : mem) buf str r fuel, byte_mem m -> (forall x, m0 x = m x) -> load_bytes m str (length v) = v ->
     disjoint str (zlen v) buf (zlen v) -> (length v <= fuel)%nat ->
     exists m1 s1, while fuel (fun '(m, b, s, l, r) => negb (l =? 0))
                (fun '(m, b, s, l, r) => (store8 m b (m s), b + 1, s + 1, l - 1, r - 1)) (m0, buf, str, zlen v, r) = Some (m1, buf + zlen v, s1, 0, r - zlen v) /\ forall x, m1 x = put m buf v x).
  { clear v. induction v as [|b v IH]; intros m m0 buf str r fuel Hb Hm HL HD Hf.
    - exists m0, str. unfold zlen. cbn [length]. rewrite Z.add_0_r, Z.sub_0_r. split; [destruct fuel; auto|intros; rewrite put_nil; auto].
    - pose proof (load_in m str (b :: v) HL Hb) as HR. apply Forall_inv in HR. apply load_bytes_cons_inv in HL as [E1 E2]. rewrite zlen_cons in *. pose proof (zlen_nonneg v).
      destruct fuel as [|fuel]; [cbn in Hf; lia|]. cbn [while]. replace (negb (1 + zlen v =? 0)) with true by lia. rewrite Hm, E1.
      destruct (IH (store8 m buf b) (store8 m0 buf b) (buf + 1) (str + 1) (r - 1) fuel) as (m1 & s1 & W & P).
      + apply store8_byte. auto.
      + intros x. unfold store8. rewrite Hm. auto.
      + rewrite <- E2 at 2. apply load_bytes_ext. intros x Hx. unfold store8. destruct (Z.eqb_spec x buf) as [->|]; auto.
        exfalso. apply (HD buf); unfold zlen in *; lia.
      + intros x Hx Hy. apply (HD x); lia.
      + cbn in Hf. lia.
      + exists m1, s1. replace (1 + zlen v - 1) with (zlen v) by lia. split; [rewrite W; tup|]. intros x. rewrite P. apply put_step. auto. }
  intros m m0 buf str r fuel H1 H2 H3 H4 H5. destruct (G v m m0 buf str r fuel H1 H2 H3 H4 H5) as (m1 & s1 & W & P). exists m1. rewrite W. auto.
Qed.

(** copying until the buffer is full, with any fuel *)
Lemma text_fuel : forall p (m m0 : mem) buf fmt size fuel, (forall x, m0 x = m x) ->
  load_bytes m fmt (length p) = p -> Forall (fun b => 1 <= b < 256) p -> ~ In 60 p ->
  zlen p = size -> disjoint fmt (zlen p + 1) buf size ->
  text_loop fuel m0 buf fmt size = None \/
  exists m1, text_loop fuel m0 buf fmt size = Some (m1, buf + zlen p, fmt + zlen p, size - zlen p) /\ forall x, m1 x = put m buf p x.
Proof.
  unfold text_loop. induction p as [|b p IH]; intros m m0 buf fmt size fuel Hm HL HC HN HS HD.
  - right. exists m0. unfold zlen in *. cbn [length] in *. rewrite !Z.add_0_r in *. rewrite Z.sub_0_r. split; [|intros; rewrite put_nil; auto].
    assert (C : negb (m0 fmt =? 0) && negb (m0 fmt =? 60) && negb (size =? 0) = false) by (rewrite <- HS; cbn; rewrite andb_false_r; auto).
    destruct fuel; cbn [while]; rewrite C; auto.
  - apply load_bytes_cons_inv in HL as [E1 E2]. rewrite zlen_cons in *. pose proof (zlen_nonneg p). pose proof (Forall_inv HC) as Hbb. cbv beta in Hbb.
    assert (b <> 60) by (intros ->; apply HN; left; auto).
    assert (CD : negb (m0 fmt =? 0) && negb (m0 fmt =? 60) && negb (size =? 0) = true) by (rewrite Hm, E1; lia).
    destruct fuel as [|fuel]; cbn [while]; rewrite CD; [left; auto|]. rewrite Hm, E1.
    destruct (IH (store8 m buf b) (store8 m0 buf b) (buf + 1) (fmt + 1) (size - 1) fuel) as [W | (m1 & W & P)].
    + intros x. unfold store8. rewrite Hm. auto.
    + rewrite <- E2 at 2. apply load_bytes_ext. intros x Hx. unfold store8. destruct (Z.eqb_spec x buf) as [->|]; auto.
      exfalso. apply (HD buf); unfold zlen in *; lia.
    + apply (Forall_inv_tail HC).
    + intros HI. apply HN. right. auto.
    + lia.
    + intros x Hx Hy. apply (HD x); lia.
    + left. auto.
    + right. exists m1. split; [rewrite W; tup|]. intros x. rewrite P. apply put_step. lia.
Qed.

(** a substituted text: a plain prefix, then the end or a '<' *)
Lemma sub_prefix lookup T out : substituted lookup T out ->
  exists p rest o, T = p ++ rest /\ out = p ++ o /\ ~ In 60 p /\ substituted lookup rest o /\ (rest = [] \/ exists r, rest = 60 :: r).
Proof.
  induction 1 as [|c r o Hc H IH|name v r o HN HL H IH|name r o HN HL H IH].
  - exists [], [], []. repeat split; auto. constructor.
  - destruct IH as (p & rest & o' & -> & -> & HI & HS & HR). exists (c :: p), rest, o'. repeat split; auto. intros [E|E]; auto.
  - exists [], (60 :: name ++ 62 :: r), (v ++ o). repeat split; auto; [|right; eauto]. constructor; auto.
  - exists [], (60 :: name ++ 62 :: r), (60 :: o). repeat split; auto; [|right; eauto]. apply sub_unknown; auto.
Qed.

Definition value_at (m : mem) (f : Z -> option (Z * Z)) (lookup : list Z -> option (list Z)) (buf size : Z) : Prop :=
  forall name, match lookup name with
    | Some v => exists p, f (crc32 name) = Some (p, zlen v) /\ load_bytes m p (length v) = v /\ disjoint p (zlen v) buf size
    | None => f (crc32 name) = None end.
Lemma value_at_put m m1 f lookup buf size buf' size' : value_at m f lookup buf size -> (forall x, ~ (buf <= x < buf + size) -> m1 x = m x) ->
  buf <= buf' -> buf' + size' <= buf + size -> value_at m1 f lookup buf' size'.
Proof.
  intros H HK H1 H2 name. specialize (H name). destruct (lookup name) as [v|]; auto. destruct H as (p & A & B & C). exists p. split; auto. split.
  - rewrite <- B at 2. apply load_bytes_ext. intros x Hx. apply HK, C. unfold zlen. lia.
  - intros x Hx Hy. apply (C x); lia.
Qed.
Lemma get_denotes (t : tokmap) f k : HashtablePropProofs.denotes t f -> ht_get t k = Some (f k).
Proof. intros [HW H]. rewrite ht_get_spec by auto. rewrite lookup_kv. fold (kv t). rewrite H. auto. Qed.

Lemma app_eq_sep {A} (x : A) a b c d : ~ In x a -> ~ In x c -> a ++ x :: b = c ++ x :: d -> a = c /\ b = d.
Proof.
  revert c. induction a as [|y a IH]; intros [|z c] Ha Hc E; cbn in *.
  - injection E. auto.
  - injection E as -> _. exfalso. auto.
  - injection E as -> _. exfalso. auto.
  - injection E as -> E. destruct (IH c); auto. subst. auto.
Qed.

Lemma token_loop_ok t f lookup : HashtablePropProofs.denotes t f -> forall k T, (length T < k)%nat -> forall n fuel m buf size fmt out,
  (k <= n)%nat -> (length T <= fuel)%nat -> (length out <= fuel)%nat -> byte_mem m -> cstr m fmt T -> disjoint fmt (zlen T + 1) buf size ->
  substituted lookup T out -> zlen out <= size -> value_at m f lookup buf size ->
  exists m1, token_loop n fuel m t buf fmt size = Done (m1, size - zlen out) /\ forall x, m1 x = put m buf out x.
Proof.
  intros HDt. induction k as [|k IH]; intros T HT n fuel m buf size fmt out Hn Hf Hf2 Hb HC HD HS HZ HV; [lia|].
  destruct (sub_prefix _ _ _ HS) as (p & rest & o & -> & -> & HI & HS' & HR).
  destruct (cstr_app _ _ _ _ HC) as [HL HC2]. rewrite !zlen_app in *. rewrite !app_length in *.
  pose proof (zlen_nonneg p) as P0. pose proof (zlen_nonneg rest) as R0. pose proof (zlen_nonneg o) as O0.
  assert (HCH : Forall (fun b => 1 <= b < 256) p) by (destruct HC as (_ & HF & _); apply Forall_app in HF; apply HF).
  destruct n as [|n]; [lia|]. cbn [token_loop].
  assert (HEnd : m (fmt + zlen p) = 0 \/ m (fmt + zlen p) = 60).
  { destruct HR as [-> | (r & ->)]; [left; apply cstr_nil; auto|right; apply (cstr_cons _ _ _ _ HC2)]. }
  destruct (text_ok p m m buf fmt size fuel) as (m1 & W & P); auto; try lia.
  { intros x Hx Hy. apply (HD x); lia. }
  assert (Hb1 : byte_mem m1) by (apply (byte_mem_ext (put m buf p)); auto; apply put_bytes; auto).
  assert (K1 : forall x, ~ (buf <= x < buf + size) -> m1 x = m x) by (intros x Hx; rewrite P; apply put_out; lia).
  assert (E1 : forall x, fmt <= x <= fmt + (zlen p + zlen rest) -> m1 x = m x) by (intros x Hx; apply K1, HD; lia).
  assert (HC21 : cstr m1 (fmt + zlen p) rest) by (apply (cstr_ext m); auto; intros x Hx; apply E1; lia).
  assert (HV1 : value_at m1 f lookup (buf + zlen p) (size - zlen p)) by (eapply value_at_put; eauto; lia).
  destruct (m fmt =? 0) eqn:E0.
  { (* the whole text is empty *)
    assert (Hp : p = []). { destruct p as [|b p]; auto. exfalso. apply load_bytes_cons_inv in HL as [E _]. apply Forall_inv in HCH. lia. }
    subst p. change (zlen []) with 0 in *. rewrite !Z.add_0_r in *. destruct HR as [-> | (r & ->)]; [|destruct (cstr_cons _ _ _ _ HC2); lia].
    inversion HS'; subst. exists m. cbn [app length]. split; [tup; unfold zlen; cbn; lia|intros; rewrite put_nil; auto]. }
  rewrite W. cbn [of_opt rbind].
  destruct HR as [-> | (r & ->)].
  - (* end of the text *)
    inversion HS'; subst. pose proof (cstr_nil _ _ HC21) as EN. rewrite EN. cbn [Z.eqb]. rewrite app_nil_r. change (zlen []) with 0 in *.
    assert (TL : token_loop n fuel m1 t (buf + zlen p) (fmt + zlen p) (size - zlen p) = Done (m1, size - zlen p)) by (destruct n; cbn [token_loop]; rewrite EN; auto).
    rewrite TL. exists m1. split; [tup|auto].
  - destruct (cstr_cons _ _ _ _ HC21) as (E60 & _ & HCr). rewrite E60. cbn [Z.eqb Pos.eqb].
    inversion HS' as [|c0 r0 o0 HX _|name v r0 o0 HN HLk HSr|name r0 o0 HN HLk HSr].
    { exfalso. apply HX. congruence. }
    + (* a known token *)
      subst r o. destruct (cstr_app _ _ _ _ HCr) as [HLn HCn]. destruct (cstr_cons _ _ _ _ HCn) as (E62 & _ & HC3).
      assert (HCHn : Forall (fun b => 1 <= b < 256) name) by (destruct HCr as (_ & HF & _); apply Forall_app in HF; apply HF).
      rewrite zlen_cons, !zlen_app, zlen_cons in *. cbn [length] in *. rewrite app_length in *. cbn [length] in *.
      pose proof (zlen_nonneg name). pose proof (zlen_nonneg v). pose proof (zlen_nonneg o0). pose proof (zlen_nonneg r0).
      rewrite (close_ok m1 name (fmt + zlen p + 1) 0 fuel HLn HCHn HN E62 ltac:(lia)). cbn [rbind].
      replace (Z.to_nat (0 + zlen name)) with (length name) by (unfold zlen; lia). rewrite HLn, (get_denotes t f _ HDt). cbn [opt_run rbind].
      specialize (HV1 name) as HVn. rewrite HLk in HVn. destruct HVn as (q & Eq & Lq & Dq). rewrite Eq.
      destruct (value_ok v m1 m1 (buf + zlen p) q (size - zlen p) fuel) as (m2 & W2 & P2); auto; try lia.
      { intros x Hx Hy. apply (Dq x); lia. }
      rewrite W2. cbn [of_opt rbind].
      assert (Hb2 : byte_mem m2).
      { intros x. rewrite P2. unfold put. destruct ((buf + zlen p <=? x) && (x <? buf + zlen p + zlen v)) eqn:Ex; [|apply Hb1].
        pose proof (load_in m1 q v Lq Hb1) as HR. rewrite Forall_forall in HR. apply HR, nth_In. unfold zlen in *. lia. }
      assert (K2 : forall x, ~ (buf + zlen p <= x < buf + zlen p + (size - zlen p)) -> m2 x = m1 x) by (intros x Hx; rewrite P2; apply put_out; lia).
      destruct (IH r0 ltac:(lia) n fuel m2 (buf + zlen p + zlen v) (size - zlen p - zlen v) (fmt + zlen p + 1 + zlen name + 1) o0) as (m3 & E3 & P3); auto; try lia.
      { apply (cstr_ext m1); [exact HC3|]. intros x Hx. apply K2. intros Hy. apply (HD x); lia. }
      { intros x Hx Hy. apply (HD x); lia. }
      { eapply value_at_put; eauto; lia. }
      rewrite E3. exists m3. split; [tup|]. intros x. rewrite P3.
      replace (buf + zlen p + zlen v) with (buf + zlen (p ++ v)) by (rewrite zlen_app; lia).
      rewrite (app_assoc p v o0), <- (put_app m buf (p ++ v) o0). apply put_ext. rewrite P2, <- put_app. apply put_ext, P.
    + (* an unknown name: only the '<' is copied *)
      subst r o. destruct (cstr_app _ _ _ _ HCr) as [HLn HCn]. destruct (cstr_cons _ _ _ _ HCn) as (E62 & _ & HC3).
      assert (HCHn : Forall (fun b => 1 <= b < 256) name) by (destruct HCr as (_ & HF & _); apply Forall_app in HF; apply HF).
      rewrite !zlen_cons, ?zlen_app in *. cbn [length] in *. rewrite ?app_length in *. cbn [length] in *.
      pose proof (zlen_nonneg name). pose proof (zlen_nonneg o0). pose proof (zlen_nonneg (62 :: r0)).
      rewrite (close_ok m1 name (fmt + zlen p + 1) 0 fuel HLn HCHn HN E62 ltac:(lia)). cbn [rbind].
      replace (Z.to_nat (0 + zlen name)) with (length name) by (unfold zlen; lia). rewrite HLn, (get_denotes t f _ HDt). cbn [opt_run rbind].
      specialize (HV1 name) as HVn. rewrite HLk in HVn. rewrite HVn.
      destruct (IH (name ++ 62 :: r0) ltac:(rewrite app_length; cbn [length]; lia) n fuel (store8 m1 (buf + zlen p) 60) (buf + zlen p + 1) (size - zlen p - 1) (fmt + zlen p + 1) o0) as (m3 & E3 & P3); auto; try lia.
      { rewrite app_length. cbn [length]. lia. }
      { apply store8_byte. auto. }
      { apply (cstr_ext m1); [exact HCr|]. intros x Hx. rewrite zlen_app in Hx. unfold store8. destruct (Z.eqb_spec x (buf + zlen p)) as [->|]; auto.
        exfalso. apply (HD (buf + zlen p)); lia. }
      { intros x Hx Hy. rewrite zlen_app in Hx. apply (HD x); lia. }
      { eapply value_at_put; eauto; try lia. intros x Hx. unfold store8. replace (x =? buf + zlen p) with false by lia. auto. }
      rewrite E3. exists m3. split; [tup|]. intros x. rewrite P3. rewrite put_step by lia.
      rewrite <- put_app. apply put_ext, P.
Qed.

(** ** tokens by crc32 *)
Lemma binding_addr m buf size : forall toks f acc, 
  (forall name, match acc name with
    | Some v => exists p, f (crc32 name) = Some (p, zlen v) /\ load_bytes m p (length v) = v /\ disjoint p (zlen v) buf size
    | None => f (crc32 name) = None end) ->
  Forall (tok_ok m buf size) toks ->
  value_at m (addr_run f toks) (fun name => fold_left (fun acc p => if crc32 (fst p) =? crc32 name then Some (snd p) else acc) (map tok_pair toks) (acc name)) buf size.
Proof.
  induction toks as [|k toks IH]; intros f acc HA HF; [exact HA|].
  apply Forall_cons_iff in HF as [(_ & _ & HL & HD) HF]. cbn [map fold_left addr_run].
  apply (IH (fun x => if x =? crc32 (t_name k) then Some (v_ptr k, zlen (v_text k)) else f x)
            (fun name => if crc32 (fst (tok_pair k)) =? crc32 name then Some (snd (tok_pair k)) else acc name)); auto.
  intros name. cbn [tok_pair fst snd]. rewrite (Z.eqb_sym (crc32 name)). destruct (crc32 (t_name k) =? crc32 name); [|apply HA].
  exists (v_ptr k). auto.
Qed.

Lemma p36_crc fuel m t0 ops buf size toks fmt T out :
  byte_mem m -> Forall ht_op_wf ops -> ht_run (Z * Z) (0, 0) (ht_init (Z * Z)) ops = Some t0 -> (forall k, map_run (fun _ => None) ops k = None) ->
  Forall (tok_ok m buf size) toks -> cstr m fmt T -> disjoint fmt (zlen T + 1) buf size ->
  substituted (binding_crc (map tok_pair toks)) T out -> zlen out <= size ->
  (length T < fuel)%nat -> (length out <= fuel)%nat -> Forall (fun t => (length (t_name t) <= fuel)%nat) toks ->
  exists m1 t1, token_fmt_va fuel m t0 buf size (map tok_arg toks) fmt = Done (m1, t1, zlen out) /\
    load_bytes m1 buf (length out) = out /\ same_outside m m1 buf (zlen out) /\
    exists ops', Forall ht_op_wf ops' /\ ht_run (Z * Z) (0, 0) (ht_init (Z * Z)) ops' = Some t1 /\ (forall k, map_run (fun _ => None) ops' k = None).
Proof.
  intros Hb HO HR HE HF HC HD HS HZ Hf1 Hf2 Hf3.
  destruct (run_denotes (0, 0) ops _ _ (init_denotes (V := Z * Z) 8 ltac:(lia)) HO) as (t0' & E0 & D0).
  change (ht_init_reserve (Z * Z) 8) with (ht_init (Z * Z)) in E0. rewrite HR in E0. injection E0 as <-.
  destruct (populate_ok fuel m buf size Hb toks t0 _ D0 HF Hf3) as (t1 & E1 & D1 & W1 & R1).
  destruct (token_loop_ok t1 _ (binding_crc (map tok_pair toks)) D1 (S (length T)) T ltac:(lia) fuel fuel m buf size fmt out) as (m1 & E2 & P); auto; try lia.
  { unfold binding_crc. apply (binding_addr m buf size toks (map_run (fun _ => None) ops) (fun _ => None)); auto. }
  unfold token_fmt_va. rewrite E1. cbn [rbind]. rewrite E2. cbn [rbind].
  exists m1, (ht_clear t1). split; [tup|]. split; [rewrite (load_of_ext _ _ _ _ P); apply load_put|]. split.
  { intros x Hx. rewrite P. apply put_out. auto. }
  exists (ops ++ map tok_set toks ++ [HClear]). split; [rewrite !Forall_app; repeat split; auto; repeat constructor|]. split.
  - unfold ht_run in *. rewrite !fold_left_app, HR, R1. reflexivity.
  - intros k. unfold map_run. rewrite !fold_left_app. reflexivity.
Qed.

(** without crc32 collisions, tokens are found by name *)
Lemma binding_same pairs name : (forall p, In p pairs -> crc32 (fst p) = crc32 name -> fst p = name) -> binding_crc pairs name = binding pairs name.
Proof.
  unfold binding_crc, binding. generalize (@None (list Z)). induction pairs as [|p pairs IH]; intros acc H; auto. cbn [fold_left].
  replace (crc32 (fst p) =? crc32 name) with (beq (fst p) name); [apply IH; intros q Hq; apply H; right; auto|].
  unfold beq. destruct (list_eq_dec Z.eq_dec (fst p) name) as [E|E]; [rewrite E, Z.eqb_refl; auto|].
  symmetry. apply Z.eqb_neq. intros C. apply E. apply H; [left|]; auto.
Qed.
Lemma sub_lookup l1 l2 T out : substituted l1 T out -> (forall name, occurs name T -> l1 name = l2 name) -> substituted l2 T out.
Proof.
  induction 1 as [|c r o Hc H IH|name v r o HN HL H IH|name r o HN HL H IH]; intros HE.
  - constructor.
  - constructor; auto. apply IH. intros n (a & b & -> & Hn). apply HE. exists (c :: a), b. auto.
  - apply sub_token; auto.
    + rewrite <- HE; auto. exists [], r. auto.
    + apply IH. intros n (a & b & -> & Hn). apply HE. exists (60 :: name ++ 62 :: a), b. split; auto. cbn. rewrite <- app_assoc. auto.
  - apply sub_unknown; auto.
    + rewrite <- HE; auto. exists [], r. auto.
    + apply IH. intros n (a & b & E & Hn). apply HE. exists (60 :: a), b. split; auto. cbn. f_equal. auto.
Qed.
Lemma p36 fuel m t0 ops buf size toks fmt T out :
  byte_mem m -> Forall ht_op_wf ops -> ht_run (Z * Z) (0, 0) (ht_init (Z * Z)) ops = Some t0 -> (forall k, map_run (fun _ => None) ops k = None) ->
  Forall (tok_ok m buf size) toks -> cstr m fmt T -> disjoint fmt (zlen T + 1) buf size ->
  (forall t name, In t toks -> occurs name T -> crc32 (t_name t) = crc32 name -> t_name t = name) ->
  substituted (binding (map tok_pair toks)) T out -> zlen out <= size ->
  (length T < fuel)%nat -> (length out <= fuel)%nat -> Forall (fun t => (length (t_name t) <= fuel)%nat) toks ->
  exists m1 t1, token_fmt_va fuel m t0 buf size (map tok_arg toks) fmt = Done (m1, t1, zlen out) /\
    load_bytes m1 buf (length out) = out /\ same_outside m m1 buf (zlen out) /\
    exists ops', Forall ht_op_wf ops' /\ ht_run (Z * Z) (0, 0) (ht_init (Z * Z)) ops' = Some t1 /\ (forall k, map_run (fun _ => None) ops' k = None).
Proof.
  intros Hb HO HR HE HF HC HD HN HS HZ Hf1 Hf2 Hf3. apply (p36_crc fuel m t0 ops buf size toks fmt T out); auto.
  apply (sub_lookup _ _ _ _ HS). intros name Hoc. symmetry. apply binding_same. intros p Hp. apply in_map_iff in Hp as (t & <- & Ht). apply HN; auto.
Qed.

Lemma in_split_first (r : list Z) (x : Z) : In x r -> exists a b, r = a ++ x :: b /\ ~ In x a.
Proof.
  induction r as [|y r IH]; intros H; [contradiction|]. destruct (Z.eq_dec y x) as [->|N]; [exists [], r; auto|].
  destruct IH as (a & b & -> & Ha); [destruct H; [congruence|auto]|]. exists (y :: a), b. split; auto. intros [E|E]; auto.
Qed.
(** every template whose '<' are all closed has a result *)
Lemma sub_total lookup : forall n T, (length T < n)%nat -> (forall a b, T = a ++ 60 :: b -> In 62 b) -> exists out, substituted lookup T out.
Proof.
  induction n as [|n IH]; intros T Hn HT; [lia|]. destruct T as [|c r]; [exists []; constructor|].
  destruct (Z.eq_dec c 60) as [->|Nc].
  - specialize (HT [] r eq_refl) as HI.
    destruct (in_split_first r 62 HI) as (name & r' & -> & HN).
    destruct (lookup name) as [v|] eqn:E.
    + destruct (IH r') as (o & Ho); [cbn in Hn; rewrite app_length in Hn; cbn in Hn; lia| |exists (v ++ o); apply sub_token; auto].
      intros a b ->. apply (HT (60 :: name ++ 62 :: a) b). cbn. rewrite <- app_assoc. auto.
    + destruct (IH (name ++ 62 :: r')) as (o & Ho); [cbn in Hn; lia| |exists (60 :: o); apply sub_unknown; auto].
      intros a b E2. apply (HT (60 :: a) b). cbn. f_equal. auto.
  - destruct (IH r) as (o & Ho); [cbn in Hn; lia| |exists (c :: o); constructor; auto]. intros a b ->. apply (HT (c :: a) b). auto.
Qed.
Lemma sub_functional lookup T out1 : substituted lookup T out1 -> forall out2, substituted lookup T out2 -> out1 = out2.
Proof.
  induction 1 as [|c r o Hc H IH|name v r o HN HL H IH|name r o HN HL H IH]; intros out2 H2; inversion H2; subst; auto; try congruence.
  - f_equal. auto.
  - match goal with E : name0 ++ _ = name ++ _ |- _ => apply app_eq_sep in E as [-> ->]; auto end. f_equal; [congruence|auto].
  - match goal with E : name0 ++ _ = name ++ _ |- _ => apply app_eq_sep in E as [-> ->]; auto end. congruence.
  - match goal with E : name0 ++ _ = name ++ _ |- _ => apply app_eq_sep in E as [-> ->]; auto end. congruence.
  - match goal with E : name0 ++ _ = name ++ _ |- _ => pose proof E as E'; apply app_eq_sep in E as [-> ->]; auto end. f_equal. auto.
Qed.

(** ** what goes wrong *)
Lemma scan_unclosed m : forall r scanner k fuel, cstr m scanner r -> ~ In 62 r -> (length r <= fuel)%nat -> scan_close fuel m scanner k = Undefined.
Proof.
  induction r as [|b r IH]; intros scanner k fuel HC HN Hf.
  - apply cstr_nil in HC. destruct fuel; cbn [scan_close]; rewrite HC; auto.
  - destruct (cstr_cons _ _ _ _ HC) as (E & R & HC'). destruct fuel as [|fuel]; [cbn in Hf; lia|]. cbn [scan_close]. rewrite E.
    assert (b <> 62) by (intros ->; apply HN; left; auto). replace (b =? 62) with false by lia. replace (b =? 0) with false by lia.
    apply IH; auto; [intros HI; apply HN; right; auto|cbn in Hf; lia].
Qed.
Lemma p36_unterminated fuel m t0 buf size fmt p r : byte_mem m -> cstr m fmt (p ++ 60 :: r) -> ~ In 60 p -> ~ In 62 r -> zlen p <= size ->
  disjoint fmt (zlen (p ++ 60 :: r) + 1) buf size -> zlen (p ++ 60 :: r) <= Z.of_nat fuel ->
  token_fmt_va fuel m t0 buf size [] fmt = Undefined.
Proof.
  intros Hb HC HP HR HZ HD Hf. unfold token_fmt_va. cbn [populate rbind].
  assert (TL : forall n t, (1 <= n)%nat -> token_loop n fuel m t buf fmt size = Undefined).
  { intros [|n] t Hn; [lia|]. cbn [token_loop]. destruct (cstr_app _ _ _ _ HC) as [HL HC2]. destruct (cstr_cons _ _ _ _ HC2) as (E60 & _ & HC3).
    rewrite zlen_app, zlen_cons in HD, Hf. pose proof (zlen_nonneg p). pose proof (zlen_nonneg r).
    assert (HCH : Forall (fun b => 1 <= b < 256) p) by (destruct HC as (_ & HF & _); apply Forall_app in HF; apply HF).
    destruct (text_ok p m m buf fmt size fuel) as (m1 & W & P); auto; try (unfold zlen in *; lia).
    { intros x Hx Hy. apply (HD x); lia. }
    assert (E0 : m fmt =? 0 = false).
    { destruct p as [|b p]; [change (zlen []) with 0 in *; rewrite Z.add_0_r in *; lia|]. apply load_bytes_cons_inv in HL as [E _]. apply Forall_inv in HCH. lia. }
    rewrite E0, W. cbn [of_opt rbind].
    assert (K : forall x, fmt <= x <= fmt + (zlen p + (1 + zlen r)) -> m1 x = m x) by (intros x Hx; rewrite P; apply put_out; intros Hy; apply (HD x); lia).
    rewrite K, E60 by lia. cbn [Z.eqb Pos.eqb]. rewrite (scan_unclosed m1 r); auto; [|unfold zlen in *; lia].
    apply (cstr_ext m); auto. intros x Hx. apply K. lia. }
  rewrite TL; auto. rewrite zlen_app, zlen_cons in Hf. pose proof (zlen_nonneg p). pose proof (zlen_nonneg r). lia.
Qed.
Lemma p36_hang m t0 buf size fmt p c r : byte_mem m -> cstr m fmt (p ++ c :: r) -> ~ In 60 (p ++ [c]) -> zlen p = size -> 
  disjoint fmt (zlen (p ++ c :: r) + 1) buf size -> forall fuel, token_fmt_va fuel m t0 buf size [] fmt = NoFuel.
Proof.
  intros Hb HC HP HZ HD fuel. unfold token_fmt_va. cbn [populate rbind].
  destruct (cstr_app _ _ _ _ HC) as [HL HC2]. destruct (cstr_cons _ _ _ _ HC2) as (Ec & Rc & HC3).
  rewrite in_app_iff in HP. assert (HP1 : ~ In 60 p) by tauto. assert (HPc : c <> 60) by (intros ->; apply HP; right; left; auto).
  assert (HCH : Forall (fun b => 1 <= b < 256) p) by (destruct HC as (_ & HF & _); apply Forall_app in HF; apply HF).
  rewrite zlen_app, zlen_cons in HD. pose proof (zlen_nonneg p). pose proof (zlen_nonneg r).
  (* stuck at the full buffer *)
  assert (ST : forall n m1 b, m1 (fmt + zlen p) = c -> token_loop n fuel m1 t0 b (fmt + zlen p) 0 = NoFuel).
  { induction n as [|n IH]; intros m1 b E; cbn [token_loop]; rewrite E; replace (c =? 0) with false by lia; auto.
    assert (TX : text_loop fuel m1 b (fmt + zlen p) 0 = Some (m1, b, fmt + zlen p, 0)).
    { unfold text_loop. assert (C : negb (m1 (fmt + zlen p) =? 0) && negb (m1 (fmt + zlen p) =? 60) && negb (0 =? 0) = false) by (cbn; rewrite andb_false_r; auto).
      destruct fuel; cbn [while]; rewrite C; auto. }
    rewrite TX. cbn [of_opt rbind]. rewrite E. replace (c =? 60) with false by lia. apply IH. auto. }
  assert (E0 : m fmt =? 0 = false).
  { destruct p as [|b p]; [change (zlen []) with 0 in *; rewrite Z.add_0_r in *; lia|]. apply load_bytes_cons_inv in HL as [E _]. apply Forall_inv in HCH. lia. }
  assert (TL : token_loop fuel fuel m t0 buf fmt size = NoFuel); [|rewrite TL; auto].
  destruct fuel as [|fuel]; [cbn [token_loop]; rewrite E0; auto|].
  destruct (text_fuel p m m buf fmt size (S fuel)) as [W | (m1 & W & P)]; auto; try lia.
  { intros x Hx Hy. apply (HD x); lia. }
  - cbn [token_loop]. rewrite E0, W. auto.
  - cbn [token_loop]. rewrite E0, W. cbn [of_opt rbind]. rewrite HZ, Z.sub_diag in *.
    assert (E : m1 (fmt + size) = c) by (rewrite P, put_out; [rewrite <- Ec; f_equal; lia|intros Hy; apply (HD (fmt + size)); lia]).
    rewrite E. replace (c =? 60) with false by lia. apply ST. auto.
Qed.
