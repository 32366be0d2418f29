From Coq Require Import String ZArith List Bool Lia ZifyBool ZifyNat.
From Verif Require Import Common CommonProofs Text ArrayModel StrOpsModel StrOpsSpec ArrayProofs StrOpsProofs StrOpsProofs2 StrOpsProofs3 StrModel FmtModel FmtSpec.
Import ListNotations.
Open Scope Z_scope.

(** ** numerals are unique and short *)
Lemma dv_snoc b ds d : digits_value b (ds ++ [d]) = digits_value b ds * b + d.
Proof. unfold digits_value. rewrite fold_left_app. reflexivity. Qed.
Lemma dv_acc b ds : forall a, fold_left (fun a d => a * b + d) ds a = a * b ^ zlen ds + digits_value b ds.
Proof.
  unfold digits_value. induction ds as [|d ds IH]; intros a.
  - unfold zlen. cbn [fold_left length]. change (b ^ Z.of_nat 0) with 1. lia.
  - cbn [fold_left]. rewrite IH, (IH (0 * b + d)). rewrite zlen_cons, Z.pow_add_r by (pose proof (zlen_nonneg ds); lia). lia.
Qed.
Lemma dv_nonneg b ds : 0 < b -> Forall (fun d => 0 <= d < b) ds -> 0 <= digits_value b ds.
Proof.
  intros Hb H. induction ds as [|d ds IH] using rev_ind; [unfold digits_value; cbn; lia|].
  apply Forall_app in H as [H1 H2]. rewrite dv_snoc. specialize (IH H1). inversion H2; subst. nia.
Qed.
Lemma dv_lower b d ds : 1 < b -> 1 <= d -> Forall (fun d => 0 <= d < b) ds -> b ^ zlen ds <= digits_value b (d :: ds).
Proof.
  intros Hb Hd H. unfold digits_value. cbn [fold_left]. rewrite dv_acc. pose proof (dv_nonneg b ds ltac:(lia) H).
  assert (0 < b ^ zlen ds) by (apply Z.pow_pos_nonneg; pose proof (zlen_nonneg ds); lia). nia.
Qed.
Lemma dv_inj b : 1 < b -> forall ds1 ds2, Forall (fun d => 0 <= d < b) ds1 -> Forall (fun d => 0 <= d < b) ds2 ->
  (hd 0 ds1 = 0 -> ds1 = [0]) -> (hd 0 ds2 = 0 -> ds2 = [0]) -> digits_value b ds1 = digits_value b ds2 -> ds1 <> [] -> ds2 <> [] -> ds1 = ds2.
Proof.
  intros Hb ds1. induction ds1 as [|d1 ds1 IH] using rev_ind; intros ds2 F1 F2 H1 H2 E N1 N2; [congruence|].
  destruct ds2 as [|d2 ds2 _] using rev_ind; [congruence|]. clear N1 N2.
  apply Forall_app in F1 as [F1 G1]. apply Forall_app in F2 as [F2 G2]. inversion G1; subst. inversion G2; subst.
  rewrite !dv_snoc in E.
  assert (d1 = d2 /\ digits_value b ds1 = digits_value b ds2) as [-> E'].
  { assert (X : (digits_value b ds1 * b + d1) mod b = (digits_value b ds2 * b + d2) mod b) by (rewrite E; auto).
    rewrite !(Z.add_comm (_ * b)), !Z.mod_add, !Z.mod_small in X by lia. split; [auto|]. nia. }
  f_equal.
  assert (P : forall ds, Forall (fun d => 0 <= d < b) ds -> (hd 0 (ds ++ [d2]) = 0 -> ds ++ [d2] = [0]) -> ds <> [] -> 0 < digits_value b ds /\ (hd 0 ds = 0 -> ds = [0])).
  { intros [|d ds] F Hh N; [congruence|]. cbn [hd app] in *.
    assert (d <> 0) by (intros ->; specialize (Hh eq_refl); injection Hh; destruct ds; discriminate). inversion F; subst. split.
    - pose proof (dv_lower b d ds Hb ltac:(lia) (Forall_inv_tail F)). assert (0 < b ^ zlen ds) by (apply Z.pow_pos_nonneg; pose proof (zlen_nonneg ds); lia). lia.
    - lia. }
  destruct ds1 as [|a ds1], ds2 as [|c ds2]; auto.
  - destruct (P (c :: ds2) F2 H2 ltac:(discriminate)) as [P1 _]. change (digits_value b []) with 0 in E'. lia.
  - destruct (P (a :: ds1) F1 H1 ltac:(discriminate)) as [P1 _]. change (digits_value b []) with 0 in E'. lia.
  - apply IH; auto; try discriminate.
    + apply (P (a :: ds1)); auto; discriminate.
    + apply (P (c :: ds2)); auto; discriminate.
Qed.
Lemma numeral_unique b v t1 t2 : 1 < b -> numeral b v t1 -> numeral b v t2 -> t1 = t2.
Proof.
  intros Hb (ds1 & -> & F1 & V1 & N1 & H1) (ds2 & -> & F2 & V2 & N2 & H2). f_equal. apply (dv_inj b); auto. congruence.
Qed.
Lemma signed_numeral_unique b v t1 t2 : 1 < b -> signed_numeral b v t1 -> signed_numeral b v t2 -> t1 = t2.
Proof.
  intros Hb. unfold signed_numeral. destruct (v <? 0); [|apply numeral_unique; auto].
  intros (a & -> & A) (c & -> & C). f_equal. eapply numeral_unique; eauto.
Qed.
Lemma numeral_short v t : 0 <= v < 2 ^ 64 -> numeral 10 v t -> zlen t <= 20.
Proof.
  intros Hv (ds & -> & F & V & N & H). unfold zlen. rewrite map_length. destruct ds as [|d ds]; [congruence|].
  destruct (Z.eq_dec d 0) as [->|Nd]; [specialize (H eq_refl); injection H; intros ->; cbn; lia|].
  inversion F; subst. pose proof (dv_lower 10 d ds ltac:(lia) ltac:(lia) (Forall_inv_tail F)) as L.
  assert (zlen ds < 20).
  { destruct (Z_lt_ge_dec (zlen ds) 20); auto. assert (10 ^ 20 <= 10 ^ zlen ds) by (apply Z.pow_le_mono_r; lia).
    assert (2 ^ 64 < 10 ^ 20) by reflexivity. lia. }
  unfold zlen in *. cbn [length]. lia.
Qed.
Lemma signed_numeral_short v t : - 2 ^ 63 <= v < 2 ^ 63 -> signed_numeral 10 v t -> zlen t <= 21.
Proof.
  intros Hv. assert (2 ^ 63 < 2 ^ 64) by reflexivity. unfold signed_numeral. destruct (v <? 0) eqn:E.
  - intros (t' & -> & N). apply numeral_short in N; [|lia]. rewrite zlen_cons. lia.
  - intros N. apply numeral_short in N; lia.
Qed.
Lemma digit_char_range d : 0 <= d < 10 -> 1 <= digit_char d < 256.
Proof. intros H. unfold digit_char. replace (d <? 10) with true by lia. lia. Qed.
Lemma numeral_chars v t : numeral 10 v t -> chars t.
Proof.
  intros (ds & -> & F & _). unfold chars. rewrite Forall_map. eapply Forall_impl; [|exact F]. intros a. apply digit_char_range.
Qed.
Lemma signed_numeral_chars v t : signed_numeral 10 v t -> chars t.
Proof.
  unfold signed_numeral. destruct (v <? 0); [|apply numeral_chars].
  intros (t' & -> & N). constructor; [lia|]. apply numeral_chars in N. auto.
Qed.

(** ** _print_string with no width *)
Lemma print_string_plain fuel m text max_len i str t :
  str <> 0 -> i_width i = 0 -> has (i_flags i) FMT_WIDTH = false -> has (i_flags i) FMT_UPPER = false -> has (i_flags i) FMT_LOWER = false ->
  load_bytes m str (length t) = t -> chars t ->
  (i_precision i = zlen t \/ i_precision i = -1 /\ m (str + zlen t) = 0 /\ (length t <= fuel)%nat) ->
  zlen t <= max_len -> (forall x, text <= x < text + zlen t -> ~ (str <= x <= str + zlen t)) ->
  exists m1, print_string fuel m text max_len i str = Done (m1, zlen t) /\ forall x, m1 x = put m text t x.
Proof.
  intros Hs Hw F1 F2 F3 HL HC HP HM HD. pose proof (zlen_nonneg t) as HN.
  unfold print_string. replace (str =? 0) with false by lia. cbn [andb].
  assert (L : (if i_precision i >=? 0 then Done (i_precision i) else of_opt (c_str_len fuel m str)) = Done (zlen t)).
  { destruct HP as [HP|(HP & HZ & HF)].
    - rewrite HP. replace (zlen t >=? 0) with true by lia. auto.
    - rewrite HP. cbn [Z.geb Z.compare]. rewrite (p46_len m str t fuel Hs); auto. repeat split; auto. }
  rewrite L. cbn [rbind]. rewrite Hw, F1, F2, F3. cbn [Z.eqb andb orb].
  replace (if i_precision i >? 0 then if i_precision i <? zlen t then i_precision i else zlen t else zlen t) with (zlen t)
    by (destruct HP as [HP|(HP & _)]; rewrite HP; [rewrite Z.ltb_irrefl; destruct (zlen t >? 0); auto|reflexivity]).
  replace (zlen t >? max_len) with false by lia.
  destruct (copy_loops_spec m text str (zlen t) t HL HC ltac:(lia) ltac:(lia) HD) as (m1 & W & P).
  unfold c_str_copy_nulpad. replace (str =? 0) with false by lia. rewrite W. cbn [option_map of_opt rbind].
  replace (str + zlen t - str) with (zlen t) by lia. replace (0 >? zlen t) with false by lia. cbn [rbind negb].
  exists m1. split; auto. intros x. rewrite P. replace (Z.to_nat (zlen t - zlen t)) with 0%nat by lia. cbn [repeat]. rewrite app_nil_r. auto.
Qed.

Lemma put_bytes m d t : byte_mem m -> chars t -> byte_mem (put m d t).
Proof.
  intros Hm Ht x. unfold put. destruct ((d <=? x) && (x <? d + zlen t)) eqn:E; auto.
  unfold chars in Ht. rewrite Forall_forall in Ht. assert (HI : In (nth (Z.to_nat (x - d)) t 0) t) by (apply nth_In; unfold zlen in *; lia).
  apply Ht in HI. lia.
Qed.
Lemma byte_mem_ext m m' : byte_mem m -> (forall x, m' x = m x) -> byte_mem m'.
Proof. intros H E x. rewrite E. auto. Qed.

Lemma i64_zero fuel m fmt : byte_mem m -> ~ In (m fmt) (45 :: DIGITS) -> c_str_to_i64 fuel m fmt 10 = Done (0, fmt).
Proof.
  intros Hm HN. unfold c_str_to_i64. cbn [Z.eqb rbind]. unfold scan_i64.
  assert (m fmt =? 45 = false) as -> by (apply Z.eqb_neq; intros E; apply HN; left; auto). cbn [Z.eqb Pos.eqb andb rbind].
  assert (D : char_is_digit (m fmt) = false).
  { destruct (char_is_digit (m fmt)) eqn:E; auto. apply p21_digit in E; [|apply Hm]. exfalso. apply HN. right. auto. }
  destruct fuel; cbn [scan_loop]; rewrite D; cbn [Z.eqb Pos.eqb andb rbind]; replace (fmt - fmt) with 0 by lia; replace (fmt + 0) with fmt by lia; auto.
Qed.

(** ** one conversion *)
Definition near (m m' : mem) (num text : Z) (t : list Z) : Prop :=
  byte_mem m' /\ forall x, ~ (num <= x < num + 130) -> m' x = put m text t x.

Lemma flags_stop fuel m fmt c : m (fmt + 1) = c -> ~ In c (txt "-+# 0") -> flags_loop (S fuel) m fmt 0 = Done (fmt + 1, 0).
Proof.
  intros E N. cbn [flags_loop]. rewrite E.
  assert (H : forall k, In k (txt "-+# 0") -> c =? k = false) by (intros k Hk; apply Z.eqb_neq; intros ->; auto).
  rewrite (H 45), (H 43), (H 35), (H 32), (H 48) by (vm_compute; tauto). auto.
Qed.
(** the conversion character directly follows '%' *)
Lemma conversion_plain fuel m num text remaining fmt args c : byte_mem m -> m fmt = 37 -> m (fmt + 1) = c ->
  ~ In c (txt "-+# 0123456789*.hlzt") ->
  conversion (S fuel) m num text remaining fmt args = convert (S fuel) m num text remaining (Info 0 0 0 (-1)) (fmt + 1) args.
Proof.
  intros Hm E1 E2 N. assert (H : forall k, In k (txt "-+# 0123456789*.hlzt") -> c =? k = false) by (intros k Hk; apply Z.eqb_neq; intros ->; auto).
  unfold conversion. rewrite E1, Z.eqb_refl. rewrite (flags_stop fuel m fmt c E2).
  2:{ intros HI. apply N. cbn in *. tauto. }
  cbn [rbind]. unfold read_width. rewrite E2, (H 42) by (vm_compute; tauto).
  rewrite i64_zero by (auto; rewrite E2; intros HI; apply N; cbn in *; tauto). cbn [rbind].
  change (to_s32 0) with 0. unfold set_width. cbn [i_base i_flags i_width i_precision Z.eqb negb rbind].
  unfold read_precision. rewrite E2, (H 46) by (vm_compute; tauto). cbn [rbind].
  unfold read_size. rewrite E2, (H 104), (H 108), (H 122), (H 116) by (vm_compute; tauto). auto.
Qed.
Ltac notin := let H := fresh in intros H; vm_compute in H; decompose [or] H; discriminate || contradiction.

(** 'l' then 'd' or 'u' *)
Lemma conversion_long fuel m num text remaining fmt args c : byte_mem m -> m fmt = 37 -> m (fmt + 1) = 108 -> m (fmt + 2) = c -> c <> 108 ->
  conversion (S fuel) m num text remaining fmt args = convert (S fuel) m num text remaining (Info 0 FMT_LONG 0 (-1)) (fmt + 2) args.
Proof.
  intros Hm E1 E2 E3 N. unfold conversion. rewrite E1, Z.eqb_refl, (flags_stop fuel m fmt 108 E2) by notin.
  cbn [rbind]. unfold read_width. rewrite E2. cbn [Z.eqb Pos.eqb]. rewrite i64_zero by (auto; rewrite E2; notin). cbn [rbind].
  change (to_s32 0) with 0. unfold set_width. cbn [i_base i_flags i_width i_precision Z.eqb negb rbind].
  unfold read_precision. rewrite E2. cbn [Z.eqb Pos.eqb rbind]. unfold read_size. rewrite E2. cbn [Z.eqb Pos.eqb].
  replace (fmt + 1 + 1) with (fmt + 2) by lia. rewrite E3. replace (c =? 108) with false by lia. reflexivity.
Qed.
(** '.' '*' 's' *)
Lemma conversion_prec fuel m num text remaining fmt p args : byte_mem m -> m fmt = 37 -> m (fmt + 1) = 46 -> m (fmt + 2) = 42 -> m (fmt + 3) = 115 ->
  conversion (S fuel) m num text remaining fmt (AInt p :: args) = convert (S fuel) m num text remaining (Info 0 0 0 p) (fmt + 3) args.
Proof.
  intros Hm E1 E2 E3 E4. unfold conversion. rewrite E1, Z.eqb_refl, (flags_stop fuel m fmt 46 E2) by notin.
  cbn [rbind]. unfold read_width. rewrite E2. cbn [Z.eqb Pos.eqb]. rewrite i64_zero by (auto; rewrite E2; notin). cbn [rbind].
  change (to_s32 0) with 0. unfold set_width. cbn [i_base i_flags i_width i_precision Z.eqb negb rbind].
  unfold read_precision. rewrite E2. cbn [Z.eqb Pos.eqb rbind]. replace (fmt + 1 + 1) with (fmt + 2) by lia. rewrite E3.
  cbn [Z.eqb Pos.eqb rbind]. replace (fmt + 2 + 1) with (fmt + 3) by lia. unfold read_size. rewrite E4. reflexivity.
Qed.

(** printing a text that lies in memory *)
Lemma print_near fuel m m0 num text max_len i str t size :
  byte_mem m0 -> (forall x, ~ (num <= x < num + 130) -> m0 x = m x) ->
  str <> 0 -> i_width i = 0 -> has (i_flags i) FMT_WIDTH = false -> has (i_flags i) FMT_UPPER = false -> has (i_flags i) FMT_LOWER = false ->
  load_bytes m0 str (length t) = t -> chars t ->
  (i_precision i = zlen t \/ i_precision i = -1 /\ m0 (str + zlen t) = 0 /\ (length t <= fuel)%nat) ->
  zlen t <= max_len -> zlen t <= size -> (forall x, text <= x < text + size -> ~ (num <= x < num + 130)) ->
  (forall x, text <= x < text + size -> ~ (str <= x <= str + zlen t)) ->
  exists m1, print_string fuel m0 text max_len i str = Done (m1, zlen t) /\ near m m1 num text t.
Proof.
  intros Hb Hm Hs Hw F1 F2 F3 HL HC HP HM HS HB HD.
  destruct (print_string_plain fuel m0 text max_len i str t) as (m1 & E & P); auto.
  { intros x Hx. apply HD. lia. }
  exists m1. split; auto. split; [apply (byte_mem_ext (put m0 text t)); auto; apply put_bytes; auto|].
  intros x Hx. rewrite P. apply put_ext, Hm, Hx.
Qed.

Definition fits (num text size : Z) : Prop := forall x, text <= x < text + size -> ~ (num <= x < num + 130).

Lemma print_char_near fuel m num text max_len size i c :
  byte_mem m -> num <> 0 -> 1 <= c < 256 -> i_width i = 0 -> has (i_flags i) FMT_WIDTH = false -> has (i_flags i) FMT_UPPER = false -> has (i_flags i) FMT_LOWER = false ->
  i_precision i = -1 -> 1 <= max_len -> 1 <= size -> fits num text size -> (1 <= fuel)%nat ->
  exists m1, print_char fuel m num text max_len i c = Done (m1, 1) /\ near m m1 num text [c].
Proof.
  intros Hb Hn Hc Hw F1 F2 F3 HP HM HS HF Hfu. unfold print_char. apply (print_near fuel m _ num text max_len i num [c] size); auto.
  - intros x. unfold store8. destruct (x =? num + 1); [cbn; lia|]. destruct (x =? num); [apply Z.mod_pos_bound; lia|apply Hb].
  - intros x Hx. unfold store8. replace (x =? num + 1) with false by lia. replace (x =? num) with false by lia. auto.
  - cbn [length]. rewrite load_bytes_cons. f_equal. unfold store8. replace (num =? num + 1) with false by lia. rewrite Z.eqb_refl. apply Z.mod_small. lia.
  - repeat constructor; lia.
  - right. change (zlen [c]) with 1. repeat split; auto. unfold store8. rewrite Z.eqb_refl. auto.
  - intros x Hx. change (zlen [c]) with 1. specialize (HF x Hx). lia.
Qed.
Lemma print_i64_near fuel m num text max_len size i v t :
  byte_mem m -> num <> 0 -> i_base i = 10 -> - 2 ^ 63 < v < 2 ^ 63 -> signed_numeral 10 v t -> i_width i = 0 -> has (i_flags i) FMT_WIDTH = false -> has (i_flags i) FMT_UPPER = false -> has (i_flags i) FMT_LOWER = false ->
  i_precision i = -1 -> zlen t <= max_len -> zlen t <= size -> fits num text size -> (66 <= fuel)%nat ->
  exists m1, print_i64 fuel m num text max_len i v = Done (m1, zlen t) /\ near m m1 num text t.
Proof.
  intros Hb Hn Hba Hv HN Hw F1 F2 F3 HP HM HS HF Hfu. unfold print_i64.
  destruct (p20_i64 m v num 10 fuel Hb Hn ltac:(lia) Hv Hfu) as (m1 & t' & E & C & N & S).
  pose proof (signed_numeral_unique 10 v t' t ltac:(lia) N HN) as ->. rewrite Hba, E. cbn [rbind].
  assert (Ht : zlen t <= 21) by (apply (signed_numeral_short v); auto; lia).
  apply (print_near fuel m m1 num text max_len i num t size); auto.
  - intros x. destruct (Z_lt_ge_dec x num) as [L|L]; [rewrite S by lia; auto|]. destruct (Z_lt_ge_dec x (num + (zlen t + 1))) as [L2|L2]; [|rewrite S by lia; auto].
    destruct (Z.eq_dec x (num + zlen t)) as [->|NE]; [destruct C as (_ & _ & ->); lia|].
    destruct (cstr_at _ _ _ C (x - num) ltac:(lia)) as [_ R]. replace (num + (x - num)) with x in R by lia. lia.
  - intros x Hx. apply S. lia.
  - apply C.
  - apply C.
  - right. split; auto. split; [apply C|]. unfold zlen in Ht. lia.
  - intros x Hx. specialize (HF x Hx). lia.
Qed.
Lemma print_u64_near fuel m num text max_len size i v t :
  byte_mem m -> num <> 0 -> i_base i = 10 -> 0 <= v < 2 ^ 64 -> numeral 10 v t -> i_width i = 0 -> has (i_flags i) FMT_WIDTH = false -> has (i_flags i) FMT_UPPER = false -> has (i_flags i) FMT_LOWER = false ->
  i_precision i = -1 -> zlen t <= max_len -> zlen t <= size -> fits num text size -> (66 <= fuel)%nat ->
  exists m1, print_u64 fuel m num text max_len i v = Done (m1, zlen t) /\ near m m1 num text t.
Proof.
  intros Hb Hn Hba Hv HN Hw F1 F2 F3 HP HM HS HF Hfu. unfold print_u64.
  destruct (p20_u64 m v num 10 fuel Hb Hn ltac:(lia) Hv Hfu) as (m1 & t' & E & C & N & S).
  pose proof (numeral_unique 10 v t' t ltac:(lia) N HN) as ->. rewrite Hba, E. cbn [rbind].
  assert (Ht : zlen t <= 20) by (apply (numeral_short v); auto; lia).
  apply (print_near fuel m m1 num text max_len i num t size); auto.
  - intros x. destruct (Z_lt_ge_dec x num) as [L|L]; [rewrite S by lia; auto|]. destruct (Z_lt_ge_dec x (num + (zlen t + 1))) as [L2|L2]; [|rewrite S by lia; auto].
    destruct (Z.eq_dec x (num + zlen t)) as [->|NE]; [destruct C as (_ & _ & ->); lia|].
    destruct (cstr_at _ _ _ C (x - num) ltac:(lia)) as [_ R]. replace (num + (x - num)) with x in R by lia. lia.
  - intros x Hx. apply S. lia.
  - apply C.
  - apply C.
  - right. split; auto. split; [apply C|]. unfold zlen in Ht. lia.
  - intros x Hx. specialize (HF x Hx). lia.
Qed.

Lemma to_s32_id z : - 2 ^ 31 <= z < 2 ^ 31 -> to_s32 z = z.
Proof. intros H. unfold to_s32. change (2 ^ 32) with (2 ^ 31 + 2 ^ 31). rewrite Z.mod_small; lia. Qed.

Ltac fin n := match goal with |- Done (_, _, ?x, _) = Done (_, _, ?f + ?z, _) => change z with n; replace (f + n) with x by lia; reflexivity end.
Ltac atr := split; [lia|reflexivity].
Lemma conv_step fuel m num text max_len size c t fmt rest : byte_mem m -> num <> 0 -> (66 <= fuel)%nat -> (length t <= fuel)%nat ->
  arg_ok m text size num c -> shows c t -> zlen t <= size -> zlen t <= max_len -> 1 <= max_len -> size < 2 ^ 31 -> fits num text size ->
  load_bytes m fmt (length (conv_text c)) = conv_text c ->
  (match c with Slice _ _ => m (fmt + 2) <> 66 | _ => True end) ->
  exists m1, conversion fuel m num text max_len fmt (conv_args c ++ rest) = Done (m1, zlen t, fmt + zlen (conv_text c), rest) /\ near m m1 num text t.
Proof.
  intros Hb Hn Hf Hft HA HSh HS HM H1 Hsz HF HT HAmb. destruct fuel as [|fuel]; [lia|].
  assert (AT : forall i, 0 <= i < zlen (conv_text c) -> m (fmt + i) = nth (Z.to_nat i) (conv_text c) 0) by (intros; apply load_bytes_at; auto).
  assert (A0 : m fmt = 37).
  { specialize (AT 0). replace (fmt + 0) with fmt in AT by lia. rewrite AT; destruct c; (reflexivity || atr). }
  pose proof (zlen_nonneg t) as Hnn.
  destruct c; cbn [arg_ok shows conv_args app] in HA, HSh |- *.
  - (* %% *) subst t. rewrite (conversion_plain fuel m num text max_len fmt rest 37) by (first [assumption|apply (AT 1); atr|notin]).
    unfold convert. rewrite (AT 1) by atr. change (nth (Z.to_nat 1) (conv_text Percent) 0) with 37. change (zlen (txt "%")) with 1 in *. cbn [Z.eqb Pos.eqb orb].
    destruct (print_char_near (S fuel) m num text max_len size (Info 0 0 0 (-1)) 37) as (m1 & E & N); auto; try lia; try reflexivity.
    rewrite E. cbn [rbind]. exists m1. split; [fin 2|auto].
  - (* %c *) subst t. rewrite (conversion_plain fuel m num text max_len fmt (AInt c :: rest) 99) by (first [assumption|apply (AT 1); atr|notin]).
    unfold convert. rewrite (AT 1) by atr. change (nth (Z.to_nat 1) (conv_text (Char c)) 0) with 99. cbn [Z.eqb Pos.eqb orb].
    change (zlen [c]) with 1 in *.
    destruct (print_char_near (S fuel) m num text max_len size (Info 0 0 0 (-1)) c) as (m1 & E & N); auto; try lia; try reflexivity.
    rewrite Z.mod_small by lia. rewrite E. cbn [rbind]. exists m1. split; [fin 2|auto].
  - (* %s *) subst t0. destruct HA as (Hp & Hc & Hap).
    rewrite (conversion_plain fuel m num text max_len fmt (APtr p :: rest) 115) by (first [assumption|apply (AT 1); atr|notin]).
    unfold convert. rewrite (AT 1) by atr. change (nth (Z.to_nat 1) (conv_text (CString p t)) 0) with 115. cbn [Z.eqb Pos.eqb orb].
    destruct (print_near (S fuel) m m num text max_len (Info 0 0 0 (-1)) p t size) as (m1 & E & N); auto; try reflexivity.
    + apply Hc.
    + apply Hc.
    + right. split; [reflexivity|]. split; [apply Hc|lia].
    + intros x Hx Hpx. exact (proj1 (Hap x ltac:(lia)) Hx).
    + rewrite E. cbn [rbind]. exists m1. split; [fin 2|auto].
  - (* %.*s *) subst t0. destruct HA as (Hp & Hl & Hc & Hap).
    rewrite (conversion_prec fuel m num text max_len fmt (zlen t)) by (first [assumption|apply (AT 1); atr|apply (AT 2); atr|apply (AT 3); atr]).
    unfold convert. rewrite (AT 3) by atr. change (nth (Z.to_nat 3) (conv_text (Prefix p t)) 0) with 115. cbn [Z.eqb Pos.eqb orb].
    destruct (print_near (S fuel) m m num text max_len (Info 0 0 0 (zlen t)) p t size) as (m1 & E & N); auto; try reflexivity.
    + intros x Hx Hpx. exact (proj1 (Hap x ltac:(lia)) Hx).
    + rewrite E. cbn [rbind]. exists m1. split; [fin 4|auto].
  - (* %S *) subst t0. destruct HA as (Hp & Hl & Hc & Hap).
    rewrite (conversion_plain fuel m num text max_len fmt (ASlice p (zlen t) :: rest) 83) by (first [assumption|apply (AT 1); atr|notin]).
    unfold convert. rewrite (AT 1) by atr. change (nth (Z.to_nat 1) (conv_text (Slice p t)) 0) with 83. cbn [Z.eqb Pos.eqb orb].
    replace (fmt + 1 + 1) with (fmt + 2) by lia. replace (m (fmt + 2) =? 66) with false by lia. rewrite to_s32_id by lia.
    destruct (print_near (S fuel) m m num text max_len (set_precision (Info 0 0 0 (-1)) (zlen t)) p t size) as (m1 & E & N); auto; try reflexivity.
    + intros x Hx Hpx. exact (proj1 (Hap x ltac:(lia)) Hx).
    + rewrite E. cbn [rbind]. exists m1. split; [fin 2|auto].
  - (* %SB *) subst t0. destruct HA as (Hp & Hl & Hc & Hsb & Hap).
    rewrite (conversion_plain fuel m num text max_len fmt (APtr p :: rest) 83) by (first [assumption|apply (AT 1); atr|notin]).
    unfold convert. rewrite (AT 1) by atr. change (nth (Z.to_nat 1) (conv_text (Builder p t)) 0) with 83. cbn [Z.eqb Pos.eqb orb].
    replace (fmt + 1 + 1) with (fmt + 2) by lia. rewrite (AT 2) by atr. change (nth (Z.to_nat 2) (conv_text (Builder p t)) 0) with 66.
    cbn [Z.eqb Pos.eqb orb]. replace (p =? 0) with false by lia. rewrite Hsb, to_s32_id by lia.
    destruct (print_near (S fuel) m m num text max_len (set_precision (Info 0 0 0 (-1)) (zlen t)) p t size) as (m1 & E & N); auto; try reflexivity.
    + intros x Hx Hpx. exact (proj1 (Hap x ltac:(lia)) Hx).
    + rewrite E. cbn [rbind]. exists m1. split; [fin 3|auto].
  - (* %d *)
    rewrite (conversion_plain fuel m num text max_len fmt (AInt v :: rest) 100) by (first [assumption|apply (AT 1); atr|notin]).
    unfold convert. rewrite (AT 1) by atr. change (nth (Z.to_nat 1) (conv_text (Int v)) 0) with 100. cbn [Z.eqb Pos.eqb orb].
    unfold print_int, set_base. cbn [i_flags i_base i_width i_precision]. change (Z.land 0 FMT_INTS) with 0. change (has 0 FMT_UNSIGNED) with false.
    change (0 =? FMT_CHAR) with false. change (0 =? FMT_SHORT) with false. change (0 =? FMT_LONG) with false. change (0 =? FMT_LLONG) with false. change (0 =? FMT_SIZE) with false. change (0 =? FMT_INTPTR) with false.
    cbn [orb]. rewrite to_s32_id by lia.
    destruct (print_i64_near (S fuel) m num text max_len size (Info 10 0 0 (-1)) v t) as (m1 & E & N); auto; try reflexivity; try lia.
    rewrite E. cbn [rbind]. exists m1. split; [fin 2|auto].
  - (* %u *)
    rewrite (conversion_plain fuel m num text max_len fmt (AInt v :: rest) 117) by (first [assumption|apply (AT 1); atr|notin]).
    unfold convert. rewrite (AT 1) by atr. change (nth (Z.to_nat 1) (conv_text (Unsigned v)) 0) with 117. cbn [Z.eqb Pos.eqb orb].
    change (set_base (or_flags (Info 0 0 0 (-1)) FMT_UNSIGNED) 10) with (Info 10 FMT_UNSIGNED 0 (-1)).
    unfold print_int. cbn [i_flags i_base i_width i_precision]. change (Z.land FMT_UNSIGNED FMT_INTS) with 0. change (has FMT_UNSIGNED FMT_UNSIGNED) with true.
    change (0 =? FMT_CHAR) with false. change (0 =? FMT_SHORT) with false. change (0 =? FMT_LONG) with false. change (0 =? FMT_LLONG) with false. change (0 =? FMT_SIZE) with false. change (0 =? FMT_INTPTR) with false.
    cbn [orb]. rewrite Z.mod_small by lia.
    destruct (print_u64_near (S fuel) m num text max_len size (Info 10 FMT_UNSIGNED 0 (-1)) v t) as (m1 & E & N); auto; try reflexivity.
    { assert (2 ^ 32 < 2 ^ 64) by reflexivity. lia. }
    rewrite E. cbn [rbind]. exists m1. split; [fin 2|auto].
  - (* %ld *)
    rewrite (conversion_long fuel m num text max_len fmt (ALong v :: rest) 100) by (first [assumption|apply (AT 1); atr|apply (AT 2); atr|lia]).
    unfold convert. rewrite (AT 2) by atr. change (nth (Z.to_nat 2) (conv_text (Long v)) 0) with 100. cbn [Z.eqb Pos.eqb orb].
    unfold print_int, set_base. cbn [i_flags i_base i_width i_precision]. change (Z.land FMT_LONG FMT_INTS) with FMT_LONG. change (has FMT_LONG FMT_UNSIGNED) with false.
    change (FMT_LONG =? FMT_LONG) with true. cbn [orb negb]. replace ((v + 2 ^ 63) mod 2 ^ 64 - 2 ^ 63) with v by (change (2 ^ 64) with (2 ^ 63 + 2 ^ 63); rewrite Z.mod_small; lia).
    destruct (print_i64_near (S fuel) m num text max_len size (Info 10 FMT_LONG 0 (-1)) v t) as (m1 & E & N); auto; try reflexivity; try lia.
    rewrite E. cbn [rbind]. exists m1. split; [fin 3|auto].
  - (* %lu *)
    rewrite (conversion_long fuel m num text max_len fmt (ALong v :: rest) 117) by (first [assumption|apply (AT 1); atr|apply (AT 2); atr|lia]).
    unfold convert. rewrite (AT 2) by atr. change (nth (Z.to_nat 2) (conv_text (ULong v)) 0) with 117. cbn [Z.eqb Pos.eqb orb].
    change (set_base (or_flags (Info 0 FMT_LONG 0 (-1)) FMT_UNSIGNED) 10) with (Info 10 (FMT_LONG + FMT_UNSIGNED) 0 (-1)).
    unfold print_int, set_base. cbn [i_flags i_base i_width i_precision]. change (Z.land (FMT_LONG + FMT_UNSIGNED) FMT_INTS) with FMT_LONG. change (has (FMT_LONG + FMT_UNSIGNED) FMT_UNSIGNED) with true.
    change (FMT_LONG =? FMT_LONG) with true. cbn [orb negb]. rewrite Z.mod_small by lia.
    destruct (print_u64_near (S fuel) m num text max_len size (Info 10 (FMT_LONG + FMT_UNSIGNED) 0 (-1)) v t) as (m1 & E & N); auto; try reflexivity; try lia.
    rewrite E. cbn [rbind]. exists m1. split; [fin 3|auto].
Qed.

(** ** literal text *)
Lemma literal_step remaining : remaining <> 0 -> forall lit (m m0 : mem) text fmt fuel, literal lit -> (forall x, m0 x = m x) ->
  load_bytes m fmt (length lit) = lit -> m (fmt + zlen lit) = 0 \/ m (fmt + zlen lit) = 37 -> (length lit <= fuel)%nat ->
  (forall x, text <= x < text + zlen lit -> ~ (fmt <= x <= fmt + zlen lit)) ->
  exists m1, literal_loop fuel m0 text fmt remaining = Some (m1, text + zlen lit, fmt + zlen lit) /\ forall x, m1 x = put m text lit x.
Proof.
  intros Hr. unfold literal_loop. induction lit as [|b lit IH]; intros m m0 text fmt fuel [HC HP] Hm HL HE HF HD.
  - exists m0. unfold zlen in *. cbn [length] in *. replace (text + Z.of_nat 0) with text by lia. replace (fmt + Z.of_nat 0) with fmt in * by lia.
    split; [|intros; rewrite put_nil; auto].
    assert (C : negb (m0 fmt =? 0) && negb (m0 fmt =? 37) && negb (remaining =? 0) = false) by (rewrite Hm; destruct HE as [-> | ->]; reflexivity).
    destruct fuel; cbn [while]; rewrite C; auto.
  - apply load_bytes_cons_inv in HL as [E1 E2]. rewrite zlen_cons in *. pose proof (zlen_nonneg lit). pose proof (Forall_inv HC) as Hb. cbv beta in Hb.
    assert (b <> 37) by (intros ->; apply HP; left; auto). destruct fuel as [|fuel]; [cbn in HF; lia|]. cbn [while]. rewrite Hm, E1.
    replace (negb (b =? 0) && negb (b =? 37) && negb (remaining =? 0)) with true by lia.
    destruct (IH (store8 m text b) (store8 m0 text b) (text + 1) (fmt + 1) fuel) as (m1 & W & P).
    + split; [apply (Forall_inv_tail HC)|intros HI; apply HP; right; auto].
    + intros x. unfold store8. rewrite Hm. auto.
    + rewrite <- E2 at 2. apply load_bytes_ext. intros x Hx. unfold store8. destruct (Z.eqb_spec x text) as [->|]; auto.
      exfalso. apply (HD text); unfold zlen in *; lia.
    + unfold store8. destruct (Z.eqb_spec (fmt + 1 + zlen lit) text) as [E|]; [exfalso; apply (HD text); lia|].
      replace (fmt + 1 + zlen lit) with (fmt + (1 + zlen lit)) by lia. auto.
    + cbn in HF. lia.
    + intros x Hx. specialize (HD x ltac:(lia)). lia.
    + exists m1. split; [rewrite W; replace (text + 1 + zlen lit) with (text + (1 + zlen lit)) by lia; replace (fmt + 1 + zlen lit) with (fmt + (1 + zlen lit)) by lia; auto|].
      intros x. rewrite P. apply put_step. lia.
Qed.

Lemma app_inj_len {A} (a b c d : list A) : a ++ b = c ++ d -> length a = length c -> a = c /\ b = d.
Proof. revert c. induction a as [|x a IH]; intros [|y c] H L; cbn in *; try discriminate; auto. injection H as -> H. destruct (IH c H); [lia|]. subst. auto. Qed.
Lemma cstr_app m s a b : cstr m s (a ++ b) -> load_bytes m s (length a) = a /\ cstr m (s + zlen a) b.
Proof.
  intros (H1 & H2 & H3). rewrite app_length, load_bytes_app in H1. apply app_inj_len in H1 as [H1 H1']; [|apply load_bytes_len].
  apply Forall_app in H2 as [_ H2]. rewrite zlen_app in H3. repeat split; auto. rewrite <- H3. f_equal. lia.
Qed.
Lemma apart_sub a n a' n' text size text' size' num : apart a n text size num -> a <= a' -> a' + n' <= a + n -> text <= text' -> text' + size' <= text + size ->
  apart a' n' text' size' num.
Proof. intros H H1 H2 H3 H4 x Hx. destruct (H x ltac:(lia)). split; auto. lia. Qed.

(** [m1] agrees with [m] away from the buffer and the local array *)
Definition keeps (m m1 : mem) (text size num : Z) : Prop :=
  forall x, ~ (text <= x < text + size) -> ~ (num <= x < num + 130) -> m1 x = m x.
Lemma load_keeps m m1 text size num a t k : keeps m m1 text size num -> apart a k text size num -> zlen t <= k -> load_bytes m a (length t) = t -> load_bytes m1 a (length t) = t.
Proof. intros HK HA Hk H. rewrite <- H at 2. apply load_bytes_ext. intros x Hx. destruct (HA x); [unfold zlen in *; lia|]. apply HK; auto. Qed.
Lemma cstr_keeps m m1 text size num a t : keeps m m1 text size num -> apart a (zlen t + 1) text size num -> cstr m a t -> cstr m1 a t.
Proof. intros HK HA HC. apply (cstr_ext m); auto. intros x Hx. destruct (HA x ltac:(lia)). apply HK; auto. Qed.
Lemma arg_keeps m m1 text size num text' size' c : keeps m m1 text size num -> text <= text' -> text' + size' <= text + size ->
  arg_ok m text size num c -> arg_ok m1 text' size' num c.
Proof.
  intros HK H1 H2 HA. destruct c; cbn [arg_ok] in *; auto.
  - destruct HA as (A & B & C). repeat split; auto; try (eapply apart_sub; eauto; lia); eapply cstr_keeps; eauto.
  - destruct HA as (A & B & C & D). split; auto. split; [eapply load_keeps; eauto; lia|]. split; auto. eapply apart_sub; eauto; lia.
  - destruct HA as (A & B & C & D). split; auto. split; [eapply load_keeps; eauto; lia|]. split; auto. eapply apart_sub; eauto; lia.
  - destruct HA as (A & B & C & L & D). pose proof (zlen_nonneg t). split; auto.
    split; [eapply (load_keeps m m1 text size num p t (zlen t)); eauto; [eapply apart_sub; eauto; lia|lia]|]. split; auto. split; [|eapply apart_sub; eauto; lia].
    rewrite <- L. unfold sb_length, ld64. rewrite (load_le_ext 8 m1 m (p - 8)); auto. intros i Hi. destruct (D (p - 8 + i) ltac:(lia)). apply HK; auto.
Qed.
Lemma near_keeps m m1 num text size t : near m m1 num text t -> zlen t <= size -> keeps m m1 text size num.
Proof. intros [_ H] L x H1 H2. rewrite H by auto. apply put_out. lia. Qed.

Lemma shows_chars m text size num c t : arg_ok m text size num c -> shows c t -> chars t.
Proof.
  destruct c; cbn [arg_ok shows]; intros HA HS.
  - subst. change (chars [37]). constructor; [lia|constructor].
  - subst. constructor; [lia|constructor].
  - subst. apply HA.
  - subst. apply HA.
  - subst. apply HA.
  - subst. apply HA.
  - eapply signed_numeral_chars; eauto.
  - eapply numeral_chars; eauto.
  - eapply signed_numeral_chars; eauto.
  - eapply numeral_chars; eauto.
Qed.

(** no conversion at the end of the format *)
Lemma conversion_end fuel m num text remaining fmt args : byte_mem m -> m fmt = 0 ->
  conversion fuel m num text remaining fmt args = Done (m, 0, fmt, args).
Proof.
  intros Hb E. unfold conversion. rewrite E. cbn [Z.eqb rbind]. unfold read_width. rewrite E. cbn [Z.eqb].
  rewrite i64_zero by (auto; rewrite E; notin). cbn [rbind]. change (to_s32 0) with 0. unfold set_width. cbn [i_width i_base i_flags i_precision Z.eqb negb rbind].
  unfold read_precision. rewrite E. cbn [Z.eqb rbind]. unfold read_size. rewrite E. cbn [Z.eqb]. unfold convert. rewrite E. reflexivity.
Qed.
Lemma conv_text_len c : 1 <= zlen (conv_text c). Proof. destruct c; vm_compute; discriminate. Qed.
Lemma conv_text_hd c : nth 0 (conv_text c) 0 = 37. Proof. destruct c; reflexivity. Qed.

Lemma fmt_loop_ok last : literal last -> forall segs n fuel m num text size remaining fmt out,
  byte_mem m -> num <> 0 -> (66 <= fuel)%nat -> (length segs + 1 <= n)%nat -> (length out <= fuel)%nat ->
  Forall (fun s => literal (fst s) /\ arg_ok m text size num (snd s)) segs -> unambiguous segs last -> renders segs last out ->
  cstr m fmt (format_text segs last) -> apart fmt (zlen (format_text segs last) + 1) text size num ->
  zlen out < size -> size <= remaining -> size < 2 ^ 31 -> fits num text size ->
  exists m1, fmt_loop n fuel m num text remaining fmt (format_args segs) = Done (m1, text + zlen out) /\ near m m1 num text out.
Proof.
  intros HLast. induction segs as [|[lit c] segs IH]; intros n fuel m num text size remaining fmt out Hb Hn Hf Hsn Hof HA HU HR HC HAp Hsz Hrem Hs31 HF.
  - inversion HR; subst last0 out. cbn [format_text format_args] in *. destruct n as [|n]; [cbn in Hsn; lia|]. cbn [fmt_loop].
    destruct HC as (C1 & C2 & C3). pose proof (zlen_nonneg last) as Hl0.
    assert (Hends : forall k m0 x, byte_mem m0 -> m0 x = 0 -> fmt_loop k fuel m0 num (text + zlen last) (if 0 >=? remaining then Z.min remaining 1 else remaining - 0) x [] = Done (m0, text + zlen last)).
    { intros k m0 x Hb0 Hx. destruct k; cbn [fmt_loop]; rewrite Hx; auto. }
    destruct (m fmt =? 0) eqn:E0.
    + destruct last as [|b last].
      * exists m. unfold zlen. cbn [length]. replace (text + Z.of_nat 0) with text by lia. split; auto. split; auto. intros; rewrite put_nil; auto.
      * exfalso. apply load_bytes_cons_inv in C1 as [E _]. apply Forall_inv in C2. lia.
    + destruct (literal_step remaining ltac:(lia) last m m text fmt fuel HLast ltac:(auto) C1 (or_introl C3) Hof) as (m1 & W & P).
      { intros x Hx Hfx. destruct (HAp x ltac:(lia)). lia. }
      rewrite W. cbn [of_opt rbind].
      assert (Hb1 : byte_mem m1) by (apply (byte_mem_ext (put m text last)); auto; apply put_bytes; auto).
      assert (E1 : m1 (fmt + zlen last) = 0).
      { rewrite P, put_out; auto. intros Hx. destruct (HAp (fmt + zlen last) ltac:(lia)). lia. }
      rewrite conversion_end by auto. cbn [rbind]. replace (text + zlen last + 0) with (text + zlen last) by lia. rewrite Hends by auto.
      exists m1. split; auto. split; auto.
  - inversion HR as [|lit' c' t r' last' out' HSh HR']; subst lit' c' r' last' out. cbn [format_text format_args] in *.
    apply Forall_cons_iff in HA as [[HLit HArg] HA]. cbn [fst snd] in *. destruct HU as [HU1 HU2].
    rewrite !zlen_app in *. pose proof (zlen_nonneg lit) as L0. pose proof (zlen_nonneg t) as L1. pose proof (zlen_nonneg out') as L2.
    pose proof (zlen_nonneg (format_text segs last)) as L3. pose proof (conv_text_len c) as L4.
    destruct (cstr_app _ _ _ _ HC) as [HCl HC2]. destruct (cstr_app _ _ _ _ HC2) as [HCc HC3].
    assert (E37 : m (fmt + zlen lit) = 37).
    { rewrite <- (Z.add_0_r (fmt + zlen lit)), (load_bytes_at _ _ _ HCc) by lia. apply conv_text_hd. }
    destruct n as [|n]; [cbn in Hsn; lia|]. cbn [fmt_loop].
    assert (E0 : m fmt =? 0 = false).
    { destruct lit as [|b lit]; [change (zlen []) with 0 in *; rewrite Z.add_0_r in E37; lia|].
      apply load_bytes_cons_inv in HCl as [E _]. destruct HLit as [Hch _]. apply Forall_inv in Hch. lia. }
    rewrite E0.
    destruct (literal_step remaining ltac:(lia) lit m m text fmt fuel HLit ltac:(auto) HCl (or_intror E37)) as (m1 & W & P).
    { rewrite app_length in Hof. lia. }
    { intros x Hx Hfx. destruct (HAp x ltac:(lia)). lia. }
    rewrite W. cbn [of_opt rbind].
    assert (Hb1 : byte_mem m1) by (apply (byte_mem_ext (put m text lit)); auto; apply put_bytes; auto; apply HLit).
    assert (N1 : near m m1 num text lit) by (split; auto).
    assert (K1 : keeps m m1 text size num) by (eapply near_keeps; eauto; lia).
    assert (HC1 : cstr m1 (fmt + zlen lit) (conv_text c ++ format_text segs last)).
    { eapply cstr_keeps; eauto. rewrite zlen_app. eapply apart_sub; eauto; lia. }
    destruct (cstr_app _ _ _ _ HC1) as [HCc1 HC31].
    destruct (conv_step fuel m1 num (text + zlen lit) remaining (size - zlen lit) c t (fmt + zlen lit) (format_args segs)) as (m2 & E2 & N2); auto; try lia.
    { rewrite !app_length in Hof. lia. }
    { eapply arg_keeps; eauto; lia. }
    { intros x Hx. apply HF. lia. }
    { destruct c; auto. change (zlen (conv_text (Slice p t0))) with 2 in HC31.
      destruct (format_text segs last) as [|b r]; [rewrite (cstr_nil _ _ HC31); lia|]. destruct (cstr_cons _ _ _ _ HC31) as [-> _]. auto. }
    rewrite E2. cbn [rbind]. replace (zlen t >=? remaining) with false by lia.
    assert (K2 : keeps m1 m2 (text + zlen lit) (size - zlen lit) num) by (eapply near_keeps; eauto; lia).
    assert (K12 : keeps m m2 text size num) by (intros x Hx1 Hx2; rewrite K2 by lia; apply K1; auto).
    destruct (IH n fuel m2 num (text + zlen lit + zlen t) (size - zlen lit - zlen t) (remaining - zlen t) (fmt + zlen lit + zlen (conv_text c)) out') as (m3 & E3 & N3); auto; try lia.
    + apply N2.
    + cbn in Hsn. lia.
    + rewrite !app_length in Hof. lia.
    + eapply Forall_impl; [|exact HA]. intros [l0 c0] [H1 H2]. split; auto. cbn [fst snd] in *. eapply arg_keeps; eauto; lia.
    + eapply cstr_keeps; eauto. eapply apart_sub; eauto; lia.
    + eapply apart_sub; eauto; lia.
    + intros x Hx. apply HF. lia.
    + rewrite E3. exists m3. split; [do 2 f_equal; lia|]. split; [apply N3|].
      intros x Hx. destruct N3 as [_ N3]. destruct N2 as [_ N2]. destruct N1 as [_ N1]. rewrite N3 by auto.
      replace (text + zlen lit + zlen t) with (text + zlen (lit ++ t)) by (rewrite zlen_app; lia).
      rewrite (app_assoc lit t out'), <- (put_app m text (lit ++ t) out'). apply put_ext.
      rewrite N2 by auto. rewrite <- put_app. apply put_ext. apply N1; auto.
Qed.

Lemma renders_chars last m text size num : literal last -> forall segs out, Forall (fun s => literal (fst s) /\ arg_ok m text size num (snd s)) segs -> renders segs last out -> chars out.
Proof.
  intros HL. induction segs as [|[lit c] segs IH]; intros out HA HR; inversion HR; subst; [apply HL|].
  apply Forall_cons_iff in HA as [[H1 H2] HA]. cbn [fst snd] in *. unfold chars. rewrite !Forall_app. split; [apply H1|]. split; [eapply shows_chars; eauto|apply IH; auto].
Qed.

Lemma p37_format m num text size fmt segs last out fuel :
  byte_mem m -> num <> 0 -> (forall x, text <= x < text + size -> ~ (num <= x < num + 130)) -> size < 2 ^ 31 ->
  literal last -> Forall (fun s => literal (fst s) /\ arg_ok m text size num (snd s)) segs -> unambiguous segs last ->
  cstr m fmt (format_text segs last) -> apart fmt (zlen (format_text segs last) + 1) text size num ->
  renders segs last out -> zlen out + 1 <= size ->
  (66 <= fuel)%nat -> (length segs < fuel)%nat -> (length out <= fuel)%nat ->
  exists m1, c_str_fmt_va fuel m num text size fmt (format_args segs) = Done (m1, if zlen out + 1 =? size then -1 else zlen out + 1) /\
    cstr m1 text out /\ forall x, ~ (text <= x < text + zlen out + 1) -> ~ (num <= x < num + 130) -> m1 x = m x.
Proof.
  intros Hb Hn HF Hs HL HA HU HC HAp HR Hsz Hf1 Hf2 Hf3. pose proof (zlen_nonneg out) as H0.
  destruct (fmt_loop_ok last HL segs fuel fuel m num text size size fmt out) as (m1 & E & N1 & N2); auto; try lia.
  unfold c_str_fmt_va. rewrite E. cbn [rbind]. exists (store8 m1 (text + zlen out) 0).
  replace (text + zlen out + 1 - text) with (zlen out + 1) by lia.
  split; [|split].
  - repeat f_equal. destruct (Z.eqb_spec (zlen out + 1) size); [replace (zlen out + 1 >=? size) with true by lia; auto|].
    replace ((zlen out + 1 >=? size) || (zlen out + 1 <? 0)) with false by lia. auto.
  - assert (HCh : chars out) by (eapply renders_chars; eauto).
    assert (HX : forall i, 0 <= i < zlen out -> store8 m1 (text + zlen out) 0 (text + i) = nth (Z.to_nat i) out 0).
    { intros i Hi. unfold store8. replace (text + i =? text + zlen out) with false by lia. rewrite N2; [apply put_in; auto|]. apply HF. lia. }
    split; [apply load_bytes_intro; auto|]. split; auto. unfold store8. rewrite Z.eqb_refl. auto.
  - intros x H1 H2. unfold store8. replace (x =? text + zlen out) with false by lia. rewrite N2 by auto. apply put_out. lia.
Qed.

(** ** literals are never checked against the buffer size *)
Lemma p37_literal_overflow m num text n fmt t fuel : byte_mem m -> 1 <= n <= zlen t -> literal t -> cstr m fmt t ->
  (forall x, fmt <= x <= fmt + zlen t -> ~ (text <= x < text + zlen t)) -> (length t <= fuel)%nat -> (1 <= fuel)%nat ->
  exists m1, c_str_fmt_va fuel m num text n fmt [] = Done (m1, -1) /\ load_bytes m1 text (length t) = t /\ m1 (text + zlen t) = 0.
Proof.
  intros Hb Hn HL HC HD Hf H1. destruct HC as (C1 & C2 & C3).
  destruct (literal_step n ltac:(lia) t m m text fmt fuel HL ltac:(auto) C1 (or_introl C3) Hf) as (m1 & W & P).
  { intros x Hx Hfx. apply (HD x); lia. }
  assert (Hb1 : byte_mem m1) by (apply (byte_mem_ext (put m text t)); auto; apply put_bytes; auto).
  assert (E0 : m fmt =? 0 = false).
  { destruct t as [|b t]; [change (zlen []) with 0 in Hn; lia|]. apply load_bytes_cons_inv in C1 as [E _]. apply Forall_inv in C2. lia. }
  assert (E1 : m1 (fmt + zlen t) = 0).
  { rewrite P, put_out; auto. apply HD. pose proof (zlen_nonneg t). lia. }
  exists (store8 m1 (text + zlen t) 0). unfold c_str_fmt_va. destruct fuel as [|fuel]; [lia|]. cbn [fmt_loop]. rewrite E0, W. cbn [of_opt rbind].
  rewrite conversion_end by auto. cbn [rbind]. replace (text + zlen t + 0) with (text + zlen t) by lia.
  assert (EL : forall k r, fmt_loop k (S fuel) m1 num (text + zlen t) r (fmt + zlen t) [] = Done (m1, text + zlen t)) by (intros [|k] r; cbn [fmt_loop]; rewrite E1; auto).
  rewrite EL. cbn [rbind]. replace (text + zlen t + 1 - text >=? n) with true by lia. cbn [orb]. split; auto. split.
  - apply load_bytes_intro. intros i Hi. unfold store8. replace (text + i =? text + zlen t) with false by lia. rewrite P. apply put_in. auto.
  - unfold store8. rewrite Z.eqb_refl. auto.
Qed.

(** with a zero-sized buffer an ordinary character is never consumed *)
Lemma p37_zero_size_hangs m num text fmt c : byte_mem m -> m fmt = c -> c <> 0 -> ~ In c (txt "%0123456789-*.hlztudioxXpfFgGaAcsSr") ->
  forall fuel args, c_str_fmt_va fuel m num text 0 fmt args = NoFuel.
Proof.
  intros Hb E N0 NI fuel args.
  assert (H : forall k, In k (txt "%0123456789-*.hlztudioxXpfFgGaAcsSr") -> c =? k = false) by (intros k Hk; apply Z.eqb_neq; intros ->; auto).
  assert (L : literal_loop fuel m text fmt 0 = Some (m, text, fmt)).
  { unfold literal_loop. assert (C : negb (m fmt =? 0) && negb (m fmt =? 37) && negb (0 =? 0) = false) by (cbn; rewrite andb_false_r; auto). destruct fuel; cbn [while]; rewrite C; auto. }
  assert (CV : conversion fuel m num text 0 fmt args = Done (m, 0, fmt, args)).
  { unfold conversion. rewrite E, (H 37) by (vm_compute; tauto). cbn [rbind]. unfold read_width. rewrite E, (H 42) by (vm_compute; tauto).
    rewrite i64_zero by (auto; rewrite E; intros HI; apply NI; cbn in *; tauto). cbn [rbind]. change (to_s32 0) with 0. unfold set_width. cbn [i_width i_base i_flags i_precision Z.eqb negb rbind].
    unfold read_precision. rewrite E, (H 46) by (vm_compute; tauto). cbn [rbind]. unfold read_size. rewrite E, (H 104), (H 108), (H 122), (H 116) by (vm_compute; tauto).
    unfold convert. rewrite E, (H 117), (H 100), (H 105), (H 111), (H 120), (H 88), (H 112), (H 102), (H 70), (H 103), (H 71), (H 97), (H 65), (H 99), (H 115), (H 83), (H 114), (H 37) by (vm_compute; tauto).
    reflexivity. }
  unfold c_str_fmt_va. assert (X : forall k, fmt_loop k fuel m num text 0 fmt args = NoFuel).
  { induction k as [|k IH]; cbn [fmt_loop]; rewrite E; replace (c =? 0) with false by lia; auto.
    rewrite L. cbn [of_opt rbind]. rewrite CV. cbn [rbind]. replace (text + 0) with text by lia. cbn [Z.geb Z.compare]. exact IH. }
  rewrite X. auto.
Qed.
