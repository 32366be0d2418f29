From Coq Require Import String ZArith List Bool Lia ZifyBool ZifyNat.
From Verif Require Import Common Text ArrayModel StrOpsModel StrModel StrOpsSpec CommonProofs ArrayProofs StrOpsProofs StrOpsProofs2 StrOpsProofs3 FmtModel FmtSpec FmtProofs CommentModel CommentSpec.
Import ListNotations.
Open Scope Z_scope.

Lemma load_app_inv m a x y : load_bytes m a (length (x ++ y)) = x ++ y -> load_bytes m a (length x) = x /\ load_bytes m (a + zlen x) (length y) = y.
Proof.
  rewrite app_length, load_bytes_app. intros H. apply app_inj_len in H; [|apply load_bytes_len]. exact H.
Qed.

(** ** one line through the formatter *)
Definition FMT := txt "//%.*s".

(** what the call needs of memory: the format lies at [fmt], source and format are apart from the buffer *)
Record place (m : mem) (num buf fmt : Z) : Prop := Place {
  pl_bytes : byte_mem m; pl_num : num <> 0;
  pl_fmt : cstr m fmt FMT;
  pl_apart : forall x, fmt <= x <= fmt + 6 -> ~ (buf <= x < buf + PRINTF_MAXLEN) }.

Lemma zeroed_bytes m a n : byte_mem m -> byte_mem (zeroed m a n).
Proof. intros H x. unfold zeroed. destruct ((a <=? x) && (x <? a + n)); [lia|apply H]. Qed.
Lemma zeroed_out m a n x : ~ (a <= x < a + n) -> zeroed m a n x = m x.
Proof. intros H. unfold zeroed. replace ((a <=? x) && (x <? a + n)) with false by lia. auto. Qed.

Lemma slash_chars : literal (txt "//").
Proof. change (txt "//") with [47; 47]. split; [constructor; [lia|constructor; [lia|constructor]]|cbn; lia]. Qed.

Lemma fmt_bytes m fmt : cstr m fmt FMT -> m (fmt + 2) = 37 /\ m (fmt + 3) = 46 /\ m (fmt + 4) = 42 /\ m (fmt + 5) = 115 /\ m (fmt + 6) = 0 /\ load_bytes m fmt 2 = txt "//".
Proof.
  intros (H & _ & Z). pose proof (load_bytes_at _ _ _ H) as A. change (zlen FMT) with 6 in *.
  assert (B : forall i c, 0 <= i < 6 -> nth (Z.to_nat i) FMT 0 = c -> m (fmt + i) = c) by (intros i c Hi <-; apply A; auto).
  split; [apply B; [lia|reflexivity]|]. split; [apply B; [lia|reflexivity]|]. split; [apply B; [lia|reflexivity]|]. split; [apply B; [lia|reflexivity]|].
  split; auto. unfold load_bytes. cbn [seq map]. change (Z.of_nat 0) with 0. change (Z.of_nat 1) with 1.
  rewrite (B 0 47), (B 1 47) by (lia || reflexivity). reflexivity.
Qed.

(** the format runs its literal, then _print_string on the source *)
Lemma fmt_runs fuel m num buf fmt n src m2 r :
  byte_mem m -> cstr m fmt FMT -> (forall x, fmt <= x <= fmt + 6 -> ~ (buf <= x < buf + PRINTF_MAXLEN)) ->
  (forall m1, (forall x, m1 x = put m buf (txt "//") x) ->
     exists m2', print_string (S (S fuel)) m1 (buf + 2) (PRINTF_MAXLEN - 1) (Info 0 0 0 n) src = Done (m2', r) /\ forall x, m2' x = m2 x) ->
  (forall x, ~ (buf <= x < buf + PRINTF_MAXLEN) -> m2 x = m x) -> 0 <= r -> 2 + r + 1 < PRINTF_MAXLEN - 1 ->
  exists m3, c_str_fmt_va (S (S fuel)) m num buf (PRINTF_MAXLEN - 1) fmt [AInt n; APtr src] = Done (m3, r + 3) /\
    forall x, m3 x = store8 m2 (buf + 2 + r) 0 x.
Proof.
  intros Hb HF HA HP HO Hr Hs. destruct (fmt_bytes _ _ HF) as (F2 & F3 & F4 & F5 & F6 & FL).
  assert (PM : PRINTF_MAXLEN = 131072) by reflexivity.
  assert (F0 : m fmt <> 0). { rewrite load_bytes_cons in FL. injection FL as E _. rewrite E. lia. }
  unfold c_str_fmt_va. cbn [fmt_loop]. replace (m fmt =? 0) with false by lia.
  destruct (literal_step (PRINTF_MAXLEN - 1) ltac:(lia) (txt "//") m m buf fmt (S (S fuel)) slash_chars ltac:(auto)) as (m1 & W & P);
    [exact FL|right; exact F2|cbn; lia|change (zlen (txt "//")) with 2; intros x Hx Hy; apply (HA x); lia|].
  change (zlen (txt "//")) with 2 in W. unfold mem in *. rewrite W. cbn [of_opt rbind].
  assert (PO : forall x, fmt <= x <= fmt + 6 -> m1 x = m x).
  { intros x Hx. rewrite P. apply put_out. change (zlen (txt "//")) with 2. intros Hy. apply (HA x); lia. }
  assert (B1 : byte_mem m1).
  { apply (byte_mem_ext (put m buf (txt "//"))); auto. apply put_bytes; auto. apply (proj1 slash_chars). }
  rewrite conversion_prec; auto;
    [|rewrite PO by lia; auto|rewrite PO by lia; replace (fmt + 2 + 1) with (fmt + 3) by lia; auto
     |rewrite PO by lia; replace (fmt + 2 + 2) with (fmt + 4) by lia; auto|rewrite PO by lia; replace (fmt + 2 + 3) with (fmt + 5) by lia; auto].
  unfold convert. replace (fmt + 2 + 3) with (fmt + 5) by lia. rewrite (PO (fmt + 5)) by lia. rewrite F5. cbn [Z.eqb Pos.eqb orb].
  destruct (HP m1 P) as (m2' & E & X). rewrite E. cbn [rbind].
  replace (fmt + 5 + 1) with (fmt + 6) by lia.
  cbn [fmt_loop]. rewrite X, HO by (apply HA; lia). rewrite F6. cbn [Z.eqb rbind].
  exists (store8 m2' (buf + 2 + r) 0). split.
  - replace (buf + 2 + r + 1 - buf) with (r + 3) by lia. replace ((r + 3 >=? PRINTF_MAXLEN - 1) || (r + 3 <? 0)) with false by lia. auto.
  - intros x. unfold store8. rewrite X. auto.
Qed.

Definition outside (m m' : mem) (buf : Z) : Prop := forall x, ~ (buf <= x < buf + PRINTF_MAXLEN) -> m' x = m x.

Lemma print_upto fuel m text max_len src n t : src <> 0 -> load_bytes m src (length t) = t -> chars t -> zlen t <= n ->
  (zlen t < n -> m (src + zlen t) = 0) -> n <= max_len -> (forall x, text <= x < text + n -> ~ (src <= x <= src + zlen t)) ->
  exists m1, print_string fuel m text max_len (Info 0 0 0 n) src = Done (m1, zlen t) /\
    forall x, m1 x = put m text (t ++ repeat 0 (Z.to_nat (n - zlen t))) x.
Proof.
  intros Hs HL HC Hn HZ HM HD. pose proof (zlen_nonneg t). unfold print_string. replace (src =? 0) with false by lia. cbn [andb i_precision i_width i_flags].
  replace (n >=? 0) with true by lia. cbn [rbind]. change (has 0 FMT_WIDTH) with false. change (has 0 FMT_UPPER) with false. change (has 0 FMT_LOWER) with false.
  cbn [Z.eqb andb orb]. replace (if n >? 0 then if n <? n then n else n else n) with n by (rewrite Z.ltb_irrefl; destruct (n >? 0); auto).
  replace (n >? max_len) with false by lia.
  destruct (copy_loops_spec m text src n t HL HC Hn HZ HD) as (m1 & W & P).
  unfold c_str_copy_nulpad. replace (src =? 0) with false by lia. rewrite W. cbn [option_map of_opt rbind].
  replace (src + zlen t - src) with (zlen t) by lia. replace (0 >? zlen t) with false by lia. cbn [rbind negb].
  exists m1. auto.
Qed.

Lemma append_line fuel m num buf fmt src n t acc : place m num buf fmt -> src <> 0 ->
  load_bytes m src (length t) = t -> chars t -> zlen t <= n -> (zlen t < n -> m (src + zlen t) = 0) -> n + 4 < PRINTF_MAXLEN ->
  (forall x, src <= x <= src + zlen t -> ~ (buf <= x < buf + PRINTF_MAXLEN)) ->
  exists m1, append_fmt (S (S fuel)) m num buf fmt [AInt n; APtr src] acc = Done (m1, acc ++ txt "//" ++ t) /\ outside m m1 buf /\ byte_mem m1.
Proof.
  intros [PB PN PF PA] Hs HL HC Hn HZ HM HD. pose proof (zlen_nonneg t). assert (PM : PRINTF_MAXLEN = 131072) by reflexivity.
  set (m0 := zeroed m buf PRINTF_MAXLEN). assert (B0 : byte_mem m0) by (apply zeroed_bytes; auto).
  set (body := txt "//" ++ t ++ repeat 0 (Z.to_nat (n - zlen t))).
  assert (BL : zlen body = 2 + n). { unfold body. rewrite !zlen_app, zlen_repeat. change (zlen (txt "//")) with 2. lia. }
  assert (F0 : cstr m0 fmt FMT).
  { destruct PF as (A & B & C). change (zlen FMT) with 6 in *. split; [|split; auto].
    - rewrite <- A at 2. apply load_bytes_ext. intros x Hx. change (length FMT) with 6%nat in Hx. apply zeroed_out, PA. lia.
    - unfold m0. change (zlen FMT) with 6. rewrite zeroed_out; auto. apply PA. lia. }
  destruct (fmt_runs fuel m0 num buf fmt n src (put m0 buf body) (zlen t)) as (m3 & E & X); auto.
  - intros m1 P1. destruct (print_upto (S (S fuel)) m1 (buf + 2) (PRINTF_MAXLEN - 1) src n t) as (m2 & E & P2); auto; try lia.
    + rewrite <- HL at 2. apply load_bytes_ext. intros x Hx. rewrite P1, put_out by (change (zlen (txt "//")) with 2; intros Hy; apply (HD x); unfold zlen in *; lia).
      apply zeroed_out, HD. unfold zlen. lia.
    + intros Hx. rewrite P1, put_out by (change (zlen (txt "//")) with 2; intros Hy; apply (HD (src + zlen t)); lia).
      unfold m0. rewrite zeroed_out by (apply HD; lia). auto.
    + exists m2. split; auto. intros x. rewrite P2. unfold body. rewrite <- (put_app m0 buf (txt "//")). change (zlen (txt "//")) with 2. apply put_ext, P1.
  - intros x Hx. apply put_out. lia.
  - lia.
  - unfold append_fmt. fold m0. rewrite E. cbn [rbind]. replace (zlen t + 3 - 1 <? 0) with false by lia.
    exists m3. split; [|split].
    + do 3 f_equal. replace (Z.to_nat (zlen t + 3 - 1)) with (length (txt "//" ++ t)) by (rewrite app_length; cbn [length]; change (length (txt "//")) with 2%nat; unfold zlen; lia).
      assert (ZT : zlen (txt "//" ++ t) = 2 + zlen t) by (rewrite zlen_app; auto).
      apply load_bytes_intro. intros i Hi. rewrite X. unfold store8. replace (buf + i =? buf + 2 + zlen t) with false by (lia).
      rewrite put_in by lia. unfold body. rewrite app_assoc, app_nth1; auto. unfold zlen in *. lia.
    + intros x Hx. rewrite X. unfold store8. replace (x =? buf + 2 + zlen t) with false by lia. rewrite put_out by lia. unfold m0. apply zeroed_out. auto.
    + intros x. rewrite X. unfold store8. destruct (x =? buf + 2 + zlen t); [lia|]. 
      unfold put. destruct ((buf <=? x) && (x <? buf + zlen body)) eqn:E1; [|apply B0].
      assert (F : Forall (fun b => 0 <= b < 256) body).
      { unfold body. repeat (apply Forall_app; split); [change (txt "//") with [47; 47]; constructor; [lia|constructor; [lia|constructor]]|eapply Forall_impl; [|exact HC]; cbv beta; lia|apply Forall_forall; intros b Hbb; apply repeat_spec in Hbb; lia]. }
      rewrite Forall_forall in F. apply F, nth_In. unfold zlen in *. lia.
Qed.
