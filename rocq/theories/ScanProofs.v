From Coq Require Import String ZArith List Bool Lia ZifyBool ZifyNat.
From Verif Require Import Common CommonProofs Text StrOpsModel StrOpsSpec StrOpsProofs ScanModel ScanSpec.
Import ListNotations.
Close Scope string_scope. Open Scope Z_scope.

Lemma zlen_app {A} (a b : list A) : zlen (a ++ b) = zlen a + zlen b.
Proof. unfold zlen. rewrite app_length. lia. Qed.
Lemma zlen_cons {A} (x : A) l : zlen (x :: l) = 1 + zlen l.
Proof. unfold zlen. cbn [length]. lia. Qed.
Lemma zlen_pos {A} (l : list A) : 0 <= zlen l.
Proof. unfold zlen. lia. Qed.
Lemma zlen_nil {A} : zlen (@nil A) = 0. Proof. reflexivity. Qed.
Ltac zl := repeat rewrite ?zlen_app, ?zlen_cons, ?zlen_nil in *.

Lemma space_blank c : 0 <= c < 256 -> char_is_space c = true -> In c BLANKS.
Proof. intros H. apply p21_space. auto. Qed.
Lemma line_blank_space b : line_blank b -> char_is_space b = true.
Proof. intros H. apply p21_space; cbn in H |- *; lia. Qed.
Lemma line_blank_blank b : line_blank b -> In b BLANKS.
Proof. intros H. cbn in *. lia. Qed.
Lemma blank_space b : In b BLANKS -> char_is_space b = true.
Proof. intros H. apply p21_space; auto. cbn in H. lia. Qed.
(** [char_is_space] is false of non-blanks, whatever the integer *)
Lemma not_space b : ~ In b BLANKS -> -128 <= b < 256 -> char_is_space b = false.
Proof. intros H R. unfold char_is_space, sc. cbn in H. destruct (b <? 128) eqn:E; lia. Qed.

Section S.
Variable t : list Z.
Hypothesis BT : Forall (fun b => 0 <= b < 256) t.
Variable n : nat.
Hypothesis N : (length t <= n)%nat.

Lemma rd_at p c s : t = p ++ c :: s -> rd t (zlen p) = Done c.
Proof.
  intros E. unfold rd, fsize. rewrite E, app_length. cbn [length]. unfold zlen. replace ((0 <=? _) && _) with true by lia.
  rewrite Nat2Z.id, app_nth2, Nat.sub_diag by lia. reflexivity.
Qed.
Lemma rd_end p : t = p -> rd t (zlen p) = Done 0.
Proof. intros E. unfold rd, fsize. rewrite E. unfold zlen. replace ((0 <=? _) && _) with false by lia. rewrite Z.eqb_refl. auto. Qed.
Lemma rd_past p : t = p -> rd t (zlen p + 1) = Undefined.
Proof. intros E. unfold rd, fsize. rewrite E. unfold zlen. replace ((0 <=? _) && _) with false by lia. replace (_ =? _) with false by lia. auto. Qed.
Lemma byte_of p c s : t = p ++ c :: s -> 0 <= c < 256.
Proof. intros E. rewrite E in BT. apply Forall_app in BT. destruct BT as [_ B]. inversion B; auto. Qed.

Lemma skip_spaces_ok : forall b k p s, t = p ++ b ++ s -> Forall (fun x => char_is_space x = true) b -> (s = [] \/ ~ In (hd 0 s) BLANKS) -> (length b <= k)%nat ->
  skip_spaces t k (zlen p) (zlen (b ++ s)) = Done (zlen (p ++ b), zlen s).
Proof.
  induction b as [|c b IH]; intros k p s E F HS L; cbn [app] in *.
  - rewrite app_nil_r. destruct s as [|c s]; [destruct k; reflexivity|]. destruct HS as [|HS]; [discriminate|]. cbn in HS.
    pose proof (byte_of _ _ _ E). destruct k; cbn [skip_spaces]; replace (zlen (c :: s) =? 0) with false by (zl; pose proof (zlen_pos s); lia); rewrite (rd_at p c s E); cbn [rbind]; rewrite not_space by (auto; lia); auto.
  - pose proof (Forall_inv F) as H1. pose proof (Forall_inv_tail F) as H2. cbn in L. destruct k as [|k]; [lia|]. cbn [skip_spaces]. replace (zlen (c :: b ++ s) =? 0) with false by (zl; pose proof (zlen_pos s); pose proof (zlen_pos b); lia).
    rewrite (rd_at p c (b ++ s) E). cbn [rbind]. rewrite H1.
    replace (zlen p + 1) with (zlen (p ++ [c])) by (zl; lia). replace (zlen (c :: b ++ s) - 1) with (zlen (b ++ s)) by (zl; lia).
    rewrite (IH k (p ++ [c]) s); auto; [|rewrite <- app_assoc; auto|lia]. rewrite <- app_assoc. reflexivity.
Qed.

Fixpoint starts (w u : list Z) : bool :=
  match w, u with [], _ => true | _ :: _, [] => false | c :: w, x :: u => (x =? c) && starts w u end.
Lemma starts_spec w : forall u, starts w u = true <-> begins w u.
Proof.
  induction w as [|c w IH]; intros u.
  - cbn. split; auto. intros _. exists u. auto.
  - destruct u as [|x u]; cbn [starts].
    + split; [discriminate|]. intros (v & E). discriminate.
    + rewrite andb_true_iff, IH, Z.eqb_eq. split.
      * intros (-> & v & ->). exists v. auto.
      * intros (v & E). injection E as -> ->. split; auto. exists v. auto.
Qed.
Lemma matches_ok : forall w p s, ~ In 0 w -> t = p ++ s -> matches t w (zlen p) = Done (starts w s).
Proof.
  induction w as [|c w IH]; intros p s NZ E; [reflexivity|]. cbn [matches]. destruct s as [|x s].
  - rewrite app_nil_r in E. rewrite (rd_end p E). cbn [rbind starts]. replace (0 =? c) with false; auto. symmetry. apply Z.eqb_neq. intros <-. apply NZ. left. auto.
  - rewrite (rd_at p x s E). cbn [rbind starts]. destruct (x =? c) eqn:Q; auto. cbn [andb].
    replace (zlen p + 1) with (zlen (p ++ [x])) by (zl; lia). apply IH; [intros HI; apply NZ; right; auto|]. rewrite <- app_assoc. auto.
Qed.
Lemma left_matches_ok w p s : ~ In 0 w -> w <> [] -> t = p ++ s -> left_and_matches t w (zlen p) (zlen s) = Done (starts w s).
Proof.
  intros NZ NE E. unfold left_and_matches. destruct s as [|x s]; [destruct w; [contradiction|reflexivity]|].
  replace (zlen (x :: s) =? 0) with false by (zl; pose proof (zlen_pos s); lia). apply matches_ok; auto.
Qed.

Lemma to_eol_ok : forall u k p s, t = p ++ u ++ s -> ~ In 10 u -> ~ In 13 u -> (s = [] \/ hd 0 s = 10 \/ hd 0 s = 13) -> (length u <= k)%nat ->
  to_eol t k (zlen p) (zlen (u ++ s)) = Done (zlen (p ++ u), zlen s).
Proof.
  induction u as [|c u IH]; intros k p s E U1 U2 HS L; cbn [app] in *.
  - rewrite app_nil_r. destruct s as [|c s]; [destruct k; reflexivity|]. destruct HS as [|HS]; [discriminate|]. cbn in HS.
    destruct k; cbn [to_eol]; replace (zlen (c :: s) =? 0) with false by (zl; pose proof (zlen_pos s); lia); rewrite (rd_at p c s E); cbn [rbind]; replace ((c =? 13) || (c =? 10)) with true by lia; auto.
  - cbn in L, U1, U2. destruct k as [|k]; [lia|]. cbn [to_eol]. replace (zlen (c :: u ++ s) =? 0) with false by (zl; pose proof (zlen_pos s); pose proof (zlen_pos u); lia).
    rewrite (rd_at p c (u ++ s) E). cbn [rbind]. replace ((c =? 13) || (c =? 10)) with false by lia.
    replace (zlen p + 1) with (zlen (p ++ [c])) by (zl; lia). replace (zlen (c :: u ++ s) - 1) with (zlen (u ++ s)) by (zl; lia).
    rewrite (IH k (p ++ [c]) s); [rewrite <- app_assoc; reflexivity | rewrite <- app_assoc; auto | tauto | tauto | auto | lia].
Qed.
(** what is left after a line: one more newline is eaten after a lone newline *)
Lemma skip_line_ok u p s nl k : t = p ++ u ++ nl ++ s -> on_line u -> is_nl nl -> (length t <= k)%nat ->
  exists q, skip_line t k (zlen p) (zlen (u ++ nl ++ s)) = Done (zlen q, zlen (after_nl nl s)) /\ t = q ++ after_nl nl s.
Proof.
  intros E [U1 U2] HN L. unfold skip_line. rewrite (to_eol_ok u k p (nl ++ s)); auto.
  2:{ destruct HN as [-> | ->]; cbn; auto. } 2:{ rewrite E in L. rewrite !app_length in L. lia. }
  cbn [rbind]. pose proof (zlen_pos s). destruct HN as [-> | ->]; cbn [app after_nl] in *.
  - replace (zlen (10 :: s) - 1) with (zlen s) by (zl; lia). replace (zlen (p ++ u) + 1) with (zlen (p ++ u ++ [10])) by (zl; lia).
    assert (E' : t = (p ++ u ++ [10]) ++ s) by (rewrite E, <- !app_assoc; auto).
    destruct s as [|c s]; [exists (p ++ u ++ [10]); split; auto|]. replace (zlen (c :: s) =? 0) with false by (zl; pose proof (zlen_pos s); lia).
    rewrite (rd_at (p ++ u ++ [10]) c s) by auto. cbn [rbind]. destruct (Z.eqb_spec c 10) as [->|NC].
    + exists (p ++ u ++ [10; 10]). split; [f_equal; f_equal; zl; lia|]. rewrite E, <- !app_assoc. auto.
    + exists (p ++ u ++ [10]). split; auto.
  - replace (zlen (13 :: 10 :: s) - 1) with (zlen (10 :: s)) by (zl; lia). replace (zlen (10 :: s) =? 0) with false by (zl; lia).
    replace (zlen (p ++ u) + 1) with (zlen (p ++ u ++ [13])) by (zl; lia).
    rewrite (rd_at (p ++ u ++ [13]) 10 s) by (rewrite E, <- !app_assoc; auto). cbn [rbind Z.eqb Pos.eqb].
    exists (p ++ u ++ [13; 10]). split; [f_equal; f_equal; zl; lia|]. rewrite E, <- !app_assoc. auto.
Qed.

(** scanning from any place where [s] is what is left gives [r] *)
Definition gives (found : bool) (s : list Z) (r : run (list Z)) : Prop :=
  forall p k, t = p ++ s -> (length s <= k)%nat -> scan t k n found (zlen p) (zlen s) = r.

Lemma gives_nil found : gives found [] (Done t).
Proof. intros p k _ _. destruct k; reflexivity. Qed.
Lemma scan_char found c s p k : t = p ++ c :: s -> c <> 35 -> scan t (S k) n found (zlen p) (zlen (c :: s)) = scan t k n found (zlen (p ++ [c])) (zlen s).
Proof.
  intros E NC. cbn [scan]. replace (zlen (c :: s) =? 0) with false by (zl; pose proof (zlen_pos s); lia). rewrite (rd_at p c s E). cbn [rbind].
  replace (c =? 35) with false by lia. f_equal; zl; lia.
Qed.
Lemma gives_char found c s r : c <> 35 -> gives found s r -> gives found (c :: s) r.
Proof.
  intros NC H p k E L. cbn in L. destruct k as [|k]; [lia|]. rewrite (scan_char found c s p k E NC). apply H; [rewrite <- app_assoc; auto|lia].
Qed.
Lemma gives_words found u s r : ~ In 35 u -> gives found s r -> gives found (u ++ s) r.
Proof. intros NU H. induction u as [|c u IH]; auto. cbn [app]. apply gives_char; [intros ->; apply NU; left; auto|]. apply IH. intros HI. apply NU. right. auto. Qed.
(** dropping a newline in front *)
Lemma gives_after found nl s r : gives found s r -> forall q k, t = q ++ after_nl nl s -> (exists p, t = p ++ s) -> (length (after_nl nl s) <= k)%nat ->
  scan t k n found (zlen q) (zlen (after_nl nl s)) = r.
Proof.
  intros H q k E (p & EP) L. assert (D : after_nl nl s = s \/ s = 10 :: after_nl nl s).
  { unfold after_nl. destruct nl as [|? [|? ?]]; auto. destruct s as [|c s]; auto. destruct (Z.eqb_spec c 10); auto. subst. auto. }
  destruct D as [D|D].
  - rewrite D in *. apply H; auto.
  - set (s' := after_nl nl s) in *. rewrite D in EP.
    assert (q = p ++ [10]) as ->.
    { apply (app_inv_tail s'). rewrite <- app_assoc. cbn [app]. congruence. }
    rewrite <- (scan_char found 10 s' p k EP) by lia. rewrite <- D. apply H; [congruence|]. rewrite D. cbn. lia.
Qed.

Lemma lit_nz : ~ In 0 IFDEF /\ ~ In 0 ENDIF /\ ~ In 0 INTELLISENSE.
Proof. split; [|split]; cbn; lia. Qed.
Lemma blanks_space bs : Forall line_blank bs -> Forall (fun x => char_is_space x = true) bs.
Proof. apply Forall_impl. apply line_blank_space. Qed.
Lemma len_le p s : t = p ++ s -> (length s <= n)%nat /\ (length p <= n)%nat.
Proof. intros E. rewrite E in N. rewrite app_length in N. lia. Qed.

(** the '#' and the blanks behind it *)
Lemma hash_step p bs s : t = p ++ [35] ++ bs ++ s -> Forall (fun x => char_is_space x = true) bs -> (s = [] \/ ~ In (hd 0 s) BLANKS) ->
  rd t (zlen p) = Done 35 /\ (zlen ([35] ++ bs ++ s) =? 0) = false /\
  skip_spaces t n (zlen p + 1) (zlen ([35] ++ bs ++ s) - 1) = Done (zlen (p ++ [35] ++ bs), zlen s).
Proof.
  intros E F HS. split; [apply (rd_at p 35 (bs ++ s)); auto|]. split; [cbn [app]; zl; pose proof (zlen_pos bs); pose proof (zlen_pos s); lia|].
  replace (zlen p + 1) with (zlen (p ++ [35])) by (zl; lia). replace (zlen ([35] ++ bs ++ s) - 1) with (zlen (bs ++ s)) by (cbn [app]; zl; lia).
  assert (E' : t = (p ++ [35]) ++ bs ++ s) by (rewrite <- app_assoc; auto).
  rewrite (skip_spaces_ok bs n _ _ E' F HS); [rewrite <- app_assoc; auto|]. apply len_le in E. rewrite !app_length in E. lia.
Qed.

(** a directive line that does not open the block, up to the end of the line [tl] = nl ++ s *)
Lemma start_plain q body tl : t = q ++ body ++ tl -> body_ok body -> ~ opens_block body ->
  (forall w, Forall line_blank w -> body <> txt "ifdef" ++ w) -> (tl = [] \/ hd 0 tl = 10 \/ hd 0 tl = 13) ->
  exists u v, body = u ++ v /\ start_directive t n (zlen q) (zlen (body ++ tl)) = Done (zlen (q ++ u), zlen (v ++ tl), false).
Proof.
  intros E (NE & [L1 L2] & HB) NO NI HT. unfold start_directive. destruct lit_nz as (Z1 & _ & Z3).
  rewrite (left_matches_ok IFDEF q (body ++ tl)) by (auto; discriminate). cbn [rbind].
  destruct (starts IFDEF (body ++ tl)) eqn:ST; cbn [negb].
  2:{ exists [], body. split; auto. rewrite app_nil_r. auto. }
  apply starts_spec in ST. destruct ST as (v & EV).
  (* the keyword lies within the body *)
  assert (X : exists v', body = IFDEF ++ v' /\ v = v' ++ tl).
  { clear - EV HT L1 L2. assert (G : forall w b, b ++ tl = w ++ v -> ~ In 10 w -> ~ In 13 w -> exists v', b = w ++ v' /\ v = v' ++ tl).
    { induction w as [|c w IH]; intros b E W1 W2.
      - exists b. auto.
      - destruct b as [|x b]; cbn in E.
        + destruct tl as [|y tl]; [discriminate|]. injection E as -> E. cbn in HT, W1, W2. destruct HT as [|[->| ->]]; [discriminate|tauto|tauto].
        + injection E as -> E. destruct (IH b E) as (v' & -> & ->); [cbn in W1; tauto|cbn in W2; tauto|]. exists v'. auto. }
    apply G; auto; cbn; lia. }
  destruct X as (v' & -> & ->). clear EV.
  (* the blanks behind it *)
  assert (Y : exists w y, v' = w ++ y /\ Forall line_blank w /\ (y = [] \/ ~ In (hd 0 y) BLANKS)).
  { assert (OL : ~ In 10 v' /\ ~ In 13 v') by (split; intros HI; [apply L1|apply L2]; apply in_or_app; auto). clear - OL. induction v' as [|c v IH].
    - exists [], []. auto.
    - destruct IH as (w & y & -> & F & H); [cbn in OL; tauto|]. destruct (in_dec Z.eq_dec c BLANKS) as [I|I].
      + exists (c :: w), y. split; auto. split; auto. constructor; auto. cbn in OL, I. unfold line_blank. cbn. lia.
      + exists [], (c :: w ++ y). auto. }
  destruct Y as (w & y & -> & FW & HY).
  assert (Ey : y <> []). { intros ->. apply (NI w FW). rewrite app_nil_r. reflexivity. }
  destruct HY as [|HY]; [contradiction|].
  replace (zlen q + Z.of_nat (length IFDEF)) with (zlen (q ++ IFDEF)) by (rewrite zlen_app; unfold zlen; lia).
  replace (zlen ((IFDEF ++ w ++ y) ++ tl) - Z.of_nat (length IFDEF)) with (zlen (w ++ y ++ tl)) by (rewrite <- !app_assoc, (zlen_app IFDEF); unfold zlen; lia).
  rewrite (skip_spaces_ok w n (q ++ IFDEF) (y ++ tl)).
  2:{ rewrite E, <- !app_assoc. auto. } 2:{ apply blanks_space; auto. }
  2:{ right. destruct y; [contradiction|]. auto. } 2:{ apply len_le in E. rewrite !app_length in E. lia. }
  cbn [rbind]. rewrite (left_matches_ok INTELLISENSE ((q ++ IFDEF) ++ w) (y ++ tl)); auto; [|discriminate|rewrite E, <- !app_assoc; auto].
  cbn [rbind]. replace (starts INTELLISENSE (y ++ tl)) with false.
  2:{ symmetry. apply not_true_is_false. intros Q. apply starts_spec in Q. destruct Q as (z & Q). apply NO. exists w.
      assert (G : forall w b, b ++ tl = w ++ z -> ~ In 10 w -> ~ In 13 w -> exists v', b = w ++ v').
      { clear - HT. induction w as [|c w IH]; intros b E W1 W2.
        - exists b. auto.
        - destruct b as [|x b]; cbn in E.
          + destruct tl as [|y tl]; [discriminate|]. injection E as -> E. cbn in HT, W1, W2. destruct HT as [|[->| ->]]; [discriminate|tauto|tauto].
          + injection E as -> E. destruct (IH b E) as (v' & ->); [cbn in W1; tauto|cbn in W2; tauto|]. exists v'. auto. }
      destruct (G INTELLISENSE y Q) as (x & ->); [cbn; lia|cbn; lia|]. exists x. split; auto. }
  exists (IFDEF ++ w), y. split; [rewrite <- app_assoc; auto|]. rewrite <- !app_assoc. reflexivity.
Qed.

Lemma body_hd body tl : body_ok body -> body ++ tl <> [] /\ ~ In (hd 0 (body ++ tl)) BLANKS.
Proof. intros (NE & _ & H). destruct body; [contradiction|]. split; [discriminate|auto]. Qed.

Lemma gives_line bs body nl s r : plain_piece (Line bs body nl) -> gives false s r -> gives false (piece_text (Line bs body nl) ++ s) r.
Proof.
  intros (FB & BO & HN & NO & _ & NI) H p k E L. cbn [piece_text] in *. rewrite <- !app_assoc in *.
  destruct (body_hd body (nl ++ s) BO) as [_ HB].
  destruct (hash_step p bs (body ++ nl ++ s) E (blanks_space _ FB) (or_intror HB)) as (R1 & R2 & R3).
  assert (E2 : t = (p ++ [35] ++ bs) ++ body ++ nl ++ s) by (rewrite E, <- !app_assoc; auto).
  destruct (start_plain _ body (nl ++ s) E2 BO NO NI) as (u & v & -> & SD). { destruct HN as [-> | ->]; cbn; auto. }
  destruct BO as (_ & [OL1 OL2] & _).
  assert (OV : on_line v) by (split; intros HI; [apply OL1|apply OL2]; apply in_or_app; auto).
  assert (E3 : t = ((p ++ [35] ++ bs) ++ u) ++ v ++ nl ++ s) by (rewrite E2, <- !app_assoc; auto).
  destruct (skip_line_ok v _ s nl n E3 OV HN N) as (q & SL & EQ).
  destruct k as [|k]; [cbn in L; lia|].
  cbn [scan]. rewrite R2, R1. cbn [rbind Z.eqb Pos.eqb]. rewrite R3. cbn [rbind negb]. rewrite SD. cbn [rbind]. rewrite SL. cbn [rbind].
  apply (gives_after false nl s r H); auto.
  - exists (((p ++ [35] ++ bs) ++ u) ++ v ++ nl). rewrite E3, <- !app_assoc. auto.
  - assert (length (after_nl nl s) <= length s)%nat. { unfold after_nl. destruct nl as [|? [|? ?]]; auto. destruct s as [|c s]; auto. destruct (c =? 10); cbn; lia. }
    cbn in L. rewrite !app_length in L. lia.
Qed.
Lemma gives_pieces ps : Forall plain_piece ps -> forall s r, gives false s r -> gives false (pieces_text ps ++ s) r.
Proof.
  induction 1 as [|p ps HP F IH]; intros s r H; cbn [pieces_text flat_map]; auto. fold (pieces_text ps). rewrite <- app_assoc.
  destruct p as [u|bs body nl]; [apply gives_words; auto|apply gives_line; auto].
Qed.

(** a directive line at the very end of the file, without newline *)
Lemma gives_line_eof bs body : Forall line_blank bs -> body_ok body -> ~ opens_block body -> (forall w, Forall line_blank w -> body <> txt "ifdef" ++ w) ->
  gives false ([35] ++ bs ++ body) Undefined.
Proof.
  intros FB BO NO NI p k E L. destruct (body_hd body [] BO) as [_ HB]. rewrite app_nil_r in HB.
  destruct (hash_step p bs body E (blanks_space _ FB) (or_intror HB)) as (R1 & R2 & R3).
  assert (E2 : t = (p ++ [35] ++ bs) ++ body ++ []) by (rewrite E, <- !app_assoc, app_nil_r; auto).
  destruct (start_plain _ body [] E2 BO NO NI) as (u & v & -> & SD); auto.
  destruct BO as (_ & [OL1 OL2] & _). rewrite !app_nil_r in *.
  destruct k as [|k]; [cbn in L; lia|].
  cbn [scan]. rewrite R2, R1. cbn [rbind Z.eqb Pos.eqb]. rewrite R3. cbn [rbind negb]. rewrite SD. cbn [rbind].
  unfold skip_line. rewrite <- (app_nil_r v) at 1.
  rewrite (to_eol_ok v n ((p ++ [35] ++ bs) ++ u) []); auto.
  - cbn [rbind]. change (zlen (@nil Z) - 1 =? 0) with false. cbn iota.
    rewrite (rd_past (((p ++ [35] ++ bs) ++ u) ++ v)); [reflexivity|]. rewrite E2, <- !app_assoc. auto.
  - rewrite app_nil_r. rewrite E2, <- !app_assoc. auto.
  - intros HI; apply OL1; apply in_or_app; auto.
  - intros HI; apply OL2; apply in_or_app; auto.
  - apply len_le in E. rewrite !app_length in E. lia.
Qed.

(** the opening line *)
Lemma gives_open bs1 bs2 x nl s r : open_ok bs1 bs2 x nl -> gives true s r -> gives false (open_line bs1 bs2 x nl ++ s) r.
Proof.
  intros (F1 & F2 & OX & HN) H p k E L. unfold open_line in *. rewrite <- !app_assoc in *. fold IFDEF INTELLISENSE in *.
  destruct (hash_step p bs1 (IFDEF ++ bs2 ++ INTELLISENSE ++ x ++ nl ++ s) E (blanks_space _ F1)) as (R1 & R2 & R3). { right. cbn. lia. }
  assert (E2 : t = (p ++ [35] ++ bs1) ++ IFDEF ++ bs2 ++ INTELLISENSE ++ x ++ nl ++ s) by (rewrite E, <- !app_assoc; auto).
  destruct lit_nz as (Z1 & _ & Z3).
  destruct k as [|k]; [cbn in L; lia|].
  cbn [scan]. rewrite R2, R1. cbn [rbind Z.eqb Pos.eqb]. rewrite R3. cbn [rbind negb].
  unfold start_directive. rewrite (left_matches_ok IFDEF _ _ Z1 ltac:(discriminate) E2).
  replace (starts IFDEF _) with true by (symmetry; apply starts_spec; eexists; reflexivity). cbn [rbind negb].
  set (q := p ++ [35] ++ bs1) in *.
  replace (zlen q + Z.of_nat (length IFDEF)) with (zlen (q ++ IFDEF)) by (rewrite zlen_app; unfold zlen; lia).
  replace (zlen (IFDEF ++ bs2 ++ INTELLISENSE ++ x ++ nl ++ s) - Z.of_nat (length IFDEF)) with (zlen (bs2 ++ INTELLISENSE ++ x ++ nl ++ s)) by (rewrite (zlen_app IFDEF); unfold zlen; lia).
  assert (E3 : t = (q ++ IFDEF) ++ bs2 ++ INTELLISENSE ++ x ++ nl ++ s) by (rewrite E2, <- !app_assoc; auto).
  rewrite (skip_spaces_ok bs2 n (q ++ IFDEF) (INTELLISENSE ++ x ++ nl ++ s) E3 (blanks_space _ F2)).
  2:{ right. cbn. lia. } 2:{ apply len_le in E3. rewrite !app_length in E3. lia. }
  cbn [rbind]. assert (E4 : t = ((q ++ IFDEF) ++ bs2) ++ INTELLISENSE ++ x ++ nl ++ s) by (rewrite E3, <- !app_assoc; auto).
  rewrite (left_matches_ok INTELLISENSE _ _ Z3 ltac:(discriminate) E4).
  replace (starts INTELLISENSE _) with true by (symmetry; apply starts_spec; eexists; reflexivity). cbn [rbind].
  set (q2 := (q ++ IFDEF) ++ bs2) in *.
  replace (zlen q2 + Z.of_nat (length INTELLISENSE)) with (zlen (q2 ++ INTELLISENSE)) by (rewrite zlen_app; unfold zlen; lia).
  replace (zlen (INTELLISENSE ++ x ++ nl ++ s) - Z.of_nat (length INTELLISENSE)) with (zlen (x ++ nl ++ s)) by (rewrite (zlen_app INTELLISENSE); unfold zlen; lia).
  assert (E5 : t = (q2 ++ INTELLISENSE) ++ x ++ nl ++ s) by (rewrite E4, <- !app_assoc; auto).
  destruct (skip_line_ok x _ s nl n E5 OX HN N) as (q3 & SL & EQ). rewrite SL. cbn [rbind].
  apply (gives_after true nl s r H); auto.
  - exists ((q2 ++ INTELLISENSE) ++ x ++ nl). rewrite E5, <- !app_assoc. auto.
  - assert (length (after_nl nl s) <= length s)%nat. { unfold after_nl. destruct nl as [|? [|? ?]]; auto. destruct s as [|c s]; auto. destruct (c =? 10); cbn; lia. }
    cbn [app length] in L. rewrite !app_length in L. lia.
Qed.

(** inside the block *)
Lemma gives_hash bs c s r : Forall (fun b => In b BLANKS) bs -> ~ In c (35 :: BLANKS) -> ~ begins (txt "endif") (c :: s) -> gives true s r -> gives true ([35] ++ bs ++ c :: s) r.
Proof.
  intros FB NC NB H p k E L.
  assert (FS : Forall (fun x => char_is_space x = true) bs) by (eapply Forall_impl; [|exact FB]; apply blank_space).
  destruct (hash_step p bs (c :: s) E FS) as (R1 & R2 & R3). { right. cbn [hd]. intros HI. apply NC. right. auto. }
  assert (E2 : t = (p ++ [35] ++ bs) ++ c :: s) by (rewrite E, <- !app_assoc; auto).
  destruct lit_nz as (_ & Z2 & _).
  destruct k as [|k]; [cbn in L; lia|].
  cbn [scan]. rewrite R2, R1. cbn [rbind Z.eqb Pos.eqb]. rewrite R3. cbn [rbind negb].
  rewrite (left_matches_ok ENDIF _ _ Z2 ltac:(discriminate) E2).
  replace (starts ENDIF (c :: s)) with false. 2:{ symmetry. apply not_true_is_false. intros Q. apply NB. apply starts_spec. auto. }
  cbn [rbind]. replace (zlen (p ++ [35] ++ bs) + 1) with (zlen ((p ++ [35] ++ bs) ++ [c])) by (rewrite (zlen_app _ [c]); auto).
  replace (zlen (c :: s) - 1) with (zlen s) by (zl; lia). apply H; [rewrite E2, <- !app_assoc; auto|].
  cbn in L. rewrite app_length in L. cbn in L. lia.
Qed.
Lemma gives_inners : forall ps s r, inners_ok ps s -> gives true s r -> gives true (inners_text ps ++ s) r.
Proof.
  induction ps as [|p ps IH]; intros s r HO H; cbn [inners_text flat_map]; auto. fold (inners_text ps). rewrite <- app_assoc.
  destruct p as [u|bs c]; cbn [inners_ok inner_text] in *.
  - apply gives_words; [tauto|]. apply IH; tauto.
  - destruct HO as (H1 & H2 & H3 & H4). rewrite <- !app_assoc. cbn [app]. apply gives_hash; auto.
Qed.
Lemma gives_end bs x nl s : end_ok bs x nl -> gives true (end_line bs x nl ++ s) (Done (after_nl nl s)).
Proof.
  intros (FB & OX & HN) p k E L. unfold end_line in *. rewrite <- !app_assoc in *. fold ENDIF in *.
  destruct (hash_step p bs (ENDIF ++ x ++ nl ++ s) E (blanks_space _ FB)) as (R1 & R2 & R3). { right. cbn. lia. }
  assert (E2 : t = (p ++ [35] ++ bs) ++ ENDIF ++ x ++ nl ++ s) by (rewrite E, <- !app_assoc; auto).
  destruct lit_nz as (_ & Z2 & _).
  destruct k as [|k]; [cbn in L; lia|].
  cbn [scan]. rewrite R2, R1. cbn [rbind Z.eqb Pos.eqb]. rewrite R3. cbn [rbind negb].
  rewrite (left_matches_ok ENDIF _ _ Z2 ltac:(discriminate) E2).
  replace (starts ENDIF _) with true by (symmetry; apply starts_spec; eexists; reflexivity). cbn [rbind].
  set (q := p ++ [35] ++ bs) in *.
  replace (zlen q + Z.of_nat (length ENDIF)) with (zlen (q ++ ENDIF)) by (rewrite zlen_app; unfold zlen; lia).
  replace (zlen (ENDIF ++ x ++ nl ++ s) - Z.of_nat (length ENDIF)) with (zlen (x ++ nl ++ s)) by (rewrite (zlen_app ENDIF); unfold zlen; lia).
  assert (E3 : t = (q ++ ENDIF) ++ x ++ nl ++ s) by (rewrite E2, <- !app_assoc; auto).
  destruct (skip_line_ok x _ s nl n E3 OX HN N) as (q3 & SL & EQ). rewrite SL. cbn [rbind].
  unfold take_rest. pose proof (zlen_pos (after_nl nl s)). replace (zlen (after_nl nl s) <? 0) with false by lia. f_equal.
  set (a := after_nl nl s) in *. rewrite EQ. unfold zlen. rewrite !Nat2Z.id, skipn_app, skipn_all, Nat.sub_diag. cbn. apply firstn_all.
Qed.
(** the closing line at the very end of the file, without newline *)
Lemma gives_end_eof bs x : Forall line_blank bs -> on_line x -> gives true ([35] ++ bs ++ txt "endif" ++ x) Undefined.
Proof.
  intros FB [O1 O2] p k E L. fold ENDIF in *.
  destruct (hash_step p bs (ENDIF ++ x) E (blanks_space _ FB)) as (R1 & R2 & R3). { right. cbn. lia. }
  assert (E2 : t = (p ++ [35] ++ bs) ++ ENDIF ++ x) by (rewrite E, <- !app_assoc; auto).
  destruct lit_nz as (_ & Z2 & _).
  destruct k as [|k]; [cbn in L; lia|].
  cbn [scan]. rewrite R2, R1. cbn [rbind Z.eqb Pos.eqb]. rewrite R3. cbn [rbind negb].
  rewrite (left_matches_ok ENDIF _ _ Z2 ltac:(discriminate) E2).
  replace (starts ENDIF _) with true by (symmetry; apply starts_spec; eexists; reflexivity). cbn [rbind].
  set (q := p ++ [35] ++ bs) in *.
  replace (zlen q + Z.of_nat (length ENDIF)) with (zlen (q ++ ENDIF)) by (rewrite zlen_app; unfold zlen; lia).
  replace (zlen (ENDIF ++ x) - Z.of_nat (length ENDIF)) with (zlen (x ++ [])) by (rewrite app_nil_r, (zlen_app ENDIF); unfold zlen; lia).
  unfold skip_line. rewrite (to_eol_ok x n (q ++ ENDIF) []); auto.
  - cbn [rbind]. change (zlen (@nil Z) - 1 =? 0) with false. cbn iota.
    rewrite (rd_past ((q ++ ENDIF) ++ x)); [reflexivity|]. rewrite E2, <- !app_assoc. auto.
  - rewrite app_nil_r, E2, <- !app_assoc. auto.
  - apply len_le in E2. rewrite !app_length in E2. lia.
Qed.
End S.

(** ** whole files *)
Lemma scan_file_gives t n r : file_ok t n -> gives t n false t r -> scan_file t n = rbind r (fun x => Done (Some x)).
Proof.
  intros (B & NE & Z0 & L) H. unfold scan_file, fsize. fold (zlen t). pose proof (zlen_pos t).
  replace (zlen t <=? 0) with false. 2:{ destruct t; [contradiction|]. zl. pose proof (zlen_pos t). lia. }
  replace (to_s32 (zlen t)) with (zlen t). 2:{ unfold to_s32. change (2 ^ 31) with 2147483648 in *. change (2 ^ 32) with 4294967296. rewrite Z.mod_small; lia. }
  change 0 with (zlen (@nil Z)) at 1. rewrite (H [] n); auto.
Qed.

Lemma p44_dropped n ps bs1 bs2 x1 nl1 inn bs3 x3 nl3 rest :
  let block := open_line bs1 bs2 x1 nl1 ++ inners_text inn ++ end_line bs3 x3 nl3 in
  let t := pieces_text ps ++ block ++ rest in
  file_ok t n -> Forall plain_piece ps -> open_ok bs1 bs2 x1 nl1 -> inners_ok inn (end_line bs3 x3 nl3 ++ rest) -> end_ok bs3 x3 nl3 ->
  scan_file t n = Done (Some (after_nl nl3 rest)).
Proof.
  intros block t FO FP HO HI HE. subst block. apply (scan_file_gives t n (Done (after_nl nl3 rest)) FO). destruct FO as (B & _ & _ & L).
  assert (ET : t = pieces_text ps ++ open_line bs1 bs2 x1 nl1 ++ inners_text inn ++ end_line bs3 x3 nl3 ++ rest) by (unfold t; rewrite <- !app_assoc; auto).
  clearbody t. cut (gives t n false (pieces_text ps ++ open_line bs1 bs2 x1 nl1 ++ inners_text inn ++ end_line bs3 x3 nl3 ++ rest) (Done (after_nl nl3 rest))); [rewrite <- ET; auto|].
  apply gives_pieces; auto. apply gives_open; auto. apply gives_inners; auto. apply gives_end; auto.
Qed.
Lemma p44_unchanged n ps : Forall plain_piece ps -> file_ok (pieces_text ps) n -> scan_file (pieces_text ps) n = Done (Some (pieces_text ps)).
Proof.
  intros FP FO. apply (scan_file_gives _ n (Done _) FO). destruct FO as (B & _ & _ & L). cut (gives (pieces_text ps) n false (pieces_text ps ++ []) (Done (pieces_text ps))); [rewrite app_nil_r; auto|]. apply gives_pieces; auto. apply gives_nil.
Qed.
Lemma p44_unclosed n ps bs1 bs2 x1 nl1 inn :
  let t := pieces_text ps ++ open_line bs1 bs2 x1 nl1 ++ inners_text inn in
  file_ok t n -> Forall plain_piece ps -> open_ok bs1 bs2 x1 nl1 -> inners_ok inn [] -> scan_file t n = Done (Some t).
Proof.
  intros t FO FP HO HI. apply (scan_file_gives t n (Done t) FO). destruct FO as (B & _ & _ & L).
  cut (gives t n false (pieces_text ps ++ open_line bs1 bs2 x1 nl1 ++ inners_text inn ++ []) (Done t)); [rewrite app_nil_r; auto|]. apply gives_pieces; auto. apply gives_open; auto. apply gives_inners; auto. apply gives_nil.
Qed.
Lemma p44_no_newline n ps bs body : let t := pieces_text ps ++ [35] ++ bs ++ body in
  file_ok t n -> Forall plain_piece ps -> Forall line_blank bs -> body_ok body -> ~ opens_block body -> (forall w, Forall line_blank w -> body <> txt "ifdef" ++ w) ->
  scan_file t n = Undefined.
Proof.
  intros t FO FP FB BO NO NI. apply (scan_file_gives t n Undefined FO). destruct FO as (B & _ & _ & L). apply gives_pieces; auto. apply gives_line_eof; auto.
Qed.
Lemma p44_end_no_newline n ps bs1 bs2 x1 nl1 inn bs x :
  let t := pieces_text ps ++ open_line bs1 bs2 x1 nl1 ++ inners_text inn ++ [35] ++ bs ++ txt "endif" ++ x in
  file_ok t n -> Forall plain_piece ps -> open_ok bs1 bs2 x1 nl1 -> inners_ok inn ([35] ++ bs ++ txt "endif" ++ x) -> Forall line_blank bs -> on_line x ->
  scan_file t n = Undefined.
Proof.
  intros t FO FP HO HI FB OX. apply (scan_file_gives t n Undefined FO). destruct FO as (B & _ & _ & L).
  apply gives_pieces; auto. apply gives_open; auto. apply gives_inners; auto. apply gives_end_eof; auto.
Qed.
