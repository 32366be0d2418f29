(** parser_strip_formatting: it ends, and what it keeps. *)
From Coq Require Import String ZArith List Bool Lia ZifyBool ZifyNat.
From Verif Require Import Common Text StrOpsModel LexModel LexSpec StripModel StripSpec StripProofs StripProofs2.
Import ListNotations.
Close Scope string_scope.
Open Scope Z_scope.

Lemma space_eq : forall c, 0 <= c < 256 -> char_is_space c = is_spacep c.
Proof.
  intros c B. unfold char_is_space, is_spacep, sc. change (txt " " ++ [9; 10; 11; 12; 13]) with [32; 9; 10; 11; 12; 13]. cbn [existsb]. cbv zeta. destruct (c >=? 128) eqn:G; destruct (c <? 128) eqn:G'; lia.
Qed.

(** ** Words *)
Lemma words_spaces : forall w R, Forall (fun c => is_spacep c = true) w -> words (w ++ R) = words R.
Proof. induction w as [|c w IH]; intros R F; [reflexivity|]. unfold words. cbn [app words_from]. rewrite (Forall_inv F). cbn [app]. apply IH, (Forall_inv_tail F). Qed.
Lemma words_split : forall X u w R, w <> [] -> Forall (fun c => is_spacep c = true) w -> words_from u (X ++ w ++ R) = words_from u X ++ words R.
Proof.
  induction X as [|c X IH]; intros u w R N F; cbn [app words_from].
  - destruct w as [|c w]; [contradiction|]. cbn [app words_from]. rewrite (Forall_inv F). f_equal. apply (words_spaces w R (Forall_inv_tail F)).
  - destruct (is_spacep c); [rewrite <- app_assoc; f_equal; apply IH; assumption|apply IH; assumption].
Qed.
Lemma words_sep : forall V w R, w <> [] -> Forall (fun c => is_spacep c = true) w -> words (V ++ w ++ R) = words V ++ words R.
Proof. intros V w R. apply words_split. Qed.

(** from what is behind the text [V] so far, [rest], the loop makes [o] *)
Inductive sq : list Z -> list Z -> list Z -> Prop :=
| sq_end : forall V, sq V [] []
| sq_keep : forall V w r o, sq (V ++ w) r o -> sq V (w ++ r) (w ++ o)
| sq_space : forall V w r o s, w <> [] -> Forall (fun c => is_spacep c = true) w -> s = (if last V 0 =? 32 then [] else [32]) -> sq (V ++ s) r o -> sq V (w ++ r) (s ++ o)
| sq_drop : forall V w r o, w = [92] \/ w = [92; 10] \/ w = [92; 13; 10] -> sq V r o -> sq V (w ++ r) o.
Lemma sq_visible : forall V r o, sq V r o -> visible o = visible r.
Proof.
  induction 1 as [|V w r o S IH|V w r o s N F E S IH|V w r o D S IH].
  - reflexivity.
  - unfold visible in *. rewrite !filter_app, IH. reflexivity.
  - unfold visible in *. rewrite !filter_app, IH. f_equal. transitivity (@nil Z); [subst s; destruct (last V 0 =? 32); reflexivity|]. symmetry. clear - F. induction F as [|c w Hc Fw IH]; [reflexivity|]. cbn [filter]. rewrite Hc. exact IH.
  - unfold visible in *. rewrite filter_app, IH. destruct D as [-> | [-> | ->]]; reflexivity.
Qed.
Lemma sq_words : forall V r o, sq V r o -> ~ In 92 r -> words (V ++ o) = words (V ++ r).
Proof.
  induction 1 as [|V w r o S IH|V w r o s N F E S IH|V w r o D S IH]; intros B.
  - reflexivity.
  - rewrite !app_assoc. apply IH. intros H. apply B, in_or_app. right. exact H.
  - rewrite (words_sep V w r N F). rewrite app_assoc, IH by (intros H; apply B, in_or_app; right; exact H). rewrite E. destruct (Z.eqb_spec (last V 0) 32) as [La|La].
    + rewrite app_nil_r. destruct V as [|v V]; [discriminate|]. destruct (exists_last (l := v :: V) ltac:(discriminate)) as (V0 & z & EV). rewrite EV in *. rewrite last_last in La. subst z. rewrite <- app_assoc.
      rewrite (words_sep V0 [32] r) by (discriminate || (constructor; [reflexivity|constructor])). f_equal. rewrite <- (app_nil_r (V0 ++ [32])), <- app_assoc, (words_sep V0 [32] []) by (discriminate || (constructor; [reflexivity|constructor])). symmetry. apply app_nil_r.
    + rewrite <- app_assoc. rewrite (words_sep V [32] r) by (discriminate || (constructor; [reflexivity|constructor])). reflexivity.
  - exfalso. apply B, in_or_app. left. destruct D as [-> | [-> | ->]]; left; reflexivity.
Qed.

Lemma closed_app : forall w r, closed (w ++ r) -> closed r.
Proof. intros w r C a b E. apply (C (w ++ a) b). rewrite E, <- app_assoc. reflexivity. Qed.
Lemma spaced_eq : forall X, spaced X = X ++ (if last X 0 =? 32 then [] else [32]).
Proof. intros X. unfold spaced, back. destruct (last X 0 =? 32); [rewrite app_nil_r|]; reflexivity. Qed.

Section P.
Variable raw : list Z.
Variable pn : bool.
Variable fuel : nat.
Hypothesis FU : (length raw <= fuel)%nat.
Hypothesis BY : Forall (fun c => 0 <= c < 256) raw.
Notation L n p cut content must := (strip_loop raw pn fuel n p cut content must).

Lemma strip_run : forall n pre rest cut content t must, raw = pre ++ rest -> pending raw cut (zlen pre) = Done t -> closed rest -> zlen rest < Z.of_nat n ->
  exists o, L n (zlen pre) cut content must = Done (content ++ t ++ o) /\ sq (content ++ t) rest o.
Proof.
  induction n as [|n IH]; intros pre rest cut content t must E P C F; [pose proof (zlen_nn _ rest); lia|].
  destruct rest as [|c rest].
  { exists []. split; [|constructor]. cbn [strip_loop]. rewrite (left0 _ _ _ E), zlen_nil. cbn [Z.eqb]. rewrite app_nil_r in E. rewrite <- E in P. rewrite app_nil_r. destruct (Z.ltb_spec cut (zlen raw)) as [H|H]; [rewrite P; reflexivity|].
    apply pend_range in P. assert (zlen t = 0) by lia. destruct t; [rewrite app_nil_r; reflexivity|zl; pose proof (zlen_nn _ t); lia]. }
  assert (forall w r must', c :: rest = w ++ r -> w <> [] -> kept_to raw pn fuel n pre cut content t must w must' -> exists o, L (S n) (zlen pre) cut content must = Done (content ++ t ++ o) /\ sq (content ++ t) (c :: rest) o) as KEEP.
  { intros w r must' Ew Nw K. rewrite Ew in *. assert (raw = (pre ++ w) ++ r) as E' by (rewrite <- app_assoc; exact E). destruct (IH (pre ++ w) r (zlen (pre ++ w)) (content ++ t ++ w) [] must') as (o & R & S); [exact E'|apply (pend_self raw (pre ++ w) r E')|apply (closed_app w r C)|zl; assert (1 <= zlen w) by (destruct w; [contradiction|zl; pose proof (zlen_nn _ w); lia]); lia|].
    exists (w ++ o). unfold kept_to in K. rewrite K, R. cbn [app]. rewrite <- !app_assoc. split; [reflexivity|]. apply sq_keep. rewrite app_nil_r in S. rewrite <- !app_assoc. exact S. }
  assert (forall w r, c :: rest = w ++ r -> w <> [] -> Forall (fun c => is_spacep c = true) w -> spaced_to raw pn fuel n pre cut content t must w -> exists o, L (S n) (zlen pre) cut content must = Done (content ++ t ++ o) /\ sq (content ++ t) (c :: rest) o) as SPACE.
  { intros w r Ew Nw Fw K. rewrite Ew in *. assert (raw = (pre ++ w) ++ r) as E' by (rewrite <- app_assoc; exact E). destruct (IH (pre ++ w) r (zlen (pre ++ w)) (spaced (content ++ t)) [] must) as (o & R & S); [exact E'|apply (pend_self raw (pre ++ w) r E')|apply (closed_app w r C)|zl; assert (1 <= zlen w) by (destruct w; [contradiction|zl; pose proof (zlen_nn _ w); lia]); lia|].
    unfold spaced_to in K. rewrite K, R. rewrite spaced_eq in *. cbn [app]. rewrite app_nil_r in S. eexists. split; [rewrite <- !app_assoc; reflexivity|]. apply sq_space; [exact Nw|exact Fw|reflexivity|exact S]. }
  assert (forall c', In c' (c :: rest) -> 0 <= c' < 256) as BC by (intros c' H; rewrite Forall_forall in BY; apply BY; rewrite E; apply in_or_app; right; exact H).
  assert (zlen rest < Z.of_nat fuel) as FR by (rewrite E in FU; rewrite app_length in FU; cbn [length] in FU; unfold zlen; lia).
  destruct (Z.eq_dec c 34) as [->|N34].
  { destruct (string_ok raw fuel (pre ++ [34]) rest) as (b & r & Eb & R); [rewrite <- app_assoc; exact E|destruct pre; discriminate|lia|]. apply (KEEP (34 :: b ++ firstn 1 r) (skipn 1 r) must); [cbn [app]; rewrite <- app_assoc, firstn_skipn, Eb; reflexivity|discriminate|].
    apply step_string; [exact P|rewrite E, Eb; reflexivity|]. rewrite <- app_assoc in R. exact R. }
  destruct (Z.eq_dec c 39) as [->|N39].
  { destruct (char_ok raw fuel (pre ++ [39]) rest) as (b & r & Eb & R); [rewrite <- app_assoc; exact E|destruct pre; discriminate|lia|]. apply (KEEP (39 :: b ++ firstn 1 r) (skipn 1 r) must); [cbn [app]; rewrite <- app_assoc, firstn_skipn, Eb; reflexivity|discriminate|].
    apply step_char; [exact P|rewrite E, Eb; reflexivity|]. rewrite <- app_assoc in R. exact R. }
  destruct (Z.eq_dec c 92) as [->|N92].
  { destruct (step_backslash raw pn fuel n pre cut content t must P rest E) as (w & r & Ew & Dw & K). rewrite Ew in *. assert (raw = (pre ++ w) ++ r) as E' by (rewrite <- app_assoc; exact E).
    destruct (IH (pre ++ w) r (zlen (pre ++ w)) (content ++ t) [] must) as (o & R & S); [exact E'|apply (pend_self raw (pre ++ w) r E')|apply (closed_app w r C)|zl; assert (1 <= zlen w) by (destruct Dw as [-> | [-> | ->]]; vm_compute; discriminate); lia|].
    exists o. unfold dropped in K. rewrite K, R. cbn [app]. rewrite <- app_assoc. split; [reflexivity|]. apply sq_drop; [exact Dw|]. rewrite app_nil_r in S. exact S. }
  destruct (Z.eq_dec c 9) as [->|N9]. { apply (SPACE [9] rest); [reflexivity|discriminate|constructor; [reflexivity|constructor]|apply (step_tab raw pn fuel n pre cut content t must P rest E)]. }
  destruct (Z.eq_dec c 10) as [->|N10]. { destruct (step_newline raw pn fuel n pre cut content t must P rest E) as [K|K]; [apply (KEEP [10] rest false); [reflexivity|discriminate|exact K]|apply (SPACE [10] rest); [reflexivity|discriminate|constructor; [reflexivity|constructor]|exact K]]. }
  destruct rest as [|d rest].
  { destruct (step_move raw pn fuel n pre cut content t must P c [] E) as (K & P'); [cbn [In]; lia|cbn; lia|cbn; lia|intros (_ & H & _); contradiction|].
    destruct (IH (pre ++ [c]) [] cut content (t ++ [c]) must) as (o & R & S); [rewrite <- app_assoc; exact E|exact P'|apply (closed_app [c]); exact C|zl; lia|]. exists (c :: o). rewrite K, R. rewrite <- !app_assoc. split; [reflexivity|]. apply (sq_keep _ [c]). rewrite <- app_assoc. exact S. }
  destruct (Z.eq_dec c 47) as [->|N47].
  { destruct (Z.eq_dec d 42) as [->|M42].
    { destruct (C [] rest eq_refl) as (x & y & Ex). subst rest. destruct (step_block_gen raw pn fuel n pre cut content t must P x y E FU) as (w & r' & Ew & Nw & K). apply (KEEP w r' must); [|exact Nw|exact K]. rewrite E in Ew. apply app_inv_head in Ew. exact Ew. }
    destruct (Z.eq_dec d 47) as [->|M47].
    { destruct (line_ok raw fuel (pre ++ [47; 47]) rest) as (b & r & Eb & R & _); [rewrite <- app_assoc; exact E|zl; lia|]. apply (KEEP (47 :: 47 :: b ++ firstn 1 r) (skipn 1 r) true); [cbn [app]; rewrite <- app_assoc, firstn_skipn, Eb; reflexivity|discriminate|].
      apply step_line; [exact P|rewrite E, Eb; reflexivity|]. rewrite <- app_assoc in R. exact R. }
    destruct (step_move raw pn fuel n pre cut content t must P 47 (d :: rest) E) as (K & P'); [cbn [In]; lia|cbn; lia|cbn; lia|intros (H & _); discriminate|].
    destruct (IH (pre ++ [47]) (d :: rest) cut content (t ++ [47]) must) as (o & R & S); [rewrite <- app_assoc; exact E|exact P'|apply (closed_app [47]); exact C|zl; lia|]. exists (47 :: o). rewrite K, R. rewrite <- !app_assoc. split; [reflexivity|]. apply (sq_keep _ [47]). rewrite <- app_assoc. exact S. }
  destruct (Z.eq_dec c 13) as [->|N13].
  { destruct (Z.eq_dec d 10) as [->|M10]. { destruct (step_crlf raw pn fuel n pre cut content t must P rest E) as [K|K]; [apply (KEEP [13; 10] rest false); [reflexivity|discriminate|exact K]|apply (SPACE [13; 10] rest); [reflexivity|discriminate|constructor; [reflexivity|constructor; [reflexivity|constructor]]|exact K]]. }
    destruct (char_is_space d) eqn:Sd.
    - destruct (step_spaces raw pn fuel n pre cut content t must P 13 d rest E eq_refl Sd FU) as (w & r & Ew & K & Nw & Fw & _); [lia|lia|lia|]. apply (SPACE w r Ew Nw); [|exact K]. apply Forall_forall. intros z Hz. rewrite Forall_forall in Fw. rewrite <- space_eq; [apply Fw, Hz|]. apply BC. rewrite Ew. apply in_or_app. left. exact Hz.
    - destruct (step_move raw pn fuel n pre cut content t must P 13 (d :: rest) E) as (K & P'); [cbn [In]; lia|cbn; lia|cbn; lia|cbn [hd]; intros (_ & _ & H); congruence|].
      destruct (IH (pre ++ [13]) (d :: rest) cut content (t ++ [13]) must) as (o & R & S); [rewrite <- app_assoc; exact E|exact P'|apply (closed_app [13]); exact C|zl; lia|]. exists (13 :: o). rewrite K, R. rewrite <- !app_assoc. split; [reflexivity|]. apply (sq_keep _ [13]). rewrite <- app_assoc. exact S. }
  destruct (char_is_space c && char_is_space d) eqn:Q.
  - apply andb_prop in Q. destruct Q as (Sc & Sd). destruct (step_spaces raw pn fuel n pre cut content t must P c d rest E Sc Sd FU) as (w & r & Ew & K & Nw & Fw & _); [lia|lia|lia|]. apply (SPACE w r Ew Nw); [|exact K]. apply Forall_forall. intros z Hz. rewrite Forall_forall in Fw. rewrite <- space_eq; [apply Fw, Hz|]. apply BC. rewrite Ew. apply in_or_app. left. exact Hz.
  - destruct (step_move raw pn fuel n pre cut content t must P c (d :: rest) E) as (K & P'); [cbn [In]; lia|cbn [In hd]; lia|cbn; lia|cbn [hd]; intros (H1 & _ & H2); rewrite H1, H2 in Q; discriminate|].
    destruct (IH (pre ++ [c]) (d :: rest) cut content (t ++ [c]) must) as (o & R & S); [rewrite <- app_assoc; exact E|exact P'|apply (closed_app [c]); exact C|zl; lia|]. exists (c :: o). rewrite K, R. rewrite <- !app_assoc. split; [reflexivity|]. apply (sq_keep _ [c]). rewrite <- app_assoc. exact S.
Qed.
Lemma strip_all : closed raw -> (length raw < fuel)%nat -> exists o, strip_formatting raw pn fuel = Done o /\ visible o = visible raw /\ (~ In 92 raw -> words o = words raw).
Proof.
  intros C F. assert (forall pre rest, raw = pre ++ rest -> exists o, strip_loop raw pn fuel fuel (zlen pre) (zlen pre) [] false = Done o /\ visible o = visible rest /\ (~ In 92 rest -> words o = words rest)) as G.
  { intros pre rest E. destruct (strip_run fuel pre rest (zlen pre) [] [] false E) as (o & R & S); [apply (pend_self raw pre rest E)|rewrite E in C; apply (closed_app pre rest C)|rewrite E, app_length in F; unfold zlen; lia|].
    exists o. cbn [app] in *. split; [exact R|]. split; [apply (sq_visible _ _ _ S)|]. intros N. apply (sq_words [] rest o S N). }
  unfold strip_formatting. destruct raw as [|c r] eqn:Er.
  - exists []. split; [reflexivity|]. split; reflexivity.
  - rewrite <- Er in *. destruct (Z.eqb_spec c 32) as [->|N].
    + destruct (G [32] r) as (o & R & V & W); [rewrite Er; reflexivity|]. exists o. split; [exact R|]. split; [rewrite V, Er; reflexivity|]. intros N. rewrite W; [rewrite Er; reflexivity|]. intros H. apply N. rewrite Er. right. exact H.
    + destruct (G [] raw eq_refl) as (o & R & V & W). exists o. split; [exact R|]. split; assumption.
Qed.
End P.
