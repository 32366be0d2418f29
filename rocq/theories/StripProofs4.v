(** parser_strip_formatting keeps literals and comments. *)
From Coq Require Import String ZArith List Bool Lia ZifyBool ZifyNat.
From Verif Require Import Common Text StrOpsModel LexModel LexSpec StripModel StripSpec StripProofs StripProofs2 StripProofs3.
Import ListNotations.
Close Scope string_scope.
Open Scope Z_scope.

Lemma sq_words_from : forall V r o, sq V r o -> ~ In 92 r -> forall A B, V = A ++ B -> words (B ++ o) = words (B ++ r).
Proof.
  induction 1 as [|V w r o S IH|V w r o s N F E S IH|V w r o D S IH]; intros NB A B EV.
  - reflexivity.
  - rewrite !app_assoc. apply (IH ltac:(intros H; apply NB, in_or_app; right; exact H) A (B ++ w)). rewrite EV, <- app_assoc. reflexivity.
  - rewrite (words_sep B w r N F). rewrite app_assoc, (IH ltac:(intros H; apply NB, in_or_app; right; exact H) A (B ++ s)) by (rewrite EV, <- app_assoc; reflexivity). rewrite E, EV. destruct (Z.eqb_spec (last (A ++ B) 0) 32) as [La|La].
    + rewrite app_nil_r. destruct B as [|v B']; [reflexivity|]. destruct (exists_last (l := v :: B') ltac:(discriminate)) as (V0 & z & EB). rewrite EB in *. rewrite app_assoc, last_last in La. subst z. rewrite <- app_assoc.
      rewrite (words_sep V0 [32] r) by (discriminate || (constructor; [reflexivity|constructor])). f_equal. rewrite <- (app_nil_r (V0 ++ [32])), <- app_assoc, (words_sep V0 [32] []) by (discriminate || (constructor; [reflexivity|constructor])). symmetry. apply app_nil_r.
    + rewrite <- app_assoc. rewrite (words_sep B [32] r) by (discriminate || (constructor; [reflexivity|constructor])). reflexivity.
  - exfalso. apply NB, in_or_app. left. destruct D as [-> | [-> | ->]]; left; reflexivity.
Qed.

Lemma text_pos : forall p, piece_ok p -> 1 <= zlen (piece_text p).
Proof. intros [l|q b|b|b] OK; cbn [piece_text piece_ok] in *; [destruct OK as (N & _); destruct l as [|? l]; [contradiction|zl; pose proof (zlen_nn _ l); lia]| | |]; change (txt "/*") with [47; 42]; change (txt "*/") with [42; 47]; change (txt "//") with [47; 47]; zl; pose proof (zlen_nn _ b); lia. Qed.
Section P.
Variable raw : list Z.
Variable pn : bool.
Variable fuel : nat.
Hypothesis FU : (length raw <= fuel)%nat.
Hypothesis BY : Forall (fun c => 0 <= c < 256) raw.
Notation L n p cut content must := (strip_loop raw pn fuel n p cut content must).

Lemma prev_ok : forall pre rest, raw = pre ++ rest -> pre <> [] -> char_at raw (zlen pre - 1) = Done (last pre 0).
Proof.
  intros pre rest E N. destruct (exists_last N) as (p' & z & Ez). rewrite <- (at0 raw p' (last pre 0) rest); [rewrite Ez; zl; f_equal; lia|]. rewrite E, Ez, last_last, <- app_assoc. reflexivity.
Qed.
Lemma last_grow : forall (a b : list Z) c, last (a ++ c :: b) 0 = last ((a ++ [c]) ++ b) 0.
Proof. intros. rewrite <- app_assoc. reflexivity. Qed.
Lemma string_exact : forall b, literal_body 34 b -> forall m pre r, raw = pre ++ b ++ 34 :: r -> pre <> [] -> last (pre ++ b) 0 <> 92 -> zlen b < Z.of_nat m -> string_end raw m (zlen pre) = Done (zlen (pre ++ b)).
Proof.
  induction 1 as [|c b N1 N2 Bb IH|c b Bb IH]; intros m pre r E NE La F; (destruct m as [|m]; [unfold zlen in F; lia|]); cbn [string_end]; rewrite (left0 _ _ _ E).
  - cbn [app] in *. rewrite app_nil_r in *. zl. pose proof (zlen_nn _ r). replace (1 + zlen r =? 0) with false by lia. rewrite (at0 _ _ _ _ E). cbn [rbind]. rewrite (prev_ok pre _ E NE). cbn [rbind]. replace (last pre 0 =? 92) with false by lia. reflexivity.
  - assert (zlen ((c :: b) ++ 34 :: r) =? 0 = false) as -> by (zl; pose proof (zlen_nn _ b); pose proof (zlen_nn _ r); lia). cbn [app] in E. rewrite (at0 _ _ _ _ E). cbn [rbind]. rewrite (prev_ok pre _ E NE). cbn [rbind].
    replace (c =? 34) with false by lia. cbn [negb orb]. replace (c =? 92) with false by lia. cbn [andb]. replace (zlen pre + 1) with (zlen (pre ++ [c])) by (zl; lia).
    rewrite (IH m (pre ++ [c]) r); [rewrite <- app_assoc; reflexivity|rewrite <- app_assoc; exact E|destruct pre; discriminate|rewrite <- last_grow; exact La|zl; lia].
  - assert (zlen ((92 :: c :: b) ++ 34 :: r) =? 0 = false) as -> by (zl; pose proof (zlen_nn _ b); pose proof (zlen_nn _ r); lia). assert (zlen ((92 :: c :: b) ++ 34 :: r) >? 1 = true) as -> by (zl; pose proof (zlen_nn _ b); pose proof (zlen_nn _ r); lia). cbn [app] in E. rewrite (at0 _ _ _ _ E). cbn [rbind]. rewrite (prev_ok pre _ E NE). cbn [rbind].
    change (92 =? 34) with false. change (92 =? 92) with true. cbn [negb orb andb]. replace (zlen pre + 2) with (zlen (pre ++ [92; c])) by (zl; lia).
    rewrite (IH m (pre ++ [92; c]) r); [rewrite <- app_assoc; reflexivity|rewrite <- app_assoc; exact E|destruct pre; discriminate|rewrite <- app_assoc; exact La|zl; lia].
Qed.
Lemma char_exact : forall b, literal_body 39 b -> forall m pre r, raw = pre ++ b ++ 39 :: r -> pre <> [] -> last (pre ++ b) 0 <> 92 -> zlen b < Z.of_nat m -> char_end raw m (zlen pre) = Done (zlen (pre ++ b)).
Proof.
  induction 1 as [|c b N1 N2 Bb IH|c b Bb IH]; intros m pre r E NE La F; (destruct m as [|m]; [unfold zlen in F; lia|]); cbn [char_end]; rewrite (left0 _ _ _ E).
  - cbn [app] in *. rewrite app_nil_r in *. zl. pose proof (zlen_nn _ r). replace (1 + zlen r =? 0) with false by lia. rewrite (at0 _ _ _ _ E). cbn [rbind]. rewrite (prev_ok pre _ E NE). cbn [rbind]. replace (last pre 0 =? 92) with false by lia. reflexivity.
  - assert (zlen ((c :: b) ++ 39 :: r) =? 0 = false) as -> by (zl; pose proof (zlen_nn _ b); pose proof (zlen_nn _ r); lia). cbn [app] in E. rewrite (at0 _ _ _ _ E). cbn [rbind]. rewrite (prev_ok pre _ E NE). cbn [rbind].
    replace (c =? 39) with false by lia. cbn [negb orb]. replace (zlen pre + 1) with (zlen (pre ++ [c])) by (zl; lia).
    rewrite (IH m (pre ++ [c]) r); [rewrite <- app_assoc; reflexivity|rewrite <- app_assoc; exact E|destruct pre; discriminate|rewrite <- last_grow; exact La|zl; lia].
  - assert (zlen ((92 :: c :: b) ++ 39 :: r) =? 0 = false) as -> by (zl; pose proof (zlen_nn _ b); pose proof (zlen_nn _ r); lia). cbn [app] in E. rewrite (at0 _ _ _ _ E). cbn [rbind]. rewrite (prev_ok pre _ E NE). cbn [rbind].
    change (92 =? 39) with false. cbn [negb orb]. replace (zlen pre + 1) with (zlen (pre ++ [92])) by (zl; lia). destruct m as [|m]; [zl; pose proof (zlen_nn _ b); lia|]. cbn [char_end].
    assert (raw = (pre ++ [92]) ++ c :: b ++ 39 :: r) as E' by (rewrite <- app_assoc; exact E). rewrite (left0 _ _ _ E'). assert (zlen (c :: b ++ 39 :: r) =? 0 = false) as -> by (zl; pose proof (zlen_nn _ b); pose proof (zlen_nn _ r); lia). rewrite (at0 _ _ _ _ E'). cbn [rbind]. rewrite (prev_ok (pre ++ [92]) _ E' ltac:(destruct pre; discriminate)), last_last. cbn [rbind]. change (92 =? 92) with true. rewrite orb_true_r.
    replace (zlen (pre ++ [92]) + 1) with (zlen (pre ++ [92; c])) by (zl; lia).
    rewrite (IH m (pre ++ [92; c]) r); [rewrite <- app_assoc; reflexivity|rewrite <- app_assoc; exact E|destruct pre; discriminate|rewrite <- app_assoc; exact La|zl; lia].
Qed.
Lemma line_exact : forall pre b r, raw = pre ++ b ++ 10 :: r -> ~ In 10 b -> line_end raw fuel (zlen pre) = Done (zlen (pre ++ b)).
Proof.
  intros pre b r E N. destruct (line_ok raw fuel pre (b ++ 10 :: r) E) as (w & r' & Ew & R & Nw & Dr); [rewrite E, app_length in FU; unfold zlen; lia|]. rewrite R. enough (w = b) as -> by reflexivity.
  clear - Ew N Nw Dr. revert b N Ew. induction w as [|c w IH]; intros [|d b] N Ew.
  - reflexivity.
  - exfalso. cbn [app] in Ew. destruct Dr as [-> | (r'' & ->)]; [discriminate|]. injection Ew as -> _. apply N. left. reflexivity.
  - exfalso. injection Ew as <- _. apply Nw. left. reflexivity.
  - injection Ew as -> Ew. f_equal. apply IH; [intros H; apply Nw; right; exact H|intros H; apply N; right; exact H|exact Ew].
Qed.

Definition code_end (rest : list Z) := rest = [] \/ exists c r, rest = c :: r /\ char_is_space c = false.
Lemma code_run : forall k l, (length l <= k)%nat -> Forall (fun c => ~ In c [34; 39; 47; 92]) l -> forall n pre rest cut content t must, raw = pre ++ l ++ rest -> code_end rest -> pending raw cut (zlen pre) = Done t -> zlen l <= Z.of_nat n ->
  exists n' cut' content' t' must' o, L n (zlen pre) cut content must = L n' (zlen (pre ++ l)) cut' content' must' /\ pending raw cut' (zlen (pre ++ l)) = Done t' /\ content' ++ t' = content ++ t ++ o /\ sq (content ++ t) l o /\ Z.of_nat n - zlen l <= Z.of_nat n'.
Proof.
  induction k as [|k IH]; intros l Lk Fl n pre rest cut content t must E CE P F.
  { destruct l; [|cbn [length] in Lk; lia]. exists n, cut, content, t, must, []. rewrite app_nil_r. split; [reflexivity|]. split; [exact P|]. split; [rewrite app_nil_r; reflexivity|]. split; [constructor|zl; lia]. }
  destruct l as [|c l].
  { exists n, cut, content, t, must, []. rewrite app_nil_r. split; [reflexivity|]. split; [exact P|]. split; [rewrite app_nil_r; reflexivity|]. split; [constructor|zl; lia]. }
  destruct n as [|n]; [zl; pose proof (zlen_nn _ l); lia|].
  assert (forall w l2 must' content' o1, c :: l = w ++ l2 -> w <> [] -> L (S n) (zlen pre) cut content must = L n (zlen (pre ++ w)) (zlen (pre ++ w)) content' must' -> content' = content ++ t ++ o1 -> (forall o, sq ((content ++ t) ++ o1) l2 o -> sq (content ++ t) (c :: l) (o1 ++ o)) ->
     exists n' cut' content'' t' must'' o, L (S n) (zlen pre) cut content must = L n' (zlen (pre ++ c :: l)) cut' content'' must'' /\ pending raw cut' (zlen (pre ++ c :: l)) = Done t' /\ content'' ++ t' = content ++ t ++ o /\ sq (content ++ t) (c :: l) o /\ Z.of_nat (S n) - zlen (c :: l) <= Z.of_nat n') as GO.
  { intros w l2 must' content' o1 Ew Nw K Ec S1. rewrite Ew in *. assert (raw = (pre ++ w) ++ l2 ++ rest) as E' by (rewrite <- !app_assoc in *; exact E). apply Forall_app in Fl. destruct Fl as (_ & Fl). assert (1 <= zlen w) by (destruct w; [contradiction|zl; pose proof (zlen_nn _ w); lia]).
    destruct (IH l2 ltac:(rewrite app_length in Lk; unfold zlen in *; lia) Fl n (pre ++ w) rest (zlen (pre ++ w)) content' [] must' E' CE (pend_self raw (pre ++ w) _ E') ltac:(zl; lia)) as (n' & cut' & c2 & t' & m2 & o & R & P' & Ev & S & Fn).
    exists n', cut', c2, t', m2, (o1 ++ o). rewrite K, R, <- app_assoc. split; [reflexivity|]. split; [rewrite <- app_assoc in P'; exact P'|]. split; [rewrite Ev, Ec; cbn [app]; rewrite <- !app_assoc; reflexivity|]. split; [apply S1; rewrite app_nil_r, Ec, app_assoc in S; exact S|zl; lia]. }
  assert (forall w l2, c :: l = w ++ l2 -> w <> [] -> Forall (fun c => is_spacep c = true) w -> spaced_to raw pn fuel n pre cut content t must w -> exists n' cut' content'' t' must'' o, L (S n) (zlen pre) cut content must = L n' (zlen (pre ++ c :: l)) cut' content'' must'' /\ pending raw cut' (zlen (pre ++ c :: l)) = Done t' /\ content'' ++ t' = content ++ t ++ o /\ sq (content ++ t) (c :: l) o /\ Z.of_nat (S n) - zlen (c :: l) <= Z.of_nat n') as SPACE.
  { intros w l2 Ew Nw Fw K. apply (GO w l2 must (spaced (content ++ t)) (if last (content ++ t) 0 =? 32 then [] else [32]) Ew Nw K); [rewrite spaced_eq, <- app_assoc; reflexivity|]. intros o S. rewrite Ew. apply sq_space; [exact Nw|exact Fw|reflexivity|exact S]. }
  assert (forall w l2 must', c :: l = w ++ l2 -> w <> [] -> kept_to raw pn fuel n pre cut content t must w must' -> exists n' cut' content'' t' must'' o, L (S n) (zlen pre) cut content must = L n' (zlen (pre ++ c :: l)) cut' content'' must'' /\ pending raw cut' (zlen (pre ++ c :: l)) = Done t' /\ content'' ++ t' = content ++ t ++ o /\ sq (content ++ t) (c :: l) o /\ Z.of_nat (S n) - zlen (c :: l) <= Z.of_nat n') as KEEP.
  { intros w l2 must' Ew Nw K. apply (GO w l2 must' (content ++ t ++ w) w Ew Nw K); [reflexivity|]. intros o S. rewrite Ew. apply sq_keep, S. }
  assert (forall c', In c' (c :: l) -> 0 <= c' < 256) as BC by (intros c' H; rewrite Forall_forall in BY; apply BY; rewrite E; apply in_or_app; right; apply in_or_app; left; exact H).
  pose proof (Forall_inv Fl) as NC. cbn [In] in NC.
  assert (raw = pre ++ c :: (l ++ rest)) as E1 by exact E.
  destruct (Z.eq_dec c 9) as [->|N9]. { apply (SPACE [9] l); [reflexivity|discriminate|constructor; [reflexivity|constructor]|apply (step_tab raw pn fuel n pre cut content t must P _ E1)]. }
  destruct (Z.eq_dec c 10) as [->|N10]. { destruct (step_newline raw pn fuel n pre cut content t must P _ E1) as [K|K]; [apply (KEEP [10] l false); [reflexivity|discriminate|exact K]|apply (SPACE [10] l); [reflexivity|discriminate|constructor; [reflexivity|constructor]|exact K]]. }
  (* two spaces *)
  destruct (char_is_space c && match l with [] => false | d :: _ => char_is_space d end) eqn:Q.
  - apply andb_prop in Q. destruct Q as (Sc & Sd). destruct l as [|d l]; [discriminate|].
    destruct (Z.eq_dec c 13) as [->|N13]; [destruct (Z.eq_dec d 10) as [->|M10]|].
    + destruct (step_crlf raw pn fuel n pre cut content t must P _ E1) as [K|K]; [apply (KEEP [13; 10] l false); [reflexivity|discriminate|exact K]|apply (SPACE [13; 10] l); [reflexivity|discriminate|constructor; [reflexivity|constructor; [reflexivity|constructor]]|exact K]].
    + destruct (step_spaces raw pn fuel n pre cut content t must P 13 d (l ++ rest) E1 Sc Sd FU) as (w & r & Ew & K & Nw & Fw & _); [lia|lia|lia|].
      assert (exists l2, 13 :: d :: l = w ++ l2) as (l2 & El2). { change (13 :: d :: l ++ rest) with ((13 :: d :: l) ++ rest) in Ew. clear - Ew Fw CE. revert Ew Fw. generalize (13 :: d :: l). intros l0. revert w. induction l0 as [|x l0 IH]; intros w Ew Fw.
        - destruct w as [|y w]; [exists []; reflexivity|]. exfalso. cbn [app] in Ew. destruct CE as [-> | (c' & r' & -> & H)]; [discriminate|]. injection Ew as -> _. rewrite (Forall_inv Fw) in H. discriminate.
        - destruct w as [|y w]; [exists (x :: l0); reflexivity|]. injection Ew as -> Ew. destruct (IH w Ew (Forall_inv_tail Fw)) as (l2 & ->). exists l2. reflexivity. }
      apply (SPACE w l2 El2 Nw); [|exact K]. apply Forall_forall. intros z Hz. rewrite Forall_forall in Fw. rewrite <- space_eq; [apply Fw, Hz|]. apply BC. rewrite El2. apply in_or_app. left. exact Hz.
    + destruct (step_spaces raw pn fuel n pre cut content t must P c d (l ++ rest) E1 Sc Sd FU) as (w & r & Ew & K & Nw & Fw & _); [lia|lia|lia|].
      assert (exists l2, c :: d :: l = w ++ l2) as (l2 & El2). { change (c :: d :: l ++ rest) with ((c :: d :: l) ++ rest) in Ew. clear - Ew Fw CE. revert Ew Fw. generalize (c :: d :: l). intros l0. revert w. induction l0 as [|x l0 IH]; intros w Ew Fw.
        - destruct w as [|y w]; [exists []; reflexivity|]. exfalso. cbn [app] in Ew. destruct CE as [-> | (c' & r' & -> & H)]; [discriminate|]. injection Ew as -> _. rewrite (Forall_inv Fw) in H. discriminate.
        - destruct w as [|y w]; [exists (x :: l0); reflexivity|]. injection Ew as -> Ew. destruct (IH w Ew (Forall_inv_tail Fw)) as (l2 & ->). exists l2. reflexivity. }
      apply (SPACE w l2 El2 Nw); [|exact K]. apply Forall_forall. intros z Hz. rewrite Forall_forall in Fw. rewrite <- space_eq; [apply Fw, Hz|]. apply BC. rewrite El2. apply in_or_app. left. exact Hz.
  - destruct (step_move raw pn fuel n pre cut content t must P c (l ++ rest) E1) as (K & P'); [cbn [In]; lia|lia| | |].
    + intros (-> & H). destruct l as [|d l]; cbn [app hd] in H; [|subst d; discriminate]. destruct CE as [-> | (c' & r' & -> & Hc)]; [discriminate|]. cbn [hd] in H. subst c'. discriminate.
    + intros (H1 & _ & H2). rewrite H1 in Q. cbn [andb] in Q. destruct l as [|d l]; cbn [app hd] in H2; [|congruence]. destruct CE as [-> | (c' & r' & -> & Hc)]; [discriminate|]. cbn [hd] in H2. congruence.
    + destruct (IH l ltac:(cbn [length] in Lk; lia) (Forall_inv_tail Fl) n (pre ++ [c]) rest cut content (t ++ [c]) must) as (n' & cut' & c2 & t' & m2 & o & R & P2 & Ev & S & Fn); [rewrite <- app_assoc; exact E|exact CE|exact P'|zl; lia|].
      exists n', cut', c2, t', m2, (c :: o). rewrite K, R, <- app_assoc. split; [reflexivity|]. split; [rewrite <- app_assoc in P2; exact P2|]. split; [rewrite Ev, <- !app_assoc; reflexivity|]. split; [|zl; lia]. apply (sq_keep _ [c]). rewrite <- app_assoc. exact S.
Qed.

(** a piece that is not code *)
Lemma piece_run : forall p n pre rest cut content t must, piece_ok p -> ~ is_code p -> raw = pre ++ piece_text p ++ rest -> pending raw cut (zlen pre) = Done t ->
  exists must', kept_to raw pn fuel n pre cut content t must (piece_text p) must'.
Proof.
  intros p n pre rest cut content t must OK NC E P. destruct p as [l|q b|b|b]; cbn [is_code piece_text piece_ok] in *; [tauto| | |].
  - destruct OK as (Q & B & La). cbn [app] in *. rewrite <- app_assoc in E. cbn [app] in E.
    assert (last ((pre ++ [q]) ++ b) 0 <> 92) as La'. { destruct (exists_last (l := q :: b) ltac:(discriminate)) as (x & z & Ez). rewrite <- app_assoc. cbn [app]. rewrite Ez, app_assoc, last_last. destruct b as [|b0 b]; [destruct x; [|destruct x; discriminate]; injection Ez as <-; lia|]. destruct x as [|x0 x]; [discriminate|]. injection Ez as <- Ez. rewrite Ez, last_last in La. exact La. }
    exists must. destruct Q as [-> | ->].
    + apply (step_string raw pn fuel n pre cut content t must P b (34 :: rest) E). rewrite (string_exact b B fuel (pre ++ [34]) rest); [rewrite <- app_assoc; reflexivity|rewrite <- app_assoc; exact E|destruct pre; discriminate|exact La'|]. rewrite E, app_length in FU. cbn [length] in FU. rewrite app_length in FU. cbn [length] in FU. unfold zlen. lia.
    + apply (step_char raw pn fuel n pre cut content t must P b (39 :: rest) E). rewrite (char_exact b B fuel (pre ++ [39]) rest); [rewrite <- app_assoc; reflexivity|rewrite <- app_assoc; exact E|destruct pre; discriminate|exact La'|]. rewrite E, app_length in FU. cbn [length] in FU. rewrite app_length in FU. cbn [length] in FU. unfold zlen. lia.
  - exists must. change (txt "/*") with [47; 42] in *. change (txt "*/") with [42; 47] in *. cbn [app] in *. rewrite <- app_assoc in E. cbn [app] in E. apply (step_block raw pn fuel n pre cut content t must P b rest E OK FU).
  - exists true. change (txt "//") with [47; 47] in *. cbn [app] in *. rewrite <- app_assoc in E. cbn [app] in E. apply (step_line raw pn fuel n pre cut content t must P b (10 :: rest) E). rewrite (line_exact (pre ++ [47; 47]) b rest); [rewrite <- app_assoc; reflexivity|rewrite <- app_assoc; exact E|exact OK].
Qed.


Lemma sep_tail : forall p ps, separated (p :: ps) -> separated ps.
Proof. intros p ps S a x y b E. apply (S (p :: a) x y b). rewrite E. reflexivity. Qed.
Lemma rest_code_end : forall p ps, separated (p :: ps) -> is_code p -> Forall piece_ok ps -> code_end (concat (map piece_text ps)).
Proof.
  intros p ps S C OK. destruct ps as [|x ps]; [left; reflexivity|]. right. assert (~ is_code x) as NC by (intros H; apply (S [] p x ps eq_refl); tauto). pose proof (Forall_inv OK) as O. destruct x as [l|q b|b|b]; cbn [is_code] in NC; [tauto| | |]; cbn [map concat piece_text piece_ok] in *.
  - destruct O as ([-> | ->] & _); eexists _, _; cbn [app]; split; reflexivity.
  - eexists _, _. change (txt "/*") with [47; 42]. cbn [app]. split; reflexivity.
  - eexists _, _. change (txt "//") with [47; 47]. cbn [app]. split; reflexivity.
Qed.
Lemma pieces_run : forall ps n pre cut content t must, Forall piece_ok ps -> separated ps -> raw = pre ++ concat (map piece_text ps) -> pending raw cut (zlen pre) = Done t -> zlen (concat (map piece_text ps)) < Z.of_nat n ->
  exists outs, L n (zlen pre) cut content must = Done (content ++ t ++ concat outs) /\ Forall2 becomes ps outs.
Proof.
  induction ps as [|p ps IH]; intros n pre cut content t must OK SEP E P F.
  - exists []. split; [|constructor]. cbn [map concat] in *. destruct n as [|n]; [zl; lia|]. cbn [strip_loop]. rewrite (left0 _ _ _ E), zlen_nil. cbn [Z.eqb]. rewrite app_nil_r in E. rewrite <- E in P. rewrite app_nil_r. destruct (Z.ltb_spec cut (zlen raw)) as [H|H]; [rewrite P; reflexivity|].
    apply pend_range in P. assert (zlen t = 0) by lia. destruct t; [rewrite app_nil_r; reflexivity|zl; pose proof (zlen_nn _ t); lia].
  - cbn [map concat] in *. pose proof (Forall_inv OK) as O. pose proof (text_pos p O) as TP. assert (is_code p \/ ~ is_code p) as [C|C] by (destruct p; cbn; tauto).
    + destruct p as [l| | |]; cbn [is_code] in C; try contradiction. cbn [piece_text piece_ok] in *. destruct O as (Nl & Fl).
      destruct (code_run (length l) l (le_n _) Fl n pre (concat (map piece_text ps)) cut content t must E (rest_code_end _ _ SEP I (Forall_inv_tail OK)) P) as (n' & cut' & c2 & t' & m2 & o & R & P2 & Ev & S & Fn); [zl; pose proof (zlen_nn _ (concat (map piece_text ps))); lia|].
      destruct (IH n' (pre ++ l) cut' c2 t' m2 (Forall_inv_tail OK) (sep_tail _ _ SEP)) as (outs & R2 & FO); [rewrite <- app_assoc; exact E|exact P2|zl; lia|].
      exists (o :: outs). rewrite R, R2. cbn [concat]. split; [f_equal; rewrite app_assoc, Ev, <- !app_assoc; reflexivity|]. constructor; [|exact FO]. cbn [becomes]. apply (sq_words_from _ _ _ S) with (A := content ++ t) (B := []); [|rewrite app_nil_r; reflexivity]. intros H. rewrite Forall_forall in Fl. apply (Fl 92 H). cbn. tauto.
    + destruct n as [|n]; [zl; pose proof (zlen_nn _ (concat (map piece_text ps))); lia|]. destruct (piece_run p n pre (concat (map piece_text ps)) cut content t must O C E P) as (must' & K).
      assert (raw = (pre ++ piece_text p) ++ concat (map piece_text ps)) as E' by (rewrite <- app_assoc; exact E).
      destruct (IH n (pre ++ piece_text p) (zlen (pre ++ piece_text p)) (content ++ t ++ piece_text p) [] must' (Forall_inv_tail OK) (sep_tail _ _ SEP) E' (pend_self raw _ _ E')) as (outs & R2 & FO); [zl; lia|].
      exists (piece_text p :: outs). unfold kept_to in K. rewrite K, R2. cbn [concat app]. split; [f_equal; rewrite <- !app_assoc; reflexivity|]. constructor; [|exact FO]. destruct p; cbn [becomes is_code] in *; [tauto|reflexivity|reflexivity|reflexivity].
Qed.
End P.

Lemma sep_front : forall l l' ps, separated (Code l :: ps) -> separated (Code l' :: ps).
Proof.
  intros l l' ps S a x y b E. destruct a as [|p a]; [|apply (sep_tail _ _ S a x y b); injection E as _ E; exact E].
  injection E as <- E. intros (_ & H). apply (S [] (Code l) y b); [rewrite E; reflexivity|split; [exact I|exact H]].
Qed.
Lemma strip_pieces : forall raw pn fuel ps, raw = concat (map piece_text ps) -> Forall (fun c => 0 <= c < 256) raw -> Forall piece_ok ps -> separated ps -> (length raw < fuel)%nat ->
  exists outs, strip_formatting raw pn fuel = Done (concat outs) /\ Forall2 becomes ps outs.
Proof.
  intros raw pn fuel ps E BY OK SEP F. assert (length raw <= fuel)%nat as FU by lia. unfold strip_formatting. destruct raw as [|c r] eqn:Er.
  - destruct ps as [|p ps]; [exists []; split; [reflexivity|constructor]|]. exfalso. cbn [map concat] in E. pose proof (text_pos p (Forall_inv OK)). destruct (piece_text p); [zl; lia|discriminate].
  - rewrite <- Er in *. destruct (Z.eqb_spec c 32) as [->|N].
    + destruct ps as [|p ps]; [cbn in E; rewrite E in Er; discriminate|]. rewrite Er in E. cbn [map concat] in E. pose proof (Forall_inv OK) as O.
      destruct p as [l|q b|b|b]; cbn [piece_text] in E; [|destruct O as ([-> | ->] & _); discriminate|discriminate|discriminate]. destruct O as (Nl & Fl). destruct l as [|x l]; [contradiction|]. injection E as <- E.
      destruct l as [|y l].
      * destruct (pieces_run raw pn fuel FU BY ps fuel [32] (zlen [32]) [] [] false (Forall_inv_tail OK) (sep_tail _ _ SEP)) as (outs & R & FO); [rewrite Er, E; reflexivity|apply (pend_self raw [32] r); exact Er|rewrite Er, E in F; cbn [length app] in F; unfold zlen; lia|].
        exists ([] :: outs). split; [exact R|]. constructor; [reflexivity|exact FO].
      * destruct (pieces_run raw pn fuel FU BY (Code (y :: l) :: ps) fuel [32] (zlen [32]) [] [] false) as (outs & R & FO); [constructor; [split; [discriminate|apply (Forall_inv_tail Fl)]|apply (Forall_inv_tail OK)]|apply (sep_front _ _ _ SEP)|rewrite Er, E; reflexivity|apply (pend_self raw [32] r); exact Er|rewrite Er, E in F; cbn [map concat piece_text]; cbn [length] in F; unfold zlen; lia|].
        inversion FO as [|p0 o ps0 outs0 B1 B2]; subst. exists (o :: outs0). split; [exact R|]. constructor; [exact B1|exact B2].
    + destruct (pieces_run raw pn fuel FU BY ps fuel [] 0 [] [] false OK SEP E) as (outs & R & FO); [apply (pend_self raw [] raw eq_refl)|rewrite E in F; unfold zlen; lia|]. exists outs. split; [exact R|exact FO].
Qed.
