(** Variables. *)
From Coq Require Import String ZArith List Bool Lia ZifyBool ZifyNat.
From Verif Require Import Common Text HashModel StrOpsModel EnumModel EnumSpec EnumProofs LexModel LexSpec NavModel StripModel StripSpec AstModel AstSpec UpfrontModel UpfrontSpec SerSpec ParseModel ParseSpec ParseProofs ParseProofs2 ParseProofs3 ParseProofs4 ParseProofs5 ParseProofs6.
Import ListNotations.
Close Scope string_scope.
Open Scope Z_scope.

(** the course of a nested loop *)
Inductive walk (go : Z -> token -> bool) (step : Z -> token -> Z) : Z -> list token -> Z -> Prop :=
| w_end l : walk go step l [] l
| w_fmt l k r l' : fmt k -> walk go step l r l' -> walk go step l (k :: r) l'
| w_step l k r l' : ~ fmt k -> go l k = true -> walk go step (step l k) r l' -> walk go step l (k :: r) l'.
Lemma walk_gap : forall go step l g r l', gap g -> walk go step l (g ++ r) l' -> walk go step l r l'.
Proof. intros go step l g r l' G. induction G as [|k g K G IH]; intros W; [exact W|]. inversion W; subst; auto. contradiction. Qed.
Lemma walk_only_gap : forall go step l g l', gap g -> walk go step l g l' -> l' = l.
Proof. intros go step l g l' G W. rewrite <- (app_nil_r g) in W. apply walk_gap in W; auto. inversion W. reflexivity. Qed.
Lemma walk_inv : forall go step l k r l', walk go step l (k :: r) l' -> ~ fmt k -> go l k = true /\ walk go step (step l k) r l'.
Proof. intros go step l k r l' W K. inversion W; subst; [contradiction|auto]. Qed.

Section P.
Variable src : list Z.
Variable toks beyond : list token.
Variable ms : macros.
Variable e : env.
Variable fuel : nat.
Hypothesis SRC : Forall (in_source src) toks.
Hypothesis FIT : Forall flags_fit toks.
Hypothesis BYTES : Forall (fun c => 0 <= c < 256) src.
Hypothesis FT : (length toks < fuel)%nat.
Hypothesis FS : (length src < fuel)%nat.
Notation ahead := (ahead toks).
Notation a_currtok := (a_currtok toks beyond).
Notation a_left := (a_left toks).
Notation a_eat := (a_eat src toks beyond ms).
Notation a_check := (a_check toks beyond).


Lemma nested_ok : forall n raw P k R go step sc h l l',
  toks = P ++ raw ++ k :: R -> walk go step l raw l' -> ~ fmt k -> go l' k = false -> (length raw <= n)%nat ->
  eat_nested src toks beyond ms n any_level go step l (Pst (zlen P) sc h) = Done (l', Pst (zlen (P ++ raw)) sc h).
Proof.
  induction n as [|n IH]; intros raw P k R go step sc h l l' E W K GK L.
  - destruct raw; [|cbn in L; lia]. pose proof (walk_only_gap _ _ _ _ _ (Forall_nil _) W). subst l'. cbn [app] in *. cbn [eat_nested]. destruct (left_ok toks P k R sc h E) as (lf & E1 & E2). erewrite bind_ok by exact E1. rewrite E2. cbn [any_level negb orb].
    erewrite bind_ok by (apply (currtok_ok toks beyond [] P k R); [exact E|constructor|exact K]). rewrite GK. cbn [negb]. rewrite !app_nil_r. reflexivity.
  - destruct (raw_split raw) as [GR|(g' & k' & r' & -> & G' & K')].
    + pose proof (walk_only_gap _ _ _ _ _ GR W). subst l'. cbn [eat_nested]. destruct (left_any toks P raw k R sc h E) as (lf & E1 & E2). erewrite bind_ok by exact E1. rewrite E2. cbn [any_level negb orb].
      erewrite bind_ok by (apply (currtok_ok toks beyond raw P k R); auto). rewrite GK. reflexivity.
    + apply walk_gap in W; [|exact G']. rewrite <- app_assoc in E. cbn [app] in E. destruct (walk_inv _ _ _ _ _ _ W K') as (GO & W'). cbn [eat_nested].
      destruct (left_any toks P g' k' (r' ++ k :: R) sc h E) as (lf & E1 & E2). erewrite bind_ok by exact E1. rewrite E2. cbn [any_level negb orb].
      erewrite bind_ok by (apply (currtok_ok toks beyond g' P k' (r' ++ k :: R)); auto). rewrite GO. cbn [negb].
      apply at_gap in E. erewrite bind_ok by (eapply eat_ok; [exact E|reflexivity]). apply at_eat in E. rewrite (IH r' _ k R go step sc h _ l' E W' K GK) by (rewrite app_length in L; cbn in L; lia).
      rewrite <- !app_assoc. reflexivity.
Qed.

Lemma nested_walk : forall (o c : Z) bad d raw, nested (eq o) (eq c) bad d raw -> o <> c -> o <> Tok_NewLine -> o <> Tok_Comment -> c <> Tok_NewLine -> c <> Tok_Comment ->
  walk (fun level k => negb (t_type k =? c) || (level >? 0)) (fun level k => if t_type k =? o then level + 1 else if (t_type k =? c) && (level >? 0) then level - 1 else level) (Z.of_nat d) raw 0.
Proof.
  intros o c bad d raw T OC O1 O2 C1 C2. induction T as [|d k r O T IH|d k r C T IH|d k r NO NC NB T IH].
  - constructor.
  - apply w_step; [unfold fmt; lia|lia|]. rewrite <- O, Z.eqb_refl. replace (Z.of_nat d + 1) with (Z.of_nat (S d)) by lia. exact IH.
  - apply w_step; [unfold fmt; lia|lia|]. replace (t_type k =? o) with false by lia. replace ((t_type k =? c) && (Z.of_nat (S d) >? 0)) with true by lia. replace (Z.of_nat (S d) - 1) with (Z.of_nat d) by lia. exact IH.
  - destruct (is_formatting (t_type k)) eqn:F; [apply w_fmt; [apply fmt_b; exact F|exact IH]|]. apply w_step; [intros X; apply fmt_b in X; congruence|lia|].
    replace (t_type k =? o) with false by lia. replace (t_type k =? c) with false by lia. cbn [andb]. exact IH.
Qed.
Lemma closing_ok : forall (o c : Z) raw P k R sc h, nested (eq o) (eq c) (fun _ _ => False) 0 raw -> o <> c -> o <> Tok_NewLine -> o <> Tok_Comment -> c <> Tok_NewLine -> c <> Tok_Comment ->
  toks = P ++ raw ++ k :: R -> t_type k = c ->
  to_closing src toks beyond ms fuel o c (Pst (zlen P) sc h) = Done (0, Pst (zlen (P ++ raw)) sc h).
Proof.
  intros o c raw P k R sc h T OC O1 O2 C1 C2 E K. unfold to_closing. eapply nested_ok; [exact E|apply (nested_walk o c _ 0 raw T); auto|unfold fmt; lia|lia|]. rewrite E in FT. rewrite !app_length in FT. lia.
Qed.
Lemma expression_walk : forall d raw, nested (fun t => t = Tok_BraceCurly_Open \/ t = Tok_Paren_Open) (fun t => t = Tok_BraceCurly_Close \/ t = Tok_Paren_Close)
  (fun d t => t = Tok_Statement_End \/ d = O /\ t = Tok_Comma) d raw ->
  walk (fun level k => negb (t_type k =? Tok_Statement_End) && (negb (t_type k =? Tok_Comma) || (level >? 0)))
    (fun level k =>
       let level := if t_type k =? Tok_BraceCurly_Open then level + 1 else level in
       let level := if t_type k =? Tok_BraceCurly_Close then level - 1 else level in
       if t_type k =? Tok_Paren_Open then level + 1 else if t_type k =? Tok_Paren_Close then level - 1 else level) (Z.of_nat d) raw 0.
Proof.
  intros d raw T. induction T as [|d k r O T IH|d k r C T IH|d k r NO NC NB T IH].
  - constructor.
  - apply w_step; [tk; unfold Tok_Paren_Open in *; lia|tk; lia|]. replace (Z.of_nat (S d)) with (Z.of_nat d + 1) in IH by lia. destruct O as [O|O]; rewrite O; exact IH.
  - apply w_step; [destruct C as [C|C]; unfold fmt; rewrite C; unfold Tok_BraceCurly_Close, Tok_Paren_Close, Tok_NewLine, Tok_Comment; lia|destruct C as [C|C]; rewrite C; reflexivity|]. replace (Z.of_nat d) with (Z.of_nat (S d) - 1) in IH by lia. destruct C as [C|C]; rewrite C; exact IH.
  - destruct (is_formatting (t_type k)) eqn:F; [apply w_fmt; [apply fmt_b; exact F|exact IH]|]. apply w_step; [intros X; apply fmt_b in X; congruence|lia|]. cbv zeta.
    replace (t_type k =? Tok_BraceCurly_Open) with false by lia. replace (t_type k =? Tok_BraceCurly_Close) with false by lia. replace (t_type k =? Tok_Paren_Open) with false by lia. replace (t_type k =? Tok_Paren_Close) with false by lia. exact IH.
Qed.
Lemma cur_here : forall Q k r sc h, toks = Q ++ k :: r -> ~ fmt k -> currtok toks beyond (Pst (zlen Q) sc h) = Done (k, Pst (zlen Q) sc h).
Proof. intros Q k r sc h E K. rewrite (currtok_ok toks beyond [] Q k r sc h E (Forall_nil _) K). rewrite app_nil_r. reflexivity. Qed.
Lemma untyped_raw : forall t i sc h, t <> [] -> 0 < h_top h ->
  exists h', on_heap (fun h => untyped_str e h t) (Pst i sc h) = Done (h_top h, Pst i sc h') /\ grow h h' /\ raw_at h' (h_top h) t.
Proof.
  intros t i sc h NE TP. set (f := fun n => set_content t (AstModel.set_type CT_Untyped (set_name t n))). exists (fst (make h f)). split; [apply untyped_ok; exact NE|]. split; [apply grow_make|].
  split; [split; [split; [lia|rewrite make_top; lia]|rewrite make_node; left; reflexivity]|rewrite make_node; reflexivity].
Qed.

(** the parts of the initializer *)
Definition tail1 (expr : Z) (parenthesized : bool) : M (Z * bool * option Z) :=
  k <- currtok toks beyond ;;
  if t_type k =? Tok_Assign_Classifer then
    eat src toks beyond ms Tok_Assign_Classifer ;;; expr_tok <- currtok toks beyond ;;
    if t_type expr_tok =? Tok_Statement_End then report src toks beyond ;;; parser_pop ;;; ret (expr, parenthesized, None) else
    eat_while src toks beyond ms fuel (fun k => negb (t_type k =? Tok_Statement_End)) ;;;
    p <- prevtok toks beyond ;;
    b <- on_heap (fun h => untyped_str e h (slice src (t_start expr_tok) (end_of p - t_start expr_tok))) ;; ret (expr, parenthesized, Some b)
  else ret (expr, parenthesized, Some 0).
Definition tail2 (expr : Z) : M (Z * bool * option Z) :=
  k <- currtok toks beyond ;;
  let parenthesized := t_type k =? Tok_Paren_Open in
  expr <- (if parenthesized then
             eat src toks beyond ms Tok_Paren_Open ;;; expr_token <- currtok toks beyond ;;
             to_closing src toks beyond ms fuel Tok_Paren_Open Tok_Paren_Close ;;;
             p <- prevtok toks beyond ;;
             expr <- on_heap (fun h => untyped_str e h (slice src (t_start expr_token) (end_of p - t_start expr_token))) ;;
             eat src toks beyond ms Tok_Paren_Close ;;; ret expr
           else ret expr) ;;
  tail1 expr parenthesized.
Definition tail3 (expr : Z) : M (Z * bool * option Z) :=
  k <- currtok toks beyond ;;
  expr <- (if t_type k =? Tok_BraceCurly_Open then
             eat src toks beyond ms Tok_BraceCurly_Open ;;; to_closing src toks beyond ms fuel Tok_BraceCurly_Open Tok_BraceCurly_Close ;;; eat src toks beyond ms Tok_BraceCurly_Close ;;;
             p <- prevtok toks beyond ;; on_heap (fun h => untyped_str e h (slice src (t_start k) (end_of p - t_start k)))
           else ret expr) ;;
  tail2 expr.
Lemma initializer_parts : initializer src toks beyond ms e fuel =
  (k <- currtok toks beyond ;;
   expr <- (if bitfield_is_set (t_flags k) TF_Assign then parse_assignment_expression src toks beyond ms e fuel else ret 0) ;; tail3 expr).
Proof. reflexivity. Qed.
Lemma semi1 : forall Q k r x par sc h, toks = Q ++ k :: r -> t_type k = Tok_Statement_End -> tail1 x par (Pst (zlen Q) sc h) = Done (x, par, Some 0, Pst (zlen Q) sc h).
Proof. intros Q k r x par sc h E K. unfold tail1. erewrite bind_ok by (eapply cur_here; [exact E|tk; lia]). rewrite K. reflexivity. Qed.
Lemma semi2 : forall Q k r x sc h, toks = Q ++ k :: r -> t_type k = Tok_Statement_End -> tail2 x (Pst (zlen Q) sc h) = Done (x, false, Some 0, Pst (zlen Q) sc h).
Proof. intros Q k r x sc h E K. unfold tail2. erewrite bind_ok by (eapply cur_here; [exact E|tk; lia]). rewrite K. change (Tok_Statement_End =? Tok_Paren_Open) with false. cbv zeta iota. unfold bind at 1. cbn [ret rbind]. eapply semi1; eauto. Qed.
Lemma semi3 : forall Q k r x sc h, toks = Q ++ k :: r -> t_type k = Tok_Statement_End -> tail3 x (Pst (zlen Q) sc h) = Done (x, false, Some 0, Pst (zlen Q) sc h).
Proof. intros Q k r x sc h E K. unfold tail3. erewrite bind_ok by (eapply cur_here; [exact E|tk; lia]). rewrite K. change (Tok_Statement_End =? Tok_BraceCurly_Open) with false. cbv zeta iota. unfold bind at 1. cbn [ret rbind]. eapply semi2; eauto. Qed.

Lemma vend_first : forall fin R cmt, variable_end src fin R cmt -> exists g k r, fin = g ++ k :: r /\ gap g /\ t_type k = Tok_Statement_End.
Proof. intros fin R cmt [T|(-> & -> & g & k & -> & G & K)]; [eapply stmt_first; exact T|exists g, k, []; auto]. Qed.
Definition value_at (h : heap) (x : Z) (par : bool) (value : init) : Prop :=
  match value with NoInit => x = 0 /\ par = false | InitEq v => raw_at h x v /\ par = false | InitParen v => raw_at h x v /\ par = true end.
Lemma initializer_ok : forall ini fin R cmt value bits Q sc h, initial src ini fin value bits -> variable_end src fin R cmt -> ahead Q (ini ++ fin ++ R) -> 0 < h_top h ->
  exists Q' x par b h', ahead Q' (fin ++ R) /\ initializer src toks beyond ms e fuel (Pst (zlen Q) sc h) = Done (x, par, Some b, Pst (zlen Q') sc h') /\
    grow h h' /\ maybe (raw_at h') b bits /\ value_at h' x par value.
Proof.
  intros ini fin R cmt value bits Q sc h T VE A TP. destruct (vend_first _ _ _ VE) as (gf & kf & rf & EF & GF & KF). assert (FF : ~ fmt kf) by (tk; lia). rewrite initializer_parts.
  assert (EFR : fin ++ R = gf ++ kf :: rf ++ R) by (rewrite EF, <- app_assoc; reflexivity).
  assert (HERE : forall P, toks = P ++ kf :: rf ++ R -> ahead P (fin ++ R)). { intros P E. exists (kf :: rf ++ R). split; [exact E|]. rewrite EF, <- app_assoc. cbn [app]. symmetry. apply trim_gap, GF. }
  destruct T as [rest|g eq g' first more semi r G (KE & FE) G' F1 EX KS LS NE|g o body c rest G KO BO KC NE|g o g' first more c rest G KO G' F1 BO KC NE|g o g' first more semi r G KO G' F1 BO KS NE].
  - cbn [app] in A. pose proof A as A'. rewrite EF, <- app_assoc in A'. cbn [app] in A'. destruct (a_currtok _ _ _ _ sc h A' GF FF) as (Q1 & E1 & C1). erewrite bind_ok by exact C1.
    assert (FK : flags_fit kf) by (eapply ahead_fit; [exact FIT|exact A'|apply in_or_app; right; left; reflexivity|exact FF]). rewrite no_assign by (auto; tk; lia). unfold bind at 1. cbn [ret rbind].
    exists Q1, 0, false, 0, h. split; [apply HERE; exact E1|]. split; [eapply semi3; eauto|]. split; [apply grow_refl|]. split; [reflexivity|]. split; reflexivity.
  - rewrite <- app_assoc in A. cbn [app] in A. rewrite <- app_assoc in A. cbn [app] in A. unfold kind in KE, KS. assert (F2 : ~ fmt eq) by (tk; lia). assert (F3 : ~ fmt semi) by (tk; lia).
    destruct (a_currtok _ _ _ _ sc h A G F2) as (Q1 & E1 & C1). erewrite bind_ok by exact C1. rewrite is_assign by exact FE. unfold parse_assignment_expression. rewrite bind_assoc.
    destruct (a_eat _ eq _ _ sc h E1 KE) as (A2 & C2). erewrite bind_ok by exact C2. rewrite bind_assoc. destruct (a_currtok _ _ _ _ sc h A2 G' F1) as (Q2 & E2 & C3). erewrite bind_ok by exact C3.
    assert (N1 : (t_type first =? Tok_Statement_End) = false). { clear - EX. unfold expression in EX. inversion EX; subst; tk; try lia. }
    rewrite N1. rewrite bind_assoc. assert (E2' : toks = Q2 ++ (first :: more) ++ semi :: r ++ R) by exact E2. erewrite bind_ok.
    2:{ eapply nested_ok; [exact E2'|exact (expression_walk 0 _ EX)|exact F3|rewrite KS; reflexivity|]. rewrite E2' in FT. rewrite !app_length in FT. cbn [length] in *. lia. }
    rewrite bind_assoc. pose proof (at_app _ _ _ _ E2') as E3. destruct (left_ok toks _ _ _ sc h E3) as (lf & L1 & L2). erewrite bind_ok by exact L1. rewrite L2. rewrite bind_assoc. rewrite bind_assoc. erewrite bind_ok by (eapply cur_here; [exact E3|exact F3]). unfold bind at 1. cbn [ret rbind].
    assert (TX : text_of src (set_len (end_of semi - t_start first - 1) first) = until src first semi). { unfold text_of, until, set_len, end_of, slice. cbn [t_start t_len]. rewrite LS. replace (t_start semi + 1 - t_start first - 1) with (t_start semi - t_start first) by lia. reflexivity. }
    rewrite TX. destruct (untyped_raw (until src first semi) (zlen (Q2 ++ first :: more)) sc h NE TP) as (h1 & U1 & G1 & RW). erewrite bind_ok by exact U1.
    assert (gf = [] /\ kf = semi /\ rf = r) as (-> & -> & ->). { destruct gf as [|f gf]; cbn [app] in EF; injection EF as EF1 EF2; [subst; auto|]. exfalso. apply F3. rewrite EF1. apply Forall_inv in GF. exact GF. }
    exists (Q2 ++ first :: more), (h_top h), false, 0, h1. split; [apply HERE; exact E3|]. split; [eapply semi3; eauto|]. split; [exact G1|]. split; [reflexivity|]. split; [exact RW|reflexivity].
  - rewrite <- app_assoc in A. cbn [app] in A. rewrite <- app_assoc in A. cbn [app] in A. unfold kind in KO, KC. assert (F2 : ~ fmt o) by (tk; lia). assert (F3 : ~ fmt c) by (tk; lia).
    destruct (a_currtok _ _ _ _ sc h A G F2) as (Q1 & E1 & C1). erewrite bind_ok by exact C1. assert (FK : flags_fit o) by (eapply ahead_fit; [exact FIT|exact A|apply in_or_app; right; left; reflexivity|exact F2]). rewrite no_assign by (auto; tk; lia). unfold bind at 1. cbn [ret rbind].
    unfold tail3. erewrite bind_ok by (eapply cur_here; [exact E1|exact F2]). rewrite KO, Z.eqb_refl. rewrite bind_assoc. destruct (a_eat _ o _ _ sc h E1 KO) as (A2 & C2). erewrite bind_ok by exact C2. rewrite bind_assoc. apply at_eat in E1.
    erewrite bind_ok by (eapply (closing_ok Tok_BraceCurly_Open Tok_BraceCurly_Close); [exact BO| | | | | |exact E1|exact KC]; discriminate). rewrite bind_assoc. pose proof (at_app _ _ _ _ E1) as E2.
    destruct (a_eat _ c _ _ sc h E2 KC) as (A3 & C3). erewrite bind_ok by exact C3. rewrite bind_assoc. apply at_eat in E2. erewrite bind_ok by (eapply prevtok_ok; exact E2).
    change (slice src (t_start o) (end_of c - t_start o)) with (upto src o c). destruct (untyped_raw (upto src o c) (zlen (((Q1 ++ [o]) ++ body) ++ [c])) sc h NE TP) as (h1 & U1 & G1 & RW). erewrite bind_ok by exact U1.
    rewrite EFR in A3. unfold tail2. destruct (a_currtok _ _ _ _ sc h1 A3 GF FF) as (Q4 & E4 & C4). erewrite bind_ok by exact C4. rewrite KF. change (Tok_Statement_End =? Tok_Paren_Open) with false. cbv zeta iota. unfold bind at 1. cbn [ret rbind].
    exists Q4, (h_top h), false, 0, h1. split; [apply HERE; exact E4|]. split; [eapply semi1; eauto|]. split; [exact G1|]. split; [reflexivity|]. split; [exact RW|reflexivity].
  - rewrite <- app_assoc in A. cbn [app] in A. rewrite <- app_assoc in A. cbn [app] in A. rewrite <- app_assoc in A. cbn [app] in A. unfold kind in KO, KC. assert (F2 : ~ fmt o) by (tk; lia). assert (F3 : ~ fmt c) by (unfold fmt; rewrite KC; intros [X|X]; discriminate X).
    destruct (a_currtok _ _ _ _ sc h A G F2) as (Q1 & E1 & C1). erewrite bind_ok by exact C1. assert (FK : flags_fit o) by (eapply ahead_fit; [exact FIT|exact A|apply in_or_app; right; left; reflexivity|exact F2]). rewrite no_assign by (auto; tk; lia). unfold bind at 1. cbn [ret rbind].
    unfold tail3. erewrite bind_ok by (eapply cur_here; [exact E1|exact F2]). rewrite KO. change (Tok_Paren_Open =? Tok_BraceCurly_Open) with false. cbv iota. unfold bind at 1. cbn [ret rbind].
    unfold tail2. erewrite bind_ok by (eapply cur_here; [exact E1|exact F2]). rewrite KO, Z.eqb_refl. cbv zeta iota. rewrite bind_assoc. destruct (a_eat _ o _ _ sc h E1 KO) as (A2 & C2). erewrite bind_ok by exact C2. rewrite bind_assoc.
    destruct (a_currtok _ _ _ _ sc h A2 G' F1) as (Q2 & E2 & C3). erewrite bind_ok by exact C3. rewrite bind_assoc. assert (E2' : toks = Q2 ++ (first :: more) ++ c :: rest ++ R) by exact E2.
    erewrite bind_ok by (eapply (closing_ok Tok_Paren_Open Tok_Paren_Close); [exact BO| | | | | |exact E2'|exact KC]; discriminate). rewrite bind_assoc. pose proof (at_app _ _ _ _ E2') as E3.
    erewrite bind_ok by (eapply prevtok_last with (d := first); [exact E3|discriminate]). assert (LM : last (first :: more) first = last more first) by (destruct more; reflexivity). rewrite LM. rewrite bind_assoc.
    change (slice src (t_start first) (end_of (last more first) - t_start first)) with (upto src first (last more first)). destruct (untyped_raw (upto src first (last more first)) (zlen (Q2 ++ first :: more)) sc h NE TP) as (h1 & U1 & G1 & RW). erewrite bind_ok by exact U1. rewrite bind_assoc.
    destruct (a_eat _ c _ _ sc h1 E3 KC) as (A4 & C4). erewrite bind_ok by exact C4. unfold bind at 1. cbn [ret rbind]. rewrite EFR in A4. destruct (a_currtok _ _ _ _ sc h1 A4 GF FF) as (Q4 & E4 & C5).
    exists Q4, (h_top h), true, 0, h1. split; [apply HERE; exact E4|]. split; [|split; [exact G1|]; split; [reflexivity|]; split; [exact RW|reflexivity]]. unfold tail1. erewrite bind_ok by exact C5. rewrite KF. reflexivity.
  - rewrite <- app_assoc in A. cbn [app] in A. rewrite <- app_assoc in A. cbn [app] in A. unfold kind in KO, KS. assert (F2 : ~ fmt o) by (unfold fmt; rewrite KO; intros [X|X]; discriminate X). assert (F3 : ~ fmt semi) by (tk; lia).
    destruct (a_currtok _ _ _ _ sc h A G F2) as (Q1 & E1 & C1). erewrite bind_ok by exact C1. assert (FK : flags_fit o) by (eapply ahead_fit; [exact FIT|exact A|apply in_or_app; right; left; reflexivity|exact F2]). rewrite no_assign by (auto; unfold macro_kind; rewrite KO; cbn; intuition discriminate). unfold bind at 1. cbn [ret rbind].
    unfold tail3. erewrite bind_ok by (eapply cur_here; [exact E1|exact F2]). rewrite KO. change (Tok_Assign_Classifer =? Tok_BraceCurly_Open) with false. cbv iota. unfold bind at 1. cbn [ret rbind].
    unfold tail2. erewrite bind_ok by (eapply cur_here; [exact E1|exact F2]). rewrite KO. change (Tok_Assign_Classifer =? Tok_Paren_Open) with false. cbv zeta iota. unfold bind at 1. cbn [ret rbind].
    unfold tail1. erewrite bind_ok by (eapply cur_here; [exact E1|exact F2]). rewrite KO, Z.eqb_refl. destruct (a_eat _ o _ _ sc h E1 KO) as (A2 & C2). erewrite bind_ok by exact C2.
    destruct (a_currtok _ _ _ _ sc h A2 G' F1) as (Q2 & E2 & C3). erewrite bind_ok by exact C3. pose proof (Forall_inv BO) as N1. cbv beta in N1. replace (t_type first =? Tok_Statement_End) with false by lia. assert (E2' : toks = Q2 ++ (first :: more) ++ semi :: r ++ R) by exact E2.
    erewrite bind_ok. 2:{ eapply eat_until; [exact FT|exact FS|exact E2'| |exact F3|rewrite KS; reflexivity]. revert BO. apply Forall_impl. intros x X. replace (t_type x =? Tok_Statement_End) with false by lia. reflexivity. }
    pose proof (at_app _ _ _ _ E2') as E3. erewrite bind_ok by (eapply prevtok_last with (d := first); [exact E3|discriminate]). assert (LM : last (first :: more) first = last more first) by (destruct more; reflexivity). rewrite LM.
    change (slice src (t_start first) (end_of (last more first) - t_start first)) with (upto src first (last more first)). destruct (untyped_raw (upto src first (last more first)) (zlen (Q2 ++ first :: more)) sc h NE TP) as (h1 & U1 & G1 & RW). erewrite bind_ok by exact U1.
    assert (gf = [] /\ kf = semi /\ rf = r) as (-> & -> & ->). { destruct gf as [|f gf]; cbn [app] in EF; injection EF as EF1 EF2; [subst; auto|]. exfalso. apply F3. rewrite EF1. apply Forall_inv in GF. exact GF. }
    exists (Q2 ++ first :: more), 0, false, (h_top h), h1. split; [apply HERE; exact E3|]. split; [reflexivity|]. split; [exact G1|]. split; [exact RW|]. split; reflexivity.
Qed.
End P.
