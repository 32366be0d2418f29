(** Classes and structs: the public functions. *)
From Coq Require Import String ZArith List Bool Lia ZifyBool ZifyNat.
From Verif Require Import Common Text HashModel StrOpsModel EnumModel EnumSpec EnumProofs LexModel LexSpec NavModel StripModel StripSpec StripProofs AstModel AstSpec AstProofs AstProofs4 UpfrontModel UpfrontSpec UpfrontProofs4 SerSpec SerProofs SerProofs2 ParseModel ParseSpec
  ParseProofs ParseProofs2 ParseProofs3 ParseProofs4 ParseProofs5 ParseProofs6 ParseProofs7 ParseProofs8 ParseProofs9 ParseProofs10 ParseProofs11 FnModel FnSpec FnProofs FnProofs2 FnProofs3 FnProofs4 GlobalModel GlobalSpec GlobalProofs GlobalProofs2 GlobalProofs3 GlobalProofs4 GlobalProofs5 GlobalProofs6 GlobalProofs7 GlobalProofs8 GlobalProofs9 ClassProofs ClassProofs2 ClassProofs3 GlobalProofs10.
Import ListNotations.
Close Scope string_scope.
Open Scope Z_scope.
Open Scope parse_scope.
Section P.
Variable src : list Z.
Variable toks beyond : list token.
Variable ms : macros.
Variable e : env.
Variable gl : globals.
Variable fuel : nat.
Hypothesis SRC : Forall (in_source src) toks.
Hypothesis FIT : Forall flags_fit toks.
Hypothesis BYTES : Forall (fun c => 0 <= c < 256) src.
Hypothesis FT : (length toks < fuel)%nat.
Hypothesis FS : (length src < fuel)%nat.
Hypothesis NOM : no_macro_spec ms.
Hypothesis BY : (2 <= length beyond)%nat.
Notation globals_in := (globals_in e gl).
Notation gathered := (gathered src toks beyond ms e gl fuel).
Notation class_struct := (class_struct src toks beyond ms e gl fuel).
Notation class_body := (class_body src toks beyond ms e gl fuel).
Notation from_kw := (from_kw src toks beyond ms e fuel).
Notation ahead := (ahead toks).
Notation check := (check toks beyond).
Notation eat := (eat src toks beyond ms).

Definition parse_cls (st : bool) : M Z := if st then parse_struct src toks beyond ms e gl fuel else parse_class src toks beyond ms e gl fuel.
Definition nobody (x : Z) : Prop := False.
Lemma nobody_dec : forall x, nobody x \/ ~ nobody x. Proof. intros x. right. exact (fun H => H). Qed.
Lemma touch_self : forall B h c, valid h c -> touch nobody B h h c c.
Proof. intros B h c V. split; try (intros x []); auto; [lia|intros; apply loose_refl|apply relinked_refl]. Qed.
Lemma exported : forall (x : bool) ex k r Q sc h (which : Z) body, (x = false /\ ex = [] \/ x = true /\ exists k, ex = [k] /\ kind Tok_Module_Export k) -> toks = Q ++ ex ++ k :: r -> kind which k -> which = Tok_Decl_Class \/ which = Tok_Decl_Struct ->
  exists Q', toks = Q' ++ k :: r /\ parse_class_struct src toks beyond ms e fuel body which (Pst (zlen Q) sc h) = from_kw body which x (Pst (zlen Q') sc h).
Proof.
  intros x ex k r Q sc h which body EX E K WH. unfold kind in K. assert (FK : ~ fmt k) by (unfold fmt; rewrite K; destruct WH as [-> | ->]; intros [X|X]; discriminate X).
  rewrite (class_struct_eq src toks beyond ms e fuel). destruct EX as [(-> & ->)|(-> & kx & -> & KX)]; cbn [app] in E.
  - exists Q. split; [exact E|]. destruct (a_check toks beyond Q [] k r Tok_Module_Export sc h (ahead_self toks _ _ E) ltac:(constructor) FK) as (Q2 & E2 & C2).
    assert (Q2 = Q) by (rewrite E in E2; apply app_inv_tail in E2; auto). subst Q2. erewrite bind_ok by exact C2. replace (t_type k =? Tok_Module_Export) with false by (rewrite K; destruct WH as [-> | ->]; reflexivity). erewrite bind_ok by reflexivity. reflexivity.
  - unfold kind in KX. assert (FX : ~ fmt kx) by (unfold fmt; rewrite KX; intros [X|X]; discriminate X).
    destruct (a_check toks beyond Q [] kx (k :: r) Tok_Module_Export sc h (ahead_self toks _ _ E) ltac:(constructor) FX) as (Q2 & E2 & C2).
    assert (Q2 = Q) by (rewrite E in E2; apply app_inv_tail in E2; auto). subst Q2. erewrite bind_ok by exact C2. rewrite KX, Z.eqb_refl. destruct (a_eat src toks beyond ms Q kx _ Tok_Module_Export sc h E KX) as (_ & C3). erewrite bind_ok by exact C3.
    exists (Q ++ [kx]). split; [apply at_eat; exact E|reflexivity].
Qed.
Lemma class_ok : forall st t sc h, class_tokens src beyond st toks [] t -> world e h -> globals_in h ->
  exists c h' t', parse_cls st (Pst 0 sc h) = Done (c, Pst (zlen toks) sc h') /\ holds h' c t' /\ tree_like t t' /\ grow h h' /\ h_top h <= c.
Proof.
  intros st t sc h T W GI. remember toks as tt eqn:ET in T. remember (@nil token) as rest eqn:ER in T. 
  assert (PC : forall hd, parse_cls (hd_struct hd) = (push_scope (if hd_struct hd then "parse_struct" else "parse_class")%string ;;; r <- parse_class_struct src toks beyond ms e fuel (class_body (class_struct fuel) (kw_of hd)) (kw_of hd) ;; parser_pop ;;; ret r)) by (intros hd; unfold parse_cls, kw_of; destruct (hd_struct hd); reflexivity).
  assert (WH : forall hd, kw_of hd = Tok_Decl_Class \/ kw_of hd = Tok_Decl_Struct) by (intros hd; unfold kw_of; destruct (hd_struct hd); auto).
  destruct T as [x ex h_ hd g o body c fin rest inner cmt t EX HE G KO T KC SE CT|x ex h_ hd fin rest cmt t EX HE SE CT]; subst rest; rename ET into E; symmetry in E; destruct (head_first src _ _ _ HE) as (k & hr & EH & K); rewrite PC; unfold push_scope; unfold bind at 1; cbn [rbind p_idx p_scopes p_heap]; unfold bind at 1.
  - set (s0 := (0, _)). assert (E0 : toks = [] ++ ex ++ k :: hr ++ g ++ o :: body ++ c :: fin) by (rewrite E, EH; rewrite <- ?app_assoc; reflexivity).
    destruct (exported x ex k _ [] (s0 :: sc) h (kw_of hd) (class_body (class_struct fuel) (kw_of hd)) EX E0 K (WH hd)) as (Q1 & E1 & C1). change (zlen (@nil token)) with 0 in C1. rewrite C1.
    assert (E2 : toks = Q1 ++ h_ ++ g ++ o :: body ++ c :: fin ++ []) by (rewrite app_nil_r, E1, EH; reflexivity).
    assert (LB : (length body < fuel)%nat) by (rewrite E2 in FT; rewrite !app_length in FT; cbn [length] in FT; rewrite app_length in FT; lia).
    destruct (class_def src toks beyond ms e gl fuel SRC FIT BYTES FT FS BY nobody nobody_dec fuel x Q1 h_ hd g o body c fin [] (s0 :: sc) h inner cmt t) as (Q' & h' & n & t' & E3 & TL & (D1 & D2 & D3 & D4 & D5 & D6) & C2); auto; [|intros y []|intros y []|].
    { intros h1 O' b' lo' nt W1 GI1 HB1 OD1. apply (members_ok src toks beyond ms e gl fuel SRC FIT BYTES FT FS NOM BY InClass _ _ _ T); auto. split; [reflexivity|discriminate]. }
    exists n, h', t'. rewrite C2. split; [cbn [rbind]; rewrite app_nil_r in E3; rewrite E3; reflexivity|]. split; [apply D6, touch_self; exact D3|]. auto.
  - set (s0 := (0, _)). assert (E0 : toks = [] ++ ex ++ k :: hr ++ fin) by (rewrite E, EH; reflexivity).
    destruct (exported x ex k _ [] (s0 :: sc) h (kw_of hd) (class_body (class_struct fuel) (kw_of hd)) EX E0 K (WH hd)) as (Q1 & E1 & C1). change (zlen (@nil token)) with 0 in C1. rewrite C1.
    assert (E2 : toks = Q1 ++ h_ ++ fin ++ []) by (rewrite app_nil_r, E1, EH; reflexivity).
    destruct (forward_def src toks beyond ms e fuel SRC FIT BYTES FT FS BY nobody nobody_dec x Q1 h_ fin [] hd fin [] (s0 :: sc) h cmt t (class_body (class_struct fuel) (kw_of hd))) as (Q' & h' & n & E3 & (D1 & D2 & D3 & D4 & D5 & D6) & C2); auto; [intros y []|].
    exists n, h', t. rewrite C2. split; [cbn [rbind]; rewrite app_nil_r in E3; rewrite E3; reflexivity|]. split; [apply D6, touch_self; exact D3|]. split; [apply tl_respaced, tr_same|]. auto.
Qed.
End P.

Section Text_.
Variables (text : list Z) (toks beyond : list token) (ms ms' : macros) (e : env) (gl : globals) (fuel : nat) (h : heap).
Hypothesis B : Forall (fun c => 0 <= c < 256) text.
Hypothesis NR : ~ runs_off text.
Hypothesis MF : Forall macro_fits ms.
Hypothesis L : lex text fuel ms = Done (Some (toks, ms')).
Hypothesis F : Z.of_nat (length text) + 2 <= Z.of_nat fuel.
Hypothesis FT : (length toks < fuel)%nat.
Hypothesis W : world e h.
Hypothesis GI : globals_in e gl h.
Hypothesis NOM : no_macro_spec ms'.
Hypothesis BY : (2 <= length beyond)%nat.
Lemma class_text : forall st t, class_tokens text beyond st toks [] t ->
  exists h' c t', parse_text (fun src toks beyond ms e fuel => if st then parse_struct src toks beyond ms e gl fuel else parse_class src toks beyond ms e gl fuel) text beyond ms e fuel h = Done (h', c) /\
    holds h' c t' /\ tree_like t t' /\ h_top h <= c /\ grow h h'.
Proof.
  intros st t T. destruct (text_facts text toks ms ms' fuel B NR MF L F) as (T1 & T2 & _ & _); assert (FS : (length text < fuel)%nat) by lia.
  destruct (class_ok text toks beyond ms' e gl fuel T1 T2 B FT FS NOM BY st t [] h T W GI) as (c & h' & t' & K & K1 & K2 & K3 & K4).
  exists h', c, t'. split; [|auto]. apply (run_text text toks beyond ms ms' e fuel h B NR MF L F (fun src toks beyond ms e fuel => if st then parse_struct src toks beyond ms e gl fuel else parse_class src toks beyond ms e gl fuel) _ _ K).
Qed.
End Text_.
