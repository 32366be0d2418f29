(** Global bodies and namespaces: from a text to its declarations. *)
From Coq Require Import String ZArith List Bool Lia ZifyBool ZifyNat.
From Verif Require Import Common Text HashModel EnumModel LexModel LexSpec AstModel AstSpec UpfrontModel UpfrontSpec SerModel SerSpec ParseModel ParseSpec
  ParseProofs ParseProofs2 ParseProofs3 ParseProofs4 ParseProofs11 FnModel FnSpec FnProofs3 GlobalModel GlobalSpec GlobalProofs2 GlobalProofs3 GlobalProofs9 ClassProofs ClassProofs2 ClassProofs3 GlobalProofs10.
Import ListNotations.
Close Scope string_scope.
Open Scope Z_scope.

(** ** export: the keyword is never eaten *)
Section Export.
Variables (src : list Z) (toks beyond : list token) (ms : macros) (e : env) (gl : globals) (fuel : nat).
Lemma tok_any' : forall Q k R, toks = Q ++ k :: R -> tok_at toks beyond (zlen Q) = Done k.
Proof.
  intros P k R E. unfold tok_at. rewrite E. destruct (0 <=? zlen P) eqn:Z; [|unfold zlen in Z; lia]. unfold zlen. rewrite Nat2Z.id. rewrite <- app_assoc, nth_error_app2, Nat.sub_diag by lia. reflexivity.
Qed.
Lemma skip_here : forall Q k R n, toks = Q ++ k :: R -> t_type k = Tok_Module_Export -> skip_formatting toks beyond n (zlen Q) = Done (zlen Q).
Proof.
  intros Q k R n E K. destruct n; cbn [skip_formatting]; rewrite (tok_any' Q k R E); cbn [rbind]; rewrite K; reflexivity.
Qed.
Lemma report_here : forall Q k R sc h u s, toks = Q ++ k :: R -> t_type k = Tok_Module_Export -> report src toks beyond (Pst (zlen Q) sc h) = Done (u, s) -> s = Pst (zlen Q) sc h.
Proof.
  intros Q k R sc h u s E K. unfold report. cbn [p_scopes p_idx]. destruct sc as [|(i, f) sc]; [discriminate|]. destruct (tok_at toks beyond i); [|discriminate|discriminate]. cbn [rbind].
  replace (zlen Q >=? num toks) with false. 2: { unfold num. rewrite E. unfold zlen. rewrite app_length. cbn. lia. }
  unfold currtok. cbn [p_idx]. rewrite (skip_here Q k R _ E K). cbn [rbind]. rewrite (tok_any' Q k R E). cbn [rbind].
  destruct (_ <=? _); [|discriminate]. intros X. injection X as _ X. symmetry. exact X.
Qed.
Lemma eat_here : forall Q k R t sc h u s, toks = Q ++ k :: R -> t_type k = Tok_Module_Export -> t = Tok_BraceCurly_Open -> eat src toks beyond ms t (Pst (zlen Q) sc h) = Done (u, s) -> s = Pst (zlen Q) sc h.
Proof.
  intros Q k R t sc h u s E K ->. unfold eat. cbn [p_idx]. replace (num toks - zlen Q =? 0) with false. 2: { unfold num. rewrite E. unfold zlen. rewrite app_length. cbn. lia. }
  rewrite (tok_any' Q k R E). cbn [rbind]. rewrite K. cbn [negb andb orb]. change (Tok_Module_Export =? Tok_NewLine) with false. change (Tok_Module_Export =? Tok_Comment) with false.
  change (Tok_Module_Export =? Tok_BraceCurly_Open) with false. change (Tok_BraceCurly_Open =? Tok_Identifier) with false. cbn [negb andb orb].
  unfold bind, currtok. cbn [p_idx]. rewrite (skip_here Q k R _ E K). cbn [rbind]. rewrite (tok_any' Q k R E). cbn [rbind].
  destruct (report src toks beyond (at_idx (zlen Q) (Pst (zlen Q) sc h))) as [(u', s')| | ] eqn:RR; [|discriminate|discriminate]. cbn [rbind]. unfold ret. intros X. injection X as _ X. subst s'.
  eapply report_here; eauto.
Qed.
Lemma export_stuck : forall Q k R, toks = Q ++ k :: R -> t_type k = Tok_Module_Export -> forall n which b sc h x, nspace_loop src toks beyond ms e gl fuel n which b (Pst (zlen Q) sc h) <> Done x.
Proof.
  intros Q k R E K n. induction n as [|n IH]; intros which b sc h x; cbn [nspace_loop]; unfold bind at 1, left, get_left; cbn [rbind p_idx];
  replace (num toks - zlen Q =? 0) with false by (unfold num; rewrite E; unfold zlen; rewrite app_length; cbn; lia);
  unfold bind at 1, currtok_noskip at 1; cbn [p_idx]; rewrite (tok_any' Q k R E); cbn [rbind]; rewrite K; change (Tok_Module_Export =? Tok_BraceCurly_Close) with false; cbv iota; [discriminate|].
  change (Tok_Module_Export =? Tok_Preprocess_Hash) with false. cbv iota. unfold bind at 1, ret at 1. cbn [rbind].
  unfold bind at 1, currtok_noskip at 1. cbn [p_idx]. rewrite (tok_any' Q k R E). cbn [rbind]. rewrite K. change (Tok_Module_Export =? Tok_Statement_End) with false. cbv iota.
  unfold bind at 1. match goal with |- context [member _ _ _ _ _ _ _ ?N which Tok_Module_Export] => set (nested := N) end.
  assert (NS : forall w sc' h' y, nested w (Pst (zlen Q) sc' h') <> Done y).
  { intros w sc' h' y. unfold nested, push_scope. unfold bind at 1. cbn [rbind p_idx p_scopes p_heap]. unfold bind at 1.
    destruct (eat src toks beyond ms Tok_BraceCurly_Open _) as [(u, s)| | ] eqn:EE; cbn [rbind]; [|discriminate|discriminate]. apply (eat_here Q k R) in EE; auto. subst s.
    unfold bind at 1, on_heap. cbn [rbind p_heap]. destruct (make h' (AstModel.set_type w)) as (h2, r2). cbn [rbind fst snd with_heap p_idx p_scopes]. apply IH. }
  assert (MS : forall y, member src toks beyond ms e gl fuel nested which Tok_Module_Export (Pst (zlen Q) sc h) <> Done y).
  { intros y. change (member src toks beyond ms e gl fuel nested which Tok_Module_Export) with
      ((if ct_eqb which CT_Export_Body then report src toks beyond else ret tt) ;;; push_scope "parser_parse_export_body"%string ;;; c <- nested CT_Export_Body ;; parser_pop ;;; ret (Some c))%parse.
    unfold bind at 1. destruct (ct_eqb which CT_Export_Body).
    - destruct (report src toks beyond _) as [(u, s)| | ] eqn:RR; cbn [rbind]; [|discriminate|discriminate]. apply (report_here Q k R) in RR; auto. subst s.
      unfold push_scope. unfold bind at 1. cbn [rbind p_idx p_scopes p_heap]. unfold bind at 1. destruct (nested _ _) eqn:NN; cbn [rbind]; [exfalso; exact (NS _ _ _ _ NN)|discriminate|discriminate].
    - unfold ret at 1. cbn [rbind]. unfold push_scope. unfold bind at 1. cbn [rbind p_idx p_scopes p_heap]. unfold bind at 1. destruct (nested _ _) eqn:NN; cbn [rbind]; [exfalso; exact (NS _ _ _ _ NN)|discriminate|discriminate]. }
  match goal with |- context [rbind ?M _] => destruct M eqn:MM; cbn [rbind]; [exact (fun _ => MS _ eq_refl)|discriminate|discriminate] end.
Qed.
End Export.

Section Text_.
Variables (text : list Z) (toks beyond : list token) (ms ms' : macros) (e : env) (gl : globals) (fuel : nat) (h : heap).
Hypothesis B : Forall (fun c => 0 <= c < 256) text.
Hypothesis NR : ~ runs_off text.
Hypothesis MF : Forall macro_fits ms.
Hypothesis L : lex text fuel ms = Done (Some (toks, ms')).
Hypothesis F : Z.of_nat (length text) + 2 <= Z.of_nat fuel.
Hypothesis FT : (length toks < fuel)%nat.
Hypothesis W : world e h.
Hypothesis GI : globals_in e gl h.
Hypothesis NOM : no_macro_spec ms'.
Hypothesis BY : (2 <= length beyond)%nat.
Lemma global_text : forall l, members text beyond InNamespace toks [] l ->
  exists h' c l', parse_text (fun src toks beyond ms e fuel => parse_global_body src toks beyond ms e gl fuel) text beyond ms e fuel h = Done (h', c) /\
    holds h' c (Block l') /\ Forall2 tree_like l l' /\ h_top h <= c /\ grow h h'.
Proof.
  intros l T. destruct (text_facts text toks ms ms' fuel B NR MF L F) as (T1 & T2 & _ & _); assert (FS : (length text < fuel)%nat) by lia.
  destruct (global_ok text toks beyond ms' e gl fuel T1 T2 B FT FS NOM BY l [] h T W GI) as (c & h' & l' & K & K1 & K2 & K3 & K4).
  exists h', c, l'. split; [|auto]. apply (run_text text toks beyond ms ms' e fuel h B NR MF L F (fun src toks beyond ms e fuel => parse_global_body src toks beyond ms e gl fuel) _ _ K).
Qed.
Lemma namespace_text : forall t, namespace_tokens text beyond toks [] t ->
  exists h' c t', parse_text (fun src toks beyond ms e fuel => parse_namespace src toks beyond ms e gl fuel) text beyond ms e fuel h = Done (h', c) /\
    holds h' c t' /\ tree_like t t' /\ h_top h <= c /\ grow h h'.
Proof.
  intros t T. destruct (text_facts text toks ms ms' fuel B NR MF L F) as (T1 & T2 & _ & _); assert (FS : (length text < fuel)%nat) by lia.
  destruct (namespace_ok text toks beyond ms' e gl fuel T1 T2 B FT FS NOM BY t [] h T W GI) as (c & h' & t' & K & K1 & K2 & K3 & K4).
  exists h', c, t'. split; [|auto]. apply (run_text text toks beyond ms ms' e fuel h B NR MF L F (fun src toks beyond ms e fuel => parse_namespace src toks beyond ms e gl fuel) _ _ K).
Qed.
(** behind any members, export is not eaten: the call does not end *)
Lemma export_text : forall raw k R l x, toks = raw ++ k :: R -> members text beyond InNamespace raw (k :: R) l -> t_type k = Tok_Module_Export ->
  parse_text (fun src toks beyond ms e fuel => parse_global_body src toks beyond ms e gl fuel) text beyond ms e fuel h <> Done x.
Proof.
  intros raw k R l x E T K X. destruct (text_facts text toks ms ms' fuel B NR MF L F) as (T1 & T2 & _ & NE); assert (FS : (length text < fuel)%nat) by lia.
  unfold parse_text in X. destruct text as [|a r] eqn:TX; [congruence|]. rewrite <- TX in *. rewrite L in X. cbn [rbind] in X.
  assert (Z0 : forall y, parse_global_body text toks beyond ms' e gl fuel (Pst 0 [] h) <> Done y).
  { intros y Y. pose proof (world_top text toks e fuel FT FS h W) as TP. unfold parse_global_body, push_scope in Y. unfold bind at 1 in Y. cbn [rbind p_idx p_scopes p_heap] in Y. unfold bind at 1 in Y. cbn [rbind p_idx p_scopes p_heap] in Y.
    set (s0 := (0, "parse_global_body"%string)) in *. set (s1 := (0, "parse_global_nspace"%string)) in *.
    destruct (open_first text toks beyond fuel FT FS BY CT_Global_Body h 0 (s1 :: s0 :: []) (or_introl eq_refl) TP) as (h1 & M1 & G1 & T1' & OP1). erewrite bind_ok in Y by exact M1.
    assert (OD : forall x, x = h_top h \/ ~ x = h_top h) by (intros z; destruct (Z.eq_dec z (h_top h)); auto).
    assert (LR : (length raw < fuel)%nat) by (rewrite E in FT; rewrite app_length in FT; lia).
    assert (FG : fits InNamespace (Outside CT_Global_Body)) by (split; [reflexivity|intros _ w EW; injection EW as <-; reflexivity]).
    destruct (members_ok text toks beyond ms' e gl fuel T1 T2 B FT FS NOM BY InNamespace raw (k :: R) l T (Outside CT_Global_Body) FG h (fun x => x = h_top h) (h_top h) (h_top h + 1) fuel W GI (Z.le_refl _) OD [] [] [] (s1 :: s0 :: []) h1 E LR I OP1 G1)
      as (Q' & h' & xs' & l' & n' & E' & OP' & F' & K' & G & C).
    change (zlen (@nil token)) with 0 in C. cbn [GlobalProofs3.loop] in C. unfold bind at 1 in Y. rewrite C in Y. clear C. match type of Y with rbind ?M _ = _ => destruct M eqn:EE end; cbn [rbind] in Y; [|discriminate|discriminate].
    revert EE. apply (export_stuck text toks beyond ms' e gl fuel Q' k R E' K). }
  match type of X with rbind ?M _ = _ => destruct M eqn:EE end; [exact (Z0 _ eq_refl)|discriminate|discriminate].
Qed.
End Text_.
