(** Specifiers that may not stand in front of a variable. *)
From Coq Require Import String ZArith List Bool Lia ZifyBool ZifyNat.
From Verif Require Import Common Text HashModel StrOpsModel EnumModel EnumSpec EnumProofs LexModel LexSpec NavModel StripModel StripSpec StripProofs AstModel AstSpec AstProofs AstProofs4 UpfrontModel UpfrontSpec SerModel SerSpec SerProofs SerProofs2 ParseModel ParseSpec
  ParseProofs ParseProofs2 ParseProofs3 ParseProofs4 ParseProofs5 ParseProofs7 ParseProofs8 ParseProofs9 ParseProofs10 ParseProofs11 FnModel FnSpec FnProofs FnProofs2 FnProofs3 FnProofs4 FriendProofs2.
Import ListNotations.
Close Scope string_scope.
Open Scope Z_scope.
Open Scope parse_scope.



Section P.
Variable src : list Z.
Variable toks beyond : list token.
Variable ms : macros.
Variable e : env.
Variable fuel : nat.
Hypothesis SRC : Forall (in_source src) toks.
Hypothesis FIT : Forall flags_fit toks.
Hypothesis BYTES : Forall (fun c => 0 <= c < 256) src.
Hypothesis FT : (length toks < fuel)%nat.
Hypothesis FS : (length src < fuel)%nat.
Notation ahead := (ahead toks).
Lemma report_at : forall Q b r start name h u st, toks = Q ++ b :: r -> ~ fmt b ->
  report src toks beyond (Pst (zlen Q) [(start, name)] h) = Done (u, st) -> st = Pst (zlen Q) [(start, name)] h.
Proof.
  intros Q b r start name h u st E1 KB X. unfold report in X. cbn [p_scopes p_idx] in X. destruct (tok_at toks beyond start) as [k0| |]; cbn [rbind] in X; [|discriminate|discriminate].
  assert (N : (zlen Q >=? num toks) = false) by (change (num toks) with (zlen toks); unfold zlen; rewrite E1, app_length; cbn [length]; lia). rewrite N in X.
  rewrite (currtok_ok toks beyond [] Q b r _ h E1 (Forall_nil _) KB), app_nil_r in X. cbn [rbind] in X. destruct (_ <=? _); [|discriminate]. injection X as _ <-. reflexivity.
Qed.
Lemma variable_refused : forall x ex att at_ pre sp g b s r h c st, toks = ex ++ att ++ pre ++ g ++ b :: r -> exported x ex -> attribute_word src att (pre ++ g ++ b :: r) at_ ->
  spec_tokens src pre sp -> Forall (fun s => In s variable_specifiers) sp -> Z.of_nat (length sp) <= SPECS_CAP -> gap g -> spelled src b s -> variable_specifier s = false -> 0 < h_top h ->
  parse_variable src toks beyond ms e fuel (Pst 0 [] h) = Done (c, st) -> c = e_invalid e /\ grow h (p_heap st).
Proof.
  intros x ex att at_ pre sp g b s r h c st E XP AT SP VS CAP G SB NV TP X. unfold parse_variable, push_scope in X. unfold bind at 1 in X. cbn [rbind p_idx p_scopes p_heap] in X.
  set (sc' := [(0, "parser_parse_variable"%string)]) in *. set (B2 := pre ++ g ++ b :: r) in *. pose proof (ahead_self toks [] _ E) as A.
  assert (SKB : spec_kind (t_type b)) by (destruct SB; assumption). assert (KB : ~ fmt b) by (apply spec_sig; exact SKB).
  assert (FITP : forall k, (In k pre \/ k = b) -> spec_kind (t_type k) -> flags_fit k). { intros k I SK. eapply ahead_fit; [exact FIT|exact A| |apply spec_sig; exact SK]. unfold B2. rewrite !in_app_iff. cbn [In]. destruct I as [I|<-]; auto 10. }
  assert (NXT : forall P : token -> Prop, (forall k, In k pre \/ k = b -> spec_kind (t_type k) -> P k) -> next_is B2 P).
  { intros P P1. unfold B2. eapply spec_first; [exact SP|intros k SK I; auto|]. apply next_app; auto. }
  assert (N1 : next_is (att ++ B2) (fun k => t_type k <> Tok_Module_Export)).
  { destruct at_ as [t|].
    - destruct AT as (ga & ka & k' & q & -> & GA & FA & NIN & _). rewrite <- app_assoc. cbn [app]. apply next_app; [exact GA|intros [Y|Y]; apply NIN; rewrite Y; cbn; auto 10|]. intros Y0.
      assert (FK : flags_fit ka). { eapply ahead_fit; [exact FIT|exact A|rewrite !in_app_iff; right; left; right; left; reflexivity|unfold fmt; rewrite Y0; intros [Y|Y]; discriminate Y]. } destruct FK as [FK|(_ & FK & _)]; [tk; lia|]. specialize (FK FA). rewrite FK in Y0. discriminate Y0.
    - cbn in AT. subst att. cbn [app]. apply NXT. intros k _ SK. tk. lia. }
  destruct (export_ok src toks beyond ms fuel FT FS x ex _ [] sc' h XP A N1) as (Q1 & fl & A1 & C1 & X1). change (zlen (@nil token)) with 0 in C1. erewrite bind_ok in X by exact C1.
  destruct (attributes_ok src toks beyond ms fuel SRC BYTES att B2 at_ Q1 sc' h AT A1) as (Q2 & ca & h1 & E2 & C2 & G1 & MA & _); auto.
  { apply NXT. intros k I SK. apply not_attr_flag; auto; tk; lia. }
  erewrite bind_ok in X by exact C2. apply stands_ahead in E2. unfold B2 in E2.
  assert (LP : (length sp <= fuel)%nat) by (pose proof (spec_sig_len src _ _ SP); pose proof (ahead_sig_len _ _ _ _ E2); lia).
  destruct (specs_refused src toks beyond ms fuel FIT FT pre sp fuel _ g b s r variable_specifier (fun s => s =? Spec_Const) [] sc' h1 SP E2 G SB NV) as (Q' & E3 & C3); [apply variable_specs; exact VS|cbn [app]; change SPECS_CAP with 14 in CAP; unfold zlen; lia|exact LP|].
  erewrite bind_ok in X by exact C3. unfold fail in X. unfold bind at 1 in X. destruct (report src toks beyond (Pst (zlen Q') sc' h1)) as [[u s2]| |] eqn:R; cbn [rbind] in X; [|discriminate|discriminate].
  apply report_at with (b := b) (r := r) in R; [|exact E3|exact KB]. subst s2. unfold parser_pop, bind, ret, sc' in X. cbn [p_scopes rbind p_idx p_heap] in X. injection X as <- <-. split; [reflexivity|exact G1].
Qed.
End P.
Section Text_.
Variables (text : list Z) (toks beyond : list token) (ms ms' : macros) (e : env) (fuel : nat) (h : heap).
Hypothesis B : Forall (fun c => 0 <= c < 256) text.
Hypothesis NR : ~ runs_off text.
Hypothesis MF : Forall macro_fits ms.
Hypothesis L : lex text fuel ms = Done (Some (toks, ms')).
Hypothesis F : Z.of_nat (length text) + 2 <= Z.of_nat fuel.
Hypothesis FT : (length toks < fuel)%nat.
Hypothesis W : world e h.
Lemma variable_refused_text : forall x ex att at_ pre sp g b s r h' c, toks = ex ++ att ++ pre ++ g ++ b :: r -> exported x ex -> attribute_word text att (pre ++ g ++ b :: r) at_ ->
  spec_tokens text pre sp -> Forall (fun s => In s variable_specifiers) sp -> Z.of_nat (length sp) <= SPECS_CAP -> gap g -> spelled text b s -> variable_specifier s = false ->
  parse_text parse_variable text beyond ms e fuel h = Done (h', c) -> c = e_invalid e /\ grow h h'.
Proof.
  intros x ex att at_ pre sp g b s r h' c E XP AT SP VS CAP G SB NS X. destruct (text_facts text toks ms ms' fuel B NR MF L F) as (T1 & T2 & _ & NE). assert (FS : (length text < fuel)%nat) by lia.
  pose proof (world_top text toks e fuel FT FS h W) as TP. unfold parse_text in X. destruct text as [|a t] eqn:T; [congruence|]. rewrite L in X. cbn [rbind] in X. rewrite <- T in *.
  destruct (parse_variable text toks beyond ms' e fuel (Pst 0 [] h)) as [[c0 s0]| |] eqn:Y; cbn [rbind] in X; [|discriminate|discriminate]. injection X as <- <-.
  exact (variable_refused text toks beyond ms' e fuel T1 T2 B FT FS x ex att at_ pre sp g b s r h c0 s0 E XP AT SP VS CAP G SB NS TP Y).
Qed.
End Text_.
