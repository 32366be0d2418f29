From Coq Require Import String ZArith List Bool Lia ZifyBool ZifyNat.
From Verif Require Import Common HashModel Text EnumModel EnumSpec EnumProofs LexModel LexSpec AstModel AstSpec SerSpec RelexSpec RelexProofs RelexProofs2 RelexProofs3 RelexProofs4 RelexProofs5.
From Verif Require SerProofs2.
Import ListNotations.
Close Scope string_scope. Open Scope Z_scope.

Section T.
Variable lx : list Z -> list lexeme.
Variable ms : macros.
Hypothesis plain : Forall (fun w => lookup_macro ms (txt w) = None) odd_specs.
Notation writes := (writes ms).
Notation leaf := (leaf lx ms).
Notation toks := (tokens lx).

Definition seg (x : list Z) (l : list lexeme) : Prop := forall rest lr, writes rest lr -> writes (x ++ rest) (l ++ lr).
Fixpoint all_lexable (l : list tree) : Prop := match l with [] => True | t :: r => lexable lx ms t /\ all_lexable r end.
Lemma entries_seg l : Forall (fun t => lexable lx ms t -> seg (render t) (toks t)) l -> all_lexable l -> seg (concat (map render l)) (flat_map toks l).
Proof.
  induction l as [|t l IH]; intros F A rest lr R; auto. cbn [map concat flat_map]. rewrite <- !app_assoc. destruct A as [A1 A2]. apply (Forall_inv F A1). apply IH; auto. apply Forall_inv_tail in F. auto.
Qed.
Lemma linkage_app name rest lr : Forall byte_ok name -> ~ In 34 name -> ~ In 92 name -> writes rest lr ->
  writes (txt "extern """ ++ name ++ txt """" ++ rest) ([(txt "extern", Tok_Decl_Extern_Linkage); (txt """" ++ name, Tok_String)] ++ lr).
Proof.
  intros F N1 N2 R. change (writes (txt "extern" ++ [32; 34] ++ name ++ 34 :: rest) ((txt "extern", Tok_Decl_Extern_Linkage) :: (34 :: name, Tok_String) :: lr)). apply w_word.
  - apply wordb_ok. reflexivity.
  - right. right. left. split; auto. split; auto. exists [32], (name ++ 34 :: rest). split; auto. constructor; auto. apply space32.
  - cbn. unfold word_char. lia.
  - apply w_blank; auto. apply w_string; auto.
Qed.
Lemma opt_nl_app (b : bool) rest lr : writes rest lr -> writes ((if b then NL else []) ++ rest) lr.
Proof. intros R. destruct b; auto. apply nl_app. auto. Qed.
Lemma export_app x rest lr : writes rest lr -> writes (when x "export " ++ rest) (tks x "export" ++ lr).
Proof. intros R. destruct x; auto. apply (kw_sp ms "export"); auto. Qed.
Lemma attrs_app o rest lr : oall leaf o -> writes rest lr -> writes (with_ o sp ++ rest) (tko o lx ++ lr).
Proof. intros H R. destruct o as [a|]; auto. cbn [with_ tko]. unfold sp. rewrite <- app_assoc. apply leaf_app; auto; [cbn; auto|]. apply sp_app. auto. Qed.
Lemma comment_nl_app o rest lr : oall clean_comment o -> writes rest lr -> writes (with_ o (fun c => txt " // " ++ c) ++ NL ++ rest) (tko o line_comment ++ lr).
Proof. intros H R. destruct o as [c|]; [|apply nl_app; auto]. cbn [with_ tko]. rewrite <- app_assoc. apply comment_app; auto. Qed.
Lemma colon_typ_app o rest lr : oall (typ_ok lx ms) o -> calm (hd 0 rest) -> writes rest lr ->
  writes (with_ o (fun t => txt " : " ++ typ_text t) ++ rest) (tko o (fun t => tk ":" :: typ_tokens lx t) ++ lr) /\ calm (hd 0 (with_ o (fun t => txt " : " ++ typ_text t) ++ rest)).
Proof. intros H C R. destruct o as [t|]; auto. split; [|cbn; auto]. cbn [with_ tko]. rewrite <- app_assoc. apply (sp_sym_sp ms ":"); auto. apply typ_app; auto. Qed.
Lemma ret_app o rest lr : oall (typ_ok lx ms) o -> writes rest lr -> writes (with_ o (fun t => sp (typ_text t)) ++ rest) (tko o (typ_tokens lx) ++ lr).
Proof. intros H R. destruct o as [t|]; auto. cbn [with_ tko]. unfold sp. rewrite <- app_assoc. apply typ_app; auto; [cbn; auto|]. apply sp_app. auto. Qed.
Lemma ret_opens o x rest : oall (typ_ok lx ms) o -> opens x -> ~ quoted (with_ o (fun t => sp (typ_text t)) ++ x ++ rest).
Proof. intros H X. destruct o as [t|]; cbn [with_ app]; [|apply quoted_opens; auto]. unfold sp. rewrite <- app_assoc. eapply typ_opens; eauto. Qed.
(** leading specifiers and the line end behind them *)
Lemma lead_app (a : bool) specs rest lr : oall specs_fine specs -> ~ quoted rest -> writes rest lr ->
  writes (spec_words leading specs ++ (if a || selects leading specs then NL else []) ++ rest) (some_specs leading specs ++ lr).
Proof.
  intros F Q R. destruct (selects leading specs) eqn:S.
  - rewrite orb_true_r. apply spec_words_app; auto; [cbn; auto| |apply nl_app; auto]. intros _. apply (not_quoted_blank 10); auto. apply space10.
  - assert (E : spec_words leading specs = [] /\ some_specs leading specs = []).
    { destruct specs as [l|]; auto. unfold spec_words, some_specs, with_, tko. replace (filter leading l) with (@nil Z); auto. symmetry. cbn [selects] in S. induction l as [|s l IH]; auto. cbn [existsb] in S. apply orb_false_iff in S. destruct S as [S1 S2]. cbn [filter]. rewrite S1. apply IH; auto. apply Forall_inv_tail in F. auto. }
    destruct E as [-> ->]. cbn [app]. apply opt_nl_app. auto.
Qed.
Lemma lead2_app (a : bool) specs rest lr : oall specs_fine specs -> ~ quoted rest -> writes rest lr ->
  writes (spec_words leading specs ++ (if a || present specs then NL else []) ++ rest) (some_specs leading specs ++ lr).
Proof.
  intros F Q R. destruct specs as [l|]; cbn [present].
  - rewrite orb_true_r. apply spec_words_app; auto; [cbn; auto| |apply nl_app; auto]. intros _. apply (not_quoted_blank 10); auto. apply space10.
  - cbn [spec_words some_specs with_ tko app]. apply opt_nl_app. auto.
Qed.
Lemma cast_specs_app specs rest lr : oall specs_fine specs -> ~ quoted rest -> writes rest lr ->
  writes (with_ specs (fun s => concat (map (fun s => sp (spec_text s)) (filter leading s))) ++ rest) (some_specs leading specs ++ lr).
Proof.
  intros F Q R. destruct specs as [l|]; auto. unfold some_specs. cbn [with_ tko]. assert (F2 : specs_fine (filter leading l)).
  { apply Forall_forall. intros s HI. apply filter_In in HI. unfold specs_fine in F. cbn in F. rewrite Forall_forall in F. apply F. tauto. }
  clear F. induction (filter leading l) as [|s r IH]; auto. cbn [map concat flat_map]. unfold sp. rewrite <- !app_assoc.
  assert (NQ : ~ quoted (concat (map (fun s => sp (spec_text s)) r) ++ rest)).
  { destruct r as [|s' r]; [exact Q|]. cbn [map concat]. unfold sp. rewrite <- !app_assoc. pose proof (Forall_inv (Forall_inv_tail F2)) as X. cbv beta in X. apply quoted_opens. apply (spec_head lx). exact X. }
  apply spec_app; auto; [apply (Forall_inv F2)|left; cbn; auto|intros _; apply (not_quoted_blank 32); auto; apply space32|]. apply sp_app. apply IH. apply Forall_inv_tail in F2. auto.
Qed.
Lemma parens_app ps rest lr : Forall (param_ok lx ms) ps -> writes rest lr -> writes (txt "(" ++ params_text ps ++ txt ")" ++ rest) (parens (params_tokens lx ps) ++ lr).
Proof. intros F R. unfold parens. rewrite <- !app_assoc. apply (sym_any ms "("); auto. apply params_app; auto; [cbn; auto 8|]. apply (sym_any ms ")"); auto. Qed.
Lemma unit_app rest lr : writes rest lr -> writes (txt "()" ++ rest) (parens [] ++ lr).
Proof. intros R. change (writes (txt "(" ++ txt ")" ++ rest) (tk "(" :: tk ")" :: lr)). apply sym_any; auto. apply sym_any; auto. Qed.
Lemma ctor_params_app ps rest lr : Forall (param_ok lx ms) ps -> writes rest lr ->
  writes ((match ps with [] => txt "()" | _ => txt "( " ++ params_text ps ++ txt " )" end) ++ rest) (parens (params_tokens lx ps) ++ lr).
Proof.
  intros F R. destruct ps as [|p ps]; [apply unit_app; auto|]. unfold parens. rewrite <- !app_assoc. apply (sym_sp ms "("); auto. apply params_app; auto; [cbn; auto|]. apply (sym_pre ms ")"); auto.
Qed.
Lemma ctor_params_calm ps rest : calm (hd 0 ((match ps with [] => txt "()" | _ => txt "( " ++ params_text ps ++ txt " )" end) ++ rest)).
Proof. destruct ps; cbn; auto 8. Qed.
Lemma tilde_app class rest lr : begins_word lx ms class -> calm (hd 0 rest) -> writes rest lr -> writes (txt "~" ++ class ++ rest) ([tk "~"] ++ lx class ++ lr).
Proof.
  intros (L & W) C R. apply (sym_app ms "~"); [|apply leaf_app; auto]. destruct class as [|c u]; [cbn in W; unfold word_char in W; lia|]. cbn [hd app] in *. unfold word_char in W.
  unfold symb. cbn -[Z.eqb]. replace (c =? 126) with false by lia. replace (c =? 61) with false by lia. reflexivity.
Qed.
Lemma cin c : In c [0; 10; 32; 59; 40; 41; 44; 91; 123; 125] -> calm c. Proof. auto. Qed.

Ltac cl := first [assumption | solve [cbn; unfold calm; cbn; auto 12] | solve [apply spec_words_calm; cl] | solve [apply sizes_calm; cl] | solve [apply ctor_params_calm]].
Ltac nm := rewrite <- ?app_assoc.

Lemma tree_seg t : lexable lx ms t -> seg (render t) (toks t).
Proof.
  induction t as [t IH] using SerProofs2.tree_children_ind. intros OK.
  assert (EN : forall l, (forall s, In s l -> In s (SerProofs2.children t)) -> all_lexable l -> seg (concat (map render l)) (flat_map toks l)).
  { intros l I A. apply entries_seg; auto. apply Forall_forall. intros s HI. apply IH. auto. }
  assert (BR : forall l rest lr, (forall s, In s l -> In s (SerProofs2.children t)) -> all_lexable l -> writes rest lr -> writes (braces (concat (map render l)) ++ rest) (curly (flat_map toks l) ++ lr)).
  { intros l rest lr I A R. apply braces_app; auto. intros r q. apply EN; auto. }
  assert (B1 : forall b rest lr, In b (SerProofs2.children t) -> lexable lx ms b -> writes rest lr -> writes (braces (render b) ++ rest) (curly (toks b) ++ lr)).
  { intros b rest lr I A R. apply braces_app; auto. intros r q. apply IH; auto. }
  intros rest lr R.
  destruct t; cbn [lexable] in OK; cbn [render tokens SerProofs2.children] in *; try contradiction; nm.
  - (* Raw *) destruct OK as [H1 H2]. apply leaf_sealed; auto.
  - (* NewLine *) apply nl_app; auto.
  - (* Block *) apply EN; auto.
  - (* Namespace *) destruct OK as [H1 H2]. apply export_app. apply (kw_sp ms "namespace"); auto. apply leaf_app; auto; [cl|]. apply BR; auto. apply nl_app; auto.
  - (* Linkage *) destruct OK as (H1 & H2 & H3 & H4). apply linkage_app; auto. apply BR; auto. apply nl_app; auto.
  - (* Struct *) destruct OK as (H1 & H2 & H3 & H4 & H5). apply export_app. apply (kw_sp ms "struct"); auto. apply attrs_app; auto.
    assert (W : writes (with_ comment (fun c => txt " // " ++ c) ++ braces (concat (map render entries)) ++ txt ";" ++ NL ++ rest) (tko comment line_comment ++ curly (flat_map toks entries) ++ [tk ";"] ++ lr)).
    { unfold braces, curly. nm. apply comment_nl_app; auto. apply (sym_any ms "{"); auto. apply nl_app. apply EN; auto. apply nl_app. apply (sym_any ms "}"); auto. apply (sym_any ms ";"); auto. apply nl_app; auto. }
    assert (C : calm (hd 0 (with_ comment (fun c => txt " // " ++ c) ++ braces (concat (map render entries)) ++ txt ";" ++ NL ++ rest))) by (destruct comment; cl).
    set (X := with_ comment _ ++ _) in *. set (Y := tko comment line_comment ++ _) in *. clearbody X Y.
    assert (W2 : writes (with_ parent (fun '(acc, p, is) => txt " : " ++ access_text acc ++ txt " " ++ typ_text p ++ (match is with [] => [] | _ => NL end) ++ concat (map (fun i => txt ", " ++ typ_text i) is)) ++ X)
      (tko parent (fun '(acc, p, is) => [tk ":"] ++ access_tokens acc ++ typ_tokens lx p ++ flat_map (fun i => tk "," :: typ_tokens lx i) is) ++ Y) /\
      calm (hd 0 (with_ parent (fun '(acc, p, is) => txt " : " ++ access_text acc ++ txt " " ++ typ_text p ++ (match is with [] => [] | _ => NL end) ++ concat (map (fun i => txt ", " ++ typ_text i) is)) ++ X))).
    { destruct parent as [[[acc p] is]|]; auto. split; [|cl]. cbn [with_ tko]. nm. apply (sp_sym_sp ms ":"); auto. apply access_app. destruct H3 as [H3 H6]. apply typ_app; auto; [destruct is; cl|]. destruct is as [|i is]; [exact W|]. apply nl_app. apply typs_app; auto. }
    destruct W2 as [W2 C2]. set (X2 := with_ parent _ ++ _) in *. set (Y2 := tko parent _ ++ _) in *. clearbody X2 Y2.
    apply leaf_app; auto; [destruct final; cl|]. destruct final; cbn [when tks]; auto. apply (w_blank ms 32); auto. apply (kw_app ms "final"); auto. apply calm_facts in C2. tauto.
  - (* Class *) destruct OK as (H1 & H2 & H3 & H4). apply export_app. apply (kw_sp ms "class"); auto. apply attrs_app; auto.
    assert (W : writes (with_ comment (fun c => txt " // " ++ c) ++ braces (concat (map render entries)) ++ txt ";" ++ NL ++ rest) (tko comment line_comment ++ curly (flat_map toks entries) ++ [tk ";"] ++ lr)).
    { unfold braces, curly. nm. apply comment_nl_app; auto. apply (sym_any ms "{"); auto. apply nl_app. apply EN; auto. apply nl_app. apply (sym_any ms "}"); auto. apply (sym_any ms ";"); auto. apply nl_app; auto. }
    assert (C : calm (hd 0 (with_ comment (fun c => txt " // " ++ c) ++ braces (concat (map render entries)) ++ txt ";" ++ NL ++ rest))) by (destruct comment; cl).
    set (X := with_ comment _ ++ _) in *. set (Y := tko comment line_comment ++ _) in *. clearbody X Y.
    apply leaf_app; auto; [destruct final; cl|]. destruct final; cbn [when tks]; auto. apply (w_blank ms 32); auto. apply (kw_app ms "final"); auto. apply calm_facts in C. tauto.
  - (* Union *) destruct OK as (H1 & H2 & H3). apply export_app. apply (kw_sp ms "union"); auto. apply attrs_app; auto. apply leaf_app; auto; [cl|]. apply BR; auto. apply (sym_any ms ";"); auto. apply nl_app; auto.
  - (* Enum *) destruct OK as (H1 & H2 & H3 & H4). apply export_app. apply (kw_sp ms "enum"); auto. apply attrs_app; auto.
    destruct (colon_typ_app underlying (braces (concat (map render entries)) ++ txt ";" ++ NL ++ rest) (curly (flat_map toks entries) ++ [tk ";"] ++ lr)) as [W C]; auto; [cl| |apply leaf_app; auto]. apply BR; auto. apply (sym_any ms ";"); auto. apply nl_app; auto.
  - (* EnumClass *) destruct OK as (H1 & H2 & H3 & H4). apply export_app. apply (kw_sp ms "enum"); auto. apply (kw_sp ms "class"); auto. apply attrs_app; auto. apply leaf_app; auto; [cl|]. apply (sp_sym_sp ms ":"); auto. apply typ_app; auto; [cl|]. apply BR; auto. apply (sym_any ms ";"); auto. apply nl_app; auto.
  - (* StructFwd *) destruct OK as (H1 & H2 & H3). apply export_app. apply (kw_sp ms "struct"); auto. apply attrs_app; auto. apply leaf_app; auto; [cl|]. apply semi_app; auto.
  - (* ClassFwd *) destruct OK as (H1 & H2 & H3). apply export_app. apply (kw_sp ms "class"); auto. apply attrs_app; auto. apply leaf_app; auto; [cl|]. apply (sym_any ms ";"); auto. apply comment_nl_app; auto.
  - (* UnionFwd *) destruct OK as (H1 & H2). apply export_app. apply (kw_sp ms "union"); auto. apply attrs_app; auto. apply leaf_app; auto; [cl|]. apply (sym_any ms ";"); auto. apply nl_app; auto.
  - (* EnumFwd *) destruct OK as (H1 & H2 & H3 & H4). apply export_app. apply attrs_app; auto. apply (kw_sp ms "enum"); auto.
    destruct (colon_typ_app underlying (semi comment ++ rest) (end_tokens lx comment ++ lr)) as [W C]; auto; [cl| |apply leaf_app; auto]. apply semi_app; auto.
  - (* EnumClassFwd *) destruct OK as (H1 & H2 & H3 & H4). apply export_app. apply (kw_sp ms "enum"); auto. apply (kw_sp ms "class"); auto. apply attrs_app; auto. apply leaf_app; auto; [cl|]. apply (sp_sym_sp ms ":"); auto. apply typ_app; auto; [cl|]. apply semi_app; auto.
  - (* Function *) destruct OK as (H1 & H2 & H3 & H4 & H5 & H6).
    assert (W : writes (spec_words leading specs ++ (if present attrs || selects leading specs then NL else []) ++ with_ ret (fun t => sp (typ_text t)) ++ name ++ txt "(" ++ params_text params ++ txt ")" ++ spec_words trails specs ++ braces (concat (map render entries)) ++ NL ++ rest)
      (some_specs leading specs ++ tko ret (typ_tokens lx) ++ lx name ++ parens (params_tokens lx params) ++ some_specs trails specs ++ curly (flat_map toks entries) ++ lr)).
    { apply lead_app; auto; [apply ret_opens; auto; apply H4|]. apply ret_app; auto. apply leaf_app; auto; [apply H4|cl|]. apply parens_app; auto. apply trail_words_app; auto; [cl|]. apply BR; auto. apply nl_app; auto. }
    destruct attrs as [a|]; cbn [with_ tko]; auto. nm. apply sp_app. apply leaf_app; auto; [cl|]. apply sp_app; auto.
  - (* FunctionFwd *) destruct OK as (H1 & H2 & H3 & H4 & H5 & H6). apply export_app. apply attrs_app; auto. apply lead_app; auto; [apply ret_opens; auto; apply H4|]. apply ret_app; auto. apply leaf_app; auto; [apply H4|cl|]. apply parens_app; auto. apply trail_words_app; auto; [cl|]. apply semi_app; auto.
  - (* Operator *) destruct OK as (H1 & H2 & H3 & H4 & H5). apply export_app. apply (lead2_app false); auto; [unfold sp; nm; eapply typ_opens; eauto|]. unfold sp. nm. apply typ_app; auto; [cl|]. apply sp_app. apply leaf_app; auto; [apply H3|cl|]. apply (w_blank ms 32); auto. apply parens_app; auto. apply trail_words_app; auto; [cl|]. apply BR; auto. apply nl_app; auto.
  - (* OperatorFwd *) destruct OK as (H1 & H2 & H3 & H4 & H5 & H6). apply export_app.
    assert (W : writes (spec_words leading specs ++ (if present attrs || present specs then NL else []) ++ sp (typ_text ret) ++ name ++ txt " (" ++ params_text params ++ txt ")" ++ spec_words trails specs ++ semi comment ++ rest)
      (some_specs leading specs ++ typ_tokens lx ret ++ lx name ++ parens (params_tokens lx params) ++ some_specs trails specs ++ end_tokens lx comment ++ lr)).
    { apply lead2_app; auto; [unfold sp; nm; eapply typ_opens; eauto|]. unfold sp. nm. apply typ_app; auto; [cl|]. apply sp_app. apply leaf_app; auto; [apply H4|cl|]. apply (w_blank ms 32); auto. apply parens_app; auto. apply trail_words_app; auto; [cl|]. apply semi_app; auto. }
    destruct attrs as [a|]; cbn [with_ tko]; auto. nm. apply leaf_app; auto; [cl|]. apply nl_app; auto.
  - (* Cast *) destruct OK as (H1 & H2 & H3). apply cast_specs_app; auto; [apply quoted_solid; [discriminate|unfold spacep; cbn; lia]|]. apply (kw_sp ms "operator"); auto. apply typ_app; auto; [cl|]. apply unit_app. apply trail_words_app; auto; [cl|]. apply BR; auto. apply nl_app; auto.
  - (* CastFwd *) destruct OK as (H1 & H2). apply cast_specs_app; auto; [apply quoted_solid; [discriminate|unfold spacep; cbn; lia]|]. apply (kw_sp ms "operator"); auto. apply typ_app; auto; [cl|]. apply unit_app. apply trail_words_app; auto; [cl|]. apply (sym_any ms ";"); auto. apply nl_app; auto.
  - (* Constructor *) destruct OK as (H1 & H2 & H3 & H4 & H5). apply leaf_app; auto; [cl|]. apply ctor_params_app; auto.
    assert (W : writes (with_ comment (fun c => txt " // " ++ c) ++ braces (render t) ++ NL ++ rest) (tko comment line_comment ++ curly (toks t) ++ lr)).
    { unfold braces, curly. nm. apply comment_nl_app; auto. apply (sym_any ms "{"); auto. apply nl_app. apply IH; auto; [left; auto|]. apply nl_app. apply (sym_any ms "}"); auto. apply nl_app; auto. }
    assert (C : calm (hd 0 (with_ comment (fun c => txt " // " ++ c) ++ braces (render t) ++ NL ++ rest))) by (destruct comment; cl).
    set (X := with_ comment _ ++ _) in *. set (Y := tko comment line_comment ++ _) in *. clearbody X Y.
    destruct inits as [i|]; cbn [with_ tko]; auto. nm. apply (sp_sym_sp ms ":"); auto. apply leaf_app; auto.
  - (* ConstructorFwd *) destruct OK as (H1 & H2 & H3 & H4). apply leaf_app; auto; [cl|]. apply ctor_params_app; auto.
    assert (W : writes (txt ";" ++ with_ comment (fun c => txt " // " ++ c) ++ NL ++ rest) ([tk ";"] ++ tko comment line_comment ++ lr)).
    { apply (sym_any ms ";"); auto. apply comment_nl_app; auto. }
    destruct value as [v|]; cbn [with_ tko]; auto. nm. apply (sp_sym_sp ms "="); auto. apply leaf_app; auto. cl.
  - (* Destructor *) destruct OK as (H1 & H2). assert (W : writes (txt "~" ++ class ++ txt "()" ++ braces (render t) ++ NL ++ rest) ([tk "~"] ++ lx class ++ parens [] ++ curly (toks t) ++ lr)).
    { apply tilde_app; auto; [cl|]. apply unit_app. apply B1; auto; [left; auto|]. apply nl_app; auto. }
    destruct virtual; cbn [when tks]; auto. apply (kw_sp ms "virtual"); auto.
  - (* DestructorFwd *) apply tilde_app; auto; [cl|]. change (writes (txt "()" ++ txt ";" ++ NL ++ rest) (parens [] ++ [tk ";"] ++ lr)). apply unit_app. apply (sym_any ms ";"); auto. apply nl_app; auto.
  - (* Typedef *) destruct OK as (H1 & H2 & H3). apply export_app. apply (kw_sp ms "typedef"); auto. apply typ_app; auto; [cl|]. apply sp_app. apply leaf_app; auto; [cl|]. apply semi_app; auto.
  - (* Using *) destruct OK as (H1 & H2 & H3 & H4). apply export_app. apply attrs_app; auto. apply (kw_sp ms "using"); auto.
    assert (W : writes (txt ";" ++ with_ comment (fun c => txt "  " ++ c) ++ NL ++ rest) (end_tokens lx comment ++ lr)).
    { apply (sym_any ms ";"); auto. destruct comment as [c|]; cbn [with_ tko]; [|apply nl_app; auto]. nm. apply spsp_app. apply leaf_app; auto; [cl|]. apply nl_app; auto. }
    apply leaf_app; auto; [destruct ty as [[t ss]|]; cl|]. destruct ty as [[t ss]|]; cbn [with_ tko]; auto. destruct H3 as [H3 H5]. nm. apply (sp_sym_sp ms "="); auto. apply typ_app; auto; [cl|]. apply sizes_app; auto.
  - (* UsingNamespace *) apply (kw_sp ms "using"); auto. apply (kw_sp ms "namespace"); auto. apply leaf_app; auto; [cl|]. apply (sym_any ms ";"); auto. apply nl_app; auto.
  - (* Var *) destruct OK as (H1 & H2 & H3 & H4 & H5 & H6 & H7 & H8). apply export_app. apply attrs_app; auto.
    assert (W1 : writes (init_text value ++ semi comment ++ rest) (init_tokens lx value ++ end_tokens lx comment ++ lr) /\ calm (hd 0 (init_text value ++ semi comment ++ rest))).
    { assert (W0 : writes (semi comment ++ rest) (end_tokens lx comment ++ lr)) by (apply semi_app; auto). destruct value as [|v|v]; cbn [init_text init_tokens]; nm; (split; [|cl]); auto.
      - apply (sp_sym_sp ms "="); auto. apply leaf_app; auto. cl.
      - apply (sym_sp ms "("); auto. apply leaf_app; auto; [cl|]. apply (w_blank ms 32); auto. apply (sym_pre ms ")"); auto. }
    destruct W1 as [W1 C1]. set (X1 := init_text value ++ _) in *. set (Y1 := init_tokens lx value ++ _) in *. clearbody X1 Y1.
    assert (W2 : writes (with_ bits (fun b => txt " : " ++ b) ++ X1) (tko bits (fun b => tk ":" :: lx b) ++ Y1) /\ calm (hd 0 (with_ bits (fun b => txt " : " ++ b) ++ X1))).
    { destruct bits as [b|]; auto. split; [|cl]. cbn [with_ tko]. nm. apply (sp_sym_sp ms ":"); auto. apply leaf_app; auto. }
    destruct W2 as [W2 C2]. set (X2 := with_ bits _ ++ _) in *. set (Y2 := tko bits _ ++ _) in *. clearbody X2 Y2.
    assert (W3 : writes (typ_text ty ++ txt " " ++ name ++ sizes_text sizes ++ X2) (typ_tokens lx ty ++ lx name ++ sizes_tokens lx sizes ++ Y2)).
    { apply typ_app; auto; [cl|]. apply sp_app. apply leaf_app; auto; [cl|]. apply sizes_app; auto. }
    destruct specs as [l|]; cbn [with_ tko]; auto. destruct H2 as [H2 H9]. apply specs_text_app; auto. intros _. eapply typ_opens; eauto.
  - (* Template *) destruct OK as (H1 & H2). apply export_app.
    assert (W : writes (NL ++ render t ++ rest) (toks t ++ lr)) by (apply nl_app; apply IH; auto; left; auto).
    destruct params as [|p ps]; nm.
    + change (writes (txt "template" ++ txt "<" ++ txt ">" ++ NL ++ render t ++ rest) (tk "template" :: tk "<" :: tk ">" :: toks t ++ lr)). apply kw_app; auto; [cbn; unfold word_char; lia|]. apply sym_app; auto. apply sym_app; auto.
    + change (writes (txt "template" ++ txt "< " ++ params_text (p :: ps) ++ txt " >" ++ NL ++ render t ++ rest) (tk "template" :: tk "<" :: params_tokens lx (p :: ps) ++ [tk ">"] ++ toks t ++ lr)). apply kw_app; auto; [cbn; unfold word_char; lia|]. apply (sym_sp ms "<"); auto. apply params_app; auto; [cl|]. apply (w_blank ms 32); auto. apply (sym_app ms ">"); auto.
  - (* Friend *) apply (kw_sp ms "friend"); auto. apply IH; auto; [left; auto|]. destruct (is_def t); cbn [negb tks app]; [apply nl_app; auto|]. apply (sym_any ms ";"); auto. apply nl_app; auto.
  - (* Module *) apply export_app.
    assert (W : writes (name ++ txt ";" ++ NL ++ rest) (lx name ++ [tk ";"] ++ lr)) by (apply leaf_app; auto; [cl|]; apply (sym_any ms ";"); auto; apply nl_app; auto).
    destruct import; cbn [when tks]; auto. apply (kw_sp ms "import"); auto.
Qed.
Lemma tree_writes t : lexable lx ms t -> writes (render t) (toks t).
Proof. intros H. pose proof (tree_seg t H [] [] (w_end ms)) as W. rewrite !app_nil_r in W. exact W. Qed.
Lemma tree_lex t fuel : lexable lx ms t -> toks t <> [] -> zlen (render t) + 2 <= Z.of_nat fuel ->
  exists ts, lex (render t) fuel ms = Done (Some (ts, ms)) /\ visible (lexemes_of (render t) ts) = toks t.
Proof.
  intros H NE F. pose proof (tree_writes t H) as W. apply lex_writes; auto. destruct (writes_reads ms _ _ W) as (l' & R & _). eapply reads_bytes; eauto.
Qed.
End T.
