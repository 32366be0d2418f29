From Coq Require Import String ZArith List Bool Lia ZifyBool ZifyNat.
From Verif Require Import Common HashModel Text EnumModel EnumSpec EnumProofs LexModel LexSpec AstModel AstSpec SerSpec RelexSpec RelexProofs RelexProofs4.
Import ListNotations.
Close Scope string_scope. Open Scope Z_scope.

(** macros that are not in the way of the specifiers without a token kind *)
Definition odd_specs : list string := ["register"; "noexcept"; "delete"]%string.

Lemma quoted_blank c t : spacep c -> quoted (c :: t) -> quoted t.
Proof.
  intros S (a & b & E & F). destruct a as [|x a]; [injection E as -> _; unfold spacep in S; cbn in S; lia|]. injection E as -> ->. exists a, b. split; auto. apply Forall_inv_tail in F. auto.
Qed.
Lemma quoted_solid c t : c <> 34 -> ~ spacep c -> ~ quoted (c :: t).
Proof. intros N S (a & b & E & F). destruct a as [|x a]; [injection E as -> _; contradiction|]. injection E as -> _. apply Forall_inv in F. contradiction. Qed.
Lemma not_quoted_blank c t : spacep c -> ~ quoted t -> ~ quoted (c :: t).
Proof. intros S N Q. apply N. eapply quoted_blank; eauto. Qed.
Lemma quoted_opens x t : opens x -> ~ quoted (x ++ t).
Proof. intros (c & u & -> & N & S). apply quoted_solid; auto. Qed.
Lemma space32 : spacep 32. Proof. unfold spacep. cbn. lia. Qed.
Lemma space10 : spacep 10. Proof. unfold spacep. cbn. lia. Qed.

Section T.
Variable lx : list Z -> list lexeme.
Variable ms : macros.
Hypothesis plain : Forall (fun w => lookup_macro ms (txt w) = None) odd_specs.
Notation writes := (writes ms).
Notation leaf := (leaf lx ms).

Lemma leaf_app x rest lr : leaf x -> calm (hd 0 rest) -> writes rest lr -> writes (x ++ rest) (lx x ++ lr).
Proof. intros (W & F) C R. apply writes_app; auto. Qed.
Lemma leaf_sealed x rest lr : leaf x -> sealed x -> writes rest lr -> writes (x ++ rest) (lx x ++ lr).
Proof. intros (W & F) C R. apply writes_app; auto. Qed.
Lemma leaf_nil : leaf [] -> lx [] = [].
Proof. intros (W & _). eapply writes_nil; eauto. Qed.

Lemma comment_app c rest lr : clean_comment c -> writes rest lr -> writes (txt " // " ++ c ++ NL ++ rest) (line_comment c ++ lr).
Proof.
  intros (F & N1 & N2) R. apply (w_blank ms 32); auto. change (writes (txt "//" ++ (32 :: c) ++ 10 :: rest) ((txt "//" ++ (32 :: c) ++ [10], Tok_Comment) :: lr)). apply w_comment; auto.
  - constructor; auto. unfold byte_ok. lia.
  - intros [X|X]; [discriminate X|contradiction].
  - intros [X|X]; [discriminate X|contradiction].
Qed.

(** ** specifiers *)
Lemma is_name_ok s : wordb (txt s) = true -> forallb (fun kw => negb (crc32 kw =? crc32 (txt s))) toktype_table = true -> In s odd_specs -> is_name ms (txt s).
Proof.
  intros H1 H2 H3. split; [apply wordb_ok; auto|]. split.
  - intros kw HI E. rewrite forallb_forall in H2. specialize (H2 kw HI). rewrite E in H2. lia.
  - rewrite Forall_forall in plain. apply plain. auto.
Qed.
Lemma odd_names : is_name ms (txt "register") /\ is_name ms (txt "noexcept") /\ is_name ms (txt "delete").
Proof. split; [|split]; apply is_name_ok; try (vm_compute; reflexivity); cbn; auto. Qed.
Lemma name_app s rest lr : is_name ms (txt s) -> ~ word_char (hd 0 rest) -> writes rest lr -> writes (txt s ++ rest) ((txt s, Tok_Identifier) :: lr).
Proof. intros H N R. apply w_word; auto; [apply H|]. right. right. right. auto. Qed.

Definition odd_spec_list : list Z := [Spec_External_Linkage; Spec_Ptr; Spec_Ref; Spec_RValue; Spec_Register; Spec_NoExceptions; Spec_Pure; Spec_Delete].
Lemma spec_cases s : In s (map fst specifier_spelling) -> In s odd_spec_list \/ exists t, kwb t = true /\ spec_text s = txt t /\ spec_tokens s = [tk t].
Proof.
  intros H. assert (G : forallb (fun s => existsb (Z.eqb s) odd_spec_list || match find (fun p => fst p =? s) specifier_spelling with Some (_, t) => kwb t && negb (existsb (Z.eqb s) odd_spec_list) | None => false end) (map fst specifier_spelling) = true) by (vm_compute; reflexivity).
  rewrite forallb_forall in G. specialize (G s H). apply orb_true_iff in G. destruct G as [G|G].
  - left. apply existsb_exists in G. destruct G as (y & HI & E). apply Z.eqb_eq in E. subst. auto.
  - right. unfold spec_text, spec_tokens. destruct (find (fun p => fst p =? s) specifier_spelling) as [[k t]|] eqn:E; [|discriminate]. exists t. apply andb_true_iff in G. destruct G as [G1 G2]. split; auto. split; auto.
    cbn [odd_spec_list existsb] in G2.
    replace (s =? Spec_External_Linkage) with false by lia. replace (s =? Spec_Pure) with false by lia. replace (s =? Spec_Delete) with false by lia. auto.
Qed.
Lemma spec_head s : In s (map fst specifier_spelling) -> opens (spec_text s).
Proof.
  intros H. assert (G : forallb (fun s => match spec_text s with c :: _ => negb (c =? 34) && negb (existsb (Z.eqb c) [32; 9; 10; 11; 12; 13]) | [] => false end) (map fst specifier_spelling) = true) by (vm_compute; reflexivity).
  rewrite forallb_forall in G. specialize (G s H). destruct (spec_text s) as [|c u]; [discriminate|]. exists c, u. split; auto. cbn [existsb] in G. unfold spacep. split; [lia|]. cbn. lia.
Qed.
(** what may follow a specifier *)
Definition after (s c : Z) : Prop := calm c \/ c = 42 \/ (c = 38 /\ s <> Spec_Ref).
Lemma after_word s c : after s c -> ~ word_char c.
Proof. unfold after, calm, word_char. cbn. lia. Qed.
Lemma spec_app s rest lr : In s (map fst specifier_spelling) -> after s (hd 0 rest) -> (s = Spec_External_Linkage -> ~ quoted rest) -> writes rest lr ->
  writes (spec_text s ++ rest) (spec_tokens s ++ lr).
Proof.
  intros H A Q R. pose proof (after_word _ _ A) as NW. destruct (spec_cases s H) as [O|(t & K & -> & ->)]; [|apply kw_app; auto].
  destruct odd_names as (N1 & N2 & N3). destruct O as [<-|[<-|[<-|[<-|[<-|[<-|[<-|[<-|[]]]]]]]]].
  - change (writes (txt "extern" ++ rest) ((txt "extern", Tok_Spec_Extern) :: lr)). apply w_word; auto; [apply wordb_ok; reflexivity|]. right. left. auto.
  - apply (sym_app ms "*"); auto. unfold after, calm in A. cbn in A. unfold symb. cbn [existsb symbols]. destruct (hd 0 rest =? 61) eqn:X; [lia|]. cbn -[Z.eqb]. rewrite X. reflexivity.
  - apply (sym_app ms "&"); auto. unfold after, calm in A. cbn in A. unfold symb. cbn [existsb symbols]. destruct (hd 0 rest =? 38) eqn:X; [lia|]. cbn -[Z.eqb]. rewrite X. reflexivity.
  - apply (sym_any ms "&&"); auto.
  - apply (name_app "register"); auto.
  - apply (name_app "noexcept"); auto.
  - change (writes (txt "= " ++ [48] ++ rest) (tk "=" :: ([48], Tok_Number) :: lr)). apply (sym_sp ms "="); auto. apply w_number; auto; [discriminate|constructor; auto; unfold digit; lia| |]; unfold after, calm in A; unfold digit; cbn in A |- *; lia.
  - change (writes (txt "= " ++ txt "delete" ++ rest) (tk "=" :: (txt "delete", Tok_Identifier) :: lr)). apply (sym_sp ms "="); auto. apply name_app; auto.
Qed.
Lemma spec_symbol_head s rest : In s (map fst specifier_spelling) -> symbol s = true -> (hd 0 (spec_text s ++ rest) = 42 \/ hd 0 (spec_text s ++ rest) = 38 /\ (s = Spec_Ref \/ s = Spec_RValue)).
Proof.
  intros H S. unfold symbol in S. cbn [existsb] in S. assert (s = Spec_Ptr \/ s = Spec_Ref \/ s = Spec_RValue) as [-> | [-> | ->]] by lia; cbn; auto.
Qed.
Lemma more_specs_app : forall l s rest lr, specs_fine l -> no_ref_ref (s :: l) -> (In Spec_External_Linkage l -> ~ quoted rest) -> writes rest lr ->
  writes (more_specs l ++ rest) (flat_map spec_tokens l ++ lr) /\ after s (hd 0 (more_specs l ++ rest)) /\ (~ quoted rest -> ~ quoted (more_specs l ++ rest)).
Proof.
  induction l as [|r l IH]; intros s rest lr F NR Q R.
  - cbn [more_specs flat_map app]. split; [apply sp_app; auto|]. split; [left; cbn; auto|]. intros N. apply (not_quoted_blank 32); auto. apply space32.
  - destruct (IH r rest lr) as (W & A & NQ); auto; [apply Forall_inv_tail in F; auto|apply NR|intros HI; apply Q; right; auto|].
    cbn [more_specs flat_map]. rewrite <- !app_assoc. pose proof (Forall_inv F) as FR. cbv beta in FR.
    assert (W1 : writes (spec_text r ++ more_specs l ++ rest) (spec_tokens r ++ flat_map spec_tokens l ++ lr)).
    { apply spec_app; auto. intros ->. apply NQ. apply Q. left. auto. }
    assert (Q1 : ~ quoted (spec_text r ++ more_specs l ++ rest)) by (apply quoted_opens, spec_head; auto).
    unfold when. destruct (symbol r) eqn:S; cbn [negb app].
    + split; [exact W1|]. split; [|auto]. destruct (spec_symbol_head r (more_specs l ++ rest) FR S) as [-> | [-> K]]; [right; left; auto|]. right. right. split; auto. destruct NR as [NR _]. intros ->. apply NR. auto.
    + split; [apply sp_app; exact W1|]. split; [left; cbn; auto|]. intros _. apply (not_quoted_blank 32); auto. apply space32.
Qed.
Lemma specs_text_app l rest lr : specs_fine l -> no_ref_ref l -> (In Spec_External_Linkage l -> ~ quoted rest) -> writes rest lr ->
  writes (specs_text l ++ rest) (flat_map spec_tokens l ++ lr).
Proof.
  intros F NR Q R. destruct l as [|s l]; cbn [specs_text flat_map]; [apply sp_app; auto|]. rewrite <- !app_assoc.
  destruct (more_specs_app l s rest lr) as (W & A & NQ); auto; [apply Forall_inv_tail in F; auto|intros HI; apply Q; right; auto|].
  apply spec_app; auto; [apply (Forall_inv F)|]. intros ->. apply NQ, Q. left. auto.
Qed.
Lemma words_app l rest lr : specs_fine l -> calm (hd 0 rest) -> (In Spec_External_Linkage l -> ~ quoted rest) -> writes rest lr ->
  writes (concat (map (fun s => txt " " ++ spec_text s) l) ++ rest) (flat_map spec_tokens l ++ lr) /\ calm (hd 0 (concat (map (fun s => txt " " ++ spec_text s) l) ++ rest)) /\
  (~ quoted rest -> ~ quoted (concat (map (fun s => txt " " ++ spec_text s) l) ++ rest)).
Proof.
  induction l as [|s l IH]; intros F C Q R; cbn [map concat flat_map app]; [auto|]. destruct IH as (W & A & NQ); auto; [apply Forall_inv_tail in F; auto|intros HI; apply Q; right; auto|].
  pose proof (Forall_inv F) as FS. cbv beta in FS. rewrite <- !app_assoc. split; [|split; [cbn; auto|]].
  - apply sp_app. apply spec_app; auto; [left; auto|]. intros ->. apply NQ, Q. left. auto.
  - intros _. apply (not_quoted_blank 32); [apply space32|]. apply quoted_opens, spec_head; auto.
Qed.
Lemma spec_words_app sel o rest lr : oall specs_fine o -> calm (hd 0 rest) -> (sel Spec_External_Linkage = true -> ~ quoted rest) -> writes rest lr ->
  writes (spec_words sel o ++ rest) (some_specs sel o ++ lr).
Proof.
  intros F C Q R. destruct o as [l|]; cbn [spec_words some_specs with_ tko]; auto. apply words_app; auto.
  - apply Forall_forall. intros s HI. apply filter_In in HI. cbn in F. unfold specs_fine in F. rewrite Forall_forall in F. apply F. tauto.
  - intros HI. apply filter_In in HI. apply Q. tauto.
Qed.
Lemma trail_words_app o rest lr : oall specs_fine o -> calm (hd 0 rest) -> writes rest lr -> writes (spec_words trails o ++ rest) (some_specs trails o ++ lr).
Proof. intros F C R. apply spec_words_app; auto. discriminate. Qed.
Lemma spec_words_calm sel o rest : calm (hd 0 rest) -> calm (hd 0 (spec_words sel o ++ rest)).
Proof. intros C. destruct o as [l|]; auto. cbn [spec_words with_]. destruct (filter sel l); cbn; auto. Qed.

(** ** types *)
Lemma typ_app t rest lr : typ_ok lx ms t -> calm (hd 0 rest) -> writes rest lr -> writes (typ_text t ++ rest) (typ_tokens lx t ++ lr).
Proof.
  intros (HA & HN & HS & HP) C R. unfold typ_text, typ_tokens. rewrite <- !app_assoc.
  assert (W3 : writes (when (ty_pack t) "..." ++ rest) (tks (ty_pack t) "..." ++ lr)).
  { destruct (ty_pack t); cbn [when tks app]; auto. apply sym_any; auto. }
  assert (W2 : writes (with_ (ty_specs t) (fun l => txt " " ++ specs_text l) ++ when (ty_pack t) "..." ++ rest) (tko (ty_specs t) (flat_map spec_tokens) ++ tks (ty_pack t) "..." ++ lr) /\
    calm (hd 0 (with_ (ty_specs t) (fun l => txt " " ++ specs_text l) ++ when (ty_pack t) "..." ++ rest))).
  { destruct (ty_specs t) as [l|]; cbn [with_ tko app].
    - destruct HS as (S1 & S2 & S3). split; [|cbn; auto]. rewrite <- app_assoc. apply sp_app. apply specs_text_app; auto. 
    - split; auto. destruct (ty_pack t); [|cbn; auto]. destruct (HP eq_refl); auto. }
  destruct W2 as [W2 C2]. assert (W1 : writes (ty_name t ++ with_ (ty_specs t) (fun l => txt " " ++ specs_text l) ++ when (ty_pack t) "..." ++ rest) (lx (ty_name t) ++ tko (ty_specs t) (flat_map spec_tokens) ++ tks (ty_pack t) "..." ++ lr)).
  { apply leaf_app; auto. apply HN. }
  assert (W0 : writes (txt (match ty_tag t with NoTag => "" | TagClass => "class " | TagEnum => "enum " | TagStruct => "struct " | TagUnion => "union " end) ++ ty_name t ++ with_ (ty_specs t) (fun l => txt " " ++ specs_text l) ++ when (ty_pack t) "..." ++ rest)
    ((match ty_tag t with NoTag => [] | TagClass => [tk "class"] | TagEnum => [tk "enum"] | TagStruct => [tk "struct"] | TagUnion => [tk "union"] end) ++ lx (ty_name t) ++ tko (ty_specs t) (flat_map spec_tokens) ++ tks (ty_pack t) "..." ++ lr)).
  { destruct (ty_tag t); auto; [apply (kw_sp ms "class")|apply (kw_sp ms "enum")|apply (kw_sp ms "struct")|apply (kw_sp ms "union")]; auto. }
  destruct (ty_attrs t) as [a|]; cbn [with_ tko app]; auto. unfold sp. rewrite <- app_assoc. apply leaf_app; [apply HA|cbn; auto|]. apply sp_app. auto.
Qed.
Lemma typ_opens t rest : typ_ok lx ms t -> ~ quoted (typ_text t ++ rest).
Proof.
  intros (HA & HN & HS & HP). unfold typ_text. rewrite <- !app_assoc. destruct (ty_attrs t) as [a|]; cbn [with_ app].
  - unfold sp. rewrite <- app_assoc. apply quoted_opens. apply HA.
  - destruct (ty_tag t); try (apply quoted_solid; [discriminate|unfold spacep; cbn; lia]). change (txt "") with (@nil Z). cbn [app]. apply quoted_opens. apply HN.
Qed.
Lemma typs_app l rest lr : Forall (typ_ok lx ms) l -> calm (hd 0 rest) -> writes rest lr ->
  writes (concat (map (fun i => txt ", " ++ typ_text i) l) ++ rest) (flat_map (fun i => tk "," :: typ_tokens lx i) l ++ lr).
Proof.
  intros F C R. induction l as [|t l IH]; auto. cbn [map concat flat_map app]. rewrite <- !app_assoc. apply (sym_sp ms ","); auto. apply typ_app; [apply (Forall_inv F)| |].
  - destruct l; cbn; auto 12.
  - apply IH. apply Forall_inv_tail in F. auto.
Qed.

(** ** parameters *)
Lemma param_app p rest lr : param_ok lx ms p -> calm (hd 0 rest) -> writes rest lr -> writes (param_text p ++ rest) (param_tokens lx p ++ lr).
Proof.
  intros (HT & HN & HV) C R. unfold param_text, param_tokens. rewrite <- !app_assoc.
  assert (W2 : writes (with_ (p_value p) (fun v => txt " = " ++ v) ++ rest) (tko (p_value p) (fun v => tk "=" :: lx v) ++ lr) /\ calm (hd 0 (with_ (p_value p) (fun v => txt " = " ++ v) ++ rest))).
  { destruct (p_value p) as [v|]; cbn [with_ tko]; auto. split; [|cbn; auto]. rewrite <- app_assoc. apply (sp_sym_sp ms "="); auto. apply leaf_app; auto. }
  destruct W2 as [W2 C2].
  assert (W1 : writes (match p_name p with [] => [] | n => txt " " ++ n end ++ with_ (p_value p) (fun v => txt " = " ++ v) ++ rest) (lx (p_name p) ++ tko (p_value p) (fun v => tk "=" :: lx v) ++ lr) /\
    calm (hd 0 (match p_name p with [] => [] | n => txt " " ++ n end ++ with_ (p_value p) (fun v => txt " = " ++ v) ++ rest))).
  { destruct (p_name p) as [|c n] eqn:E.
    - rewrite (leaf_nil HN). auto.
    - split; [|cbn; auto]. rewrite <- app_assoc. apply sp_app. apply leaf_app; auto. }
  destruct W1 as [W1 C1]. destruct (p_type p) as [t|]; cbn [with_ tko]; auto. rewrite <- app_assoc. apply sp_app. apply typ_app; auto.
Qed.
Lemma params_app l rest lr : Forall (param_ok lx ms) l -> calm (hd 0 rest) -> writes rest lr -> writes (params_text l ++ rest) (params_tokens lx l ++ lr).
Proof.
  intros F C R. destruct l as [|p l]; auto. cbn [params_text params_tokens]. rewrite <- !app_assoc.
  assert (W : writes (concat (map (fun q => txt ", " ++ param_text q) l) ++ rest) (flat_map (fun q => tk "," :: param_tokens lx q) l ++ lr) /\ calm (hd 0 (concat (map (fun q => txt ", " ++ param_text q) l) ++ rest))).
  { apply Forall_inv_tail in F. induction l as [|q l IH]; auto. split; [|cbn; auto 12]. cbn [map concat flat_map app]. rewrite <- !app_assoc. apply (sym_sp ms ","); auto. destruct IH as [W CC]; [apply Forall_inv_tail in F; auto|]. apply param_app; auto. apply (Forall_inv F). }
  destruct W as [W CC]. apply param_app; auto. apply (Forall_inv F).
Qed.
Lemma sizes_app l rest lr : Forall leaf l -> writes rest lr -> writes (sizes_text l ++ rest) (sizes_tokens lx l ++ lr).
Proof.
  intros F R. unfold sizes_text, sizes_tokens. induction l as [|s l IH]; auto. cbn [map concat flat_map]. rewrite <- !app_assoc. apply (sym_sp ms "["); auto. apply leaf_app; [apply (Forall_inv F)|cbn; auto|]. apply (sym_pre ms "]"); auto. apply IH. apply Forall_inv_tail in F. auto.
Qed.
Lemma sizes_calm l rest : calm (hd 0 rest) -> calm (hd 0 (sizes_text l ++ rest)).
Proof. intros C. destruct l; auto. cbn. auto 10. Qed.
Lemma semi_app cmt rest lr : end_ok lx ms cmt -> writes rest lr -> writes (semi cmt ++ rest) (end_tokens lx cmt ++ lr).
Proof.
  intros H R. unfold semi, end_tokens. rewrite <- app_assoc. apply (sym_any ms ";"); auto. destruct cmt as [c|]; cbn [tko].
  - rewrite <- app_assoc. apply spsp_app. destruct H as [H1 H2]. apply leaf_sealed; auto.
  - apply nl_app. auto.
Qed.
Lemma braces_app x l rest lr : (forall r q, writes r q -> writes (x ++ r) (l ++ q)) -> writes rest lr -> writes (braces x ++ rest) (curly l ++ lr).
Proof.
  intros H R. unfold braces, curly. rewrite <- !app_assoc. apply nl_app. apply (sym_any ms "{"); auto. apply nl_app. apply H. apply nl_app. apply (sym_any ms "}"); auto.
Qed.
Lemma access_app a rest lr : writes rest lr -> writes (access_text a ++ txt " " ++ rest) (access_tokens a ++ lr).
Proof.
  intros R. unfold access_text, access_tokens, access_spelling. cbn [find fst].
  destruct (AccessSpec_Default =? a); [apply sp_app; auto|]. destruct (AccessSpec_Private =? a); [apply (kw_sp ms "private"); auto|]. destruct (AccessSpec_Protected =? a); [apply (kw_sp ms "protected"); auto|].
  destruct (AccessSpec_Public =? a); [apply (kw_sp ms "public"); auto|]. apply sp_app. auto.
Qed.
End T.
