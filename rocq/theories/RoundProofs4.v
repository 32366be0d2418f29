(** Walking along a text and its tokens: keywords, symbols, specifiers, types and array sizes. *)
From Coq Require Import String ZArith List Bool Lia ZifyBool ZifyNat.
From Verif Require Import Common HashModel Text EnumModel EnumSpec LexModel LexSpec StripSpec AstModel AstSpec SerSpec RelexSpec RelexProofs RelexProofs2 RelexProofs3 RelexProofs4 RelexProofs5
  ParseSpec RoundSpec RoundProofs RoundProofs2 RoundProofs3.
Import ListNotations.
Close Scope string_scope.
Open Scope Z_scope.

Section P.
Variable src : list Z.
Variable ms : macros.
Notation spells := (spells src).
Notation lx := (lexed_as ms).

(** [t] is the rest of the text, behind [p]; [m]: in which state the lexer is *)
Definition at_m (m : mode) (p t : list Z) (toks : list token) (l : list lexeme) : Prop := src = p ++ t /\ modal m p t toks l.
Definition at_ (p t : list Z) (toks : list token) (l : list lexeme) : Prop := exists m, at_m m p t toks l.
Lemma m_at m p t toks l : at_m m p t toks l -> at_ p t toks l. Proof. intros H. exists m. exact H. Qed.
Lemma at_lined p t toks l : at_ p t toks l -> src = p ++ t /\ lined p t toks l.
Proof. intros (m & E & L). split; auto. eapply modal_lined; eauto. Qed.
Lemma m_sp m p t toks l : at_m m p (txt " " ++ t) toks l -> at_m (spaced m) (p ++ txt " ") t toks l.
Proof. intros (E & L). split; [rewrite E, <- app_assoc; auto|]. apply modal_space. exact L. Qed.
Lemma at_sp p t toks l : at_ p (txt " " ++ t) toks l -> at_ (p ++ txt " ") t toks l.
Proof. intros (m & A). eapply m_at, m_sp, A. Qed.
Lemma at_nl p t toks l : last p 10 <> 10 -> at_ p (NL ++ t) toks l -> at_ (p ++ NL) t toks l.
Proof. intros N (m & E & L). apply modal_nl in L. destruct L as [(_ & L)|[(_ & L)|(_ & X & _)]]; [| |contradiction]; (eapply m_at; split; [rewrite E, <- app_assoc; auto|exact L]). Qed.
(** the line end behind a [;] or [}], and an empty line *)
Lemma m_end p t toks l : at_m Behind p (NL ++ t) toks l -> at_m Fresh (p ++ NL) t toks l.
Proof. intros (E & L). apply modal_nl in L. destruct L as [(X & _)|[(_ & L)|(X & _)]]; try discriminate X. split; [rewrite E, <- app_assoc; auto|exact L]. Qed.
Lemma m_empty p t toks l : at_m Fresh p (NL ++ t) toks l -> exists k toks', toks = k :: toks' /\ t_type k = Tok_NewLine /\ at_m Fresh (p ++ NL) t toks' l.
Proof. intros (E & L). apply modal_nl in L. destruct L as [(X & _)|[(X & _)|(_ & _ & k & toks' & -> & K & L)]]; try discriminate X. exists k, toks'. split; auto. split; auto. split; [rewrite E, <- app_assoc; auto|exact L]. Qed.
Definition tokb (e : lexeme) : bool := negb (snd e =? Tok_String) && match fst e with c :: _ => negb (c =? 32) && negb (c =? 10) | [] => false end.
Lemma m_lexeme e m p t toks l : tokb e = true -> at_m m p (fst e ++ t) toks (e :: l) ->
  exists k toks', toks = k :: toks' /\ spells k e /\ t_start k = zlen p /\ at_m (after (snd e)) (p ++ fst e) t toks' l.
Proof.
  destruct e as [w kd]. cbn [fst snd]. intros B (E & L). assert (SW : solid_head w). { destruct w as [|c w]; [unfold tokb in B; cbn [fst] in B; lia|]. exists c, w. split; auto. unfold tokb in B. cbn [fst snd] in B. intros [X|X]; lia. }
  assert (C : closing kd []). { left. split; auto. unfold tokb in B. cbn [snd] in B. lia. }
  destruct (modal_tok m p w kd [] t toks l SW C L) as (k & toks' & -> & TA & _ & L'). exists k, toks'. split; auto. split; [|split; [apply TA|]].
  - eapply spells_at; eauto.
  - rewrite app_nil_r in L'. split; auto. rewrite E, <- app_assoc. auto.
Qed.
Lemma at_lexeme e p t toks l : tokb e = true -> at_ p (fst e ++ t) toks (e :: l) ->
  exists k toks', toks = k :: toks' /\ spells k e /\ t_start k = zlen p /\ at_ (p ++ fst e) t toks' l.
Proof. intros B (m & A). destruct (m_lexeme e m p t toks l B A) as (k & toks' & -> & H1 & H2 & H3). exists k, toks'. split; auto. split; auto. split; auto. eapply m_at; eauto. Qed.
Lemma at_tok s p t toks l : tokb (tk s) = true -> at_ p (txt s ++ t) toks (tk s :: l) ->
  exists k toks', toks = k :: toks' /\ spells k (tk s) /\ t_start k = zlen p /\ at_ (p ++ txt s) t toks' l.
Proof. apply (at_lexeme (tk s)). Qed.
Lemma at_seg x l1 p t toks l : writes ms x l1 -> at_ p (x ++ t) toks (l1 ++ l) ->
  exists a b, toks = a ++ b /\ lined p x a l1 /\ (exists t', src = p ++ x ++ t') /\ at_ (p ++ x) t b l.
Proof.
  intros W (m & E & L). destruct (modal_split ms x l1 W m p t toks l L) as (a & b & m' & -> & L1 & L2). exists a, b. split; auto. split; auto. split; [eauto|]. exists m'. split; auto. rewrite E, <- app_assoc. auto.
Qed.

(** *** names *)
Lemma name_writes w : is_name ms w -> writes ms w [(w, Tok_Identifier)].
Proof. intros H. rewrite <- (app_nil_r w) at 1. apply w_word; [apply H|right; right; right; auto|unfold word_char; cbn; lia|constructor]. Qed.
Lemma name_head w : is_name ms w -> exists c u, w = c :: u /\ word_char c.
Proof. intros ((F & NE & _) & _). destruct w as [|c w]; [contradiction|]. exists c, w. split; auto. apply (Forall_inv F). Qed.
Lemma name_flat w c : is_name ms w -> In c w -> word_char c.
Proof. intros ((F & _) & _) HI. rewrite Forall_forall in F. auto. Qed.
Lemma name_leaf w : is_name ms w -> lx w = [(w, Tok_Identifier)].
Proof. intros H. apply lx_ok; [apply name_writes; auto|discriminate]. Qed.
Lemma at_name w p t toks l : is_name ms w -> at_ p (w ++ t) toks (lx w ++ l) ->
  exists k toks', toks = k :: toks' /\ kind Tok_Identifier k /\ word src k = w /\ w <> [] /\ at_ (p ++ w) t toks' l.
Proof.
  intros N A. rewrite (name_leaf w N) in A. destruct (name_head w N) as (c & u & EW & WC). destruct (at_lexeme (w, Tok_Identifier) p t toks l) as (k & toks' & -> & (S1 & S2 & _) & _ & A').
  - unfold tokb. cbn [fst snd]. rewrite EW. unfold word_char in WC. replace (c =? 32) with false by lia. replace (c =? 10) with false by lia. reflexivity.
  - exact A.
  - exists k, toks'. split; auto. split; auto. split; auto. split; auto. rewrite EW. discriminate.
Qed.

(** *** specifiers *)
Definition teq (a b : list Z) : bool := if list_eq_dec Z.eq_dec a b then true else false.
Lemma teq_ok a b : teq a b = true -> a = b.
Proof. unfold teq. destruct (list_eq_dec Z.eq_dec a b); congruence. Qed.
Definition all_specs : list Z := type_specs ++ variable_specifiers.
Lemma spec_one s : In s all_specs -> exists kd, RelexSpec.spec_tokens s = [(spec_text s, kd)] /\ tokb (spec_text s, kd) = true /\ spec_kind kd /\
  exists t, In (s, t) specifier_spelling /\ spec_text s = txt t.
Proof.
  intros HI.
  assert (G : forallb (fun s => match RelexSpec.spec_tokens s with
    | [(w, kd)] => teq w (spec_text s) && tokb (spec_text s, kd) && (((Tok_Spec_Alignas <=? kd) && (kd <=? Tok_Star)) || (kd =? Tok_Ampersand) || (kd =? Tok_Ampersand_DBL)) && existsb (fun p => (fst p =? s) && teq (spec_text s) (txt (snd p))) specifier_spelling
    | _ => false end) all_specs = true) by (vm_compute; reflexivity).
  rewrite forallb_forall in G. specialize (G s HI). cbv beta in G. destruct (RelexSpec.spec_tokens s) as [|[w kd] [|]]; try discriminate. apply andb_prop in G. destruct G as (G & G4). apply andb_prop in G. destruct G as (G & G3). apply andb_prop in G. destruct G as (G1 & G2).
  apply teq_ok in G1. exists kd. split; [rewrite G1; auto|]. split; auto. split; [unfold spec_kind; lia|]. apply existsb_exists in G4. destruct G4 as ([a b] & IN & E). cbn [fst snd] in E. apply andb_prop in E. destruct E as (E1 & E2). exists b. apply teq_ok in E2. split; auto. replace s with a by lia. auto.
Qed.
Lemma at_spec s p t toks l : In s all_specs -> at_ p (spec_text s ++ t) toks (RelexSpec.spec_tokens s ++ l) ->
  exists k toks', toks = k :: toks' /\ spelled src k s /\ at_ (p ++ spec_text s) t toks' l.
Proof.
  intros HI A. destruct (spec_one s HI) as (kd & E1 & B & SK & x & IN & E2). rewrite E1 in A. destruct (at_lexeme (spec_text s, kd) p t toks l B A) as (k & toks' & -> & (S1 & S2 & _) & _ & A'). exists k, toks'. split; auto. split; [|exact A'].
  split; [rewrite S2; auto|]. exists x. split; auto. rewrite S1. cbn [fst]. auto.
Qed.
(** what may follow a type: the end of a name, no word of a type, no line end or comment *)
Definition follows (r : list token) : Prop := exists k r', r = k :: r' /\ ~ fmt k /\ ~ native k /\ ends_name src k.
Lemma spec_follows k r s : spelled src k s -> follows (k :: r).
Proof.
  intros (K & _). exists k, r. split; auto. unfold fmt, native, ends_name. unfold spec_kind in K.
  assert (C : Tok_Spec_Alignas <= Tok_Star /\ Tok_NewLine < Tok_Spec_Alignas) by (vm_compute; split; congruence). 
  unfold Tok_Spec_Alignas, Tok_Star, Tok_Ampersand, Tok_Ampersand_DBL, Tok_NewLine, Tok_Comment, Tok_Type_Unsigned, Tok_Type_MS_W64, Tok_Access_StaticSymbol, Tok_Operator in *. lia.
Qed.
Lemma at_more : forall l p t toks lr, Forall (fun s => In s all_specs) l -> at_ p (more_specs l ++ t) toks (flat_map RelexSpec.spec_tokens l ++ lr) ->
  exists a b, toks = a ++ b /\ ParseSpec.spec_tokens src a l /\ at_ (p ++ more_specs l) t b lr.
Proof.
  induction l as [|s l IH]; intros p t toks lr F A.
  - apply at_sp in A. exists [], toks. split; auto. split; [constructor|exact A].
  - cbn [more_specs flat_map] in A. rewrite <- !app_assoc in A.
    assert (A1 : at_ (p ++ when (negb (symbol s)) " ") (spec_text s ++ more_specs l ++ t) toks (RelexSpec.spec_tokens s ++ flat_map RelexSpec.spec_tokens l ++ lr)).
    { destruct (symbol s); cbn [negb when] in *; [rewrite app_nil_r; exact A|]. apply at_sp. exact A. }
    destruct (at_spec s _ _ _ _ (Forall_inv F) A1) as (k & toks' & -> & SK & A2). destruct (IH _ _ _ _ (Forall_inv_tail F) A2) as (a & b & -> & ST & A3). exists (k :: a), b. split; auto. split.
    + apply (s_more src [] k s a l); auto. constructor.
    + cbn [more_specs]. rewrite <- !app_assoc in A3. exact A3.
Qed.
Lemma at_specs l p t toks lr : Forall (fun s => In s all_specs) l -> l <> [] -> at_ p (specs_text l ++ t) toks (flat_map RelexSpec.spec_tokens l ++ lr) ->
  exists a b, toks = a ++ b /\ (forall r, follows (a ++ r)) /\ ParseSpec.spec_tokens src a l /\ at_ (p ++ specs_text l) t b lr.
Proof.
  intros F NE A. destruct l as [|s l]; [contradiction|]. cbn [specs_text flat_map] in A. rewrite <- !app_assoc in A. destruct (at_spec s _ _ _ _ (Forall_inv F) A) as (k & toks' & -> & SK & A2).
  destruct (at_more _ _ _ _ _ (Forall_inv_tail F) A2) as (a & b & -> & ST & A3). exists (k :: a), b. split; auto. split; [intros r; eapply spec_follows; eauto|]. split.
  - apply (s_more src [] k s a l); auto. constructor.
  - cbn [specs_text]. rewrite <- !app_assoc in A3. exact A3.
Qed.

(** *** types *)
Lemma tidy_closed t : tidy t -> ~ In 92 t /\ closed t.
Proof.
  intros (F & _). rewrite Forall_forall in F. split; [intros HI; apply (F _ HI); cbn; auto 10|]. intros a b ->. exfalso. apply (F 47); [rewrite in_app_iff; right; left; auto|cbn; auto 10].
Qed.
Lemma words_some t : solid_head t -> tidy t -> words t <> [].
Proof.
  intros (c & u & -> & NB) (F & _). assert (E : is_spacep c = false). { apply Forall_inv in F. unfold blank in NB. cbn in F. cbn [is_spacep existsb app txt]. unfold is_spacep. cbn. lia. }
  unfold words. cbn [words_from]. rewrite E. cbn [app]. clear. assert (G : forall v w, w <> [] -> words_from w v <> []); [|apply G; discriminate].
  induction v as [|d v IH]; intros w NE; cbn [words_from]; [destruct w; [contradiction|discriminate]|]. destruct (is_spacep d); [destruct w; [contradiction|discriminate]|]. apply IH. destruct w; discriminate.
Qed.
Lemma native_first toks l : Forall2 spells toks l -> Forall native_word l -> Forall native toks.
Proof. induction 1 as [|k e toks l (_ & S & _) _ IH]; intros F; constructor; [|apply IH, (Forall_inv_tail F)]. unfold native. rewrite S. apply (Forall_inv F). Qed.
Lemma Forall_last {A} (P : A -> Prop) (l : list A) d : Forall P l -> P d -> P (last l d).
Proof. intros F D. induction F as [|x l PX F IH]; auto. destruct l; auto. Qed.
Lemma type_name_ok tg x p toks : type_text ms tg x -> forall l, lx x = l -> (exists t', src = p ++ x ++ t') -> lined p x toks l ->
  forall rest, follows rest -> tg = NoTag -> type_name src toks rest NoTag x.
Proof.
  intros (l0 & PH & TD & C) l EL ST L rest FL ->. assert (l0 = l) as -> by (rewrite <- EL; symmetry; apply lx_ok; apply PH). destruct FL as (k & r' & -> & NF & NN & EN). destruct C as [C|(_ & C)].
  - apply tn_name; [eapply named_ok; eauto|]. exists [], k, r'. split; auto. split; [constructor|]. auto.
  - destruct (phrase_ok src ms x l p toks PH ST L) as (first & more & -> & A & F & NFT & U & NX). pose proof (native_first _ _ F C) as FN. rewrite <- U. apply tn_native; auto.
    + apply (Forall_inv FN).
    + eapply Forall_impl; [|exact (Forall_inv_tail FN)]. cbv beta. auto.
    + right. apply Forall_last; [apply (Forall_inv_tail FN)|apply (Forall_inv FN)].
Qed.
Definition tag_lexeme (tg : tag) : list lexeme := match tg with NoTag => [] | TagClass => [tk "class"] | TagEnum => [tk "enum"] | TagStruct => [tk "struct"] | TagUnion => [tk "union"] end.
Definition tag_text (tg : tag) : list Z := txt (match tg with NoTag => "" | TagClass => "class " | TagEnum => "enum " | TagStruct => "struct " | TagUnion => "union " end).
Lemma typename_ok tg x p t toks l : type_text ms tg x -> at_ p (tag_text tg ++ x ++ t) toks (tag_lexeme tg ++ lx x ++ l) ->
  exists a b, toks = a ++ b /\ (forall rest, follows rest -> type_name src a rest tg x) /\ (tg = NoTag -> exists k r, a = k :: r /\ (kind Tok_Identifier k \/ native k) /\ forall e l', lx x = e :: l' -> t_type k = snd e /\ (l' = [] -> r = [])) /\ at_ (p ++ tag_text tg ++ x) t b l.
Proof.
  intros TT A. pose proof TT as (l0 & PH & TD & C). assert (EL : lx x = l0) by (apply lx_ok; apply PH).
  assert (W : writes ms x (lx x)) by (rewrite EL; apply PH). destruct (Bool.bool_dec (match tg with NoTag => true | _ => false end) true) as [NT|TG].
  - destruct tg; try discriminate. cbn [tag_text tag_lexeme app txt] in *. destruct (at_seg x (lx x) p t toks l W A) as (a & b & -> & L & ST & A'). exists a, b. split; auto. split; [|split; [intros _|exact A']]; [intros rest FL; exact (type_name_ok NoTag x p a TT (lx x) eq_refl ST L rest FL eq_refl)|].
    rewrite EL in L. destruct (phrase_ok src ms x l0 p a PH ST L) as (first & more & -> & _ & F & _). exists first, more. split; auto. inversion F as [|k e toks1 l' (_ & SK & _) FT EK EL']; subst. split.
    2:{ intros e0 l1 E0. assert (Q : e :: l' = e0 :: l1) by congruence. injection Q as -> ->. split; [exact SK|]. intros ->. inversion FT. auto. }
    destruct C as [C|(_ & C)]; [left; unfold kind; rewrite SK; rewrite <- EL' in C; inversion C; reflexivity|]. right. unfold native. rewrite SK. rewrite <- EL' in C. apply (Forall_inv C).
  - assert (NT : tg <> NoTag) by (destruct tg; congruence).
    assert (G : exists s, tag_text tg = txt s ++ txt " " /\ tag_lexeme tg = [tk s] /\ tokb (tk s) = true /\ snd (tk s) = tag_kind tg).
    { destruct tg; [contradiction|exists "class"%string|exists "enum"%string|exists "struct"%string|exists "union"%string]; vm_compute; auto. }
    destruct G as (s & E1 & E2 & B & K). rewrite E1, E2 in A. rewrite <- app_assoc in A. destruct (at_tok s p _ toks _ B A) as (k & toks' & -> & (_ & S2 & _) & _ & A1). apply at_sp in A1.
    destruct (at_seg x (lx x) _ t toks' l W A1) as (a & b & -> & L & ST & A'). exists (k :: a), b. split; auto. split; [|split; [contradiction|]].
    + intros rest (k1 & r' & -> & NF & NN & EN). apply (tn_tag src k tg [] a x (k1 :: r')); auto.
      * unfold kind. congruence.
      * constructor.
      * destruct C as [C|(C & _)]; [|contradiction]. rewrite EL in L. eapply named_ok; eauto.
      * exists [], k1, r'. split; auto. split; [constructor|]. auto.
    + rewrite E1. rewrite <- !app_assoc in A'. rewrite <- !app_assoc. exact A'.
Qed.
Lemma at_typ ty p t toks l : plain_typ ms ty -> at_ p (typ_text ty ++ t) toks (typ_tokens lx ty ++ l) ->
  exists a b, toks = a ++ b /\ (forall rest, follows rest -> type_tokens src a rest ty) /\ (ty_tag ty = NoTag -> exists k r, a = k :: r /\ (kind Tok_Identifier k \/ native k) /\ forall e l', lx (ty_name ty) = e :: l' -> t_type k = snd e /\ (l' = [] -> ty_specs ty = None -> r = [])) /\ at_ (p ++ typ_text ty) t b l.
Proof.
  destruct ty as [at0 tg x sp pk]. intros (EA & EP & TT & SP) A. cbn [ty_attrs ty_pack ty_tag ty_name ty_specs] in *. subst at0 pk. unfold typ_text, typ_tokens in *. cbn [ty_attrs ty_pack ty_tag ty_name ty_specs with_ when tko tks app] in *. rewrite !app_nil_r in *.
  change (txt (match tg with NoTag => "" | TagClass => "class " | TagEnum => "enum " | TagStruct => "struct " | TagUnion => "union " end)) with (tag_text tg) in *.
  change (match tg with NoTag => [] | TagClass => [tk "class"] | TagEnum => [tk "enum"] | TagStruct => [tk "struct"] | TagUnion => [tk "union"] end) with (tag_lexeme tg) in A. rewrite <- !app_assoc in A.
  destruct (typename_ok tg x p _ toks _ TT A) as (a & b & -> & TN & T1 & A'). pose proof TT as (l0 & PH & TD & _). destruct (tidy_closed x TD) as (N92 & CL). assert (WS : words x <> []). { apply words_some; auto. destruct PH as ((_ & _ & N10 & _ & H) & _). apply solid_of; auto. }
  destruct sp as [sl|]; cbn [with_ tko oall] in *.
  - destruct SP as (NE & FI & CAP & NR). rewrite <- app_assoc in A'. apply at_sp in A'. assert (FA : Forall (fun s => In s all_specs) sl).
    { eapply Forall_impl; [|exact FI]. intros s HI. unfold all_specs. rewrite in_app_iff. auto. }
    destruct (at_specs sl _ _ _ _ FA NE A') as (a2 & b2 & -> & NE2 & ST & A2).
    exists (a ++ a2), b2. split; [apply app_assoc|]. split; [|split; [intros NT; destruct (T1 NT) as (k1 & r1 & -> & KK & KE); exists k1, (r1 ++ a2); split; [auto|split; [auto|]]; intros e l' E; split; [apply (KE e l' E)|discriminate]|repeat rewrite <- app_assoc in A2; repeat rewrite <- app_assoc; exact A2]]. intros rest FL.
    pose proof (ParseSpec.ty src [] [] a a2 [] rest [] None tg x [] sl false) as G. cbn [app] in G. rewrite app_nil_r in G. replace (Some sl) with (ParseSpec.some_specs sl) by (destruct sl; [contradiction|reflexivity]). apply G; auto; try constructor.
  - exists a, b. split; auto. split; [|split; [|rewrite app_nil_r in *; exact A']].
    2:{ intros NT. destruct (T1 NT) as (k1 & r1 & -> & KK & KE). exists k1, r1. split; auto. split; auto. intros e l' E. destruct (KE e l' E). auto. }
    intros rest FL.
    pose proof (ParseSpec.ty src [] [] a [] [] rest [] None tg x [] [] false) as G. cbn [app] in G. rewrite app_nil_r in G. apply G; auto; try constructor.
    cbn. unfold SPECS_CAP. lia.
Qed.

(** *** array sizes *)
Lemma spells_kinds (P : Z -> Prop) toks l : Forall2 spells toks l -> Forall (fun e => P (snd e)) l -> Forall (fun k => P (t_type k)) toks.
Proof. induction 1 as [|k e toks l (_ & S & _) _ IH]; intros F; constructor; [|apply IH, (Forall_inv_tail F)]. rewrite S. apply (Forall_inv F). Qed.
Lemma at_sizes : forall ss p t toks l, Forall (size_text ms) ss -> at_ p (sizes_text ss ++ t) toks (sizes_tokens lx ss ++ l) ->
  exists a b, toks = a ++ b /\ array_sizes src a ss /\ (a = [] \/ exists o r, a = o :: r /\ kind Tok_BraceSquare_Open o) /\ at_ (p ++ sizes_text ss) t b l.
Proof.
  induction ss as [|x ss IH]; intros p t toks l F A.
  - exists [], toks. split; auto. split; [constructor|]. split; auto. rewrite app_nil_r. exact A.
  - unfold sizes_text, sizes_tokens in A. cbn [map concat flat_map] in A. fold (sizes_text ss) in A. fold (sizes_tokens lx ss) in A. destruct (Forall_inv F) as (l0 & PH & NC). assert (EL : lx x = l0) by (apply lx_ok; apply PH).
    change (txt "[ ") with (txt "[" ++ txt " ") in A. change (txt " ]") with (txt " " ++ txt "]") in A. rewrite <- !app_assoc in A. cbn [app] in A. rewrite EL in A.
    destruct (at_tok "[" p _ toks _ eq_refl A) as (o & toks1 & -> & (_ & KO & _) & _ & A1). apply at_sp in A1. rewrite <- app_assoc in A1.
    destruct (at_seg x l0 _ _ _ _ (proj1 (proj1 PH)) A1) as (a & b & -> & L & ST & A2). apply at_sp in A2. cbn [app] in A2. destruct (at_tok "]" _ _ _ _ eq_refl A2) as (c & toks2 & -> & (_ & KC & _) & _ & A3).
    destruct (IH _ _ _ _ (Forall_inv_tail F) A3) as (a3 & b3 & -> & AS & _ & A4). destruct (phrase_ok src ms x l0 _ a PH ST L) as (first & more & -> & _ & F2 & NF & U & NX).
    exists (o :: first :: more ++ c :: a3), b3. split; [cbn [app]; rewrite <- app_assoc; auto|]. split.
    + rewrite <- U. apply (as_more src [] o [] first more c a3 ss); auto; try exact (Forall_nil _).
      * apply (Forall_inv NF).
      * apply (spells_kinds (fun k => k <> Tok_BraceSquare_Close) _ _ F2 NC).
      * rewrite U. exact NX.
    + split; [right; eauto|]. unfold sizes_text. cbn [map concat]. fold (sizes_text ss). change (txt "[ ") with (txt "[" ++ txt " "). change (txt " ]") with (txt " " ++ txt "]"). rewrite <- !app_assoc in *. exact A4.
Qed.
End P.
