(** The text of a plain declaration, lexed and parsed. *)
From Coq Require Import String ZArith List Bool Lia ZifyBool ZifyNat.
From Verif Require Import Common HashModel Text EnumModel EnumSpec LexModel LexSpec LexProps StripSpec AstModel AstSpec UpfrontModel UpfrontSpec SerSpec RelexSpec RelexProofs RelexProofs2 RelexProofs3 RelexProofs4 RelexProofs5 RelexProofs6
  ParseModel ParseSpec ParseProofs3 ParseProps RoundSpec RoundProofs RoundProofs2 RoundProofs3 RoundProofs4 RoundProofs5 RoundProofs6 RoundProofs7.
Import ListNotations.
Close Scope string_scope.
Open Scope Z_scope.

Section W.
Variable ms : macros.
Notation lx := (lexed_as ms).
Notation writes := (writes ms).
Hypothesis ODD : Forall (fun w => lookup_macro ms (txt w) = None) odd_specs.

Lemma line_leaf x l : line_text ms x l -> leaf lx ms x.
Proof. intros (W & NE & _ & NX & _). eapply lx_leaf; eauto. Qed.
Lemma name_leaf_ok w : is_name ms w -> leaf lx ms w.
Proof.
  intros N. eapply lx_leaf; [apply name_writes; auto|discriminate|]. constructor; [|constructor]. cbn [fst]. intros ->. destruct N as (_ & NK & _). apply (NK (txt "extern")); [|reflexivity]. vm_compute. auto 200.
Qed.
Lemma spec_listed s : In s all_specs -> In s (map fst specifier_spelling).
Proof. intros HI. destruct (spec_one s HI) as (_ & _ & _ & _ & t & IN & _). apply in_map_iff. exists (s, t). auto. Qed.
Lemma typ_lexable ty : plain_typ ms ty -> typ_ok lx ms ty.
Proof.
  intros (EA & EP & (l & PH & TD & _) & SP). split; [rewrite EA; exact I|]. split; [|split].
  - split; [eapply line_leaf; apply PH|]. destruct PH as ((_ & _ & N10 & _ & c & u & E & N32) & _). exists c, u. split; auto. destruct TD as (F & _). rewrite E in F. apply Forall_inv in F. cbn in F. unfold spacep. cbn. lia.
  - destruct (ty_specs ty) as [sl|]; [|exact I]. pose proof (all_in type_specs sl type_specs_in SP) as FA. destruct SP as (_ & FI & _ & NR). split; [eapply Forall_impl; [|exact FA]; exact spec_listed|]. split; auto. intros HI. rewrite Forall_forall in FI. apply FI in HI. vm_compute in HI. intuition discriminate.
  - rewrite EP. discriminate.
Qed.
Lemma comment_leaf c : line_comment_text c -> leaf lx ms c /\ sealed c.
Proof.
  intros H. split; [eapply lx_leaf; [apply comment_writes; exact H|discriminate|]|].
  - constructor; [|constructor]. cbn [fst]. destruct H as (u & -> & _). discriminate.
  - destruct H as (u & -> & _). exists (txt "//" ++ u), 10. split; [rewrite <- app_assoc; auto|left; auto].
Qed.
Lemma comment_end c : oall line_comment_text c -> end_ok lx ms c.
Proof. destruct c; cbn; auto. apply comment_leaf. Qed.
Lemma entries_seg es : entries_written ms es -> forall rest lr, calm (hd 0 rest) -> writes rest lr -> writes (concat (map render es) ++ rest) (flat_map (tokens lx) es ++ lr).
Proof.
  induction 1 as [x l PH EW|x l r PH EW _ IH|x l PH EW]; intros rest lr C W; cbn [map concat flat_map render tokens].
  - rewrite !app_nil_r. apply leaf_app; auto. eapply line_leaf. apply PH.
  - rewrite <- !app_assoc. rewrite (app_assoc x). apply leaf_sealed; [eapply line_leaf; apply PH|exists x, 44; split; auto; cbn; auto 10|]. apply IH; auto.
  - rewrite !app_nil_r. apply leaf_app; auto. eapply line_leaf. apply PH.
Qed.
Lemma head_seg class name ty rest lr : is_name ms name -> oall (plain_typ ms) ty -> calm (hd 0 rest) -> writes rest lr -> writes (head_text class name ty ++ rest) (head_tokens ms class name ty ++ lr).
Proof.
  intros N OT C W. unfold head_text, head_tokens. rewrite <- !app_assoc. apply (kw_sp ms "enum"); auto.
  assert (W1 : writes (name ++ with_ ty (fun t => txt " : " ++ typ_text t) ++ rest) (lx name ++ tko ty (fun t => tk ":" :: typ_tokens lx t) ++ lr)).
  { apply leaf_app; [apply name_leaf_ok; auto| |apply colon_typ_app; auto; destruct ty; cbn; auto; apply typ_lexable; auto]. destruct ty; cbn [with_ app]; auto. cbn. auto. }
  destruct class; cbn [when tks app]; auto. apply (kw_sp ms "class"); auto.
Qed.
Lemma body_seg class name ty es rest lr : is_name ms name -> oall (plain_typ ms) ty -> entries_written ms es -> writes rest lr ->
  writes ((head_text class name ty ++ braces (concat (map render es)) ++ txt ";" ++ NL) ++ rest) ((head_tokens ms class name ty ++ curly (flat_map (tokens lx) es) ++ [tk ";"]) ++ lr).
Proof.
  intros N OT EW W. unfold braces, curly. repeat rewrite <- app_assoc. apply head_seg; auto; [cbn; auto|]. apply nl_app. apply (sym_any ms "{"); auto. apply nl_app. apply entries_seg; auto; [cbn; auto|]. apply nl_app. apply (sym_any ms "}"); auto. apply (sym_any ms ";"); auto. apply nl_app. auto.
Qed.
Lemma plain_writes t rest lr : plain ms t -> writes rest lr -> writes (render t ++ rest) (tokens lx t ++ lr).
Proof.
  intros P W.
  assert (LEX : lexable lx ms t -> writes (render t ++ rest) (tokens lx t ++ lr)) by (intros L; apply (tree_seg lx ms ODD t L); auto).
  destruct P as [name N|x name cmt N OC|x name ty ss cmt N PT FS OC|x ty name cmt PT NT N OC|x specs ty name ss bits value cmt OS PT N FS OB OV X1 X2 OC|name ty es N OT EW|name ty es N OT EW|name ty cmt N OT OC|name ty cmt N OT OC].
  - apply LEX. cbn. apply name_leaf_ok; auto.
  - apply LEX. cbn [lexable]. split; [exact I|]. split; [apply name_leaf_ok; auto|]. split; [exact I|]. destruct cmt; [apply comment_leaf; auto|exact I].
  - apply LEX. cbn [lexable]. split; [exact I|]. split; [apply name_leaf_ok; auto|]. split; [|destruct cmt; [apply comment_leaf; auto|exact I]]. cbn [oall]. split; [apply typ_lexable; auto|]. eapply Forall_impl; [|exact FS]. intros s (l & PH & _). eapply line_leaf. apply PH.
  - apply LEX. cbn [lexable]. split; [apply typ_lexable; auto|]. split; [apply name_leaf_ok; auto|]. apply comment_end; auto.
  - apply LEX. cbn [lexable]. split; [exact I|]. split; [|split; [apply typ_lexable; auto|split; [apply name_leaf_ok; auto|split; [|split; [|split; [|apply comment_end; auto]]]]]].
    + destruct specs as [sl|]; [|exact I]. cbn [oall]. pose proof (all_in variable_specifiers sl var_specs_in OS) as FA. destruct OS as (_ & _ & _ & NR). split; auto. eapply Forall_impl; [|exact FA]. exact spec_listed.
    + eapply Forall_impl; [|exact FS]. intros s (l & PH & _). eapply line_leaf. apply PH.
    + destruct bits as [b|]; [|exact I]. destruct OB as (l & PH & _). eapply line_leaf. apply PH.
    + destruct value as [|v|v]; [exact I| |]; destruct OV as (l & PH & _); eapply line_leaf; apply PH.
  - replace (render (Enum false None name ty es)) with (head_text false name ty ++ braces (concat (map render es)) ++ txt ";" ++ NL) by (cbn [render with_ when app]; unfold head_text; cbn [when app]; repeat rewrite <- app_assoc; reflexivity).
    replace (tokens lx (Enum false None name ty es)) with (head_tokens ms false name ty ++ curly (flat_map (tokens lx) es) ++ [tk ";"]) by (cbn [tokens tko tks app]; unfold head_tokens; cbn [tks app]; repeat rewrite <- app_assoc; reflexivity). apply body_seg; auto.
  - replace (render (EnumClass false None name ty es)) with (head_text true name (Some ty) ++ braces (concat (map render es)) ++ txt ";" ++ NL) by (cbn [render with_ when app]; unfold head_text; cbn [when app with_]; change (txt "enum class ") with (txt "enum " ++ txt "class "); repeat rewrite <- app_assoc; reflexivity).
    replace (tokens lx (EnumClass false None name ty es)) with (head_tokens ms true name (Some ty) ++ curly (flat_map (tokens lx) es) ++ [tk ";"]) by (cbn [tokens tko tks app]; unfold head_tokens; cbn [tks app tko]; repeat (cbn [app]; rewrite <- app_assoc); reflexivity). apply body_seg; auto.
  - apply LEX. cbn [lexable]. split; [exact I|]. split; [apply name_leaf_ok; auto|]. split; [|apply comment_end; auto]. destruct ty; [apply typ_lexable; auto|exact I].
  - apply LEX. cbn [lexable]. split; [exact I|]. split; [apply name_leaf_ok; auto|]. split; [apply typ_lexable; auto|apply comment_end; auto].
Qed.
End W.

Lemma lined_count p t toks l : lined p t toks l -> (length toks <= length t)%nat.
Proof.
  induction 1 as [p|p c t toks l B _ IH|p t tk toks l E K _ IH|p w k q t tk toks l (c & u & -> & _) K T C _ IH]; cbn [length app] in *; try lia. rewrite !app_length. lia.
Qed.
Lemma typ_same a b : tidy (ty_name a) -> typ_respaced a b -> b = a.
Proof. destruct a, b. unfold typ_respaced. cbn. intros T ((_ & R) & -> & -> & -> & ->). f_equal. auto. Qed.
Lemma typ_tidy ms ty : plain_typ ms ty -> tidy (ty_name ty).
Proof. intros (_ & _ & (l & _ & T & _) & _). exact T. Qed.
Lemma tree_same ms t tr : plain ms t -> tree_respaced t tr -> tr = t.
Proof.
  intros P R. destruct R as [t|x at0 name ty ty' ss cmt R|x at0 sp0 ty ty' name ss bits v cmt R|x at0 name ty ty' l R|x at0 name ty ty' l R|x at0 name ty ty' c R|x at0 name ty ty' c R]; auto;
    (assert (tidy (ty_name ty)) by (inversion P; subst; eapply typ_tidy; first [eassumption|match goal with H : oall _ (Some _) |- _ => exact H end]));
    rewrite (typ_same ty ty' H R); reflexivity.
Qed.
Lemma typedef_holds h c x ty name cmt : typedef_at h c x ty name [] cmt -> holds h c (Typedef x ty name cmt).
Proof. intros (A & B & C & D & E & F & G & H & I & J). cbn [holds]. cbv zeta. cbn [raws_from] in G. tauto. Qed.

Definition parser_of (t : tree) : list Z -> list token -> list token -> macros -> env -> nat -> M Z :=
  match t with Using _ _ _ _ _ | UsingNamespace _ => parse_using | Typedef _ _ _ _ => parse_typedef | Var _ _ _ _ _ _ _ _ _ => parse_variable | _ => parse_enum end.

Lemma round_trip ms t rest lr beyond e fuel h : Forall (fun w => lookup_macro ms (txt w) = None) odd_specs -> plain ms t -> writes ms rest lr -> first_ok lr -> ~ runs_off (render t ++ rest) -> Forall macro_fits ms ->
  Z.of_nat (length (render t ++ rest)) + 2 <= Z.of_nat fuel -> world e h ->
  exists h' c, parse_text (parser_of t) (render t ++ rest) beyond ms e fuel h = Done (h', c) /\ holds h' c t /\ h_top h <= c /\ unchanged h h'.
Proof.
  intros ODD P WR FO NR MF F W. pose proof (plain_writes ms ODD t rest lr P WR) as WS. set (src := render t ++ rest) in *.
  assert (B : Forall (fun c => 0 <= c < 256) src). { destruct (writes_reads ms _ _ WS) as (l' & R & _). exact (reads_bytes ms _ _ _ R). }
  assert (NE : tokens (lexed_as ms) t ++ lr <> []). { destruct FO as (e0 & r0 & -> & _). destruct (tokens (lexed_as ms) t); discriminate. }
  destruct (lex_modal src ms fuel _ B F WS NE) as (toks & L & MD & _). pose proof (c39_positions_partial src ms fuel toks ms B NR F L) as PO. pose proof (lined_count _ _ _ _ (modal_lined _ _ _ _ _ MD)) as CN.
  assert (TW : forall raw R, toks = raw ++ R -> text_with src ms fuel raw R). { intros raw R ->. split; auto. split; auto. split; auto. split; auto. split; [lia|]. exists ms. exact L. }
  assert (A : at_ src [] src toks (tokens (lexed_as ms) t ++ lr)) by (apply (m_at src InLine); split; auto).
  assert (EN : forall P, parsed_as src ms P t rest lr -> exists raw R, toks = raw ++ R /\ forall b, P raw (R ++ b) t).
  { intros Q PA. destruct (PA [] toks A PO) as (raw & R & E & T1 & _ & T2). exists raw, R. split; auto. intros b. apply T2. destruct (comment_of t) eqn:CO; [exact I|].
    assert (OE : one_end t) by (destruct P; cbn in *; subst; auto; contradiction). apply T1, m_at, at_lined in OE. destruct OE as (_ & LN). destruct (lined_front _ _ _ _ LN FO) as (n & r & -> & NC). exists n, (r ++ b). split; [auto|intros X; contradiction]. }
  assert (USING : parsed_as src ms (using_tokens src) t rest lr -> parser_of t = parse_using -> exists h' c, parse_text (parser_of t) src beyond ms e fuel h = Done (h', c) /\ holds h' c t /\ h_top h <= c /\ unchanged h h').
  { intros PA ->. destruct (EN _ PA) as (raw & R & E & T). destruct (c52_using_partial src beyond ms e fuel h raw R t (TW _ _ E) W (T beyond)) as (h' & c & tr & K1 & K2 & K3 & K4 & K5). rewrite (tree_same ms t tr P K3) in K2. exists h', c. auto. }
  assert (ENUM : parsed_as src ms (enum_as src ms) t rest lr -> parser_of t = parse_enum -> exists h' c, parse_text (parser_of t) src beyond ms e fuel h = Done (h', c) /\ holds h' c t /\ h_top h <= c /\ unchanged h h').
  { intros PA ->. destruct (EN _ PA) as (raw & R & E & T). destruct (c55_enum_partial src beyond ms e fuel h raw R t (TW _ _ E) W (proj1 (T beyond))) as (h' & c & tr & K1 & K2 & K3 & K4 & K5). rewrite (tree_same ms t tr P K3) in K2. exists h', c. auto. }
  pose proof P as P0.
  destruct P0 as [name N|x name cmt N OC|x name ty ss cmt N PT FS OC|x ty name cmt PT NT N OC|x specs ty name ss bits value cmt OS PT N FS OB OV X1 X2 OC|name ty es N OT EW|name ty es N OT EW|name ty cmt N OT OC|name ty cmt N OT OC].
  - apply USING; auto. apply namespace_ok; auto.
  - apply USING; auto. apply using_name_ok; auto.
  - apply USING; auto. apply using_ok; auto.
  - clear USING ENUM. destruct (EN _ (typedef_ok src ms x ty name cmt rest lr PT NT N OC)) as (raw & R & E & T). destruct (c53_typedef_partial src beyond ms e fuel h raw R x ty name [] cmt (TW _ _ E) W (T beyond)) as (h' & c & ty' & K1 & K2 & K3 & K4 & K5).
    rewrite (typ_same ty ty' (typ_tidy ms ty PT) K3) in K2. exists h', c. split; auto. split; auto. apply typedef_holds; auto.
  - clear USING ENUM. destruct (EN _ (variable_ok src ms x specs ty name ss bits value cmt rest lr OS PT N FS OB OV X1 X2 OC)) as (raw & R & E & T). specialize (T []). rewrite app_nil_r in T. destruct (c54_variable_partial src beyond ms e fuel h raw R _ (TW _ _ E) W T) as (h' & c & tr & K1 & K2 & K3 & K4 & K5). rewrite (tree_same ms _ tr P K3) in K2. exists h', c. auto.
  - apply ENUM; auto. apply enum_ok; auto.
  - apply ENUM; auto. apply enum_ok; auto.
  - apply ENUM; auto. apply enum_ok; auto.
  - apply ENUM; auto. apply enum_ok; auto.
Qed.
