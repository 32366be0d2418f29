(** A file that was written, as the members of a body: all of them. *)
From Coq Require Import String ZArith List Bool Lia ZifyBool ZifyNat.
From Verif Require Import Common HashModel Text EnumModel EnumSpec LexModel LexSpec LexProofs StripSpec AstModel AstSpec SerSpec RelexSpec RelexProofs RelexProofs2 RelexProofs3 RelexProofs4 RelexProofs5 RelexProofs6
  ParseSpec FnSpec GlobalSpec RoundSpec RoundProofs RoundProofs2 RoundProofs3 RoundProofs4 RoundProofs5 RoundProofs6 RoundProofs7 RoundProofs8 FileSpec FileNestSpec FileProofs FileProofs2 FileProofs3 FileFnProofs.
Import ListNotations.
Close Scope string_scope.
Open Scope Z_scope.

Section P.
Variable src : list Z.
Variable ms : macros.
Notation lx := (lexed_as ms).
Notation at_ := (at_ src).
Notation at_m := (at_m src).
Notation file_lexemes := (flat_map (tokens lx)).
Variable beyond : list token.
Hypothesis QUIET : quiet beyond.
Hypothesis ODD : Forall (fun w => lookup_macro ms (txt w) = None) odd_specs.
Notation no_macro := (Forall (fun k => t_type k <> Tok_Preprocess_Macro_Expr)).

(** *** a comment behind a declaration that has none stands on another line *)
Lemma count_line p line col : at_line_col src p line col -> line = 1 + Z.of_nat (count_occ Z.eq_dec (firstn (Z.to_nat p) src) 10).
Proof. intros (b & c & -> & _ & N & -> & _). rewrite count_occ_app. apply (count_occ_not_In Z.eq_dec) in N. rewrite N. lia. Qed.
Lemma line_differs k q t : positioned src k -> t_start k = zlen q -> src = q ++ [59; 10] ++ t -> t_line k <> fst (lc src (zlen q + 2)).
Proof.
  intros (p & (P1 & P2) & AL & _) TS E. apply count_line in AL. rewrite TS in P2. pose proof (count_line _ _ _ (lc_spec src (zlen q + 2))) as L2. rewrite AL, L2. intros X.
  assert (E2 : firstn (Z.to_nat (zlen q + 2)) src = q ++ [59; 10]). { rewrite E, app_assoc. rewrite firstn_app. unfold zlen. rewrite firstn_all2 by (rewrite app_length; cbn [length]; lia). replace (Z.to_nat (Z.of_nat (length q) + 2) - length (q ++ [59%Z; 10%Z]))%nat with 0%nat by (rewrite app_length; cbn [length]; lia). cbn [firstn]. apply app_nil_r. }
  assert (E1 : firstn (Z.to_nat p) src = firstn (Z.to_nat p) q). { rewrite E, firstn_app. replace (Z.to_nat p - length q)%nat with 0%nat by (unfold zlen in P2; lia). cbn [firstn]. apply app_nil_r. }
  rewrite E1, E2, count_occ_app in X. change (count_occ Z.eq_dec [59%Z; 10%Z] 10) with 1%nat in X. rewrite <- (firstn_skipn (Z.to_nat p) q) in X at 2. rewrite count_occ_app in X. lia.
Qed.
Lemma member_lexeme t more : member ms t -> indented t = true -> exists e l, tokens lx t ++ more = e :: l /\ snd e <> Tok_Comment.
Proof.
  assert (G : forall specs (more : list lexeme), lead_specs specs -> match specs with Some _ => True | None => False end -> exists e l, RelexSpec.some_specs leading specs ++ more = e :: l /\ snd e <> Tok_Comment).
  { intros [sl|] m LS; [|contradiction]. intros _. destruct LS as (NE & F & _). destruct (leads sl F) as (E & _). unfold RelexSpec.some_specs. cbn [tko]. rewrite E. destruct sl as [|s sl]; [contradiction|]. cbn [flat_map]. destruct (first_spec_kind s (Forall_inv F)) as (e & l & ET & K). rewrite ET. cbn [app]. eexists _, _. split; [reflexivity|]. intros X. rewrite X in K. repeat (destruct K as [K|K]; [discriminate K|]). exact K. }
  intros M NI. destruct M as [|c C|name P|name y P|y name cmt P|specs y name sizes bits value cmt P B NP|t P SH K|name N|name cmt N OC|specs ret name ps cmt LS PR B N PW NC OC|specs ret name ps b LS PR B N PW NC BT]; try discriminate NI.
  - destruct P; discriminate NI.
  - cbn [tokens tks tko app]. repeat rewrite <- app_assoc. apply G; auto. destruct specs; [exact I|discriminate NI].
  - cbn [tokens tks tko app]. repeat rewrite <- app_assoc. apply G; auto. destruct specs; [exact I|discriminate NI].
Qed.
(** no comment comes first *)
Definition uncommented (R : list token) : Prop := match R with [] => True | n :: _ => t_type n <> Tok_Comment end.
Lemma next_ended raw R p T lr : closed raw p -> at_m Fresh p T R lr -> ~ blank (hd 0 T) \/ uncommented R ->
  own_line src (raw ++ R) -> Forall (positioned src) (raw ++ R) -> ended None raw (R ++ beyond).
Proof.
  intros (pre & k & q & -> & (KK & KL & KS) & ->) A UC OL PO. unfold ended. destruct R as [|n r].
  - destruct QUIET as (a & b & r & -> & NC & _). exists a, (b :: r). split; [reflexivity|]. intros X. contradiction.
  - exists n, (r ++ beyond). split; [reflexivity|]. intros KC. rewrite last_last. pose proof (m_at _ _ _ _ _ _ A) as A0. pose proof (at_lined _ _ _ _ _ A0) as (E & LN).
    destruct UC as [FH|UC]; [|contradiction (UC KC)].
    destruct (lined_first _ _ _ _ _ LN FH) as (ST & _). change (txt ";" ++ NL) with [59; 10] in *.
    assert (TN : t_line n = fst (lc src (zlen q + 2))). { apply (OL pre k n r q T); auto; [rewrite <- app_assoc; reflexivity|rewrite E, <- !app_assoc; reflexivity|]. rewrite ST. unfold zlen. rewrite app_length. cbn [length]. lia. }
    rewrite TN. assert (PK : positioned src k) by (apply Forall_app in PO; destruct PO as (PO & _); apply Forall_app in PO; destruct PO as (_ & PO); apply (Forall_inv PO)).
    intros X. apply (line_differs k q T PK KS); [rewrite E, <- !app_assoc; reflexivity|]. auto.
Qed.
(** what follows a member *)
Definition follow (T : list Z) (lr : list lexeme) : Prop := forall p R, at_m Fresh p T R lr -> ~ blank (hd 0 T) \/ uncommented R.
Lemma follow_end : follow [] [].
Proof. intros p R (_ & A). right. inversion A; subst; try (destruct w; discriminate). exact I. Qed.
Lemma follow_line T lr : follow (NL ++ T) lr.
Proof. intros p R A. right. apply m_empty in A. destruct A as (n & r & -> & K & _). unfold uncommented. rewrite K. discriminate. Qed.
Lemma follow_member t T lr : member ms t -> follow (render t ++ T) (tokens lx t ++ lr).
Proof.
  intros M. destruct (match t with NewLine => true | _ => false end) eqn:NLB; [destruct t; try discriminate NLB; apply follow_line|]. destruct (indented t) eqn:IND.
  - intros p R A. right. destruct R as [|n r]; [exact I|]. pose proof (m_at _ _ _ _ _ _ A) as A0. destruct (indented_head ms t T M IND) as (u & EU & NB). rewrite EU in A0. apply (at_sp src) in A0.
    destruct (member_lexeme t lr M IND) as (e & l' & EL & NK). rewrite EL in A0. unfold uncommented. rewrite (at_first src _ _ _ _ _ _ A0 NB). exact NK.
  - intros p R A. left. apply (member_head ms); [exact M|intros ->; discriminate NLB|exact IND].
Qed.

(** *** forward declarations *)
Lemma forward_ok st name cmt p toks rest lr t : is_name ms name -> oall line_comment_text cmt ->
  render t = txt (if (st : bool) then "struct " else "class ") ++ name ++ semi cmt -> tokens lx t = [tk (if st then "struct" else "class")] ++ lx name ++ end_tokens lx cmt ->
  at_ p (render t ++ rest) toks (tokens lx t ++ lr) -> Forall (positioned src) toks ->
  exists k nm semi_ more R, toks = (k :: nm :: semi_ :: more) ++ R /\ kind (if st then Tok_Decl_Struct else Tok_Decl_Class) k /\ kind Tok_Identifier nm /\ word src nm = name /\ name <> [] /\ kind Tok_Statement_End semi_ /\
    at_m Fresh (p ++ render t) rest R lr /\ (cmt = None -> closed (k :: nm :: semi_ :: more) (p ++ render t)) /\ (ended cmt (k :: nm :: semi_ :: more) (R ++ beyond) -> statement_end src (semi_ :: more) (R ++ beyond) cmt).
Proof.
  intros N OC ER ET A PO. rewrite ER, ET in *. set (kw := if st then "struct"%string else "class"%string) in *.
  assert (EK : txt (if st then "struct " else "class ") = txt kw ++ txt " ") by (destruct st; reflexivity). rewrite EK in *. rewrite <- !app_assoc in A. cbn [app] in A.
  assert (TB : tokb (tk kw) = true) by (destruct st; reflexivity). destruct (at_tok src kw _ _ _ _ TB A) as (k & t1 & -> & (_ & K1 & _) & _ & A1). apply at_sp in A1. destruct (at_name src ms name _ _ _ _ N A1) as (nm & t2 & -> & K2 & KN & NN & A2).
  destruct (at_semi src ms cmt _ rest t2 lr OC A2) as (semi_ & more & R & -> & SK0 & SE & MO & A4); [do 2 apply Forall_inv_tail in PO; exact PO|apply (online_name ms); exact N|].
  assert (RAW : k :: nm :: semi_ :: more = [k; nm] ++ semi_ :: more) by reflexivity.
  exists k, nm, semi_, more, R. split; [reflexivity|]. split; [unfold kind; rewrite K1; destruct st; reflexivity|]. split; auto. split; auto. split; auto. split; [apply SK0|]. split; [|split].
  - repeat rewrite <- app_assoc in A4. repeat rewrite <- app_assoc. exact A4.
  - intros ->. rewrite (MO eq_refl). exists [k; nm], semi_, (((p ++ txt kw) ++ txt " ") ++ name). split; [reflexivity|]. split; [exact SK0|]. unfold semi. cbn [with_]. repeat rewrite <- app_assoc. reflexivity.
  - intros EN. rewrite RAW in EN. apply ended_last in EN. apply SE. exact EN.
Qed.

(** *** the members *)
Lemma own_line_app a b : own_line src (a ++ b) -> own_line src b.
Proof. intros H a' s k b' q t -> . apply (H (a ++ a') s k b' q t). rewrite <- app_assoc. reflexivity. Qed.
Lemma using_first raw r t : using_tokens src raw r t -> exists k more, raw = k :: more.
Proof.
  assert (G : forall t x kw, keyword t x kw -> forall more, exists k m, kw ++ more = k :: m) by (intros t0 x kw (g & k & _ & _ & [(_ & ->)|(_ & e & _ & ->)]) more; destruct g; eexists _, _; reflexivity).
  destruct 1; eapply G; eauto.
Qed.
Lemma typedef_first raw r x y name ss cmt : typedef_tokens src raw r x y name ss cmt -> exists k more, raw = k :: more.
Proof. destruct 1 as [? ? ? ? ? ? ? ? ? ? ? (g & k & _ & _ & [(_ & ->)|(_ & e & _ & ->)])]; destruct g; eexists _, _; reflexivity. Qed.

Theorem file_step inside t p toks T lr : member ms t -> class_kept inside t -> at_m Fresh p (render t ++ T) toks (tokens lx t ++ lr) -> Forall (positioned src) toks -> own_line src toks ->
  no_outside (tokens lx t ++ lr) -> well_ended (tokens lx t ++ lr) -> no_macro toks -> follow T lr ->
  exists raw R, toks = raw ++ R /\ at_m Fresh (p ++ render t) T R lr /\
    forall s r rest l, in_class s = inside -> R = r ++ rest -> members src beyond s r rest l -> members src beyond s (raw ++ r) rest (t :: l).
Proof.
  intros M CK A PO OL NO WE NM FO.
  assert (EN : forall raw R cmt, toks = raw ++ R -> at_m Fresh (p ++ render t) T R lr -> (cmt = None -> closed raw (p ++ render t)) -> ended cmt raw (R ++ beyond)).
  { intros raw R cmt E A1 C. destruct cmt; [exact I|]. rewrite E in OL, PO. eapply next_ended; eauto. }
  assert (SIMPLE : forall raw R, toks = raw ++ R -> at_m Fresh (p ++ render t) T R lr -> GlobalSpec.simple src beyond inside raw R t ->
    exists raw R, toks = raw ++ R /\ at_m Fresh (p ++ render t) T R lr /\
    forall s r rest l, in_class s = inside -> R = r ++ rest -> members src beyond s r rest l -> members src beyond s (raw ++ r) rest (t :: l)).
  { intros raw R E A1 S1. exists raw, R. split; [exact E|]. split; [exact A1|]. intros s r rest l SC ER MB. subst R. apply mb_simple; [rewrite SC; exact S1|exact MB]. }
  pose proof (m_at _ _ _ _ _ _ A) as A0.
  assert (FORWARD : forall st name cmt, is_name ms name -> oall line_comment_text cmt ->
     render t = txt (if (st : bool) then "struct " else "class ") ++ name ++ semi cmt -> tokens lx t = [tk (if st then "struct" else "class")] ++ lx name ++ end_tokens lx cmt ->
     forward_tree false {| hd_struct := st; hd_attrs := None; hd_name := name; hd_final := false; hd_base := None |} cmt = Some t -> exists raw R, toks = raw ++ R /\ at_m Fresh (p ++ render t) T R lr /\
    forall s r rest l, in_class s = inside -> R = r ++ rest -> members src beyond s r rest l -> members src beyond s (raw ++ r) rest (t :: l)).
  { intros st name cmt N OC ER ET FT. destruct (forward_ok st name cmt p toks _ _ t N OC ER ET A0 PO) as (k & nm & semi_ & more & R & E & K1 & K2 & KN & NN & K3 & A1 & C & SE). specialize (EN _ _ cmt E A1 C). specialize (SE EN). exists (k :: nm :: semi_ :: more), R. split; [exact E|]. split; [exact A1|]. intros s r rest l SC EQ MB. subst R. rewrite <- app_assoc in SE.
    cbn [app]. eapply mb_forward; [|exact K3|exact SE|exact FT|exact MB].
    pose proof (ch src st k [] None [] [nm] name [] false [] None [semi_] K1) as H. cbn [app] in H. apply H; auto; try reflexivity; try exact (Forall_nil _). rewrite <- KN. apply (ParseSpec.nm src nm [] []); [exact K2|left; auto|constructor]. }
  destruct M as [|c C|name P|name y P|y name cmt P|specs y name sizes bits value cmt P B NP|t P SH K|name N|name cmt N OC|specs ret name ps cmt LS PR B N PW NC OC|specs ret name ps b LS PR B N PW NC BT].
  - cbn [render tokens app] in A. destruct (m_empty _ _ _ _ _ A) as (k & R & E & K & A1). apply (SIMPLE [k] R E A1). apply m_line. exact K.
  - cbn [render tokens] in A. rewrite (comment_lx ms c C) in A. cbn [app] in A. destruct (m_lexeme src (c, Tok_Comment) Fresh p _ toks _ ltac:(destruct C as (u & -> & _); reflexivity) A) as (k & R & E & (KW & KK & _) & _ & A1). cbn [fst snd] in *.
    apply (SIMPLE [k] R E A1). rewrite <- KW. apply m_comment. exact KK.
  - inversion P; subst. destruct (namespace_ok src ms name _ _ ltac:(assumption) p toks A0 PO) as (raw & R & E & A1 & C & U). specialize (A1 I). specialize (U beyond (EN raw R None E A1 C)).
    destruct (using_first _ _ _ U) as (k & r & ER). rewrite ER in *. apply (SIMPLE (k :: r) R E A1). rewrite E in A0. apply m_using; [|exact U]. apply (at_first src _ _ _ _ _ _ A0). intros [X|X]; discriminate X.
  - assert (PA : parsed_as src ms (using_tokens src) (Using false None name y None) T lr) by (inversion P; subst; [apply using_name_ok; auto|apply using_ok; auto]).
    destruct (PA p toks A0 PO) as (raw & R & E & A1 & C & U). specialize (A1 I). specialize (U beyond (EN raw R None E A1 C)).
    destruct (using_first _ _ _ U) as (k & r & ER). rewrite ER in *. apply (SIMPLE (k :: r) R E A1). rewrite E in A0. apply m_using; [|exact U]. apply (at_first src _ _ _ _ _ _ A0). intros [X|X]; discriminate X.
  - inversion P; subst. destruct (typedef_ok src ms false y name cmt _ _ ltac:(assumption) ltac:(assumption) ltac:(assumption) ltac:(assumption) p toks A0 PO) as (raw & R & E & A1 & C & U). specialize (A1 I). specialize (U beyond (EN raw R cmt E A1 C)).
    destruct (typedef_first _ _ _ _ _ _ _ U) as (k & r & ER). rewrite ER in *. apply (SIMPLE (k :: r) R E A1). rewrite E in A0. apply m_typedef; [|exact U]. apply (at_first src _ _ _ _ _ _ A0). intros [X|X]; discriminate X.
  - destruct (variable_declared src ms beyond QUIET inside specs y name sizes bits value cmt p toks _ _ P CK B NP A0 PO NO WE NM) as (raw & R & E & A1 & C & D). apply (SIMPLE raw R E A1). apply m_declared. apply D. apply (EN raw R cmt E A1 C).
  - destruct (enum_ok src ms t _ _ P K p toks A0 PO) as (raw & R & E & A1 & C & U). assert (OE : one_end t) by (destruct t; cbn; auto; contradiction). specialize (A1 OE). destruct (U beyond (EN raw R (comment_of t) E A1 C)) as (U1 & U2). apply (SIMPLE raw R E A1). apply m_enum; [exact U1|apply U2; exact SH].
  - apply (FORWARD false name None); auto; exact I.
  - apply (FORWARD true name cmt); auto.
  - destruct (function_declared src ms beyond ODD inside specs ret name ps cmt p _ toks _ CK LS PR B N PW NC OC A0 PO NO WE NM) as (raw & R & E & A1 & C & D). apply (SIMPLE raw R E A1). apply m_declared. apply D. apply (EN raw R cmt E A1 C).
  - destruct (function_defined src ms beyond ODD inside specs ret name ps b p _ toks _ CK LS PR B N PW NC BT A0 NO WE NM) as (raw & R & E & A1 & D). apply (SIMPLE raw R E A1). apply m_declared. exact D.
Qed.

Lemma outside_kept t : class_kept false t.
Proof. destruct t; try exact I; discriminate. Qed.
Theorem file_members : forall l p toks, Forall (member ms) l -> at_m Fresh p (file_text l) toks (file_lexemes l) -> Forall (positioned src) toks -> own_line src toks -> no_outside (file_lexemes l) -> no_macro toks ->
  members src beyond InNamespace toks [] l.
Proof.
  induction l as [|t l IH]; intros p toks F A PO OL NO NM.
  { cbn [flat_map] in A. unfold file_text in A. cbn [map concat] in A. destruct A as (_ & A). inversion A; subst; try (destruct w; discriminate). constructor. }
  pose proof (Forall_inv F) as M. pose proof (Forall_inv_tail F) as FL. pose proof (file_ended ms _ F) as WE. unfold file_text in A. cbn [map concat flat_map] in A, NO, WE. fold (file_text l) in A.
  destruct (file_step false t p toks (file_text l) (file_lexemes l) M (outside_kept t) A PO OL NO WE NM) as (raw & R & -> & A1 & G).
  - destruct l as [|t' l]; [apply follow_end|]. unfold file_text. cbn [map concat flat_map]. apply follow_member, (Forall_inv FL).
  - rewrite <- (app_nil_r R). rewrite app_nil_r at 1. apply G; [reflexivity|symmetry; apply app_nil_r|]. apply (IH (p ++ render t)); auto; [apply Forall_app in PO; apply PO|apply own_line_app in OL; exact OL|apply suffix_outside in NO; exact NO|apply Forall_app in NM; apply NM].
Qed.
End P.
