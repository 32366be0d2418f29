(** Files with blocks in them: as the members of a body. *)
From Coq Require Import String ZArith List Bool Lia ZifyBool ZifyNat.
From Verif Require Import Common HashModel Text EnumModel EnumSpec LexModel LexSpec LexProofs StripSpec AstModel AstSpec SerSpec RelexSpec RelexProofs RelexProofs2 RelexProofs3 RelexProofs4 RelexProofs5 RelexProofs6
  ParseSpec FnSpec GlobalSpec RoundSpec RoundProofs RoundProofs2 RoundProofs3 RoundProofs4 RoundProofs5 RoundProofs6 RoundProofs7 RoundProofs8 FileSpec FileNestSpec FileProofs FileProofs2 FileProofs3 FileFnProofs FileProofs4 FileProofs5.
Import ListNotations.
Close Scope string_scope.
Open Scope Z_scope.

Scheme item_mut := Minimality for item Sort Prop with body_mut := Minimality for body Sort Prop.
Combined Scheme nest_ind from item_mut, body_mut.

Section P.
Variable src : list Z.
Variable ms : macros.
Notation lx := (lexed_as ms).
Notation at_ := (at_ src).
Notation at_m := (at_m src).
Notation file_lexemes := (flat_map (tokens lx)).
Variable beyond : list token.
Hypothesis QUIET : quiet beyond.
Hypothesis ODD : Forall (fun w => lookup_macro ms (txt w) = None) odd_specs.
Notation no_macro := (Forall (fun k => t_type k <> Tok_Preprocess_Macro_Expr)).
Notation item := (item ms).
Notation body := (body ms).

(** *** heads *)
Definition headed (x : list Z) : Prop := ~ blank (hd 0 x) \/ exists u, x = txt " " ++ u /\ ~ blank (hd 0 u).
Lemma headed_any p x toks l : headed x -> at_ p x toks l -> at_m Fresh p x toks l.
Proof.
  intros H (m & E & A). split; [exact E|]. destruct H as [NB|(u & EU & NB)].
  - apply (modal_any m); [|exact A]. intros [X|[X|[]]]; apply NB; unfold blank; rewrite <- X; auto.
  - subst x. change (txt " " ++ u) with (32 :: u) in *. inversion A; subst.
    + apply md_space. apply (modal_any (spaced m)); [|assumption]. intros [X|[X|[]]]; apply NB; unfold blank; rewrite <- X; auto.
    + exfalso. match goal with H : solid_head ?w, E : ?w ++ _ = 32 :: _ |- _ => destruct H as (c & v & -> & NB2); injection E as E _; apply NB2; left; auto end.
Qed.
Lemma item_head s t more : item s t -> t <> NewLine -> headed (render t ++ more).
Proof.
  intros IT NN. destruct IT as [s t M _|s name l _ N BG B|name l N BG B|s name l N BG B _|s name l N BG B _]; try (left; cbn [render when with_ app]; intros [X|X]; discriminate X).
  destruct (indented t) eqn:E; [right; apply (indented_head ms); auto|left; apply (member_head ms); auto].
Qed.
Lemma body_head s l more : body s l -> begun l -> headed (file_text l ++ more).
Proof.
  intros B (t & r & E & NN). destruct B as [s|s t0 l IT B|k l HI _ B]; [discriminate E| |].
  - injection E as <- _. unfold file_text. cbn [map concat]. rewrite <- app_assoc. eapply item_head; eauto.
  - left. unfold file_text. cbn [map concat render]. unfold label_text. cbn [In] in HI. destruct HI as [<- |[<- |[<- |[]]]]; cbn; intros [X|X]; discriminate X.
Qed.
Lemma follow_item s t T lr : item s t -> follow src (render t ++ T) (tokens lx t ++ lr).
Proof.
  intros IT. destruct IT as [s t M _|s name l _ N BG B|name l N BG B|s name l N BG B _|s name l N BG B _]; [apply (follow_member src ms); exact M| | | |]; intros p R _; left; cbn [render when with_ app]; intros [X|X]; discriminate X.
Qed.
Lemma follow_body s l T lr : body s l -> follow src T lr -> follow src (file_text l ++ T) (file_lexemes l ++ lr).
Proof.
  intros B F. destruct B as [s|s t l IT B|k l HI BG B]; [exact F| |].
  - unfold file_text. cbn [map concat flat_map]. rewrite <- !app_assoc. eapply follow_item; eauto.
  - intros p R _. left. unfold file_text. cbn [map concat render]. unfold label_text. cbn [In] in HI. destruct HI as [<- |[<- |[<- |[]]]]; cbn; intros [X|X]; discriminate X.
Qed.
Lemma grown_member t : member ms t -> grown t = t.
Proof. intros M. destruct M as [|c C|name P|name y P|y name cmt P|specs y name sizes bits value cmt P B NP|t P SH K| | | |]; try reflexivity. destruct t; try contradiction; reflexivity. Qed.

(** *** a block: [{ members }] *)
Notation fine toks L := (Forall (positioned src) toks /\ own_line src toks /\ no_outside L /\ well_ended L /\ no_macro toks).
Lemma fine_suffix a b A B : fine (a ++ b) (A ++ B) -> fine b B.
Proof.
  intros (H1 & H2 & H3 & H4 & H5). split; [apply Forall_app in H1; apply H1|]. split; [eapply own_line_app; eauto|]. split; [eapply suffix_outside; eauto|]. split; [eapply suffix_ended; eauto|apply Forall_app in H5; apply H5].
Qed.
Definition read_item (s : scope) (t : tree) : Prop := forall p toks T lr, at_m Fresh p (render t ++ T) toks (tokens lx t ++ lr) -> fine toks (tokens lx t ++ lr) -> follow src T lr ->
  exists raw R, toks = raw ++ R /\ at_m Fresh (p ++ render t) T R lr /\
    forall r rest l, R = r ++ rest -> members src beyond s r rest l -> members src beyond s (raw ++ r) rest (grown t :: l).
Definition read_body (s : scope) (l : list tree) : Prop := forall p toks T lr, at_m Fresh p (file_text l ++ T) toks (file_lexemes l ++ lr) -> fine toks (file_lexemes l ++ lr) -> follow src T lr ->
  exists raw R, toks = raw ++ R /\ at_m Fresh (p ++ file_text l) T R lr /\
    forall r rest l', R = r ++ rest -> members src beyond s r rest l' -> members src beyond s (raw ++ r) rest (map grown l ++ l').

Lemma read_block s l p toks X lr : body s l -> begun l -> read_body s l -> last p 10 <> 10 ->
  at_ p (braces (file_text l) ++ X) toks (curly (file_lexemes l) ++ lr) -> fine toks (curly (file_lexemes l) ++ lr) ->
  exists o inner c R, toks = o :: inner ++ c :: R /\ kind Tok_BraceCurly_Open o /\ kind Tok_BraceCurly_Close c /\ at_m Behind (p ++ braces (file_text l)) X R lr /\
    members src beyond s inner (c :: R) (map grown l ++ [NewLine]) /\ map t_type (solids inner) = map snd (file_lexemes l).
Proof.
  intros B BG RB LP A FN. unfold braces, curly in *. repeat (rewrite <- ?app_assoc in A; cbn [app] in A). repeat (rewrite <- ?app_assoc in FN; cbn [app] in FN). apply at_nl in A; [|exact LP].
  destruct (at_tok src "{" _ _ _ _ eq_refl A) as (o & t1 & -> & (_ & KO & _) & _ & A1). apply at_nl in A1; [|rewrite (last_last_app _ (txt "{")) by discriminate; discriminate].
  assert (FN1 : fine t1 (file_lexemes l ++ tk "}" :: lr)) by (apply (fine_suffix [o] t1 [tk "{"]); exact FN).
  apply headed_any in A1; [|apply (body_head s); auto].
  destruct (RB _ _ (NL ++ txt "}" ++ X) (tk "}" :: lr) A1 FN1) as (raw & R & -> & A2 & G); [apply follow_line|].
  pose proof (m_at _ _ _ _ _ _ A1) as S1. destruct (m_empty _ _ _ _ _ A2) as (n & R1 & -> & KN & A3). destruct (m_lexeme src (tk "}") Fresh _ _ _ _ eq_refl A3) as (c & R2 & -> & (_ & KC & _) & _ & A4). change (after (snd (tk "}"))) with Behind in A4.
  exists o, (raw ++ [n]), c, R2. split; [rewrite <- app_assoc; reflexivity|]. split; [exact KO|]. split; [exact KC|]. split; [cbn [fst] in A4; repeat rewrite <- app_assoc in A4; exact A4|]. split.
  - apply (G [n] (c :: R2) [NewLine]); [reflexivity|]. apply (mb_simple src beyond s [n] []); [apply m_line; exact KN|constructor].
  - pose proof (m_at _ _ _ _ _ _ A2) as S2. pose proof (seg_kinds src _ _ _ _ _ _ _ _ S1 S2) as E. rewrite solids_app, map_app, E. unfold solids. cbn [filter]. rewrite KN. cbn. apply app_nil_r.
Qed.

(** *** what is written *)
Lemma label_lexemes k : In k [Tok_Access_Public; Tok_Access_Protected; Tok_Access_Private] -> exists w, label_text k = txt w ++ txt ":" ++ NL /\ tk w = (txt w, k) /\ tokb (tk w) = true /\ ~ spacep (last (txt w) 0) /\ tokens lx (Raw (label_text k)) = [tk w; tk ":"] /\
  (forall rest lr, writes ms rest lr -> writes ms (label_text k ++ rest) ([tk w; tk ":"] ++ lr)).
Proof.
  assert (G : forall k w, label_text k = txt w ++ txt ":" ++ NL -> tk w = (txt w, k) -> tokb (tk w) = true -> ~ spacep (last (txt w) 0) ->
    (forall rest lr, writes ms rest lr -> writes ms (txt w ++ txt ":" ++ NL ++ rest) ([tk w; tk ":"] ++ lr)) ->
    exists w, label_text k = txt w ++ txt ":" ++ NL /\ tk w = (txt w, k) /\ tokb (tk w) = true /\ ~ spacep (last (txt w) 0) /\ tokens lx (Raw (label_text k)) = [tk w; tk ":"] /\
    (forall rest lr, writes ms rest lr -> writes ms (label_text k ++ rest) ([tk w; tk ":"] ++ lr))).
  { intros k0 w E1 E2 E3 E4 WR. exists w. split; [exact E1|]. split; [exact E2|]. split; [exact E3|]. split; [exact E4|]. split.
    - cbn [tokens]. apply lx_ok; [|discriminate]. rewrite E1. specialize (WR [] [] ltac:(constructor)). rewrite ?app_nil_r in WR. exact WR.
    - intros rest lr W. rewrite E1, <- !app_assoc. apply WR. exact W. }
  intros HI. cbn [In] in HI. destruct HI as [<- |[<- |[<- |[]]]].
  - apply (G _ "public"%string); try reflexivity; [vm_compute; intuition discriminate|]. intros rest lr W. apply (kw_app ms "public"); [reflexivity|unfold word_char; cbn; lia|]. apply (sym_app ms ":"); [reflexivity|]. apply nl_app. exact W.
  - apply (G _ "protected"%string); try reflexivity; [vm_compute; intuition discriminate|]. intros rest lr W. apply (kw_app ms "protected"); [reflexivity|unfold word_char; cbn; lia|]. apply (sym_app ms ":"); [reflexivity|]. apply nl_app. exact W.
  - apply (G _ "private"%string); try reflexivity; [vm_compute; intuition discriminate|]. intros rest lr W. apply (kw_app ms "private"); [reflexivity|unfold word_char; cbn; lia|]. apply (sym_app ms ":"); [reflexivity|]. apply nl_app. exact W.
Qed.

Definition writes_item (t : tree) : Prop := forall rest lr, writes ms rest lr -> writes ms (render t ++ rest) (tokens lx t ++ lr).
Definition writes_body (l : list tree) : Prop := forall rest lr, writes ms rest lr -> writes ms (file_text l ++ rest) (file_lexemes l ++ lr).
Lemma nest_writes : (forall s t, item s t -> writes_item t) /\ (forall s l, body s l -> writes_body l).
Proof.
  apply (nest_ind ms (fun s t => writes_item t) (fun s l => writes_body l)).
  - intros s t M _ rest lr W. apply (member_writes ms ODD); auto.
  - intros s name l _ N _ _ WB rest lr W. cbn [render tokens when tks app]. rewrite <- !app_assoc. apply (kw_sp ms "namespace"); [reflexivity|].
    apply leaf_app; [apply name_leaf_ok; exact N|cbn; auto|]. apply braces_app; [exact WB|]. apply nl_app. exact W.
  - intros name l (NE & BY & Q1 & Q2 & _) _ _ WB rest lr W. cbn [render tokens]. rewrite <- !app_assoc. apply linkage_app; auto. apply braces_app; [exact WB|]. apply nl_app. exact W.
  - intros s name l N _ _ WB _ rest lr W. cbn [render tokens when with_ tks tko app]. rewrite <- !app_assoc. apply (kw_sp ms "class"); [reflexivity|].
    apply leaf_app; [apply name_leaf_ok; exact N|cbn; auto|]. apply braces_app; [exact WB|]. cbn [app]. apply (sym_any ms ";"); [reflexivity|]. apply nl_app. exact W.
  - intros s name l N _ _ WB _ rest lr W. cbn [render tokens when with_ tks tko app]. rewrite <- !app_assoc. apply (kw_sp ms "struct"); [reflexivity|].
    apply leaf_app; [apply name_leaf_ok; exact N|cbn; auto|]. apply braces_app; [exact WB|]. cbn [app]. apply (sym_any ms ";"); [reflexivity|]. apply nl_app. exact W.
  - intros s rest lr W. exact W.
  - intros s t l _ WI _ WB rest lr W. unfold file_text in *. cbn [map concat flat_map]. rewrite <- !app_assoc. apply WI, WB, W.
  - intros k l HI _ _ WB rest lr W. destruct (label_lexemes k HI) as (w & _ & _ & _ & _ & E & WR). unfold file_text in *. cbn [map concat flat_map]. rewrite E, <- !app_assoc. cbn [render]. apply WR, WB, W.
Qed.

(** *** what is read *)
Lemma at_string name p t toks l : at_ p (txt """" ++ name ++ txt """" ++ t) toks ((txt """" ++ name, Tok_String) :: l) ->
  exists k toks', toks = k :: toks' /\ kind Tok_String k /\ word src k = txt """" ++ name /\ at_ (p ++ txt """" ++ name ++ txt """") t toks' l.
Proof.
  intros (m & E & L). assert (SW : solid_head (txt """" ++ name)) by (exists 34, name; split; [reflexivity|]; unfold blank; cbn; lia).
  change (txt """" ++ name ++ txt """" ++ t) with ((txt """" ++ name) ++ [34] ++ t) in *. destruct (modal_tok m p (txt """" ++ name) Tok_String [34] t toks l SW (or_intror (conj eq_refl eq_refl)) L) as (k & toks' & -> & TA & _ & L').
  assert (SP : spells src k (txt """" ++ name, Tok_String)). { eapply spells_at; eauto. }
  exists k, toks'. split; [reflexivity|]. split; [apply SP|]. split; [apply SP|]. eexists. split; [|exact L']. rewrite E, <- !app_assoc. reflexivity.
Qed.
Lemma read_member s t : member ms t -> class_kept (in_class s) t -> read_item s t.
Proof.
  intros M CK p toks T lr A (PO & OL & NO & WE & NM) FO. destruct (file_step src ms beyond QUIET ODD (in_class s) t p toks T lr M CK A PO OL NO WE NM FO) as (raw & R & E & A1 & G).
  exists raw, R. split; [exact E|]. split; [exact A1|]. intros r rest l ER MB. rewrite (grown_member t M). apply G; auto.
Qed.
Lemma read_namespace s name l : in_class s = false -> is_name ms name -> begun l -> body InNamespace l -> read_body InNamespace l -> read_item s (Namespace false name l).
Proof.
  intros IC N BG B RB p toks T lr A FN FO. pose proof (m_at _ _ _ _ _ _ A) as A0. cbn [render tokens when tks app] in *. change (txt "namespace ") with (txt "namespace" ++ txt " ") in *. repeat (rewrite <- ?app_assoc in A0; cbn [app] in A0).
  destruct (at_tok src "namespace" _ _ _ _ eq_refl A0) as (k & t1 & -> & (_ & K1 & _) & _ & A1). apply at_sp in A1. destruct (at_name src ms name _ _ _ _ N A1) as (nm & t2 & -> & K2 & KN & NN & A2).
  repeat (rewrite <- ?app_assoc in FN; cbn [app] in FN).
  destruct (read_block InNamespace l _ t2 (NL ++ T) lr B BG RB ltac:(eapply online_solid, online_name; exact N) A2) as (o & inner & c & R & -> & KO & KC & A3 & MB & _).
  { apply (fine_suffix [k; nm] t2 (tk "namespace" :: lx name)). cbn [app]. repeat (rewrite <- ?app_assoc; cbn [app]). exact FN. }
  apply m_end in A3. exists (k :: nm :: o :: inner ++ [c]), R. split; [cbn [app]; rewrite <- app_assoc; reflexivity|]. split.
  - repeat (rewrite <- ?app_assoc in A3; cbn [app] in A3). repeat (rewrite <- ?app_assoc; cbn [app]). exact A3.
  - intros r rest l' ER MB'. subst R. cbn [grown app]. rewrite <- app_assoc. cbn [app].
    pose proof (mb_namespace src beyond s k [] [nm] name [] o inner c r rest (map grown l ++ [NewLine]) l' IC K1 (Forall_nil _)) as G. cbn [app] in G. apply G; auto; try exact (Forall_nil _). rewrite <- KN. apply (ParseSpec.nm src nm [] []); [exact K2|left; auto|constructor].
Qed.
Lemma read_linkage name l : linkage_name name -> begun l -> body InLinkage l -> read_body InLinkage l -> read_item InNamespace (Linkage name l).
Proof.
  intros (NE & BY & Q1 & Q2 & Q3) BG B RB p toks T lr A FN FO. pose proof (m_at _ _ _ _ _ _ A) as A0. cbn [render tokens app] in *. change (txt "extern """) with (txt "extern" ++ txt " " ++ txt """") in *. repeat (rewrite <- ?app_assoc in A0; cbn [app] in A0).
  destruct (at_lexeme src (txt "extern", Tok_Decl_Extern_Linkage) _ _ _ _ eq_refl A0) as (k & t1 & -> & (_ & K1 & _) & _ & A1). cbn [fst snd] in *. apply at_sp in A1. destruct (at_string name _ _ _ _ A1) as (st & t2 & -> & K2 & KN & A2).
  repeat (rewrite <- ?app_assoc in FN; cbn [app] in FN).
  destruct (read_block InLinkage l (((p ++ txt "extern") ++ txt " ") ++ txt """" ++ name ++ txt """") t2 (NL ++ T) lr B BG RB) as (o & inner & c & R & -> & KO & KC & A3 & MB & _); [|exact A2| |].
  { rewrite !app_assoc, (last_last_app _ (txt """")) by discriminate. discriminate. }
  { apply (fine_suffix [k; st] t2 [(txt "extern", Tok_Decl_Extern_Linkage); (txt """" ++ name, Tok_String)]). cbn [app]. repeat (rewrite <- ?app_assoc; cbn [app]). exact FN. }
  apply m_end in A3. exists (k :: st :: o :: inner ++ [c]), R. split; [cbn [app]; rewrite <- app_assoc; reflexivity|]. split.
  - repeat (rewrite <- ?app_assoc in A3; cbn [app] in A3). repeat (rewrite <- ?app_assoc; cbn [app]). exact A3.
  - intros r rest l' ER MB'. subst R. cbn [grown app]. rewrite <- app_assoc. cbn [app].
    pose proof (mb_linkage src beyond k [] st o inner c r rest name (map grown l ++ [NewLine]) l' K1 (Forall_nil _) K2) as G. cbn [app] in G. apply G; auto. rewrite KN. reflexivity.
Qed.

Definition class_of (st : bool) (name : list Z) (l : list tree) : tree := if st then Struct false None name false None None l else Class false None name false None l.
Lemma read_class s (st : bool) name l : is_name ms name -> begun l -> body InClass l -> paired ms l -> read_body InClass l -> read_item s (class_of st name l).
Proof.
  intros N BG B PA RB p toks T lr A FN FO. pose proof (m_at _ _ _ _ _ _ A) as A0. set (kw := if st then "struct"%string else "class"%string).
  assert (ER : render (class_of st name l) = txt kw ++ txt " " ++ name ++ braces (file_text l) ++ txt ";" ++ NL) by (destruct st; cbn [class_of render when with_ app]; [change (txt "struct ") with (txt "struct" ++ txt " ")|change (txt "class ") with (txt "class" ++ txt " ")]; rewrite <- app_assoc; reflexivity).
  assert (ET : tokens lx (class_of st name l) = tk kw :: lx name ++ curly (file_lexemes l) ++ [tk ";"]) by (destruct st; reflexivity).
  assert (EG : grown (class_of st name l) = class_of st name (map grown l ++ [NewLine])) by (destruct st; reflexivity). rewrite ER, ET in *. cbn [app] in *. repeat (rewrite <- ?app_assoc in A0; cbn [app] in A0).
  assert (TB : tokb (tk kw) = true) by (destruct st; reflexivity).
  destruct (at_tok src kw _ _ _ _ TB A0) as (k & t1 & -> & (_ & K1 & _) & _ & A1). apply at_sp in A1. destruct (at_name src ms name _ _ _ _ N A1) as (nm & t2 & -> & K2 & KN & NN & A2).
  repeat (rewrite <- ?app_assoc in FN; cbn [app] in FN).
  destruct (read_block InClass l (((p ++ txt kw) ++ txt " ") ++ name) t2 (txt ";" ++ NL ++ T) (tk ";" :: lr) B BG RB) as (o & inner & c & R & -> & KO & KC & A3 & MB & KS); [eapply online_solid, online_name; exact N|exact A2| |].
  { apply (fine_suffix [k; nm] t2 (tk kw :: lx name)). cbn [app]. repeat (rewrite <- ?app_assoc; cbn [app]). exact FN. }
  set (q := (((p ++ txt kw) ++ txt " ") ++ name) ++ braces (file_text l)) in *.
  assert (ON : online q). { exists ((((p ++ txt kw) ++ txt " ") ++ name) ++ NL ++ txt "{" ++ NL ++ file_text l ++ NL), 125, []. split; [unfold q, braces; repeat rewrite <- app_assoc; reflexivity|]. split; [unfold spacep; cbn; lia|]. split; [discriminate|intros []]. }
  destruct FN as (PO & OL & FN'). assert (PR : Forall (positioned src) R). { change (k :: nm :: o :: inner ++ c :: R) with ((k :: nm :: o :: inner) ++ [c] ++ R) in PO. rewrite app_assoc in PO. apply Forall_app in PO. apply PO. }
  destruct (at_semi src ms None q T R lr I (m_at _ _ _ _ _ _ A3) PR ON) as (semi_ & more & R1 & -> & SK & SE & MO & A4). specialize (MO eq_refl). subst more. cbn [app] in *.
  assert (EQ : k :: nm :: o :: inner ++ c :: semi_ :: R1 = (k :: nm :: o :: inner ++ [c; semi_]) ++ R1) by (cbn [app]; rewrite <- app_assoc; reflexivity).
  assert (A5 : at_m Fresh (p ++ txt kw ++ txt " " ++ name ++ braces (file_text l) ++ txt ";" ++ NL) T R1 lr). { unfold q in A4. change (semi None) with (txt ";" ++ NL) in A4. repeat rewrite <- app_assoc in A4. exact A4. }
  assert (EN : ended None (k :: nm :: o :: inner ++ [c; semi_]) (R1 ++ beyond)).
  { rewrite EQ in OL, PO. refine ((fun C => next_ended src beyond QUIET _ _ _ _ _ C A5 (FO _ _ A5) OL PO) _). exists (k :: nm :: o :: inner ++ [c]), semi_, q. split; [cbn [app]; rewrite <- app_assoc; reflexivity|]. split; [exact SK|]. unfold q. repeat rewrite <- app_assoc. reflexivity. }
  change (k :: nm :: o :: inner ++ [c; semi_]) with ((k :: nm :: o :: inner) ++ [c] ++ [semi_]) in EN. rewrite app_assoc in EN. apply ended_last in EN. specialize (SE beyond EN).
  exists (k :: nm :: o :: inner ++ [c; semi_]), R1. split; [exact EQ|]. split; [exact A5|].
  intros r rest l' ER' MB'. subst R1. rewrite EG. replace ((k :: nm :: o :: inner ++ [c; semi_]) ++ r) with ([k; nm] ++ [] ++ o :: inner ++ c :: semi_ :: [] ++ r) by (cbn [app]; rewrite <- app_assoc; reflexivity).
  assert (KK : kind (if st then Tok_Decl_Struct else Tok_Decl_Class) k) by (unfold kind; rewrite K1; destruct st; reflexivity).
  apply (mb_class src beyond s [k; nm] {| hd_struct := st; hd_attrs := None; hd_name := name; hd_final := false; hd_base := None |} [] o inner c semi_ [] r rest (map grown l ++ [NewLine]) None (class_of st name (map grown l ++ [NewLine])) l').
  - pose proof (ch src st k [] None [] [nm] name [] false [] None [o] KK) as H. cbn [app] in H. apply H; auto; try reflexivity; try exact (Forall_nil _). rewrite <- KN. apply (ParseSpec.nm src nm [] []); [exact K2|left; auto|constructor].
  - unfold plain_tokens, kind in *. constructor; [rewrite KK; destruct st; repeat split; discriminate|]. constructor; [rewrite K2; repeat split; discriminate|constructor].
  - constructor.
  - exact KO.
  - exact MB.
  - unfold in_braces. apply (nested_kinds _ (file_lexemes l)); [exact KS|]. apply PA. destruct nest_writes as (_ & NW). rewrite <- (app_nil_r (file_text l)), <- (app_nil_r (file_lexemes l)). apply (NW _ _ B). constructor.
  - exact KC.
  - apply SK.
  - cbn [app]. rewrite <- app_assoc in SE. exact SE.
  - destruct st; reflexivity.
  - exact MB'.
Qed.

Theorem nest_read : (forall s t, item s t -> read_item s t) /\ (forall s l, body s l -> read_body s l).
Proof.
  apply (nest_ind ms read_item read_body).
  - intros s t M CK. apply read_member; auto.
  - intros s name l IC N BG B RB. apply read_namespace; auto.
  - intros name l NM BG B RB. apply read_linkage; auto.
  - intros s name l N BG B RB PA. apply (read_class s false); auto.
  - intros s name l N BG B RB PA. apply (read_class s true); auto.
  - intros s p toks T lr A FN FO. exists [], toks. split; [reflexivity|]. split; [unfold file_text; cbn [map concat]; rewrite app_nil_r; exact A|]. intros r rest l' _ MB. exact MB.
  - intros s t l IT RI B RB p toks T lr A FN FO. unfold file_text in A. cbn [map concat flat_map] in *. rewrite <- !app_assoc in A. rewrite <- app_assoc in FN.
    destruct (RI p toks (file_text l ++ T) (file_lexemes l ++ lr) A FN) as (raw & R & -> & A1 & G); [apply (follow_body s); auto|].
    destruct (RB _ R T lr A1) as (raw2 & R2 & -> & A2 & G2); [apply (fine_suffix raw R (tokens lx t)); exact FN|exact FO|].
    exists (raw ++ raw2), R2. split; [rewrite app_assoc; reflexivity|]. split; [unfold file_text in *; cbn [map concat]; rewrite app_assoc; exact A2|].
    intros r rest l' -> MB. cbn [app map]. rewrite <- app_assoc. apply (G (raw2 ++ r) rest); [rewrite app_assoc; reflexivity|]. apply G2; auto.
  - intros k l HI BG B RB p toks T lr A FN FO. destruct (label_lexemes k HI) as (w & EW & EK & TB & LW & EL & _). unfold file_text in A. cbn [map concat flat_map render] in *. rewrite EL in *. rewrite EW, <- !app_assoc in A. cbn [app] in A, FN.
    pose proof (m_at _ _ _ _ _ _ A) as A0. destruct (at_tok src w _ _ _ _ TB A0) as (a & t1 & -> & (_ & K1 & _) & _ & A1). rewrite EK in K1. destruct (at_tok src ":" _ _ _ _ eq_refl A1) as (b & t2 & -> & (_ & K2 & _) & _ & A2).
    apply at_nl in A2; [|rewrite (last_last_app _ (txt ":")) by discriminate; discriminate]. apply headed_any in A2; [|apply (body_head InClass); auto].
    destruct (RB _ t2 T lr A2) as (raw2 & R2 & -> & A3 & G2); [apply (fine_suffix [a; b] t2 [tk w; tk ":"]); exact FN|exact FO|].
    exists (a :: b :: raw2), R2. split; [reflexivity|]. split; [unfold file_text in *; cbn [map concat render]; rewrite EW; repeat rewrite <- app_assoc in A3; repeat rewrite <- app_assoc; exact A3|].
    intros r rest l' -> MB. cbn [app map grown]. cbn [snd] in K1. rewrite <- K1 at 1. apply mb_label; [|exact K2|apply G2; auto]. unfold kind. rewrite K1. cbn [In] in HI. intuition.
Qed.
End P.
