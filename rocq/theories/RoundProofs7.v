(** Enums. *)
From Coq Require Import String ZArith List Bool Lia ZifyBool ZifyNat.
From Verif Require Import Common HashModel Text EnumModel EnumSpec LexModel LexSpec StripSpec AstModel AstSpec SerSpec RelexSpec RelexProofs RelexProofs2 RelexProofs3 RelexProofs4 RelexProofs5
  ParseSpec GlobalSpec RoundSpec FileSpec RoundProofs RoundProofs2 RoundProofs3 RoundProofs4 RoundProofs5 RoundProofs6.
Import ListNotations.
Close Scope string_scope.
Open Scope Z_scope.

Section P.
Variable src : list Z.
Variable ms : macros.
Notation spells := (spells src).
Notation lx := (lexed_as ms).
Notation at_ := (at_ src).
Notation parsed_as := (parsed_as src ms).

(** *** the kinds of the tokens *)
Definition solids (toks : list token) : list token := filter (fun k => negb (t_type k =? Tok_NewLine)) toks.
Lemma lined_kinds p x toks l : lined p x toks l -> map t_type (solids toks) = map snd l.
Proof.
  induction 1 as [p|p c t toks l B _ IH|p t tk toks l E K _ IH|p w k q t tk toks l SW K T C _ IH]; auto.
  - unfold solids in *. cbn [filter]. rewrite K. cbn [Z.eqb]. rewrite Z.eqb_refl. exact IH.
  - destruct T as (_ & _ & T & _). unfold solids in *. cbn [filter]. rewrite T. destruct (Z.eqb_spec k Tok_NewLine); [contradiction|]. cbn [negb map snd]. rewrite T, IH. reflexivity.
Qed.
Lemma solids_app a b : solids (a ++ b) = solids a ++ solids b. Proof. apply filter_app. Qed.
Lemma seg_kinds p t p' t' a b l1 l2 : at_ p t (a ++ b) (l1 ++ l2) -> at_ p' t' b l2 -> map t_type (solids a) = map snd l1.
Proof.
  intros A B. apply at_lined in A, B. destruct A as (_ & A), B as (_ & B). apply lined_kinds in A, B. rewrite solids_app, !map_app, B in A. apply app_inv_tail in A. exact A.
Qed.
Lemma seg_all (P : Z -> Prop) a (l : list lexeme) : map t_type (solids a) = map snd l -> P Tok_NewLine -> Forall (fun e => P (snd e)) l -> Forall (fun k => P (t_type k)) a.
Proof.
  intros E PN F. assert (G : Forall P (map t_type (solids a))) by (rewrite E; apply Forall_map; exact F). clear E F. induction a as [|k a IH]; constructor.
  - unfold solids in G. cbn [filter] in G. destruct (Z.eqb_spec (t_type k) Tok_NewLine) as [-> |]; auto. cbn [negb map] in G. apply (Forall_inv G).
  - apply IH. unfold solids in *. cbn [filter] in G. destruct (negb _); cbn [map] in G; auto. apply (Forall_inv_tail G).
Qed.
(** those of types *)
Definition wild : list Z := [Tok_BraceCurly_Open; Tok_BraceCurly_Close; Tok_Statement_End; Tok_Paren_Open; Tok_Decl_Operator; Tok_Comment; Tok_Preprocess_Macro_Expr].
Definition tame (k : Z) : Prop := existsb (Z.eqb k) wild = false.
Lemma args_tame : forall d l, args_written d l -> Forall (fun e => tame (snd e)) l.
Proof.
  assert (G : forallb (fun k => negb (existsb (Z.eqb k) wild)) arg_kinds = true) by (vm_compute; reflexivity). rewrite forallb_forall in G.
  induction 1 as [e ->|e ->|d e f r -> N _ IH|d e r -> _ IH|d e r HI _ IH]; try (constructor; [reflexivity|]); auto. constructor; auto. specialize (G _ HI). unfold tame. destruct (existsb _ wild); [discriminate|reflexivity].
Qed.
Lemma template_tame l : template_written l -> Forall (fun e => tame (snd e)) l.
Proof. intros [-> |(e & r & -> & -> & W)]; [constructor|]. constructor; [reflexivity|]. eapply args_tame; eauto. Qed.
Lemma name_tame l : name_written l -> Forall (fun e => tame (snd e)) l.
Proof.
  induction 1 as [w a T|w a c r T -> _ IH]; (constructor; [reflexivity|]); [apply template_tame; auto|]. apply Forall_app. split; [apply template_tame; auto|]. constructor; [reflexivity|exact IH].
Qed.
Lemma specs_tame s : In s type_specs -> Forall (fun e => tame (snd e)) (RelexSpec.spec_tokens s).
Proof.
  intros HI. assert (G : forallb (fun s => forallb (fun e => negb (existsb (Z.eqb (snd e)) wild)) (RelexSpec.spec_tokens s)) type_specs = true) by (vm_compute; reflexivity). rewrite forallb_forall in G. specialize (G s HI). rewrite forallb_forall in G.
  apply Forall_forall. intros e HE. specialize (G e HE). unfold tame. destruct (existsb _ wild); [discriminate|reflexivity].
Qed.
Lemma type_tame y : plain_typ ms y -> Forall (fun e => tame (snd e)) (typ_tokens lx y).
Proof.
  intros (EA & EP & (l & ((W & NE & _) & _) & TT) & SP). unfold typ_tokens. rewrite EA, EP. cbn [tko tks app]. rewrite app_nil_r. apply Forall_app. split; [destruct (ty_tag y); repeat constructor|]. apply Forall_app. split.
  - rewrite (lx_ok ms _ _ W NE). destruct TT as (_ & [N|(_ & N)]); [apply name_tame; auto|]. eapply Forall_impl; [|exact N]. intros e NW. unfold native_word in NW. unfold tame, wild. cbn [existsb].
    unfold Tok_Type_Unsigned, Tok_Type_MS_W64, Tok_BraceCurly_Open, Tok_BraceCurly_Close, Tok_Statement_End, Tok_Paren_Open, Tok_Decl_Operator, Tok_Comment, Tok_Preprocess_Macro_Expr in *. lia.
  - destruct (ty_specs y) as [sl|]; cbn [tko oall] in *; [|constructor]. destruct SP as (_ & F & _). induction F as [|s sl HI _ IH]; cbn [flat_map]; [constructor|]. apply Forall_app. split; [apply specs_tame; auto|exact IH].
Qed.
Lemma tame_plain toks : Forall (fun k => tame (t_type k)) toks -> plain_tokens toks.
Proof. intros F. eapply Forall_impl; [|exact F]. intros k T. unfold tame, wild in T. cbn [existsb] in T. lia. Qed.
(** the symbols of a text are in it *)
Lemma writes_chars : forall x l, writes ms x l -> Forall (fun e => incl (fst e) x) l.
Proof.
  induction 1 as [|c t l' HC H IH|w k t l' HW HK NW H IH|s k no t l' HS NB H IH|u t l' FU N1 N2 H IH|d t l' ND FD NX1 NX2 H IH|u t l' FU N1 N2 H IH|u t l' FU N1 N2 H IH]; cbn [fst]; try constructor; cbn [fst];
    try (eapply Forall_impl; [|exact IH]; cbn beta; intros e I a HA; specialize (I a HA)); try (apply incl_appl, incl_refl).
  all: cbn [app]; rewrite ?in_app_iff; cbn [In]; rewrite ?in_app_iff; cbn [In]; try tauto.
  - intros a HA. rewrite !in_app_iff in *. cbn [In] in *. tauto.
  - intros a HA. cbn [In] in *. rewrite in_app_iff. tauto.
  - intros a HA. cbn [In] in *. rewrite in_app_iff in *. cbn [In] in *. tauto.
Qed.
Lemma writes_open : forall x l, writes ms x l -> Forall (fun e => snd e = Tok_BraceCurly_Open -> In 123 (fst e)) l.
Proof.
  induction 1 as [|c t l' HC H IH|w k t l' HW HK NW H IH|s k no t l' HS NB H IH|u t l' FU N1 N2 H IH|d t l' ND FD NX1 NX2 H IH|u t l' FU N1 N2 H IH|u t l' FU N1 N2 H IH]; try constructor; cbn [fst snd]; try discriminate; auto.
  - intros K. destruct HK as [(s & HI & -> & _)|[(_ & -> & _)|[(_ & -> & _)|(_ & ->)]]]; try discriminate K. subst k.
    assert (G : forallb (fun p => negb (fst p =? Tok_BraceCurly_Open) || existsb (Z.eqb 123) (txt (snd p))) token_spelling = true) by (vm_compute; reflexivity). rewrite forallb_forall in G. specialize (G _ HI). cbn [fst snd] in G. rewrite Z.eqb_refl in G. cbn [negb orb] in G. apply existsb_exists in G. destruct G as (y & Y & E). apply Z.eqb_eq in E. subst y. exact Y.
  - intros ->. assert (G : forallb (fun '(s, k, no) => negb (k =? Tok_BraceCurly_Open) || existsb (Z.eqb 123) (txt s)) symbols = true) by (vm_compute; reflexivity). rewrite forallb_forall in G. specialize (G _ HS). cbn beta iota in G. rewrite Z.eqb_refl in G. cbn [negb orb] in G. apply existsb_exists in G. destruct G as (y & Y & E). apply Z.eqb_eq in E. subst y. exact Y.
Qed.
Lemma no_brace x l : writes ms x l -> ~ In 123 x -> Forall (fun e => snd e <> Tok_BraceCurly_Open) l.
Proof.
  intros W N. pose proof (writes_chars _ _ W) as C. pose proof (writes_open _ _ W) as O. rewrite Forall_forall in *. intros e HE K. apply N. apply (C e HE). apply (O e HE K).
Qed.
Lemma entry_value_ok v l : Forall2 spells v l -> (l = [] \/ exists e r, l = e :: r /\ is_sym "=" e /\ Forall (fun e => snd e <> Tok_Comma /\ snd e <> Tok_BraceCurly_Close) r) -> entry_value src v.
Proof.
  intros F [-> | (e & r & -> & E & N)]; [inversion F; left; auto|]. right. inversion F as [|k e0 more l0 (_ & S2 & _ & _ & S5) F' E1 E2]; subst. unfold is_sym in E. subst e. exists [], k, more. split; auto. split; [constructor|]. split; [exact S2|]. split; [exact S5|].
  exact (spells_kinds src (fun k => k <> Tok_Comma /\ k <> Tok_BraceCurly_Close) _ _ F' N).
Qed.
Lemma entry_comma x l p toks : phrase ms (x ++ txt ",") (l ++ [(txt ",", Tok_Comma)]) -> entry_written l -> (exists t', src = p ++ (x ++ txt ",") ++ t') -> lined p (x ++ txt ",") toks (l ++ [(txt ",", Tok_Comma)]) ->
  (forall rest, entry src toks rest (x ++ txt ",")) /\ x ++ txt "," <> [].
Proof.
  intros PH (w & v & -> & EV) ST L. destruct (phrase_ok src ms _ _ p toks PH ST L) as (first & more & -> & _ & F & _ & U & NX). split; [|exact NX]. intros rest. cbn [app] in F. inversion F as [|k e mr lr (_ & S2 & _) F' E1 E2]; subst. apply Forall2_app_split in F'. destruct F' as (v' & y & -> & F1 & F2).
  inversion F2 as [|c e1 y' l1 (_ & C2 & _) F3 E3 E4]; subst. inversion F3; subst. rewrite last_last in U. rewrite <- U. apply (en_comma src first v' [] c rest); auto; try exact (Forall_nil _). eapply entry_value_ok; eauto.
Qed.
Lemma entry_last x l p toks : phrase ms x l -> entry_written l -> (exists t', src = p ++ x ++ t') -> lined p x toks l ->
  (forall c r, kind Tok_BraceCurly_Close c -> entry src toks (c :: r) x) /\ x <> [].
Proof.
  intros PH (w & v & -> & EV) ST L. destruct (phrase_ok src ms _ _ p toks PH ST L) as (first & more & -> & _ & F & _ & U & NX). split; [|exact NX]. intros c r KC. inversion F as [|k e mr lr (_ & S2 & _) F' E1 E2]; subst.
  pose proof (en_last src first more [] c r) as G. rewrite app_nil_r in G. apply G; auto; try exact (Forall_nil _). eapply entry_value_ok; eauto.
Qed.
Lemma phrase_last x l p : phrase ms x l -> last (p ++ x) 10 <> 10.
Proof.
  intros ((_ & _ & N10 & _) & (u & c & E & _) & _). rewrite E, app_assoc, last_last. intros ->. apply N10. rewrite E, in_app_iff. right. left. auto.
Qed.
Lemma raw_lx x l : phrase ms x l -> tokens lx (Raw x) = l.
Proof. intros PH. cbn [tokens]. apply lx_ok; apply PH. Qed.
Lemma close_ok p t toks l : last p 10 <> 10 -> at_ p (NL ++ txt "}" ++ t) toks (tk "}" :: l) -> exists c R, toks = c :: R /\ kind Tok_BraceCurly_Close c /\ at_ (p ++ NL ++ txt "}") t R l.
Proof.
  intros N A. apply (at_nl src p _ toks _ N) in A. destruct (at_tok src "}" _ _ _ _ eq_refl A) as (c & R & -> & (_ & KC & _) & _ & A'). exists c, R. split; auto. split; auto. rewrite <- app_assoc in A'. exact A'.
Qed.
Lemma entries_ok : forall es, entries_written ms es -> forall p t toks l, at_ p (concat (map render es) ++ NL ++ txt "}" ++ t) toks (flat_map (tokens lx) es ++ tk "}" :: l) ->
  exists body c R texts, toks = body ++ c :: R /\ es = map Raw texts /\ enum_body src body [c] texts /\ kind Tok_BraceCurly_Close c /\ at_ (p ++ concat (map render es) ++ NL ++ txt "}") t R l.
Proof.
  induction 1 as [x le PH EW|x le r PH EW _ IH|x le PH EW]; intros p t toks l A.
  - cbn [map concat flat_map] in A. rewrite (raw_lx x le PH) in A. cbn [render] in A. rewrite !app_nil_r in A. destruct (at_seg src ms x le _ _ _ _ (proj1 (proj1 PH)) A) as (a & b & -> & L & ST & A1).
    destruct (close_ok _ _ _ _ (phrase_last x le p PH) A1) as (c & R & -> & KC & A2). exists a, c, R, [x]. split; auto. split; auto. destruct (entry_last x le p a PH EW ST L) as (EN & NX). split; [|split; [exact KC|]].
    + rewrite <- (app_nil_r a). apply eb_entry; [apply EN; auto|auto|constructor].
    + cbn [map concat render]. rewrite app_nil_r. rewrite <- app_assoc in A2. exact A2.
  - cbn [map concat flat_map] in A. rewrite (raw_lx _ _ PH) in A. cbn [render] in A. set (y := x ++ txt ",") in *. set (ly := le ++ [(txt ",", Tok_Comma)]) in *. repeat rewrite <- app_assoc in A.
    destruct (at_seg src ms y ly _ _ _ _ (proj1 (proj1 PH)) A) as (a & b & -> & L & ST & A1). destruct (IH _ _ _ _ A1) as (body & c & R & texts & -> & -> & EB & KC & A2). destruct (entry_comma x le p a PH EW ST L) as (EN & NX).
    exists (a ++ body), c, R, (y :: texts). split; [apply app_assoc|]. split; auto. split; [apply eb_entry; auto|]. split; auto. cbn [map concat render]. repeat rewrite <- app_assoc in A2. repeat rewrite <- app_assoc. exact A2.
  - cbn [map concat flat_map] in A. rewrite (raw_lx _ _ PH) in A. cbn [render] in A. rewrite !app_nil_r in A. destruct (at_seg src ms _ _ _ _ _ _ (proj1 (proj1 PH)) A) as (a & b & -> & L & ST & A1).
    destruct (close_ok _ _ _ _ (phrase_last _ _ p PH) A1) as (c & R & -> & KC & A2). exists a, c, R, [x ++ txt ","]. split; auto. split; auto. destruct (entry_comma x le p a PH EW ST L) as (EN & NX). split; [|split; [exact KC|]].
    + rewrite <- (app_nil_r a). apply eb_entry; [apply EN; auto|auto|constructor].
    + cbn [map concat render]. rewrite app_nil_r. rewrite <- app_assoc in A2. exact A2.
Qed.

Lemma entry_kinds l : entry_written l -> Forall (fun e => snd e <> Tok_BraceCurly_Close) l.
Proof.
  intros (w & v & -> & EV). constructor; [discriminate|]. destruct EV as [-> |(e & r & -> & -> & F)]; [constructor|]. constructor; [discriminate|]. eapply Forall_impl; [|exact F]. cbv beta. tauto.
Qed.
Lemma entries_kinds es : entries_written ms es -> entries_flat es -> Forall (fun e => snd e <> Tok_BraceCurly_Open /\ snd e <> Tok_BraceCurly_Close) (flat_map (tokens lx) es).
Proof.
  assert (BOTH : forall x l, phrase ms x l -> ~ In 123 x -> Forall (fun e => snd e <> Tok_BraceCurly_Close) l -> Forall (fun e => snd e <> Tok_BraceCurly_Open /\ snd e <> Tok_BraceCurly_Close) (tokens lx (Raw x))).
  { intros x l PH NB F. rewrite (raw_lx x l PH). pose proof (no_brace x l (proj1 (proj1 PH)) NB) as G. rewrite Forall_forall in *. intros e HE. split; [apply (G e HE)|apply (F e HE)]. }
  induction 1 as [x le PH EW|x le r PH EW _ IH|x le PH EW]; intros EF; cbn [flat_map].
  - rewrite app_nil_r. eapply BOTH; [exact PH|apply EF; left; auto|apply entry_kinds; auto].
  - apply Forall_app. split; [|apply IH; intros y HY; apply EF; right; auto]. eapply BOTH; [exact PH|apply EF; left; auto|]. apply Forall_app. split; [apply entry_kinds; auto|]. repeat constructor. discriminate.
  - rewrite app_nil_r. eapply BOTH; [exact PH|apply EF; left; auto|]. apply Forall_app. split; [apply entry_kinds; auto|]. repeat constructor. discriminate.
Qed.
Lemma flat_braces toks : Forall (fun k => t_type k <> Tok_BraceCurly_Open /\ t_type k <> Tok_BraceCurly_Close) toks -> in_braces toks.
Proof. induction 1 as [|k r (H1 & H2) _ IH]; [constructor|]. apply n_other; auto. Qed.

(** *** the head: enum class? name : type *)
Definition head_text (class : bool) (name : list Z) (y : option typ) : list Z :=
  txt "enum " ++ when class "class " ++ name ++ with_ y (fun t => txt " : " ++ typ_text t).
Definition head_tokens (class : bool) (name : list Z) (y : option typ) : list lexeme :=
  [tk "enum"] ++ tks class "class" ++ lx name ++ tko y (fun t => tk ":" :: typ_tokens lx t).
Lemma head_ok class name y p t toks l : is_name ms name -> oall (plain_typ ms) y -> at_ p (head_text class name y ++ t) toks (head_tokens class name y ++ l) ->
  exists k cl nm und b, toks = k :: cl ++ nm :: und ++ b /\ kind Tok_Decl_Enum k /\ (class = false /\ cl = [] \/ class = true /\ exists c, cl = [c] /\ kind Tok_Decl_Class c) /\
    kind Tok_Identifier nm /\ word src nm = name /\ name <> [] /\ (forall rest, follows src rest -> underlying src und rest y) /\ at_ (p ++ head_text class name y) t b l /\ online (p ++ head_text class name y) /\
    Forall (fun k => tame (t_type k)) (k :: cl ++ nm :: und) /\ (y = None -> und = []) /\
    (forall y1, y = Some y1 -> one_word ms y1 -> exists co ty1, und = [co; ty1] /\ kind Tok_Assign_Classifer co /\ (kind Tok_Identifier ty1 \/ native ty1)).
Proof.
  intros N OT A. pose proof A as A0. unfold head_text, head_tokens in A. change (txt "enum ") with (txt "enum" ++ txt " ") in *. rewrite <- !app_assoc in A. cbn [app] in A. destruct (at_tok src "enum" _ _ _ _ eq_refl A) as (k & t1 & -> & (_ & K1 & _) & _ & A1). apply at_sp in A1.
  assert (Q : exists cl b, t1 = cl ++ b /\ (class = false /\ cl = [] \/ class = true /\ exists c, cl = [c] /\ kind Tok_Decl_Class c) /\
    at_ (((p ++ txt "enum") ++ txt " ") ++ when class "class ") (name ++ with_ y (fun t => txt " : " ++ typ_text t) ++ t) b (lx name ++ tko y (fun t => tk ":" :: typ_tokens lx t) ++ l)).
  { destruct class; cbn [when tks app] in *.
    - change (txt "class ") with (txt "class" ++ txt " ") in *. rewrite <- !app_assoc in A1. destruct (at_tok src "class" _ _ _ _ eq_refl A1) as (c & t2 & -> & (_ & K2 & _) & _ & A2). apply at_sp in A2. exists [c], t2. split; auto. split; [|repeat rewrite <- app_assoc in *; exact A2].
      right. split; auto. exists c. split; auto.
    - exists [], t1. split; [reflexivity|]. split; [left; auto|rewrite app_nil_r; exact A1]. }
  destruct Q as (cl & b & -> & CL & A2). destruct (at_name src ms name _ _ _ _ N A2) as (nm & t3 & -> & K3 & KN & NN & A3). pose proof (online_name ms ((((p ++ txt "enum") ++ txt " ") ++ when class "class ")) name N) as ON.
  destruct y as [y|]; cbn [with_ tko oall app] in *.
  - change (txt " : ") with (txt " " ++ txt ":" ++ txt " ") in *. rewrite <- !app_assoc in A3. apply at_sp in A3. destruct (at_tok src ":" _ _ _ _ eq_refl A3) as (co & t4 & -> & (_ & K4 & _) & _ & A4). apply at_sp in A4. destruct (at_typ src ms y _ _ _ _ OT A4) as (ty_ & t5 & -> & TT & T1 & A5).
    exists k, cl, nm, (co :: ty_), t5. split; auto. split; auto. split; auto. split; auto. split; auto. split; auto. split; [|split; [|split; [|split; [|split; [discriminate|]]]]].
    + intros rest FL. exists [], co, ty_. split; auto. split; [constructor|]. split; [exact K4|]. apply TT. exact FL.
    + unfold head_text. cbn [with_]. change (txt "enum ") with (txt "enum" ++ txt " "). change (txt " : ") with (txt " " ++ txt ":" ++ txt " "). repeat rewrite <- app_assoc in A5. repeat rewrite <- app_assoc. exact A5.
    + pose proof (flat_typ ms y OT). unfold head_text. cbn [with_]. change (txt "enum ") with (txt "enum" ++ txt " "). change (txt " : ") with (txt " " ++ txt ":" ++ txt " "). repeat rewrite <- app_assoc in ON. apply (online_app _ (txt " " ++ txt ":" ++ txt " " ++ typ_text y)) in ON; [|flats]. repeat rewrite <- app_assoc in ON. repeat rewrite <- app_assoc. exact ON.
    + replace (k :: cl ++ nm :: co :: ty_ ++ t5) with ((k :: cl ++ nm :: co :: ty_) ++ t5) in A0 by (repeat (cbn [app]; rewrite <- app_assoc); auto).
      apply (seg_all tame _ (head_tokens class name (Some y))); [exact (seg_kinds _ _ _ _ _ _ _ _ A0 A5)|reflexivity|]. unfold head_tokens. rewrite (name_leaf ms name N). apply Forall_app. split; [repeat constructor|]. apply Forall_app. split; [destruct class; repeat constructor|]. constructor; [reflexivity|]. constructor; [reflexivity|]. apply type_tame; auto.
    + intros y1 Q (W1 & W2 & e & W3). injection Q as <-. destruct (T1 W1) as (k1 & r1 & -> & KK & KE). destruct (KE e []) as (_ & R); [apply lx_ok; [exact W3|discriminate]|]. rewrite (R eq_refl W2). exists co, k1. auto.
  - exists k, cl, nm, [], t3. split; auto. split; auto. split; auto. split; auto. split; auto. split; auto. split; [|split; [|split; [|split; [|split; [auto|discriminate]]]]].
    + intros rest _. reflexivity.
    + unfold head_text. cbn [with_]. change (txt "enum ") with (txt "enum" ++ txt " "). rewrite app_nil_r. repeat rewrite <- app_assoc in A3. repeat rewrite <- app_assoc. exact A3.
    + unfold head_text. cbn [with_]. change (txt "enum ") with (txt "enum" ++ txt " "). rewrite app_nil_r. repeat rewrite <- app_assoc in ON. repeat rewrite <- app_assoc. exact ON.
    + cbn [app] in A0. replace (k :: cl ++ nm :: t3) with ((k :: cl ++ [nm]) ++ t3) in A0 by (repeat (cbn [app]; rewrite <- app_assoc); auto).
      apply (seg_all tame _ (head_tokens class name None)); [exact (seg_kinds _ _ _ _ _ _ _ _ A0 A3)|reflexivity|]. unfold head_tokens. rewrite (name_leaf ms name N). apply Forall_app. split; [repeat constructor|]. apply Forall_app. split; [destruct class; repeat constructor|]. constructor; [reflexivity|]. constructor.
Qed.
Definition enum_as (raw r : list token) (t : tree) : Prop := enum_tokens src raw r t /\ (shaped ms t -> enum_shape raw).
Lemma body_ok class name y es rest lr t : is_name ms name -> oall (plain_typ ms) y -> entries_written ms es ->
  render t = head_text class name y ++ braces (concat (map render es)) ++ txt ";" ++ NL -> tokens lx t = head_tokens class name y ++ curly (flat_map (tokens lx) es) ++ [tk ";"] ->
  (forall texts, es = map Raw texts -> enum_tree class None name y (Some texts) None = Some t) -> comment_of t = None -> (shaped ms t -> entries_flat es) -> parsed_as enum_as t rest lr.
Proof.
  intros N OT EW ER ET EE NC SH p toks A PO. rewrite ER, ET in *. rewrite NC. unfold braces, curly in *. repeat rewrite <- app_assoc in A. cbn [app] in A. destruct (head_ok class name y p _ _ _ N OT A) as (k & cl & nm & und & b & -> & K1 & CL & K2 & KN & NN & UN & A1 & ON & TM & _).
  apply (at_line src _ _ _ _ ON) in A1. destruct (at_tok src "{" _ _ _ _ eq_refl A1) as (o & t1 & -> & (_ & KO & _) & _ & A2). apply at_nl in A2; [|change (txt "{") with [123]; rewrite last_last; discriminate]. repeat rewrite <- app_assoc in A2. cbn [app] in A2.
  pose proof A2 as B2. destruct (entries_ok es EW _ _ _ _ A2) as (body & c & R & texts & -> & ES & EB & KC & A3).
  destruct (at_end src ms None _ (NL ++ rest) R lr I A3) as (k1 & more & R1 & -> & SK & SE & MO & A4).
  { apply Forall_inv_tail, positioned_app, Forall_inv_tail, positioned_app, Forall_inv_tail, positioned_app, Forall_inv_tail in PO. exact PO. }
  { rewrite !app_assoc. eexists _, 125, []. split; [reflexivity|]. split; [unfold spacep; cbn; lia|]. split; [discriminate|]. intros []. }
  rewrite (MO eq_refl) in *. clear MO more. specialize (EE texts ES). pose proof (proj1 SK) as K3.
  assert (RAW : k :: cl ++ nm :: und ++ (o :: body ++ [c]) ++ [k1] = (k :: cl ++ nm :: und ++ o :: body ++ [c]) ++ [k1]) by (repeat (cbn [app]; rewrite <- app_assoc); auto).
  exists (k :: cl ++ nm :: und ++ (o :: body ++ [c]) ++ [k1]), R1. split; [repeat (cbn [app]; rewrite <- app_assoc); auto|]. split; [|split].
  - intros _. apply m_end in A4. cbn [with_ app] in A4. rewrite ?app_nil_r in A4. repeat rewrite <- app_assoc in A4. repeat rewrite <- app_assoc. exact A4.
  - intros _. rewrite RAW. eexists _, k1, _. split; [reflexivity|]. split; [exact SK|]. repeat rewrite <- app_assoc. reflexivity.
  - intros b EN. rewrite RAW in EN. apply ended_last in EN. rewrite <- KN in EE. split.
    + pose proof (et src k class cl [] None [] nm und y (o :: body ++ [c]) (Some texts) [k1] (R1 ++ b) None t) as G. cbn [app] in G. cbn [app]. apply G; auto; try exact (Forall_nil _); clear G.
      * destruct CL as [(-> & ->)|(-> & c0 & -> & KD)]; [left; auto|]. right. split; auto. exists [], c0. split; auto. split; [constructor|exact KD].
      * reflexivity.
      * rewrite KN. exact NN.
      * apply UN. eapply simple_follows; [|exact KO]. reflexivity.
      * exists [], o, body, c. split; auto. split; [constructor|]. split; [exact KO|]. auto.
    + intros S1. exists (k :: cl ++ nm :: und ++ o :: body ++ [c]), k1, []. rewrite RAW. split; auto. split; auto. left. exists (k :: cl ++ nm :: und), o, body, c. split; [repeat (cbn [app]; rewrite <- app_assoc); auto|]. split; [apply tame_plain; exact TM|]. split; [exact KO|]. split; [|exact KC].
      apply flat_braces. apply (seg_all (fun k => k <> Tok_BraceCurly_Open /\ k <> Tok_BraceCurly_Close) body (flat_map (tokens lx) es)); [|split; discriminate|apply entries_kinds; auto].
      apply at_lined in B2. destruct B2 as (_ & B2). apply lined_kinds in B2. apply at_lined in A3. destruct A3 as (_ & A3). apply lined_kinds in A3. rewrite solids_app, !map_app in B2. unfold solids at 2 in B2. cbn [filter] in B2. unfold kind in KC. rewrite KC in B2. cbn [Z.eqb Pos.eqb] in B2.
      change (Tok_BraceCurly_Close =? Tok_NewLine) with false in B2. cbn [negb map] in B2. fold (solids ((k1 :: []) ++ R1)) in B2. rewrite KC, A3 in B2. change (map snd (tk "}" :: tk ";" :: tko None lx ++ lr)) with (Tok_BraceCurly_Close :: map snd (tk ";" :: tko None lx ++ lr)) in B2. apply app_inv_tail in B2. exact B2.
Qed.
Lemma fwd_ok class name y cmt rest lr t : is_name ms name -> oall (plain_typ ms) y -> oall line_comment_text cmt ->
  render t = head_text class name y ++ semi cmt -> tokens lx t = head_tokens class name y ++ end_tokens lx cmt ->
  enum_tree class None name y None cmt = Some t -> comment_of t = cmt -> (shaped ms t -> (class = false /\ y = None) \/ (class = true /\ exists y1, y = Some y1 /\ one_word ms y1)) -> parsed_as enum_as t rest lr.
Proof.
  intros N OT OC ER ET EE NC SH p toks A PO. rewrite ER, ET in *. rewrite NC. rewrite <- !app_assoc in A. destruct (head_ok class name y p _ _ _ N OT A) as (k & cl & nm & und & b & -> & K1 & CL & K2 & KN & NN & UN & A1 & ON & TM & U0 & U1).
  destruct (at_semi src ms cmt _ rest b lr OC A1) as (semi_ & more & R & -> & SK0 & SE & MO & A4); [|exact ON|].
  { apply Forall_inv_tail, positioned_app, Forall_inv_tail, positioned_app in PO. exact PO. }
  pose proof (proj1 SK0) as SK. assert (RAW : k :: cl ++ nm :: und ++ semi_ :: more = (k :: cl ++ nm :: und) ++ semi_ :: more) by (repeat (cbn [app]; rewrite <- app_assoc); auto).
  exists (k :: cl ++ nm :: und ++ semi_ :: more), R. split; [repeat (cbn [app]; rewrite <- app_assoc); auto|]. split; [intros _; repeat rewrite <- app_assoc in A4; repeat rewrite <- app_assoc; exact A4|]. split.
  { intros ->. rewrite RAW, MO by auto. eexists _, semi_, _. split; [reflexivity|]. split; [exact SK0|]. unfold semi. cbn [with_ app]. repeat rewrite <- app_assoc. reflexivity. }
  intros b EN. rewrite RAW in EN. apply ended_last in EN. rewrite <- KN in EE. split.
  - pose proof (et src k class cl [] None [] nm und y [] None (semi_ :: more) (R ++ b) cmt t) as G. cbn [app] in G. apply G; auto; try exact (Forall_nil _); clear G.
    + destruct CL as [(-> & ->)|(-> & c0 & -> & KD)]; [left; auto|]. right. split; auto. exists [], c0. split; auto. split; [constructor|exact KD].
    + reflexivity.
    + rewrite KN. exact NN.
    + apply UN. eapply simple_follows; [|exact SK]. reflexivity.
    + reflexivity.
  - intros S1. exists (k :: cl ++ nm :: und), semi_, more. split; auto. split; auto. right. apply tame_plain in TM. destruct (SH S1) as [(-> & ->)|(-> & y1 & -> & OW)].
    + left. destruct CL as [(_ & ->)|(Q & _)]; [|discriminate Q]. rewrite (U0 eq_refl) in *. cbn [app] in *. exists k, nm. auto.
    + right. destruct CL as [(Q & _)|(_ & c0 & -> & KD)]; [discriminate Q|]. destruct (U1 y1 eq_refl OW) as (co & ty1 & -> & KCO & KT). cbn [app] in *. exists k, c0, nm, co, ty1. auto 9.
Qed.

Lemma enum_ok t rest lr : plain ms t -> (match t with Enum _ _ _ _ _ | EnumClass _ _ _ _ _ | EnumFwd _ _ _ _ _ | EnumClassFwd _ _ _ _ _ => True | _ => False end) -> parsed_as enum_as t rest lr.
Proof.
  intros P K. destruct P as [| | | | |name y es N OT EW|name y es N OT EW|name y cmt N OT OC|name y cmt N OT OC]; try contradiction.
  - apply (body_ok false name y es); auto.
    + cbn [render with_ when app]. unfold head_text. cbn [when app]. repeat rewrite <- app_assoc. reflexivity.
    + cbn [tokens tko tks app]. unfold head_tokens. cbn [tks app]. repeat rewrite <- app_assoc. reflexivity.
    + intros texts ->. reflexivity.
  - apply (body_ok true name (Some y) es); auto.
    + cbn [render with_ when app]. unfold head_text. cbn [when app with_]. change (txt "enum class ") with (txt "enum " ++ txt "class "). repeat rewrite <- app_assoc. reflexivity.
    + cbn [tokens tko tks app]. unfold head_tokens. cbn [tks app tko]. repeat (cbn [app]; rewrite <- app_assoc). reflexivity.
    + intros texts ->. reflexivity.
  - apply (fwd_ok false name y cmt); auto.
    + cbn [render with_ when app]. unfold head_text. cbn [when app]. repeat rewrite <- app_assoc. reflexivity.
    + cbn [tokens tko tks app]. unfold head_tokens. cbn [tks app]. repeat rewrite <- app_assoc. reflexivity.
  - apply (fwd_ok true name (Some y) cmt); auto.
    + cbn [render with_ when app]. unfold head_text. cbn [when app with_]. change (txt "enum class ") with (txt "enum " ++ txt "class "). repeat rewrite <- app_assoc. reflexivity.
    + cbn [tokens tko tks app]. unfold head_tokens. cbn [tks app tko]. repeat (cbn [app]; rewrite <- app_assoc). reflexivity.
    + intros S1. right. split; auto. exists y. auto.
Qed.
End P.
