(** The tokens of a written text, with their places: [lined p t toks l] says that the text [t], which stands behind
    [p], is covered by [toks], of which those that are no line ends have the texts and kinds [l]. *)
From Coq Require Import String ZArith List Bool Lia ZifyBool ZifyNat.
From Verif Require Import Common HashModel Text EnumModel EnumSpec LexModel LexSpec LexProofs RelexSpec RelexProofs RelexProofs2 RelexProofs3.
Import ListNotations.
Close Scope string_scope.
Open Scope Z_scope.

(** a closing quote is not part of the token *)
Definition closing (k : Z) (q : list Z) : Prop := k <> Tok_String /\ q = [] \/ k = Tok_String /\ q = [34].
Definition token_at (p : list Z) (w : list Z) (k : Z) (tk : token) : Prop := t_start tk = zlen p /\ t_len tk = zlen w /\ t_type tk = k /\ marked w tk.
Definition solid_head (w : list Z) : Prop := exists c u, w = c :: u /\ ~ blank c.
Inductive lined : list Z -> list Z -> list token -> list lexeme -> Prop :=
| ln_end p : lined p [] [] []
| ln_blank p c t toks l : blank c -> lined (p ++ [c]) t toks l -> lined p (c :: t) toks l
| ln_newline p t tk toks l : last p 10 = 10 -> t_type tk = Tok_NewLine -> lined (p ++ [10]) t toks l -> lined p (10 :: t) (tk :: toks) l
| ln_token p w k q t tk toks l : solid_head w -> k <> Tok_NewLine -> token_at p w k tk -> closing k q ->
    lined (p ++ w ++ q) t toks l -> lined p (w ++ q ++ t) (tk :: toks) ((w, k) :: l).

Lemma lined_blanks g : Forall blank g -> forall p t toks l, lined (p ++ g) t toks l -> lined p (g ++ t) toks l.
Proof.
  induction 1 as [|c g B _ IH]; intros p t toks l H; cbn [app].
  - rewrite app_nil_r in H. exact H.
  - apply ln_blank; auto. apply IH. rewrite <- app_assoc. exact H.
Qed.

Lemma laid_lined src : forall p toks, laid src p toks -> forall t, src = p ++ t -> Forall shape (lexemes_of src toks) -> lined p t toks (visible (lexemes_of src toks)).
Proof.
  induction 1 as [p t0 E0 B|p tk p' toks s t' E' TX PL _ IH]; intros t E SH.
  - assert (t = t0) as -> by (rewrite E0 in E; apply app_inv_head in E; auto). rewrite <- (app_nil_r t0). apply lined_blanks; auto. constructor.
  - destruct PL as (g & FG & (PS & PL & (x & -> & GO) & MK) & NW & _). cbn [lexemes_of map] in SH. pose proof (Forall_inv SH) as S1. apply Forall_inv_tail in SH. specialize (IH t' E' SH).
    assert (t = g ++ s ++ x ++ t') as ->. { rewrite E in E'. rewrite <- !app_assoc in E'. apply app_inv_head in E'. exact E'. }
    rewrite TX in S1. unfold visible, lexemes_of. cbn [map filter snd]. rewrite TX. fold (lexemes_of src toks). fold (visible (lexemes_of src toks)). apply lined_blanks; [exact FG|]. destruct S1 as [(K & W)|(K & c & u & W & NB)]; cbn [fst snd] in *.
    + rewrite K, Z.eqb_refl. cbn [negb]. subst s. rewrite W in *. cbn [app]. destruct (NW eq_refl) as (-> & C1). rewrite app_nil_r in *. apply ln_newline; auto.
      * destruct p as [|a p] using rev_ind; [reflexivity|]. rewrite last_last. destruct (Z.eq_dec a 10) as [|N]; auto. exfalso. apply (col_after src p a ([10] ++ x ++ t')) in N; [auto|]. rewrite E at 1. rewrite <- !app_assoc. reflexivity.
      * destruct GO as [(_ & GB)|(KS & _)]; [|rewrite K in KS; discriminate KS]. apply lined_blanks; auto. rewrite <- app_assoc. exact IH.
    + replace (t_type tk =? Tok_NewLine) with false by lia. cbn [negb]. subst s. destruct GO as [(KS & GB)|(KS & ->)].
      * change (text_of src tk ++ x ++ t') with (text_of src tk ++ [] ++ x ++ t'). apply ln_token; [exists c, u; auto|auto|split; auto|left; auto|]. apply lined_blanks; auto. rewrite app_nil_r, <- !app_assoc in *. exact IH.
      * apply ln_token; [exists c, u; auto|auto|split; auto|right; auto|]. exact IH.
Qed.

Lemma lex_lined src ms fuel l : Forall (fun c => 0 <= c < 256) src -> zlen src + 2 <= Z.of_nat fuel -> writes ms src l -> l <> [] ->
  exists toks, lex src fuel ms = Done (Some (toks, ms)) /\ lined [] src toks l.
Proof.
  intros B F W NE. destruct (lex_lays src B ms fuel F l W NE) as (toks & g & u & L & V & SH & E & FG & LD). exists toks. split; [exact L|].
  rewrite E at 1. apply lined_blanks; auto. rewrite <- V. apply laid_lined; auto.
Qed.

(** ** taking it apart *)
Lemma lined_space p t toks l : lined p (32 :: t) toks l -> lined (p ++ [32]) t toks l.
Proof.
  intros H. remember (32 :: t) as e eqn:E. destruct H; try discriminate.
  - injection E as -> ->. auto.
  - destruct H as (c & u & -> & N). injection E as -> _. exfalso. apply N. left. auto.
Qed.
(** a line end behind something that is no line end *)
Lemma lined_line p t toks l : last p 10 <> 10 -> lined p (10 :: t) toks l -> lined (p ++ [10]) t toks l.
Proof.
  intros N H. remember (10 :: t) as e eqn:E. destruct H; try discriminate; try contradiction.
  - injection E as -> ->. auto.
  - destruct H as (c & u & -> & NB). injection E as -> _. exfalso. apply NB. right. auto.
Qed.
Lemma lined_nl p t toks l : lined p (10 :: t) toks l -> exists g toks', toks = g ++ toks' /\ Forall (fun k => t_type k = Tok_NewLine) g /\ lined (p ++ [10]) t toks' l.
Proof.
  intros H. remember (10 :: t) as e eqn:E. destruct H; try discriminate.
  - injection E as -> ->. exists [], toks. auto.
  - injection E as ->. exists [tk], toks. auto.
  - destruct H as (c & u & -> & N). injection E as -> _. exfalso. apply N. right. auto.
Qed.
Lemma closing_fun k q q' : closing k q -> closing k q' -> q = q'.
Proof. intros [[? ->]|[? ->]] [[? ->]|[? ->]]; congruence. Qed.
Lemma lined_tok p w k q t toks l : solid_head w -> closing k q -> lined p (w ++ q ++ t) toks ((w, k) :: l) ->
  exists tk toks', toks = tk :: toks' /\ token_at p w k tk /\ k <> Tok_NewLine /\ lined (p ++ w ++ q) t toks' l.
Proof.
  intros SW C H. remember (w ++ q ++ t) as e eqn:E. remember ((w, k) :: l) as ll eqn:EL. destruct H; try discriminate.
  - exfalso. destruct SW as (x & y & -> & N). injection E as -> _. contradiction.
  - exfalso. destruct SW as (x & y & -> & N). injection E as E1 _. apply N. right. auto.
  - injection EL as -> -> ->. apply (closing_fun _ _ _ C) in H2. subst q0. apply app_inv_head in E. apply app_inv_head in E. subst t0. exists tk, toks. auto.
Qed.
Lemma lined_none p toks l : lined p [] toks l -> toks = [] /\ l = [].
Proof.
  intros H. remember [] as e eqn:E. destruct H; try discriminate; auto. destruct H as (c & u & -> & N). discriminate E.
Qed.

Section W.
Variable ms : macros.
(** the words of a text *)
Lemma writes_head : forall x l, writes ms x l -> Forall (fun e => solid_head (fst e) /\ snd e <> Tok_NewLine) l.
Proof.
  intros x l W. pose proof (writes_visible ms 0%nat _ _ W) as V. destruct (writes_reads ms x l W) as (l' & R & E). rewrite V in E. subst l. apply (reads_shape ms 0%nat) in R. clear - R.
  induction R as [|e l' S _ IH]; [constructor|]. unfold visible. cbn [filter]. destruct (Z.eqb_spec (snd e) Tok_NewLine) as [K|K]; cbn [negb]; [exact IH|]. constructor; [|exact IH].
  destruct S as [(S & _)|(_ & S)]; [contradiction|]. split; auto.
Qed.
Lemma symbol_closing s k no : In (s, k, no) symbols -> closing k [].
Proof.
  intros HS. left. split; auto. assert (G : forallb (fun '(s, k, no) => negb (k =? Tok_String)) symbols = true) by (vm_compute; reflexivity). rewrite forallb_forall in G. specialize (G _ HS). cbn beta iota in G. lia.
Qed.
(** a written text takes its tokens *)
Lemma lined_split : forall x lx, writes ms x lx -> forall p rest toks l, lined p (x ++ rest) toks (lx ++ l) ->
  exists toks1 toks2, toks = toks1 ++ toks2 /\ lined p x toks1 lx /\ lined (p ++ x) rest toks2 l.
Proof.
  intros x lx W. assert (TOKEN : forall w k q t l', solid_head w -> closing k q ->
    (forall p rest toks l, lined p (t ++ rest) toks (l' ++ l) -> exists toks1 toks2, toks = toks1 ++ toks2 /\ lined p t toks1 l' /\ lined (p ++ t) rest toks2 l) ->
    forall p rest toks l, lined p ((w ++ q ++ t) ++ rest) toks (((w, k) :: l') ++ l) -> exists toks1 toks2, toks = toks1 ++ toks2 /\ lined p (w ++ q ++ t) toks1 ((w, k) :: l') /\ lined (p ++ w ++ q ++ t) rest toks2 l).
  { intros w k q t l' SW C IH p rest toks l H. rewrite <- !app_assoc in H. destruct (lined_tok _ _ _ _ _ _ _ SW C H) as (tk & toks' & -> & TA & NN & H'). destruct (IH _ _ _ _ H') as (toks1 & toks2 & -> & H1 & H2).
    exists (tk :: toks1), toks2. split; auto. split; [apply ln_token; auto|]. rewrite <- !app_assoc in H2. exact H2. }
  assert (PLAIN : forall k, k <> Tok_String -> closing k []) by (intros k K; left; auto).
  pose proof (writes_head x lx W) as SH.
  induction W as [|c t l' HC H IH|w k t l' HW HK NW H IH|s k no t l' HS NB H IH|u t l' FU N1 N2 H IH|d t l' ND FD NX1 NX2 H IH|u t l' FU N1 N2 H IH|u t l' FU N1 N2 H IH].
  - intros p rest toks l H. exists [], toks. cbn [app] in H. rewrite app_nil_r. split; auto. split; [constructor|exact H].
  - intros p rest toks l L. specialize (IH SH). destruct HC as [-> | ->]; cbn [app] in L.
    + apply lined_space in L. destruct (IH _ _ _ _ L) as (toks1 & toks2 & -> & H1 & H2). exists toks1, toks2. split; auto. split; [apply ln_blank; [left; auto|exact H1]|]. rewrite <- app_assoc in H2. exact H2.
    + assert (Q : exists g toks', toks = g ++ toks' /\ lined (p ++ [10]) (t ++ rest) toks' (l' ++ l) /\ forall tt ll, lined (p ++ [10]) t tt ll -> lined p (10 :: t) (g ++ tt) ll).
      { remember (10 :: t ++ rest) as e eqn:E. destruct L as [m|m c0 t0 tk l0 B0 L0|m t0 tk toks l0 S0 K0 L0|m w k q t0 tk toks l0 SW K0 T0 C0 L0]; try discriminate.
        - injection E as -> ->. exists [], tk. split; auto. split; auto. intros tt ll HH. apply ln_blank; [right; auto|exact HH].
        - injection E as ->. exists [tk], toks. split; auto. split; auto. intros tt ll HH. apply ln_newline; auto.
        - exfalso. destruct SW as (c & u & -> & N). injection E as -> _. apply N. right. auto. }
      destruct Q as (g & toks' & -> & L' & Q). destruct (IH _ _ _ _ L') as (toks1 & toks2 & -> & H1 & H2). exists (g ++ toks1), toks2. split; [apply app_assoc|]. split; [apply Q; exact H1|]. rewrite <- app_assoc in H2. exact H2.
  - pose proof (Forall_inv SH) as (S1 & _). apply Forall_inv_tail in SH. apply (TOKEN w k [] t l'); auto. apply PLAIN. eapply kind_not_string; eauto.
  - pose proof (Forall_inv SH) as (S1 & _). apply Forall_inv_tail in SH. apply (TOKEN (txt s) k [] t l'); auto. eapply symbol_closing; eauto.
  - pose proof (Forall_inv SH) as (S1 & _). apply Forall_inv_tail in SH. replace (txt "//" ++ u ++ 10 :: t) with ((txt "//" ++ u ++ [10]) ++ [] ++ t) by (rewrite <- !app_assoc; reflexivity). apply TOKEN; auto. apply PLAIN. discriminate.
  - pose proof (Forall_inv SH) as (S1 & _). apply Forall_inv_tail in SH. apply (TOKEN d Tok_Number [] t l'); auto. apply PLAIN. discriminate.
  - pose proof (Forall_inv SH) as (S1 & _). apply Forall_inv_tail in SH. apply (TOKEN (34 :: u) Tok_String [34] t l'); auto. right. auto.
  - pose proof (Forall_inv SH) as (S1 & _). apply Forall_inv_tail in SH. replace (39 :: u ++ 39 :: t) with ((39 :: u ++ [39]) ++ [] ++ t) by (cbn [app]; rewrite <- !app_assoc; reflexivity). apply TOKEN; auto. apply PLAIN. discriminate.
Qed.
End W.

(** ** with the states of the lexer: inside a line, at the beginning of one, or behind a [;] or [}], which take the end of their line with them *)
Inductive mode := InLine | Fresh | Behind.
Definition after (k : Z) : mode := if k =? Tok_Comment then Fresh else if (k =? Tok_Statement_End) || (k =? Tok_BraceCurly_Close) then Behind else InLine.
Definition spaced (m : mode) : mode := match m with Behind => Behind | _ => InLine end.
Inductive modal : mode -> list Z -> list Z -> list token -> list lexeme -> Prop :=
| md_end m p : modal m p [] [] []
| md_space m p t toks l : modal (spaced m) (p ++ [32]) t toks l -> modal m p (32 :: t) toks l
| md_line p t toks l : modal InLine (p ++ [10]) t toks l -> modal InLine p (10 :: t) toks l
| md_line_end p t toks l : modal Fresh (p ++ [10]) t toks l -> modal Behind p (10 :: t) toks l
| md_newline p t tk toks l : last p 10 = 10 -> t_type tk = Tok_NewLine -> modal Fresh (p ++ [10]) t toks l -> modal Fresh p (10 :: t) (tk :: toks) l
| md_token m p w k q t tk toks l : solid_head w -> k <> Tok_NewLine -> token_at p w k tk -> closing k q ->
    modal (after k) (p ++ w ++ q) t toks l -> modal m p (w ++ q ++ t) (tk :: toks) ((w, k) :: l).
Lemma modal_lined m p t toks l : modal m p t toks l -> lined p t toks l.
Proof.
  induction 1; try (apply ln_blank; [|assumption]); [constructor|left; auto|right; auto|right; auto| |].
  - apply ln_newline; auto.
  - apply ln_token; auto.
Qed.
(** the state does not matter in front of a token *)
Lemma modal_any m m' p t toks l : ~ In (hd 0 t) [32; 10] -> modal m p t toks l -> modal m' p t toks l.
Proof.
  intros N H. destruct H; try (exfalso; apply N; cbn; tauto); [constructor|]. apply md_token; auto.
Qed.
Lemma modal_space m p t toks l : modal m p (32 :: t) toks l -> modal (spaced m) (p ++ [32]) t toks l.
Proof.
  intros H. remember (32 :: t) as e eqn:E. destruct H; try discriminate.
  - injection E as ->. auto.
  - destruct H as (c & u & -> & N). injection E as -> _. exfalso. apply N. left. auto.
Qed.
Lemma modal_nl m p t toks l : modal m p (10 :: t) toks l -> m = InLine /\ modal InLine (p ++ [10]) t toks l \/ m = Behind /\ modal Fresh (p ++ [10]) t toks l \/
  m = Fresh /\ last p 10 = 10 /\ exists tk toks', toks = tk :: toks' /\ t_type tk = Tok_NewLine /\ modal Fresh (p ++ [10]) t toks' l.
Proof.
  intros H. remember (10 :: t) as e eqn:E. destruct H; try discriminate.
  - injection E as ->. auto.
  - injection E as ->. auto.
  - injection E as ->. right. right. split; auto. split; auto. eauto.
  - destruct H as (c & u & -> & N). injection E as -> _. exfalso. apply N. right. auto.
Qed.
Lemma modal_tok m p w k q t toks l : solid_head w -> closing k q -> modal m p (w ++ q ++ t) toks ((w, k) :: l) ->
  exists tk toks', toks = tk :: toks' /\ token_at p w k tk /\ k <> Tok_NewLine /\ modal (after k) (p ++ w ++ q) t toks' l.
Proof.
  intros SW C H. remember (w ++ q ++ t) as e eqn:E. remember ((w, k) :: l) as ll eqn:EL. destruct H; try discriminate;
    try (exfalso; destruct SW as (x & y & -> & N); injection E as E1 _; subst; apply N; (left; reflexivity) || (right; reflexivity)).
  injection EL as -> -> ->. apply (closing_fun _ _ _ C) in H2. subst q0. apply app_inv_head in E. apply app_inv_head in E. subst t0. exists tk, toks. auto.
Qed.
Lemma behind_spaces : forall g p t toks l, Forall (eq 32) g -> modal Behind (p ++ g) t toks l -> modal Behind p (g ++ t) toks l.
Proof.
  induction g as [|c g IH]; intros p t toks l F H; cbn [app]; [rewrite app_nil_r in H; exact H|]. pose proof (Forall_inv F) as <-. apply md_space. apply IH; [apply (Forall_inv_tail F)|]. rewrite <- app_assoc. exact H.
Qed.
Section M.
Variable ms : macros.
Definition in_line (k : Z) : bool := match after k with InLine => true | _ => false end.
Lemma in_line_ok k : in_line k = true -> after k = InLine. Proof. unfold in_line. destruct (after k); congruence. Qed.
Lemma word_after w t k : is_word w -> word_kind ms w t k -> after k = InLine.
Proof.
  intros IW [(s & H & -> & _)|[(_ & -> & _)|[(_ & -> & _)|(_ & ->)]]]; try reflexivity. apply is_word_head in IW. destruct IW as (c & u & EW & (WC & _) & _).
  assert (G : forallb (fun p => in_line (fst p) || match txt (snd p) with c :: _ => existsb (Z.eqb c) (txt ";}/") | [] => true end) token_spelling = true) by (vm_compute; reflexivity).
  rewrite forallb_forall in G. specialize (G _ H). cbn [fst snd] in G. apply in_line_ok. destruct (in_line k); auto. exfalso. rewrite EW in G. cbn [orb] in G. apply existsb_exists in G. destruct G as (y & Y & E). apply Z.eqb_eq in E. subst y. change (txt ";}/") with [59; 125; 47] in Y. unfold word_char in WC. destruct Y as [Y|[Y|[Y|[]]]]; rewrite <- Y in WC; lia.
Qed.
Lemma symbol_kind s k no : In (s, k, no) symbols -> k <> Tok_NewLine.
Proof. intros H. assert (G : forallb (fun '(s, k, no) => negb (k =? Tok_NewLine)) symbols = true) by (vm_compute; reflexivity). rewrite forallb_forall in G. specialize (G _ H). cbn beta iota in G. lia. Qed.
Lemma symbol_after s k no : In (s, k, no) symbols -> no_stop s -> after k = InLine.
Proof.
  intros H N. assert (G : forallb (fun '(s, k, no) => in_line k || existsb (String.eqb s) (map fst stops)) symbols = true) by (vm_compute; reflexivity). rewrite forallb_forall in G. specialize (G _ H). cbn beta iota in G.
  apply in_line_ok. destruct (in_line k); auto. exfalso. apply N. cbn [orb] in G. apply existsb_exists in G. destruct G as (y & Y & E). apply String.eqb_eq in E. subst y. exact Y.
Qed.
Lemma modal_split : forall x lx, writes ms x lx -> forall m p rest toks l, modal m p (x ++ rest) toks (lx ++ l) ->
  exists toks1 toks2 m', toks = toks1 ++ toks2 /\ lined p x toks1 lx /\ modal m' (p ++ x) rest toks2 l.
Proof.
  intros x lx W. assert (TOKEN : forall w k q t l', solid_head w -> closing k q ->
    (forall m p rest toks l, modal m p (t ++ rest) toks (l' ++ l) -> exists toks1 toks2 m', toks = toks1 ++ toks2 /\ lined p t toks1 l' /\ modal m' (p ++ t) rest toks2 l) ->
    forall m p rest toks l, modal m p ((w ++ q ++ t) ++ rest) toks (((w, k) :: l') ++ l) -> exists toks1 toks2 m', toks = toks1 ++ toks2 /\ lined p (w ++ q ++ t) toks1 ((w, k) :: l') /\ modal m' (p ++ w ++ q ++ t) rest toks2 l).
  { intros w k q t l' SW C IH m p rest toks l H. rewrite <- !app_assoc in H. destruct (modal_tok _ _ _ _ _ _ _ _ SW C H) as (tk & toks' & -> & TA & NN & H'). destruct (IH _ _ _ _ _ H') as (toks1 & toks2 & m' & -> & H1 & H2).
    exists (tk :: toks1), toks2, m'. split; auto. split; [apply ln_token; auto|]. rewrite <- !app_assoc in H2. exact H2. }
  assert (PLAIN : forall k, k <> Tok_String -> closing k []) by (intros k K; left; auto).
  pose proof (writes_head ms x lx W) as SH.
  induction W as [|c t l' HC H IH|w k t l' HW HK NW H IH|s k no t l' HS NB H IH|u t l' FU N1 N2 H IH|d t l' ND FD NX1 NX2 H IH|u t l' FU N1 N2 H IH|u t l' FU N1 N2 H IH].
  - intros m p rest toks l H. exists [], toks, m. cbn [app] in H. rewrite app_nil_r. split; auto. split; [constructor|exact H].
  - intros m p rest toks l L. specialize (IH SH). destruct HC as [-> | ->]; cbn [app] in L.
    + apply modal_space in L. destruct (IH _ _ _ _ _ L) as (toks1 & toks2 & m' & -> & H1 & H2). exists toks1, toks2, m'. split; auto. split; [apply ln_blank; [left; auto|exact H1]|]. rewrite <- app_assoc in H2. exact H2.
    + assert (Q : exists g toks' m', toks = g ++ toks' /\ modal m' (p ++ [10]) (t ++ rest) toks' (l' ++ l) /\ forall tt ll, lined (p ++ [10]) t tt ll -> lined p (10 :: t) (g ++ tt) ll).
      { apply modal_nl in L. destruct L as [(_ & L)|[(_ & L)|(_ & S0 & tk & toks' & -> & K0 & L)]].
        - exists [], toks, InLine. split; auto. split; auto. intros tt ll HH. apply ln_blank; [right; auto|exact HH].
        - exists [], toks, Fresh. split; auto. split; auto. intros tt ll HH. apply ln_blank; [right; auto|exact HH].
        - exists [tk], toks', Fresh. split; auto. split; auto. intros tt ll HH. apply ln_newline; auto. }
      destruct Q as (g & toks' & m1 & -> & L' & Q). destruct (IH _ _ _ _ _ L') as (toks1 & toks2 & m' & -> & H1 & H2). exists (g ++ toks1), toks2, m'. split; [apply app_assoc|]. split; [apply Q; exact H1|]. rewrite <- app_assoc in H2. exact H2.
  - pose proof (Forall_inv SH) as (S1 & _). apply Forall_inv_tail in SH. specialize (IH SH). apply (TOKEN w k [] t l'); auto. apply PLAIN. eapply kind_not_string; eauto.
  - pose proof (Forall_inv SH) as (S1 & _). apply Forall_inv_tail in SH. specialize (IH SH). apply (TOKEN (txt s) k [] t l'); auto. eapply symbol_closing; eauto.
  - pose proof (Forall_inv SH) as (S1 & _). apply Forall_inv_tail in SH. specialize (IH SH). replace (txt "//" ++ u ++ 10 :: t) with ((txt "//" ++ u ++ [10]) ++ [] ++ t) by (rewrite <- !app_assoc; reflexivity). apply TOKEN; auto. apply PLAIN. discriminate.
  - pose proof (Forall_inv SH) as (S1 & _). apply Forall_inv_tail in SH. specialize (IH SH). apply (TOKEN d Tok_Number [] t l'); auto. apply PLAIN. discriminate.
  - pose proof (Forall_inv SH) as (S1 & _). apply Forall_inv_tail in SH. specialize (IH SH). apply (TOKEN (34 :: u) Tok_String [34] t l'); auto. right. auto.
  - pose proof (Forall_inv SH) as (S1 & _). apply Forall_inv_tail in SH. specialize (IH SH). replace (39 :: u ++ 39 :: t) with ((39 :: u ++ [39]) ++ [] ++ t) by (cbn [app]; rewrite <- !app_assoc; reflexivity). apply TOKEN; auto. apply PLAIN. discriminate.
Qed.

(** *** where the tokens are, up to blanks *)
Variable src : list Z.
Inductive loose : list Z -> list token -> Prop :=
| lo_end e : loose e []
| lo_line e k r : t_type k = Tok_NewLine -> loose e r -> loose e (k :: r)
| lo_tok e g k w q t r : Forall blank g -> t_type k <> Tok_NewLine -> solid_head w -> src = e ++ g ++ w ++ q ++ t -> token_at (e ++ g) w (t_type k) k -> text_of src k = w -> closing (t_type k) q ->
    loose (e ++ g ++ w ++ q) r -> loose e (k :: r).
Lemma loose_back e x toks : Forall blank x -> loose (e ++ x) toks -> loose e toks.
Proof.
  intros FX H. remember (e ++ x) as e' eqn:E. revert E. induction H as [e'|e' k r K _ IH|e' g k w q t r FG K SW ES TA TX C L IH]; intros E.
  - constructor.
  - apply lo_line; auto.
  - subst e'. apply (lo_tok e (x ++ g) k w q t r); auto.
    + apply Forall_app. auto.
    + rewrite ES, <- !app_assoc. auto.
    + rewrite app_assoc. exact TA.
    + rewrite <- !app_assoc in L |- *. exact L.
Qed.
Lemma laid_loose : forall p toks, laid src p toks -> Forall shape (lexemes_of src toks) -> loose p toks.
Proof.
  induction 1 as [p t0 E0 B|p tk p' toks s t' E' TX PL _ IH]; intros SH; [constructor|]. cbn [lexemes_of map] in SH. pose proof (Forall_inv SH) as S1. apply Forall_inv_tail in SH. specialize (IH SH).
  destruct PL as (g & FG & (PS & PL & (x & -> & GO) & MK) & NW). rewrite TX in S1. destruct S1 as [(K & W)|(K & c & u & W & NB)]; cbn [fst snd] in *.
  - apply lo_line; auto. subst s. rewrite W in *. apply (loose_back p (g ++ [10] ++ x)).
    + destruct GO as [(_ & GB)|(KS & _)]; [|rewrite K in KS; discriminate KS]. apply Forall_app. split; auto. apply Forall_app. split; auto. constructor; [right; auto|constructor].
    + rewrite <- app_assoc in IH. exact IH.
  - destruct GO as [(KS & GB)|(KS & ->)].
    + apply (lo_tok p g tk s [] (x ++ t')); auto; [exists c, u; auto|rewrite E', <- !app_assoc; auto|split; auto|left; auto|]. apply (loose_back _ x); auto. rewrite app_nil_r. rewrite <- !app_assoc in *. exact IH.
    + apply (lo_tok p g tk s [34] t'); auto; [exists c, u; auto|rewrite E', <- !app_assoc; auto|split; auto|right; auto|]. rewrite <- !app_assoc in *. exact IH.
Qed.
Lemma blanks_same : forall x g (w v a b : list Z), Forall blank x -> Forall blank g -> solid_head w -> solid_head v -> x ++ w ++ a = g ++ v ++ b -> x = g.
Proof.
  induction x as [|c x IH]; intros g w v a b FX FG (cw & uw & -> & NW) (cv & uv & -> & NV) E; destruct g as [|d g]; cbn [app] in E; auto.
  - injection E as -> _. apply Forall_inv in FG. contradiction.
  - injection E as -> _. apply Forall_inv in FX. contradiction.
  - injection E as -> E. f_equal. eapply (IH g (cw :: uw) (cv :: uv)); eauto using Forall_inv_tail; [exists cw, uw|exists cv, uv]; auto.
Qed.
Lemma visible_cons e l : snd e <> Tok_NewLine -> visible (e :: l) = e :: visible l.
Proof. intros N. unfold visible. cbn [filter]. destruct (Z.eqb_spec (snd e) Tok_NewLine); [contradiction|]. reflexivity. Qed.
Lemma reads_modal : forall f t L, reads ms f t L -> forall p e x toks, src = p ++ t -> p = e ++ x -> Forall blank x -> (f = true -> last p 10 = 10) -> lexemes_of src toks = L -> loose e toks ->
  modal (if f then Fresh else InLine) p t toks (visible L).
Proof.
  assert (TOKEN : forall f w k q t L, solid_head w -> k <> Tok_NewLine -> closing k q -> forall p e x toks, src = p ++ w ++ q ++ t -> p = e ++ x -> Forall blank x -> lexemes_of src toks = (w, k) :: L -> loose e toks ->
    (forall toks', lexemes_of src toks' = L -> loose (p ++ w ++ q) toks' -> modal (after k) (p ++ w ++ q) t toks' (visible L)) -> modal f p (w ++ q ++ t) toks (visible ((w, k) :: L))).
  { intros f w k q t L SW NK C p e x toks ES EP FX EL LO IH. destruct toks as [|tk toks]; [discriminate|]. cbn [lexemes_of map] in EL. injection EL as EW EK EL. subst k.
    inversion LO as [|e' k r K L'|e' g k w' q' t' r FG K SW' ES' TA TX C' L']; subst; [contradiction|]. pose proof (closing_fun _ _ _ C C') as <-.
    assert (x = g) as <-. { rewrite ES' in ES at 1. rewrite <- !app_assoc in ES. apply app_inv_head in ES. symmetry. eapply blanks_same; [exact FG|exact FX| | |exact ES]; auto. }
    rewrite visible_cons by exact NK. apply md_token; auto. apply IH; auto. rewrite <- app_assoc. exact L'. }
  assert (PLAIN : forall k, k <> Tok_String -> closing k []) by (intros k K; left; auto).
  assert (LAST : forall (a b : list Z), last (a ++ b ++ [10]) 10 = 10) by (intros a b; rewrite app_assoc, last_last; auto).
  intros f t L R. pose proof (reads_shape ms 0%nat f t L R) as SH.
  induction R as [f|f t l R IH|t l R IH|t l R IH|f w k t l HW HK NW R IH|f s k no t l HS NS NB R IH|f s k g t l HS FS NB R IH|f s k g t l HS FS R IH|f u t l FU N1 N2 R IH|f d t l ND FD NX1 NX2 R IH|f u t l FU N1 N2 R IH|f u t l FU N1 N2 R IH]; intros p e x toks ES EP FX LP EL LO.
  - destruct toks; [constructor|discriminate].
  - apply md_space. replace (spaced (if f then Fresh else InLine)) with InLine by (destruct f; auto). apply (IH SH (p ++ [32]) e (x ++ [32])); auto; [rewrite <- app_assoc; auto|subst p; rewrite <- app_assoc; auto|apply Forall_app; split; auto; repeat constructor; auto|discriminate].
  - apply md_line. apply (IH SH (p ++ [10]) e (x ++ [10])); auto; [rewrite <- app_assoc; auto|subst p; rewrite <- app_assoc; auto|apply Forall_app; split; auto; repeat constructor; right; auto|discriminate].
  - destruct toks as [|tk toks]; [discriminate|]. cbn [lexemes_of map] in EL. injection EL as EW EK EL. unfold visible. cbn [filter snd negb]. rewrite Z.eqb_refl. cbn [negb]. apply md_newline; auto. inversion LO as [|e' k r K L'|e' g k w' q' t' r FG K SW' ES' TA TX C' L']; subst; [|contradiction].
    apply (IH (Forall_inv_tail SH) ((e ++ x) ++ [10]) e (x ++ [10])); auto; [rewrite <- app_assoc; auto|rewrite <- app_assoc; auto|apply Forall_app; split; auto; repeat constructor; right; auto|intros _; apply last_last].
  - pose proof (Forall_inv SH) as [(S1 & _)|(S1 & c & u & S2 & S3)]; cbn [fst snd] in *; [exfalso; revert S1; eapply word_visible; eauto|].
    apply (TOKEN _ w k [] t l) with (e := e) (x := x); auto; [exists c, u; auto|apply PLAIN; eapply kind_not_string; eauto|]. intros toks' E' L'. rewrite app_nil_r in *.
    assert (EA : after k = InLine) by (eapply word_after; eauto). rewrite EA. apply (IH (Forall_inv_tail SH) (p ++ w) (p ++ w) []); auto; [rewrite <- app_assoc; auto|rewrite app_nil_r; auto|discriminate].
  - pose proof (Forall_inv SH) as [(S1 & _)|(S1 & c & u & S2 & S3)]; cbn [fst snd] in *; [exfalso; revert S1; eapply symbol_kind; eauto|].
    apply (TOKEN _ (txt s) k [] t l) with (e := e) (x := x); auto; [exists c, u; auto|eapply symbol_closing; eauto|]. intros toks' E' L'. rewrite app_nil_r in *.
    assert (EA : after k = InLine) by (eapply symbol_after; eauto). rewrite EA. apply (IH (Forall_inv_tail SH) (p ++ txt s) (p ++ txt s) []); auto; [rewrite <- app_assoc; auto|rewrite app_nil_r; auto|discriminate].
  - pose proof (Forall_inv SH) as [(S1 & _)|(S1 & c & u & S2 & S3)]; cbn [fst snd] in *; [exfalso; cbn in HS; destruct HS as [HS|[HS|[]]]; injection HS as _ <-; discriminate S1|].
    apply (TOKEN _ (txt s) k [] (g ++ t) l) with (e := e) (x := x); auto; [exists c, u; auto|eapply symbol_closing, stop_symbol; eauto|]. intros toks' E' L'. rewrite app_nil_r in *.
    assert (EA : after k = Behind) by (cbn in HS; destruct HS as [HS|[HS|[]]]; injection HS as _ <-; reflexivity). rewrite EA. apply behind_spaces; auto. apply (modal_any InLine); [cbn in *; tauto|].
    apply (IH (Forall_inv_tail SH) ((p ++ txt s) ++ g) (p ++ txt s) g); auto; [rewrite <- !app_assoc; auto|eapply Forall_impl; [|exact FS]; intros a <-; left; auto|discriminate].
  - pose proof (Forall_inv SH) as [(S1 & _)|(S1 & c & u & S2 & S3)]; cbn [fst snd] in *; [exfalso; cbn in HS; destruct HS as [HS|[HS|[]]]; injection HS as _ <-; discriminate S1|].
    apply (TOKEN _ (txt s) k [] (g ++ 10 :: t) l) with (e := e) (x := x); auto; [exists c, u; auto|eapply symbol_closing, stop_symbol; eauto|]. intros toks' E' L'. rewrite app_nil_r in *.
    assert (EA : after k = Behind) by (cbn in HS; destruct HS as [HS|[HS|[]]]; injection HS as _ <-; reflexivity). rewrite EA. apply behind_spaces; auto. apply md_line_end.
    apply (IH (Forall_inv_tail SH) (((p ++ txt s) ++ g) ++ [10]) (p ++ txt s) (g ++ [10])); auto; [rewrite <- !app_assoc; auto|rewrite <- !app_assoc; auto|apply Forall_app; split; [eapply Forall_impl; [|exact FS]; intros a <-; left; auto|repeat constructor; right; auto]|intros _; apply last_last].
  - replace (txt "//" ++ u ++ 10 :: t) with ((txt "//" ++ u ++ [10]) ++ [] ++ t) in * by (rewrite <- !app_assoc; reflexivity).
    apply (TOKEN _ (txt "//" ++ u ++ [10]) Tok_Comment [] t l) with (e := e) (x := x); auto; [exists 47, (47 :: u ++ [10]); split; auto; intros [Q|Q]; discriminate Q|discriminate|apply PLAIN; discriminate|]. intros toks' E' L'. rewrite app_nil_r in *.
    apply (IH (Forall_inv_tail SH) (p ++ txt "//" ++ u ++ [10]) (p ++ txt "//" ++ u ++ [10]) []); auto; [rewrite ES; rewrite <- !app_assoc; reflexivity|rewrite app_nil_r; auto|intros _; rewrite app_assoc; apply LAST].
  - pose proof (Forall_inv SH) as [(S1 & _)|(S1 & c & u & S2 & S3)]; cbn [fst snd] in *; [discriminate|].
    apply (TOKEN _ d Tok_Number [] t l) with (e := e) (x := x); auto; [exists c, u; auto|apply PLAIN; discriminate|]. intros toks' E' L'. rewrite app_nil_r in *.
    apply (IH (Forall_inv_tail SH) (p ++ d) (p ++ d) []); auto; [rewrite <- app_assoc; auto|rewrite app_nil_r; auto|discriminate].
  - change (34 :: u ++ 34 :: t) with ((34 :: u) ++ [34] ++ t) in *.
    apply (TOKEN _ (34 :: u) Tok_String [34] t l) with (e := e) (x := x); auto; [exists 34, u; split; auto; intros [Q|Q]; discriminate Q|discriminate|right; auto|]. intros toks' E' L'.
    apply (IH (Forall_inv_tail SH) (p ++ (34 :: u) ++ [34]) (p ++ (34 :: u) ++ [34]) []); auto; [rewrite ES, <- !app_assoc; auto|rewrite app_nil_r; auto|discriminate].
  - replace (39 :: u ++ 39 :: t) with ((39 :: u ++ [39]) ++ [] ++ t) in * by (cbn [app]; rewrite <- !app_assoc; reflexivity).
    apply (TOKEN _ (39 :: u ++ [39]) Tok_Char [] t l) with (e := e) (x := x); auto; [exists 39, (u ++ [39]); split; auto; intros [Q|Q]; discriminate Q|discriminate|apply PLAIN; discriminate|]. intros toks' E' L'. rewrite app_nil_r in *.
    apply (IH (Forall_inv_tail SH) (p ++ 39 :: u ++ [39]) (p ++ 39 :: u ++ [39]) []); auto; [rewrite ES, <- !app_assoc; auto|rewrite app_nil_r; auto|discriminate].
Qed.
End M.
(** *** a comment on the line behind a [;] *)
Definition own_line (src : list Z) (toks : list token) : Prop := forall a s k b q t, toks = a ++ s :: k :: b -> t_type s = Tok_Statement_End -> t_type k = Tok_Comment ->
  src = q ++ [59; 10] ++ t -> t_start s = zlen q -> t_len s = 1 -> t_start k = zlen q + 2 -> t_line k = fst (lc src (zlen q + 2)).
Lemma laid_own_line src : forall p toks, laid src p toks -> own_line src toks.
Proof.
  induction 1 as [p t0 E0 B|p tk p' toks s t' E' TX PL L IH]; intros a s0 k b q t E KS KK ES SS SL SK; [destruct a; discriminate|].
  destruct a as [|x a]; cbn [app] in E; injection E as -> E; [|exact (IH a s0 k b q t E KS KK ES SS SL SK)]. subst toks.
  destruct PL as (g & FG & (PS & PLn & (x & -> & GO) & _) & _ & _ & PAST). inversion L as [|p1 k1 p2 toks1 s1 t1 E1 TX1 PL1 L1 Q1 Q2]. subst p1. clear TX1 E1 L1. destruct PL1 as (g1 & FG1 & (PS1 & _) & _ & LINE & _). rewrite (LINE KK). f_equal. f_equal.
  rewrite PS in SS. rewrite PLn in SL. rewrite PS1 in SK. unfold zlen in *. rewrite !app_length in *. 
  assert (LX : (List.length x + List.length g1 = 1)%nat) by lia. destruct x as [|c x]; [|cbn [List.length] in *; lia]. exfalso. refine (PAST KS t' E' _ _); [rewrite app_nil_r, <- app_assoc; reflexivity|].
  rewrite E' in ES. rewrite app_nil_r in ES. replace (q ++ [59; 10] ++ t) with ((q ++ [59]) ++ 10 :: t) in ES by (rewrite <- app_assoc; reflexivity).
  assert (INJ : forall u v b d : list Z, List.length u = List.length v -> u ++ b = v ++ d -> b = d).
  { clear. induction u as [|x u IH]; intros [|y v] b d EL EE; try discriminate EL; auto. cbn [app] in EE. injection EE as _ EE. apply (IH v); auto. }
  apply INJ in ES; [rewrite ES; reflexivity|]. rewrite !app_length. cbn [List.length]. lia.
Qed.
Lemma lex_modal src ms fuel l : Forall (fun c => 0 <= c < 256) src -> zlen src + 2 <= Z.of_nat fuel -> writes ms src l -> l <> [] ->
  exists toks, lex src fuel ms = Done (Some (toks, ms)) /\ modal InLine [] src toks l /\ own_line src toks.
Proof.
  intros B F W NE. pose proof (writes_visible ms 0%nat _ _ W) as V. destruct (writes_reads ms src l W) as (l' & R & E). rewrite V in E. destruct (lex_exact src B ms fuel F l' R) as (toks & g & u & H1 & H2 & H3 & H4 & H5).
  - intros ->. apply NE. auto.
  - exists toks. split; auto. split; [|eapply laid_own_line; eauto]. rewrite <- E. apply (reads_modal ms src false src l' R [] [] []); auto; try discriminate. apply (loose_back src [] g); auto. apply laid_loose; auto. rewrite H2. exact (reads_shape ms 0%nat _ _ _ R).
Qed.
