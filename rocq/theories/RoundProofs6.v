(** using, typedef and variables. *)
From Coq Require Import String ZArith List Bool Lia ZifyBool ZifyNat.
From Verif Require Import Common HashModel Text EnumModel EnumSpec LexModel LexSpec StripSpec AstModel AstSpec SerSpec RelexSpec RelexProofs RelexProofs2 RelexProofs3 RelexProofs4 RelexProofs5
  ParseSpec RoundSpec RoundProofs RoundProofs2 RoundProofs3 RoundProofs4 RoundProofs5.
Import ListNotations.
Close Scope string_scope.
Open Scope Z_scope.

Section P.
Variable src : list Z.
Variable ms : macros.
Notation spells := (spells src).
Notation lx := (lexed_as ms).
Notation at_ := (at_ src).
Notation parsed_as := (parsed_as src ms).

Lemma flat_export x : flat (when x "export "). Proof. destruct x; cbn [when]; flats. Qed.
Lemma using_end cmt p t R l : online p -> at_m src (behind cmt) (p ++ txt ";" ++ with_ cmt (fun c => txt "  " ++ c)) (NL ++ t) R l -> cmt = None -> at_m src Fresh (p ++ txt ";" ++ NL) t R l.
Proof. intros O A ->. cbn [with_ app behind] in A. rewrite app_nil_r in A. apply m_end in A. rewrite <- app_assoc in A. exact A. Qed.
Lemma using_name_ok x name cmt rest lr : is_name ms name -> oall line_comment_text cmt -> parsed_as (using_tokens src) (Using x None name None cmt) rest lr.
Proof.
  intros N OC p toks A PO. cbn [render tokens with_ tko comment_of one_end] in *. unfold end_tokens in A. change (txt "using ") with (txt "using" ++ txt " ") in *. rewrite <- !app_assoc in A. cbn [app] in A.
  destruct (export_keyword src x "using" _ _ _ toks _ eq_refl eq_refl A) as (kw & t1 & -> & KW & A1). apply positioned_app in PO.
  destruct (at_name src ms name _ _ _ _ N A1) as (k & t3 & -> & K3 & KN & NN & A3). pose proof (online_name ms (p ++ when x "export " ++ txt "using" ++ txt " ") name N) as ON.
  destruct (at_end src ms cmt _ (NL ++ rest) t3 lr OC A3) as (semi_ & more & R & -> & SK & SE & MO & A4); [apply (Forall_inv_tail PO)|exact ON|].
  exists (kw ++ k :: semi_ :: more), R. split; [rewrite <- app_assoc; auto|]. split; [|split].
  - intros NC. assert (cmt = None) as -> by (destruct cmt; [contradiction|auto]). apply (using_end None _ _ _ _ ON) in A4; auto. repeat rewrite <- app_assoc in A4. cbn [with_ app]. repeat rewrite <- app_assoc. exact A4.
  - intros ->. rewrite MO by auto. exists (kw ++ [k]), semi_. eexists. split; [rewrite <- app_assoc; reflexivity|]. split; [exact SK|]. cbn [with_ app]. repeat rewrite <- app_assoc. reflexivity.
  - intros b EN. apply (ended_last cmt (kw ++ [k]) semi_ more) in EN || (replace (kw ++ k :: semi_ :: more) with ((kw ++ [k]) ++ semi_ :: more) in EN by (rewrite <- app_assoc; reflexivity); apply ended_last in EN). rewrite <- KN. apply (u_name src x kw [] k [] None (semi_ :: more) (R ++ b) cmt); auto; try exact (Forall_nil _); [rewrite KN; exact NN|reflexivity].
Qed.
Lemma assigns_ok k : spells k (tk "=") -> assigns k.
Proof. intros (_ & S2 & _ & M & _). split; [exact S2|]. unfold flagged. apply M. reflexivity. Qed.
Lemma using_ok x name ty ss cmt rest lr : is_name ms name -> plain_typ ms ty -> Forall (size_text ms) ss -> oall line_comment_text cmt ->
  parsed_as (using_tokens src) (Using x None name (Some (ty, ss)) cmt) rest lr.
Proof.
  intros N PT FS OC p toks A PO. cbn [render tokens with_ tko comment_of one_end] in *. unfold end_tokens in A. change (txt "using ") with (txt "using" ++ txt " ") in *. change (txt " = ") with (txt " " ++ txt "=" ++ txt " ") in *. rewrite <- !app_assoc in A. cbn [app] in A.
  destruct (export_keyword src x "using" _ _ _ toks _ eq_refl eq_refl A) as (kw & t1 & -> & KW & A1). apply positioned_app in PO.
  destruct (at_name src ms name _ _ _ _ N A1) as (k & t3 & -> & K3 & KN & NN & A3). apply at_sp in A3. destruct (at_tok src "=" _ _ _ _ eq_refl A3) as (eq & t4 & -> & KEQ & _ & A4). apply at_sp in A4.
  destruct (at_typ src ms ty _ _ _ _ PT A4) as (ty_ & t5 & -> & TT & T1 & A5). destruct (at_sizes src ms ss _ _ _ _ FS A5) as (sz & t6 & -> & AS & SO & A6).
  assert (ON : online ((((((p ++ when x "export " ++ txt "using" ++ txt " ") ++ name) ++ txt " ") ++ txt "=") ++ txt " ") ++ typ_text ty ++ sizes_text ss)).
  { pose proof (flat_typ ms ty PT). pose proof (flat_sizes ms ss FS). do 4 (apply online_app; [|flats]). apply (online_name ms). exact N. }
  destruct (at_end src ms cmt _ (NL ++ rest) t6 lr OC A6) as (semi_ & more & R & -> & SK0 & SE & MO & A7); [apply (positioned_app src sz), (positioned_app src ty_), (positioned_app src [k; eq]); exact PO|rewrite <- app_assoc; exact ON|].
  pose proof (proj1 SK0) as SK. assert (RAW : kw ++ k :: eq :: ty_ ++ sz ++ semi_ :: more = (kw ++ k :: eq :: ty_ ++ sz) ++ semi_ :: more) by (repeat (cbn [app]; rewrite <- app_assoc); auto).
  exists (kw ++ k :: eq :: ty_ ++ sz ++ semi_ :: more), R. split; [repeat (cbn [app]; rewrite <- app_assoc); auto|]. split; [|split].
  - intros NC. assert (cmt = None) as -> by (destruct cmt; [contradiction|auto]). apply using_end in A7; auto; [|rewrite <- app_assoc; exact ON]. repeat rewrite <- app_assoc in A7. cbn [with_ app]. repeat rewrite <- app_assoc. exact A7.
  - intros ->. rewrite RAW, MO by auto. eexists _, semi_, _. split; [reflexivity|]. split; [exact SK0|]. cbn [with_ app]. repeat rewrite <- app_assoc. reflexivity.
  - intros b EN. rewrite RAW in EN. apply ended_last in EN. rewrite <- KN.
    apply (u_type src x kw [] k [] eq ty_ ty sz ss (semi_ :: more) (R ++ b) cmt); auto; try exact (Forall_nil _); [rewrite KN; exact NN|apply assigns_ok; auto|].
    apply TT. destruct SO as [-> | (o & r & -> & KO)]; (eapply simple_follows; [|eassumption]); reflexivity.
Qed.

Lemma typedef_ok x ty name cmt rest lr : plain_typ ms ty -> ty_tag ty = NoTag -> is_name ms name -> oall line_comment_text cmt ->
  parsed_as (fun raw r t => typedef_tokens src raw r x ty name [] cmt) (Typedef x ty name cmt) rest lr.
Proof.
  intros PT NT N OC p toks A PO. cbn [render tokens with_ tko comment_of one_end] in *. change (txt "typedef ") with (txt "typedef" ++ txt " ") in *. rewrite <- !app_assoc in A. cbn [app] in A.
  destruct (export_keyword src x "typedef" _ _ _ toks _ eq_refl eq_refl A) as (kw & t1 & -> & KW & A1). apply positioned_app in PO.
  destruct (at_typ src ms ty _ _ _ _ PT A1) as (ty_ & t5 & -> & TT & T1 & A5). apply positioned_app in PO. apply at_sp in A5. destruct (at_name src ms name _ _ _ _ N A5) as (k & t3 & -> & K3 & KN & NN & A3).
  destruct (at_semi src ms cmt _ rest t3 lr OC A3) as (semi_ & more & R & -> & SK0 & SE & MO & A4); [apply (Forall_inv_tail PO)|apply (online_name ms); exact N|]. pose proof (proj1 SK0) as SK.
  assert (RAW : kw ++ ty_ ++ k :: semi_ :: more = (kw ++ ty_ ++ [k]) ++ semi_ :: more) by (repeat (cbn [app]; rewrite <- app_assoc); auto).
  exists (kw ++ ty_ ++ k :: semi_ :: more), R. split; [repeat (cbn [app]; rewrite <- app_assoc); auto|]. split; [intros _; repeat rewrite <- app_assoc in A4; repeat rewrite <- app_assoc; exact A4|]. split.
  { intros ->. rewrite RAW, MO by auto. eexists _, semi_, _. split; [reflexivity|]. split; [exact SK0|]. unfold semi. cbn [with_ app]. repeat rewrite <- app_assoc. reflexivity. }
  intros b EN. rewrite RAW in EN. apply ended_last in EN. rewrite <- KN.
  assert (FL : follows src (k :: semi_ :: more)) by (eapply simple_follows; [|exact K3]; reflexivity).
  apply (td src x kw ty_ ty [] k [] [] (semi_ :: more) (R ++ b) cmt); auto; try exact (Forall_nil _); [|rewrite KN; exact NN|constructor].
  destruct (T1 NT) as (k1 & r1 & -> & KK & _). exists [], k1, r1. split; auto. split; [constructor|]. unfold fmt, plain_type, kind, native in *.
  split; [|intros HI; cbn in HI]; unfold Tok_Identifier, Tok_NewLine, Tok_Comment, Tok_Type_Unsigned, Tok_Type_MS_W64, Tok_Decl_Class, Tok_Decl_Enum, Tok_Decl_Struct, Tok_Decl_Union, Tok_Preprocess_Macro_Typename, Tok_Preprocess_Macro_Stmt in *; lia.
Qed.

(** *** variables *)
Lemma nested_ok o c bad (O C : Z -> Prop) (Bad : nat -> Z -> Prop) : (forall k, o k = true <-> O k) -> (forall k, c k = true <-> C k) -> (forall d k, bad d k = true <-> Bad d k) ->
  forall toks l, Forall2 spells toks l -> forall d, brackets o c bad d (map snd l) -> nested O C Bad d toks.
Proof.
  intros HO HC HB toks l F. induction F as [|k e toks l (_ & SK & _) F IH]; intros d B; cbn [map brackets] in B.
  - subst d. constructor.
  - rewrite <- SK in B. destruct (o (t_type k)) eqn:EO; [apply n_open; [apply HO; auto|auto]|]. destruct (c (t_type k)) eqn:EC.
    + destruct d as [|d]; [contradiction|]. apply n_close; [apply HC; auto|auto].
    + destruct B as (EB & B). apply n_other; auto; intros X; [apply HO in X|apply HC in X|apply HB in X]; congruence.
Qed.
Lemma expression_ok toks l : Forall2 spells toks l -> value_kinds (map snd l) -> expression toks.
Proof.
  intros F B. unfold value_kinds in B. unfold expression. eapply nested_ok; [| | |exact F|exact B]; cbv beta.
  - intros k. lia.
  - intros k. lia.
  - intros d k. destruct d; lia.
Qed.
Lemma in_parens_ok toks l : Forall2 spells toks l -> paren_kinds (map snd l) -> in_parens toks.
Proof.
  intros F B. unfold paren_kinds in B. unfold in_parens. eapply nested_ok; [| | |exact F|exact B]; cbv beta.
  - intros k. lia.
  - intros k. lia.
  - intros d k. split; [discriminate|contradiction].
Qed.
Lemma until_at p x a b : (exists t', src = p ++ x ++ t') -> t_start a = zlen p -> t_start b = zlen (p ++ x) -> until src a b = x.
Proof. intros (t & E) A B. unfold until. rewrite A, B. apply (cut_at src p x t); auto. unfold zlen. rewrite app_length. lia. Qed.

Lemma exported_ok x p t toks l : at_ p (when x "export " ++ t) toks (tks x "export" ++ l) -> exists ex b, toks = ex ++ b /\ exported x ex /\ at_ (p ++ when x "export ") t b l.
Proof.
  intros A. destruct x; cbn [when tks app] in *.
  - change (txt "export ") with (txt "export" ++ txt " ") in *. rewrite <- app_assoc in A. destruct (at_tok src "export" p _ toks _ eq_refl A) as (ex & toks1 & -> & (_ & KE & _) & _ & A1). apply at_sp in A1. exists [ex], toks1. split; auto. split; [|rewrite <- app_assoc in A1; exact A1].
    right. split; auto. exists [], ex. split; auto. split; [constructor|exact KE].
  - exists [], toks. rewrite app_nil_r. split; auto. split; auto. left. auto.
Qed.
Lemma pre_specs_ok specs p t toks l : oall (specs_in variable_specifiers) specs -> at_ p (with_ specs specs_text ++ t) toks (tko specs (flat_map RelexSpec.spec_tokens) ++ l) ->
  exists pre b sp, toks = pre ++ b /\ ParseSpec.spec_tokens src pre sp /\ Forall (fun s => In s variable_specifiers) sp /\ Z.of_nat (length sp) <= SPECS_CAP /\ specs = ParseSpec.some_specs sp /\ at_ (p ++ with_ specs specs_text) t b l.
Proof.
  intros S A. destruct specs as [sl|]; cbn [with_ tko oall] in *.
  - pose proof (all_in variable_specifiers sl var_specs_in S) as FA. destruct S as (NE & FI & CAP & _). destruct (at_specs src sl _ _ _ _ FA NE A) as (a & b & -> & _ & ST & A'). exists a, b, sl. split; auto. split; auto. split; auto. split; auto. split; auto.
    destruct sl; [contradiction|reflexivity].
  - exists [], toks, []. rewrite app_nil_r. split; auto. split; [constructor|]. split; [constructor|]. split; [cbn; unfold SPECS_CAP; lia|]. split; auto.
Qed.

(** the initializer, up to the semicolon *)
Definition value_line (bits : option (list Z)) (value : init) : list Z := with_ bits (fun b => txt " : " ++ b) ++ init_text value.
Lemma initial_ok bits value p t toks l : oall (bits_text ms) bits -> value_text ms value -> (bits = None \/ value = NoInit) ->
  at_ p (value_line bits value ++ t) toks ((tko bits (fun b => tk ":" :: lx b) ++ init_tokens lx value) ++ l) ->
  exists ini b, toks = ini ++ b /\ (forall k r, kind Tok_Statement_End k -> t_len k = 1 -> t_start k = zlen (p ++ value_line bits value) -> initial src ini (k :: r) value bits) /\
    (ini = [] \/ exists k r, ini = k :: r /\ (In (t_type k) [Tok_Assign_Classifer; Tok_Paren_Open] \/ t_type k = Tok_Operator /\ first_char src k = 61)) /\ at_ (p ++ value_line bits value) t b l /\ flat (value_line bits value).
Proof.
  intros OB OV EX A. unfold value_line in *. destruct bits as [bt|].
  - destruct EX as [EX| ->]; [discriminate|]. cbn [with_ tko init_text init_tokens app oall] in *. rewrite !app_nil_r in *. destruct OB as (l0 & PH & NS). assert (EL : lx bt = l0) by (apply lx_ok; apply PH). rewrite EL in A.
    change (txt " : ") with (txt " " ++ txt ":" ++ txt " ") in *. rewrite <- !app_assoc in A. apply at_sp in A. cbn [app] in A. destruct (at_tok src ":" _ _ _ _ eq_refl A) as (o & t1 & -> & (_ & KO & _) & _ & A1). apply at_sp in A1.
    destruct (at_seg src ms bt l0 _ _ _ _ (proj1 (proj1 PH)) A1) as (a & b & -> & L & ST & A2). destruct (phrase_ok src ms bt l0 _ a PH ST L) as (first & more & -> & _ & F2 & NF & U & NX).
    exists (o :: first :: more), b. split; auto. split; [|split; [|split]].
    + intros k r KK _ _. rewrite <- U. apply (i_bits src [] o [] first more k r); auto; try exact (Forall_nil _); [apply (Forall_inv NF)| |rewrite U; exact NX]. apply (spells_kinds src (fun k => k <> Tok_Statement_End) _ _ F2 NS).
    + right. exists o, (first :: more). split; auto. left. rewrite KO. left. reflexivity.
    + repeat rewrite <- app_assoc in A2. exact A2.
    + pose proof (proj1 (proj2 (proj2 (proj1 PH)))) as N10. fold (flat bt) in N10. flats.
  - cbn [with_ tko app] in *. clear EX. destruct value as [|v|v]; cbn [init_text init_tokens value_text] in *.
    + exists [], toks. split; auto. split; [intros; constructor|]. split; auto. rewrite app_nil_r. split; auto. apply flat_nil.
    + destruct OV as (l0 & LT & VK). assert (EL : lx v = l0) by (apply lx_ok; apply LT). rewrite EL in A. change (txt " = ") with (txt " " ++ txt "=" ++ txt " ") in *. rewrite <- !app_assoc in A. apply at_sp in A. cbn [app] in A.
      destruct (at_tok src "=" _ _ _ _ eq_refl A) as (o & t1 & -> & KO & _ & A1). apply at_sp in A1. destruct (at_seg src ms v l0 _ _ _ _ (proj1 LT) A1) as (a & b & -> & L & ST & A2). destruct (line_ok src ms v l0 _ a LT ST L) as (first & more & -> & SF & F2 & NF).
      assert (NX : v <> []) by (destruct LT as (_ & _ & _ & _ & c & u & -> & _); discriminate).
      exists (o :: first :: more), b. split; auto. split; [|split; [|split]].
      * intros k r KK KL KS. assert (U : until src first k = v). { eapply until_at; [exact ST|exact SF|]. rewrite KS. f_equal. repeat rewrite <- app_assoc. reflexivity. }
        rewrite <- U. apply (i_assign src [] o [] first more k r); auto; try exact (Forall_nil _); [apply assigns_ok; auto|apply (Forall_inv NF)|eapply expression_ok; eauto|rewrite U; exact NX].
      * right. exists o, (first :: more). split; auto. right. destruct KO as (_ & KO & _ & _ & KF). split; [exact KO|exact KF].
      * repeat rewrite <- app_assoc in A2. exact A2.
      * pose proof (proj1 (proj2 (proj2 LT))) as N10. fold (flat v) in N10. flats.
    + destruct OV as (l0 & PH & VK). assert (EL : lx v = l0) by (apply lx_ok; apply PH). rewrite EL in A. change (txt "( ") with (txt "(" ++ txt " ") in *. change (txt "  )") with (txt " " ++ txt " " ++ txt ")") in *. rewrite <- !app_assoc in A. cbn [app] in A. try rewrite <- !app_assoc in A. cbn [app] in A.
      destruct (at_tok src "(" _ _ _ _ eq_refl A) as (o & t1 & -> & (_ & KO & _) & _ & A1). apply at_sp in A1. destruct (at_seg src ms v l0 _ _ _ _ (proj1 (proj1 PH)) A1) as (a & b & -> & L & ST & A2). apply at_sp, at_sp in A2. destruct (at_tok src ")" _ _ _ _ eq_refl A2) as (c & t2 & -> & (_ & KC & _) & _ & A3).
      destruct (phrase_ok src ms v l0 _ a PH ST L) as (first & more & -> & _ & F2 & NF & U & NX).
      exists (o :: first :: more ++ [c]), t2. split; [cbn [app]; rewrite <- app_assoc; auto|]. split; [|split; [|split]].
      * intros k r _ _ _. rewrite <- U. apply (i_parens src [] o [] first more c (k :: r)); auto; try exact (Forall_nil _); [apply (Forall_inv NF)|eapply in_parens_ok; eauto|rewrite U; exact NX].
      * right. exists o, (first :: more ++ [c]). split; auto. left. rewrite KO. right. left. reflexivity.
      * repeat rewrite <- app_assoc in A3. repeat rewrite <- app_assoc. exact A3.
      * pose proof (proj1 (proj2 (proj2 (proj1 PH)))) as N10. fold (flat v) in N10. flats.
Qed.
(** the parts of a variable *)
Definition in_front (sz ini : list token) : Prop :=
  (sz = [] \/ exists o r, sz = o :: r /\ kind Tok_BraceSquare_Open o) /\
  (ini = [] \/ exists k r, ini = k :: r /\ (In (t_type k) [Tok_Assign_Classifer; Tok_Paren_Open] \/ t_type k = Tok_Operator /\ first_char src k = 61)).
Lemma variable_parts x specs ty name sizes bits value cmt rest lr p toks : oall (specs_in variable_specifiers) specs -> plain_typ ms ty -> is_name ms name -> Forall (size_text ms) sizes ->
  oall (bits_text ms) bits -> value_text ms value -> (sizes = [] \/ bits = None) -> (bits = None \/ value = NoInit) -> oall line_comment_text cmt ->
  let t := Var x None specs ty name sizes bits value cmt in
  at_ p (render t ++ rest) toks (tokens lx t ++ lr) -> Forall (positioned src) toks ->
  exists ex pre sp ty_ k sz ini semi_ more R, toks = ex ++ pre ++ ty_ ++ k :: sz ++ ini ++ (semi_ :: more) ++ R /\
    exported x ex /\ ParseSpec.spec_tokens src pre sp /\ Forall (fun s => In s variable_specifiers) sp /\ Z.of_nat (List.length sp) <= SPECS_CAP /\ specs = ParseSpec.some_specs sp /\
    (forall r, follows src r -> type_tokens src ty_ r ty) /\ (ty_tag ty = NoTag -> exists k r, ty_ = k :: r /\ (kind Tok_Identifier k \/ native k) /\ forall e l', lx (ty_name ty) = e :: l' -> t_type k = snd e /\ (l' = [] -> ty_specs ty = None -> r = [])) /\
    kind Tok_Identifier k /\ word src k = name /\ name <> [] /\ array_sizes src sz sizes /\ initial src ini (semi_ :: more) value bits /\ in_front sz ini /\ kind Tok_Statement_End semi_ /\
    (forall b, ended cmt (semi_ :: more) (R ++ b) -> statement_end src (semi_ :: more) (R ++ b) cmt) /\ (cmt = None -> more = [] /\ exists q, semicolon semi_ q /\ p ++ render t = q ++ txt ";" ++ NL) /\ at_m src Fresh (p ++ render t) rest R lr /\
    (exists q u, at_ q u (ty_ ++ k :: sz ++ ini ++ (semi_ :: more) ++ R) (typ_tokens lx ty ++ lx name ++ (sizes_tokens lx sizes ++ (tko bits (fun b => tk ":" :: lx b) ++ init_tokens lx value) ++ end_tokens lx cmt) ++ lr)) /\
    (exists q u, at_ q u (k :: sz ++ ini ++ (semi_ :: more) ++ R) (lx name ++ (sizes_tokens lx sizes ++ (tko bits (fun b => tk ":" :: lx b) ++ init_tokens lx value) ++ end_tokens lx cmt) ++ lr)).
Proof.
  intros OS PT N FS OB OV X1 X2 OC t A PO. unfold t in *. clear t. cbn [render tokens] in *. cbn [with_ tko app] in *.
  rewrite <- !app_assoc in A. destruct (exported_ok x _ _ _ _ A) as (ex & t1 & -> & EX & A1). apply positioned_app in PO. destruct (pre_specs_ok specs _ _ _ _ OS A1) as (pre & t2 & sp & -> & ST & FV & CAP & -> & A2). apply positioned_app in PO.
  pose proof A2 as Q1. destruct (at_typ src ms ty _ _ _ _ PT A2) as (ty_ & t3 & -> & TT & T1 & A3). apply positioned_app in PO. apply at_sp in A3. pose proof A3 as Q2. destruct (at_name src ms name _ _ _ _ N A3) as (k & t4 & -> & K3 & KN & NN & A4). apply Forall_inv_tail in PO.
  destruct (at_sizes src ms sizes _ _ _ _ FS A4) as (sz & t5 & -> & AS & SO & A5). apply positioned_app in PO.
  assert (A5' : at_ (((((p ++ when x "export ") ++ with_ (ParseSpec.some_specs sp) specs_text) ++ typ_text ty) ++ txt " ") ++ name ++ sizes_text sizes) (value_line bits value ++ semi cmt ++ rest) t5 ((tko bits (fun b => tk ":" :: lx b) ++ init_tokens lx value) ++ end_tokens lx cmt ++ lr)).
  { unfold value_line. repeat rewrite <- app_assoc in A5. repeat rewrite <- app_assoc. exact A5. }
  destruct (initial_ok bits value _ _ _ _ OB OV X2 A5') as (ini & t6 & -> & IN & IO & A6 & FI). apply positioned_app in PO.
  destruct (at_semi src ms cmt _ rest t6 lr OC A6 PO) as (semi_ & more & R & -> & SK0 & SE & MO & A7).
  { pose proof (flat_sizes ms sizes FS). apply online_app; [|exact FI]. rewrite app_assoc. apply online_app; [|assumption]. apply (online_name ms). exact N. }
  exists ex, pre, sp, ty_, k, sz, ini, semi_, more, R. split; [reflexivity|]. split; [exact EX|]. split; [exact ST|]. split; [exact FV|]. split; [exact CAP|]. split; [reflexivity|]. split; [exact TT|]. split; [exact T1|]. split; [exact K3|]. split; [exact KN|]. split; [exact NN|]. split; [exact AS|].
  pose proof SK0 as (SK & SL & SS). split; [apply IN; auto|]. split; [split; auto|]. split; [exact SK|]. split; [exact SE|]. split; [|split; [|split]].
  - intros ->. split; [auto|]. eexists. split; [exact SK0|]. unfold value_line, semi. cbn [with_ app]. repeat rewrite <- app_assoc. reflexivity.
  - unfold value_line in A7. repeat rewrite <- app_assoc in A7. repeat rewrite <- app_assoc. exact A7.
  - eexists _, _. repeat rewrite <- app_assoc. repeat rewrite <- app_assoc in Q1. exact Q1.
  - eexists _, _. repeat rewrite <- app_assoc. repeat rewrite <- app_assoc in Q2. exact Q2.
Qed.
Lemma front_ok sz ini semi_ more : kind Tok_Statement_End semi_ -> in_front sz ini ->
  next_is (sz ++ ini ++ semi_ :: more) (ends_name src) /\ next_is (ini ++ semi_ :: more) (no_size src).
Proof.
  intros SK (SO & IO). split.
  - assert (KS : ~ fmt semi_ /\ ends_name src semi_) by (unfold fmt, ends_name; unfold kind in SK; rewrite SK; vm_compute; intuition congruence).
    destruct SO as [-> | (o & r & -> & KO)].
    + destruct IO as [-> | (k1 & r & -> & KI)]; [exists [], semi_, more; split; auto; split; [constructor|auto]|]. exists [], k1, (r ++ semi_ :: more). split; auto. split; [constructor|]. unfold fmt, ends_name. destruct KI as [KI|(KI & K1)].
      * cbn in KI. destruct KI as [KI|[KI|[]]]; rewrite <- KI; vm_compute; intuition congruence.
      * rewrite KI, K1. vm_compute. intuition congruence.
    + exists [], o, (r ++ ini ++ semi_ :: more). split; auto. split; [constructor|]. unfold fmt, ends_name. unfold kind in KO. rewrite KO. vm_compute. intuition congruence.
  - destruct IO as [-> | (k1 & r & -> & KI)].
    + exists [], semi_, more. split; auto. split; [constructor|]. unfold fmt, no_size. unfold kind in SK. rewrite SK. vm_compute. intuition congruence.
    + exists [], k1, (r ++ semi_ :: more). split; auto. split; [constructor|]. unfold fmt, no_size. destruct KI as [KI|(KI & K1)].
      * cbn in KI. destruct KI as [KI|[KI|[]]]; rewrite <- KI; vm_compute; intuition congruence.
      * rewrite KI, K1. vm_compute. intuition congruence.
Qed.
Lemma variable_ok x specs ty name sizes bits value cmt rest lr : oall (specs_in variable_specifiers) specs -> plain_typ ms ty -> is_name ms name -> Forall (size_text ms) sizes ->
  oall (bits_text ms) bits -> value_text ms value -> (sizes = [] \/ bits = None) -> (bits = None \/ value = NoInit) -> oall line_comment_text cmt ->
  parsed_as (variable_tokens src) (Var x None specs ty name sizes bits value cmt) rest lr.
Proof.
  intros OS PT N FS OB OV X1 X2 OC p toks A PO.
  destruct (variable_parts x specs ty name sizes bits value cmt rest lr p toks OS PT N FS OB OV X1 X2 OC A PO) as (ex & pre & sp & ty_ & k & sz & ini & semi_ & more & R & -> & EX & ST & FV & CAP & -> & TT & _ & K3 & KN & NN & AS & IN & IF & SK & SE & MO & A7 & _).
  exists (ex ++ pre ++ ty_ ++ k :: sz ++ ini ++ semi_ :: more), R. split; [repeat (cbn [app]; rewrite <- app_assoc); auto|]. split; [intros _; exact A7|].
  assert (RAW : ex ++ pre ++ ty_ ++ k :: sz ++ ini ++ semi_ :: more = (ex ++ pre ++ ty_ ++ k :: sz ++ ini) ++ semi_ :: more) by (repeat (cbn [app]; rewrite <- app_assoc); auto).
  split; [intros NC; destruct (MO NC) as (-> & q & SQ & EQ); rewrite RAW; eexists _, semi_, q; split; [reflexivity|split; [exact SQ|exact EQ]]|]. intros b EN. rewrite RAW in EN. apply ended_last in EN.
  destruct (front_ok sz ini semi_ more SK IF) as (F1 & F2).
  pose proof (vt src x ex [] None pre sp ty_ ty [] [k] name sz sizes ini value bits (semi_ :: more) (R ++ b) cmt) as G. cbn [app] in G. apply G; auto; try exact (Forall_nil _); clear G.
  - reflexivity.
  - apply TT. eapply simple_follows; [|exact K3]. reflexivity.
  - apply PT.
  - rewrite <- KN. apply (nm src k [] []); [exact K3|left; auto|constructor].
  - left. apply SE. exact EN.
Qed.
End P.
