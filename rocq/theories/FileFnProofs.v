(** The text of a function: parameters, specifiers and body as tokens. *)
From Coq Require Import String ZArith List Bool Lia ZifyBool ZifyNat.
From Verif Require Import Common HashModel Text EnumModel EnumSpec LexModel LexSpec LexProofs StripSpec AstModel AstSpec SerSpec RelexSpec RelexProofs RelexProofs2 RelexProofs3 RelexProofs4 RelexProofs5 RelexProofs6
  ParseSpec FnSpec GlobalSpec RoundSpec RoundProofs RoundProofs2 RoundProofs3 RoundProofs4 RoundProofs5 RoundProofs6 RoundProofs7 RoundProofs8 FileSpec FileNestSpec FileProofs FileProofs2 FileProofs3.
Import ListNotations.
Close Scope string_scope.
Open Scope Z_scope.

Section P.
Variable src : list Z.
Variable ms : macros.
Notation spells := (spells src).
Notation lx := (lexed_as ms).
Notation at_ := (at_ src).
Notation at_m := (at_m src).

(** *** default values *)
Lemma byte_in p x t i : src = p ++ x ++ t -> zlen p <= i < zlen p + zlen x -> In (byte_at src i) x.
Proof.
  intros E H. assert (HN : exists a c b, x = a ++ c :: b /\ zlen a = i - zlen p).
  { exists (firstn (Z.to_nat (i - zlen p)) x), (nth (Z.to_nat (i - zlen p)) x 0), (skipn (S (Z.to_nat (i - zlen p))) x). split.
    - rewrite <- (firstn_skipn (Z.to_nat (i - zlen p)) x) at 1. f_equal. assert (L : (Z.to_nat (i - zlen p) < length x)%nat) by (unfold zlen in *; lia). clear - L. revert L. generalize (Z.to_nat (i - zlen p)). intros n. revert n. induction x as [|y x IH]; intros n L; [cbn in L; lia|]. destruct n as [|n]; [reflexivity|]. cbn [skipn nth]. apply IH. cbn in L. lia.
    - unfold zlen in *. rewrite firstn_length. lia. }
  destruct HN as (a & c & b & -> & LA). replace i with (zlen (p ++ a)) by (zl; lia). rewrite (byte_at_place src (p ++ a) c (b ++ t)).
  - rewrite in_app_iff. right. left. auto.
  - rewrite E, <- !app_assoc. auto.
Qed.
Lemma char_behinds : forall p x toks l, lined p x toks l -> forall t, src = p ++ x ++ t -> ~ In 62 x -> ~ In 10 x -> hd 0 t <> 62 -> Forall (fun k => char_behind src k <> 62) toks.
Proof.
  induction 1 as [p|p c t toks l B _ IH|p t tk toks l E K _ IH|p w k q t tk toks l SW K T C _ IH]; intros t0 S0 N M H.
  - constructor.
  - apply (IH t0); auto; [rewrite S0, <- !app_assoc; reflexivity| |]; intros X; [apply N|apply M]; right; auto.
  - exfalso. apply M. left. auto.
  - constructor.
    + destruct T as (T1 & _). unfold char_behind. rewrite T1. destruct SW as (c & u & -> & _). cbn [app] in *. destruct (u ++ q ++ t) as [|b v] eqn:EV.
      * apply app_eq_nil in EV. destruct EV as (-> & EV). apply app_eq_nil in EV. destruct EV as (-> & ->). cbn [app] in S0. destruct t0 as [|b t0].
        -- unfold byte_at. rewrite nth_overflow; [discriminate|]. rewrite S0. unfold zlen. rewrite app_length. cbn [length]. lia.
        -- replace (zlen p + 1) with (zlen (p ++ [c])) by (zl; lia). rewrite (byte_at_place src (p ++ [c]) b t0); [exact H|]. rewrite S0, <- !app_assoc. reflexivity.
      * replace (zlen p + 1) with (zlen (p ++ [c])) by (zl; lia). rewrite (byte_at_place src (p ++ [c]) b (v ++ t0)); [|rewrite S0, <- !app_assoc; reflexivity]. intros ->. apply N. right. left. auto.
    + apply (IH t0); auto; [rewrite S0, <- !app_assoc; reflexivity| |]; intros X; [apply N|apply M]; rewrite !in_app_iff; auto.
Qed.
Lemma writes_chars x l : writes ms x l -> Forall (fun e => forall c, In c (fst e) -> In c x) l.
Proof.
  assert (UP : forall (x y : list Z) l, Forall (fun e : lexeme => forall c, In c (fst e) -> In c x) l -> Forall (fun e => forall c, In c (fst e) -> In c (y ++ x)) l).
  { intros x0 y l0 F. eapply Forall_impl; [|exact F]. intros e H c I. rewrite in_app_iff. auto. }
  induction 1 as [|c t l _ _ IH|w k t l _ _ _ _ IH|s k no t l _ _ _ IH|u t l _ _ _ _ IH|d t l _ _ _ _ _ IH|u t l _ _ _ _ IH|u t l _ _ _ _ IH]; try (constructor; cbn [fst]; [intros c0 I; rewrite in_app_iff; auto|apply UP; exact IH]).
  - constructor.
  - apply (UP t [c]). exact IH.
  - replace (txt "//" ++ u ++ 10 :: t) with ((txt "//" ++ u ++ [10]) ++ t) by (rewrite <- !app_assoc; reflexivity). constructor; cbn [fst]; [intros c0 I; rewrite in_app_iff; auto|apply UP; exact IH].
  - replace (34 :: u ++ 34 :: t) with (((34 :: u) ++ [34]) ++ t) by (rewrite <- !app_assoc; reflexivity). constructor; cbn [fst]; [intros c0 I; rewrite !in_app_iff; auto|apply UP; exact IH].
  - replace (39 :: u ++ 39 :: t) with ((39 :: u ++ [39]) ++ t) by (cbn [app]; rewrite <- !app_assoc; reflexivity). constructor; cbn [fst]; [intros c0 I; rewrite in_app_iff; auto|apply UP; exact IH].
Qed.
(** a parenthesis is written so *)
Lemma writes_parens x l : writes ms x l -> Forall (fun e => (snd e = Tok_Paren_Open -> fst e = txt "(") /\ (snd e = Tok_Paren_Close -> fst e = txt ")")) l.
Proof.
  assert (SY : forallb (fun '(s, k, _) => (negb (k =? Tok_Paren_Open) || teq (txt s) (txt "(")) && (negb (k =? Tok_Paren_Close) || teq (txt s) (txt ")"))) symbols = true) by (vm_compute; reflexivity).
  assert (WD : forallb (fun '(k, s) => (negb (k =? Tok_Paren_Open) || teq (txt s) (txt "(")) && (negb (k =? Tok_Paren_Close) || teq (txt s) (txt ")"))) token_spelling = true) by (vm_compute; reflexivity).
  rewrite forallb_forall in SY, WD.
  induction 1 as [|c t l _ _ IH|w k t l _ WK _ _ IH|s k no t l HI _ _ IH|u t l _ _ _ _ IH|d t l _ _ _ _ _ IH|u t l _ _ _ _ IH|u t l _ _ _ _ IH]; auto; constructor; auto; cbn [fst snd]; try (split; discriminate).
  - destruct WK as [(s & HI & -> & _)|[(_ & -> & _)|[(_ & -> & _)|(_ & ->)]]]; try (split; discriminate). specialize (WD _ HI). cbn beta iota in WD. apply andb_prop in WD. destruct WD as (W1 & W2). split; intros E; [destruct (Z.eqb_spec k Tok_Paren_Open); [|contradiction]; apply teq_ok; exact W1|destruct (Z.eqb_spec k Tok_Paren_Close); [|contradiction]; apply teq_ok; exact W2].
  - specialize (SY _ HI). cbn beta iota in SY. apply andb_prop in SY. destruct SY as (W1 & W2). split; intros E; [destruct (Z.eqb_spec k Tok_Paren_Open); [|contradiction]; apply teq_ok; exact W1|destruct (Z.eqb_spec k Tok_Paren_Close); [|contradiction]; apply teq_ok; exact W2].
Qed.
Lemma value_ok : forall toks l, Forall2 spells toks l -> Forall (fun k => ~ fmt k) toks -> Forall (fun k => char_behind src k <> 62) toks ->
  Forall (fun e => (snd e = Tok_Paren_Open -> fst e = txt "(") /\ (snd e = Tok_Paren_Close -> fst e = txt ")")) l -> Forall (fun e => ~ In 60 (fst e) /\ ~ In 62 (fst e)) l -> Forall (fun e => solid_head (fst e) /\ snd e <> Tok_NewLine) l ->
  forall d, brackets (Z.eqb Tok_Paren_Open) (Z.eqb Tok_Paren_Close) (fun d k => match d with O => k =? Tok_Comma | _ => false end) d (map snd l) -> value src d 0 toks.
Proof.
  intros toks l F. induction F as [|k e toks l (SW & SK & _ & _ & SF) F IH]; intros NF CB PR NA SH d B; cbn [map brackets] in B.
  - subst d. constructor.
  - rewrite <- SK in B. pose proof (Forall_inv NF) as NF0. pose proof (Forall_inv CB) as CB0. pose proof (Forall_inv PR) as (P1 & P2). pose proof (Forall_inv NA) as (A1 & A2). pose proof (Forall_inv SH) as ((c & u & EC & _) & _).
    apply Forall_inv_tail in NF, CB, PR, NA, SH. specialize (IH NF CB PR NA SH).
    destruct (Z.eqb_spec Tok_Paren_Open (t_type k)) as [EO|NO]; [apply v_open; [unfold kind; congruence|rewrite SW; apply P1; congruence|auto]|].
    destruct (Z.eqb_spec Tok_Paren_Close (t_type k)) as [EC'|NC]; [destruct d as [|d]; [contradiction|]; apply v_close; [unfold kind; congruence|rewrite SW; apply P2; congruence|auto]|].
    destruct B as (EB & B). apply v_other; auto.
    + intros -> _. cbn in EB. lia.
    + rewrite SF, EC. cbn [hd]. intros ->. apply A1. rewrite EC. left. auto.
    + rewrite SF, EC. cbn [hd]. intros ->. apply A2. rewrite EC. left. auto.
Qed.

Lemma at_default v p t toks l : default_text ms v -> hd 0 t <> 62 -> at_ p (txt " = " ++ v ++ t) toks (tk "=" :: lx v ++ l) ->
  exists k a b, toks = (k :: a) ++ b /\ default src (k :: a) (Some v) /\ kind Tok_Operator k /\ first_char src k = 61 /\ at_ (p ++ txt " = " ++ v) t b l.
Proof.
  intros (l0 & PH & TD & N60 & N62 & BR) H62 A. change (txt " = ") with (txt " " ++ txt "=" ++ txt " ") in *. rewrite <- !app_assoc in A. apply at_sp in A.
  destruct (at_tok src "=" _ _ _ _ eq_refl A) as (eq & t1 & -> & SE & _ & A1). apply at_sp in A1. pose proof PH as ((W & NE & N10 & _ & HD) & (u & c & EV & NC) & NS). rewrite (lx_ok ms v l0 W NE) in A1.
  pose proof (at_lined _ _ _ _ _ A1) as (E1 & _). destruct (at_seg src ms v l0 _ _ _ _ W A1) as (a & b & -> & L & ST & A2). destruct (phrase_ok src ms v l0 _ a PH ST L) as (first & more & -> & _ & F & NF & U & NX).
  exists eq, (first :: more), b. split; [reflexivity|]. split; [|split; [|split]].
  - exists [], eq, [], first, more. split; [reflexivity|]. split; [constructor|]. split; [apply (assigns_ok src); exact SE|]. split; [constructor|]. split; [apply (Forall_inv NF)|]. split; [|split; [|split; [|]]].
    + eapply value_ok; [exact F|exact NF| | | |apply (writes_head ms v l0 W)|exact BR].
      * eapply char_behinds; [exact L|rewrite E1; reflexivity|exact N62|exact N10|exact H62].
      * eapply writes_parens; exact W.
      * eapply Forall_impl; [|exact (writes_chars v l0 W)]. cbv beta. intros e IN. split; intros X; [apply N60|apply N62]; apply IN; exact X.
    + apply Forall_last; [apply (Forall_inv_tail NF)|apply (Forall_inv NF)].
    + symmetry. exact U.
    + destruct (tidy_closed v TD) as (C1 & C2). split; [exact C1|]. split; [exact C2|]. apply words_some; auto. apply solid_of; auto.
  - destruct SE as (_ & K & _). exact K.
  - destruct SE as (_ & _ & _ & _ & K). exact K.
  - repeat rewrite <- app_assoc in A2. repeat rewrite <- app_assoc. exact A2.
Qed.
Lemma lx_nil : lx [] = []. Proof. reflexivity. Qed.
Lemma at_param q p t toks l : param_written ms q -> hd 0 t <> 62 -> at_ p (param_text q ++ t) toks (RelexSpec.param_tokens lx q ++ l) ->
  exists a b, toks = a ++ b /\ (forall rest, follows src rest -> FnSpec.param_tokens src a rest q) /\ at_ (p ++ param_text q) t b l.
Proof.
  destruct q as [ot name ov]. intros (ty & ET & PT & N & DV) H62 A. cbn [p_type p_name p_value] in *. subst ot. unfold param_text, RelexSpec.param_tokens in *. cbn [p_type p_name p_value with_ tko] in *. rewrite <- !app_assoc in A. apply at_sp in A.
  destruct (at_typ src ms ty _ _ _ _ PT A) as (ty_ & t1 & -> & TT & _ & A1).
  assert (NM : exists nm t2, t1 = nm ++ t2 /\ (nm = [] /\ name = [] \/ exists g k, nm = g ++ [k] /\ gap g /\ kind Tok_Identifier k /\ name = word src k) /\
    (forall r, follows src r -> follows src (nm ++ r)) /\
    at_ (((p ++ txt " ") ++ typ_text ty) ++ match name with [] => [] | z :: r => txt " " ++ z :: r end) (with_ ov (fun v => txt " = " ++ v) ++ t) t2 (tko ov (fun v => tk "=" :: lx v) ++ l)).
  { destruct N as [-> |N].
    - rewrite lx_nil in A1. cbn [app] in A1. exists [], t1. split; auto. split; [left; auto|]. split; [auto|]. rewrite app_nil_r. exact A1.
    - destruct (name_head ms name N) as (c & u & EN & _). 
      assert (EM2 : match name with [] => [] | z :: r => txt " " ++ z :: r end = txt " " ++ name) by (rewrite EN; reflexivity). rewrite EM2 in A1. rewrite EM2. rewrite <- !app_assoc in A1. apply at_sp in A1. destruct (at_name src ms name _ _ _ _ N A1) as (k & t2 & -> & K & KW & _ & A2).
      exists [k], t2. split; [reflexivity|]. split; [right; exists [], k; repeat split; auto; constructor|]. split; [intros r _; apply (simple_follows src k r Tok_Identifier); [reflexivity|exact K]|]. repeat rewrite <- app_assoc in A2. repeat rewrite <- app_assoc. exact A2. }
  destruct NM as (nm & t2 & -> & NO & FN & A2).
  assert (DD : exists dv t3, t2 = dv ++ t3 /\ default src dv ov /\ (forall r, follows src r -> follows src (dv ++ r)) /\
    at_ ((((p ++ txt " ") ++ typ_text ty) ++ match name with [] => [] | z :: r => txt " " ++ z :: r end) ++ with_ ov (fun v => txt " = " ++ v)) t t3 l).
  { destruct ov as [v|]; cbn [with_ tko oall] in *.
    - rewrite <- !app_assoc in A2. cbn [app] in A2. destruct (at_default v _ _ _ _ DV H62 A2) as (k & a & b & -> & D & K1 & K2 & A3). exists (k :: a), b. split; auto. split; auto. split; [|repeat rewrite <- app_assoc in A3; repeat rewrite <- app_assoc; exact A3].
      intros r _. exists k, (a ++ r). split; auto. unfold fmt, native, ends_name. unfold kind in K1. rewrite K1, K2. split; [intros [X|X]; discriminate X|]. split; [vm_compute; intuition congruence|]. split; [discriminate|]. intros (_ & X & _). discriminate X.
    - exists [], t2. split; auto. split; [reflexivity|]. split; auto. rewrite app_nil_r. exact A2. }
  destruct DD as (dv & t3 & -> & D & FD & A3). exists (ty_ ++ nm ++ dv), t3. split; [rewrite <- !app_assoc; auto|]. split.
  - intros rest FL. apply pm; auto. apply PT.
  - repeat rewrite <- app_assoc in A3. repeat rewrite <- app_assoc. exact A3.
Qed.
Lemma at_more_params : forall ps p t toks l, Forall (param_written ms) ps ->
  at_ p (concat (map (fun q => txt ", " ++ param_text q) ps) ++ txt ")" ++ t) toks (flat_map (fun q => tk "," :: RelexSpec.param_tokens lx q) ps ++ tk ")" :: l) ->
  exists k a b, toks = (k :: a) ++ b /\ (forall rest, more_params src (k :: a) rest ps) /\ (kind Tok_Comma k \/ kind Tok_Paren_Close k) /\ at_ (p ++ concat (map (fun q => txt ", " ++ param_text q) ps) ++ txt ")") t b l.
Proof.
  induction ps as [|q ps IH]; intros p t toks l F A; cbn [map concat flat_map app] in *.
  - destruct (at_tok src ")" _ _ _ _ eq_refl A) as (c & b & -> & (_ & K & _) & _ & A1). exists c, [], b. split; [reflexivity|]. split; [intros rest; apply (mp_end src [] c rest); [constructor|exact K]|]. split; [right; exact K|exact A1].
  - change (txt ", ") with (txt "," ++ txt " ") in *. repeat rewrite <- app_assoc in A. destruct (at_tok src "," _ _ _ _ eq_refl A) as (c & t1 & -> & (_ & K & _) & _ & A1). apply at_sp in A1.
    pose proof (fun H => at_param q _ _ _ _ (Forall_inv F) H A1) as PQ. destruct PQ as (a & b & -> & PT & A2); [destruct ps; cbn; discriminate|]. destruct (IH _ _ _ _ (Forall_inv_tail F) A2) as (k & a' & b' & -> & MP & KK & A3).
    exists c, (a ++ k :: a'), b'. split; [cbn [app]; rewrite <- app_assoc; reflexivity|]. split; [|split; [left; exact K|]].
    + intros rest. apply (mp_more src [] c a q (k :: a') rest ps); [constructor|exact K| |apply MP]. apply PT. destruct KK as [KK|KK]; [apply (simple_follows src k _ Tok_Comma)|apply (simple_follows src k _ Tok_Paren_Close)]; auto.
    + repeat rewrite <- app_assoc in A3. repeat rewrite <- app_assoc. exact A3.
Qed.
Lemma at_params ps p t toks l : Forall (param_written ms) ps -> at_ p (txt "(" ++ params_text ps ++ txt ")" ++ t) toks (parens (RelexSpec.params_tokens lx ps) ++ l) ->
  exists o a b, toks = (o :: a) ++ b /\ kind Tok_Paren_Open o /\ (forall rest, FnSpec.params_tokens src (o :: a) rest ps) /\ at_ (p ++ txt "(" ++ params_text ps ++ txt ")") t b l.
Proof.
  intros F A. unfold parens in A. rewrite <- !app_assoc in A. cbn [app] in A. destruct (at_tok src "(" _ _ _ _ eq_refl A) as (o & t1 & -> & (_ & K & _) & _ & A1). destruct ps as [|q ps]; cbn [params_text RelexSpec.params_tokens app] in *.
  - destruct (at_tok src ")" _ _ _ _ eq_refl A1) as (c & b & -> & (_ & K2 & _) & _ & A2). exists o, [c], b. split; [reflexivity|]. split; [exact K|]. split; [intros rest; apply (ps_none src [] o [] c rest); auto; constructor|]. repeat rewrite <- app_assoc in A2. exact A2.
  - repeat rewrite <- app_assoc in A1. pose proof (fun H => at_param q _ _ _ _ (Forall_inv F) H A1) as PQ. destruct PQ as (a & b & -> & PT & A2); [destruct ps; cbn; discriminate|]. destruct (at_more_params ps _ _ _ _ (Forall_inv_tail F) A2) as (k & a' & b' & -> & MP & KK & A3).
    exists o, (a ++ k :: a'), b'. split; [cbn [app]; rewrite <- app_assoc; reflexivity|]. split; [exact K|]. split.
    + intros rest. apply (ps_some src [] o a q (k :: a') rest ps); [constructor|exact K| |apply MP]. apply PT. destruct KK as [KK|KK]; [apply (simple_follows src k _ Tok_Comma)|apply (simple_follows src k _ Tok_Paren_Close)]; auto.
    + repeat rewrite <- app_assoc in A3. repeat rewrite <- app_assoc. exact A3.
Qed.

(** *** specifiers *)
Lemma first_all s : In s first_specifiers -> In s all_specs.
Proof. intros HI. apply var_specs_in. assert (G : forallb (fun s => existsb (Z.eqb s) variable_specifiers) first_specifiers = true) by (vm_compute; reflexivity). rewrite forallb_forall in G. specialize (G s HI). apply existsb_exists in G. destruct G as (y & Y & E). apply Z.eqb_eq in E. subst y. exact Y. Qed.
Lemma at_words : forall sl p t toks l, Forall (fun s => In s first_specifiers) sl -> at_ p (concat (map (fun s => txt " " ++ spec_text s) sl) ++ t) toks (flat_map RelexSpec.spec_tokens sl ++ l) ->
  exists a b, toks = a ++ b /\ ParseSpec.spec_tokens src a sl /\ at_ (p ++ concat (map (fun s => txt " " ++ spec_text s) sl)) t b l.
Proof.
  induction sl as [|s sl IH]; intros p t toks l F A; cbn [map concat flat_map app] in *.
  - exists [], toks. split; auto. split; [constructor|]. rewrite app_nil_r. exact A.
  - repeat rewrite <- app_assoc in A. apply at_sp in A. destruct (at_spec src s _ _ _ _ (first_all s (Forall_inv F)) A) as (k & t1 & -> & SK & A1). destruct (IH _ _ _ _ (Forall_inv_tail F) A1) as (a & b & -> & ST & A2).
    exists (k :: a), b. split; auto. split; [apply (s_more src [] k s a sl); auto; constructor|]. repeat rewrite <- app_assoc in A2. repeat rewrite <- app_assoc. exact A2.
Qed.
Lemma solid_last (p y : list Z) : y <> [] -> ~ In 10 y -> last (p ++ y) 10 <> 10.
Proof. intros NE N. destruct (exists_last NE) as (u & c & ->). rewrite app_assoc, last_last. intros ->. apply N. rewrite in_app_iff. right. left. auto. Qed.
Notation lead_text specs := (spec_words leading specs ++ (if selects leading specs then NL else [])).
Lemma at_lead specs p t toks l : lead_specs specs -> at_ p (spec_words leading specs ++ (if selects leading specs then NL else []) ++ t) toks (RelexSpec.some_specs leading specs ++ l) ->
  exists pre sp b, toks = pre ++ b /\ ParseSpec.spec_tokens src pre sp /\ Forall (fun s => In s first_specifiers) sp /\ Z.of_nat (length sp) <= SPECS_CAP /\ specs = ParseSpec.some_specs sp /\ at_ (p ++ lead_text specs) t b l.
Proof.
  intros LS A. destruct specs as [sl|]; cbn [spec_words with_ RelexSpec.some_specs tko selects app] in *.
  - destruct LS as (NE & F & CAP). destruct (leads sl F) as (E & _). unfold RelexSpec.some_specs in A. cbn [tko] in A. rewrite E in *. assert (SEL : existsb leading sl = true) by (destruct sl as [|s sl]; [contradiction|cbn; rewrite (first_leading s (Forall_inv F)); reflexivity]). rewrite SEL in *.
    destruct (at_words sl _ _ _ _ F A) as (pre & b & -> & ST & A1). exists pre, sl, b. split; auto. split; auto. split; auto. split; auto. split; [destruct sl; [contradiction|reflexivity]|].
    rewrite app_assoc. apply at_nl; [|exact A1]. apply solid_last.
    + destruct sl; [contradiction|discriminate].
    + clear - F. induction F as [|s sl HI _ IH]; cbn [map concat]; [intros []|]. rewrite !in_app_iff. intros [[X|X]|X]; [destruct X as [X|[]]; discriminate X|exact (flat_spec s (first_all s HI) X)|auto].
  - exists [], [], toks. split; auto. split; [constructor|]. split; [constructor|]. split; [cbn; unfold SPECS_CAP; lia|]. split; auto. rewrite app_nil_r. exact A.
Qed.

(** *** the body *)
Lemma nested_kinds : forall toks (l : list lexeme), map t_type (solids toks) = map snd l -> forall d, brackets (Z.eqb Tok_BraceCurly_Open) (Z.eqb Tok_BraceCurly_Close) (fun _ _ => false) d (map snd l) ->
  nested (eq Tok_BraceCurly_Open) (eq Tok_BraceCurly_Close) (fun _ _ => False) d toks.
Proof.
  intros toks l E d B. rewrite <- E in B. clear E l. revert d B. induction toks as [|k toks IH]; intros d B.
  - cbn in B. subst d. constructor.
  - unfold solids in *. cbn [filter] in B. destruct (Z.eqb_spec (t_type k) Tok_NewLine) as [EN|NN]; cbn [negb map brackets] in B.
    + apply n_other; auto; rewrite EN; discriminate.
    + destruct (Z.eqb_spec Tok_BraceCurly_Open (t_type k)); [apply n_open; auto|]. destruct (Z.eqb_spec Tok_BraceCurly_Close (t_type k)).
      * destruct d as [|d]; [contradiction|]. apply n_close; auto.
      * destruct B as (_ & B). apply n_other; auto.
Qed.
Lemma at_body b p t toks l : body_text ms b -> last p 10 <> 10 -> at_ p (braces b ++ NL ++ t) toks (curly (lx b) ++ l) ->
  exists k a R, toks = (k :: a) ++ R /\ body_tokens src (k :: a) [b] /\ at_m Fresh (p ++ braces b ++ NL) t R l.
Proof.
  intros (l0 & W & NE & _ & (c & u & EB & C1 & C2) & (u2 & c2 & EB2 & HC) & NS & BR) LP A. unfold braces, curly in *. rewrite (lx_ok ms b l0 W NE) in A. rewrite <- !app_assoc in A. cbn [app] in A.
  apply at_nl in A; [|exact LP]. destruct (at_tok src "{" _ _ _ _ eq_refl A) as (o & t1 & -> & (_ & KO & _) & _ & A1). apply at_nl in A1; [|rewrite (last_last_app _ (txt "{")) by discriminate; discriminate].
  assert (SH : solid_head b) by (exists c, u; split; auto; intros [X|X]; contradiction).
  assert (LB : forall q, last (q ++ b) 10 = c2) by (intros q; rewrite EB2, app_assoc; apply last_last).
  assert (N2 : c2 <> 10 /\ c2 <> 32) by (destruct HC as [<-|[<-|[]]]; split; discriminate).
  destruct (at_seg src ms b l0 _ _ _ _ W A1) as (a & t2 & -> & L & ST & A2). destruct (RoundProofs2.lined_first _ _ _ _ L SH) as (first & more & -> & TF). apply at_nl in A2; [|rewrite LB; apply N2].
  destruct A2 as (m & A2). destruct (m_lexeme src (tk "}") m _ _ _ _ eq_refl A2) as (cl & R & -> & (_ & KC & _) & _ & A3). change (after (snd (tk "}"))) with Behind in A3. apply m_end in A3.
  exists o, (first :: more ++ [cl]), R. split; [cbn [app]; rewrite <- app_assoc; reflexivity|].
  assert (U : upto src first (last more first) = b).
  { eapply upto_at; eauto. pose proof (lined_last _ _ _ _ L first) as K. rewrite last_cons in K. apply K; [rewrite EB; discriminate| |exact NS]. rewrite EB2, last_last. intros [X|X]; [apply (proj2 N2)|apply (proj1 N2)]; exact X. }
  split.
  - rewrite <- U. apply (bt_text src [] o first more cl); [constructor|exact KO| |exact KC|rewrite U, EB; discriminate]. unfold in_braces. eapply nested_kinds; [eapply lined_kinds; exact L|exact BR].
  - cbn [fst] in A3. repeat rewrite <- app_assoc in A3. repeat rewrite <- app_assoc. exact A3.
Qed.

(** *** everything in front of the body or the semicolon *)
Variable beyond : list token.
Hypothesis QUIET : quiet beyond.
Hypothesis ODD : Forall (fun w => lookup_macro ms (txt w) = None) odd_specs.
Notation no_macro := (Forall (fun k => t_type k <> Tok_Preprocess_Macro_Expr)).
Lemma kinds_first : forall toks l, map t_type (solids toks) = l -> forall n k, In k (firstn n toks) -> t_type k = Tok_NewLine \/ In (t_type k) (firstn n l).
Proof.
  induction toks as [|x toks IH]; intros l E n k HI; [destruct n; contradiction|]. destruct n as [|n]; [contradiction|]. cbn [firstn] in HI. unfold solids in E. cbn [filter] in E. destruct (Z.eqb_spec (t_type x) Tok_NewLine) as [EN|NN]; cbn [negb map] in E.
  - destruct HI as [<- |HI]; [left; exact EN|]. destruct (IH l E n k HI) as [G|G]; [left; exact G|right]. clear - G. revert l G. induction n as [|n IHn]; intros l G; [contradiction|]. destruct l as [|z l]; [contradiction|]. cbn [firstn] in G |- *. destruct G as [<- |G]; [left; reflexivity|right; apply IHn; exact G].
  - subst l. cbn [firstn]. destruct HI as [<- |HI]; [right; left; reflexivity|]. destruct (IH _ eq_refl n k HI) as [G|G]; [left; exact G|right; right; exact G].
Qed.
Lemma param_lexable q : param_written ms q -> param_ok lx ms q.
Proof.
  destruct q as [ot name ov]. intros (ty & ET & PT & N & DV). cbn [p_type p_name p_value] in *. subst ot. split; [apply typ_lexable; exact PT|]. split.
  - cbn [p_name]. destruct N as [-> |N]; [split; [change (writes ms [] []); constructor|change (Forall (fun l : lexeme => fst l <> txt "extern") []); constructor]|apply name_leaf_ok; exact N].
  - cbn [p_value]. destruct ov as [v|]; [|exact I]. destruct DV as (l & PH & _). destruct PH as (LT & _). eapply line_leaf; exact LT.
Qed.
Lemma params_written ps : Forall (param_written ms) ps -> Forall (param_ok lx ms) ps.
Proof. intros F. eapply Forall_impl; [|exact F]. apply param_lexable. Qed.
Lemma flat_param q : param_written ms q -> flat (param_text q).
Proof.
  destruct q as [ot name ov]. intros (ty & ET & PT & N & DV). cbn [p_type p_name p_value] in *. subst ot. unfold param_text. cbn [p_type p_name p_value with_]. pose proof (flat_typ ms ty PT) as FT.
  apply flat_app; [apply flat_app; [intros [X|[]]; discriminate X|exact FT]|]. apply flat_app.
  - destruct N as [-> |N]; [exact flat_nil|]. pose proof (flat_name ms name N) as FN. destruct name; [exact flat_nil|]. apply flat_app; [intros [X|[]]; discriminate X|exact FN].
  - destruct ov as [v|]; cbn [with_ oall] in *; [|exact flat_nil]. destruct DV as (l & ((_ & _ & N10 & _) & _) & _). apply flat_app; [intros [X|[X|[X|[]]]]; discriminate X|exact N10].
Qed.
Lemma flat_params ps : Forall (param_written ms) ps -> flat (params_text ps).
Proof.
  intros F. destruct ps as [|q ps]; [exact flat_nil|]. cbn [params_text]. apply flat_app; [apply flat_param, (Forall_inv F)|]. apply Forall_inv_tail in F. induction F as [|q' ps M _ IH]; cbn [map concat]; [exact flat_nil|].
  apply flat_app; [|exact IH]. apply flat_app; [intros [X|[X|[]]]; discriminate X|apply flat_param; exact M].
Qed.
Lemma front_online p specs ret name ps : is_name ms name -> Forall (param_written ms) ps ->
  online (p ++ lead_text specs ++ sp (typ_text ret) ++ name ++ txt "(" ++ params_text ps ++ txt ")").
Proof.
  intros N F. pose proof (flat_params ps F) as FP. replace (p ++ lead_text specs ++ sp (typ_text ret) ++ name ++ txt "(" ++ params_text ps ++ txt ")") with ((((p ++ lead_text specs ++ sp (typ_text ret)) ++ name)) ++ txt "(" ++ params_text ps ++ txt ")") by (repeat rewrite <- app_assoc; reflexivity).
  apply online_app; [apply (online_name ms); exact N|]. apply flat_app; [intros [X|[]]; discriminate X|]. apply flat_app; [exact FP|intros [X|[]]; discriminate X].
Qed.

Lemma function_front inside specs ret name ps p rest toks lr :
  class_specs inside specs -> lead_specs specs -> plain_typ ms ret -> begins ms specs ret -> is_name ms name -> Forall (param_written ms) ps -> no_early_comma ms ps ->
  let L := RelexSpec.some_specs leading specs ++ typ_tokens lx ret ++ lx name ++ parens (RelexSpec.params_tokens lx ps) ++ lr in
  at_ p (lead_text specs ++ sp (typ_text ret) ++ name ++ txt "(" ++ params_text ps ++ txt ")" ++ rest) toks L ->
  (exists e l, lr = e :: l /\ snd e <> Tok_Comma) -> no_outside L -> well_ended L -> no_macro toks ->
  exists sl k front b, toks = (k :: front) ++ b /\ specs = ParseSpec.some_specs sl /\ Forall (fun s => In s first_specifiers) sl /\ at_ (p ++ lead_text specs ++ sp (typ_text ret) ++ name ++ txt "(" ++ params_text ps ++ txt ")") rest b lr /\
    forall fin R body cmt tr, b = fin ++ R -> fin <> [] -> function_end src fin (R ++ beyond) [] body cmt -> func_tree (Func false None sl ret name ps body cmt) = Some tr -> declared src beyond inside (k :: front ++ fin) R tr.
Proof.
  intros CS LS PT B N PW NC L A LR NO WE NM. pose proof A as A0. unfold L in A. rewrite <- (app_assoc (spec_words leading specs)) in A.
  destruct (at_lead specs p _ toks _ LS A) as (pre & sl & t1 & -> & ST & FS & CAP & ES & A1). unfold sp in A1. repeat rewrite <- app_assoc in A1.
  destruct (at_typ src ms ret _ _ _ _ PT A1) as (ty_ & t2 & -> & TT & T1 & A2). apply at_sp in A2. destruct (at_name src ms name _ _ _ _ N A2) as (kn & t3 & -> & K3 & KN & NN & A3).
  destruct (at_params ps _ _ _ _ PW A3) as (o & a & b & -> & KO & PTS & A4).
  assert (NT : ty_tag ret = NoTag) by apply B. destruct (T1 NT) as (y1 & yr & -> & KY & _). clear T1.
  assert (SP : exists k0 raw0, pre ++ (y1 :: yr) ++ kn :: o :: a = k0 :: raw0) by (destruct pre; eexists _, _; reflexivity). destruct SP as (k0 & raw0 & SP).
  assert (E0 : pre ++ (y1 :: yr) ++ kn :: (o :: a) ++ b = (k0 :: raw0) ++ b) by (rewrite <- SP; repeat (rewrite <- ?app_assoc; cbn [app]); reflexivity).
  exists sl, k0, raw0, b. split; [exact E0|]. split; [exact ES|]. split; [exact FS|]. split; [repeat rewrite <- app_assoc in A4; unfold sp; repeat rewrite <- app_assoc; exact A4|].
  intros fin R body cmt tr EB FNE FE FT. subst b.
  set (L1 := typ_tokens lx ret ++ lx name ++ parens (RelexSpec.params_tokens lx ps) ++ lr) in *. fold L1 in A1. change L with (RelexSpec.some_specs leading specs ++ L1) in NO, WE. apply suffix_outside in NO. apply suffix_ended in WE.
  pose proof (at_spells src _ _ _ _ A1) as F1.
  assert (TM : Forall (fun k => tame (t_type k)) (y1 :: yr)). { apply (seg_all tame (y1 :: yr) (typ_tokens lx ret)); [exact (seg_kinds src _ _ _ _ _ _ _ _ A1 A2)|reflexivity|apply type_tame; auto]. }
  assert (ND : no_operator ((y1 :: yr) ++ [kn])). { apply Forall_app. split; [eapply Forall_impl; [|exact TM]; cbv beta; intros x T Q; rewrite Q in T; discriminate T|]. constructor; [|constructor]. unfold kind in K3. rewrite K3. discriminate. }
  assert (UA : unambiguous src inside ((y1 :: yr) ++ kn :: (o :: a) ++ fin ++ R)).
  { assert (N1 : t_type y1 <> Tok_Paren_Open) by (apply tame_not_paren, (Forall_inv TM)). destruct inside; cbn [unambiguous].
    - destruct yr as [|y2 yr]; cbn [app]; eexists _, _, _; (split; [reflexivity|]); [unfold kind in K3; rewrite K3; discriminate|apply tame_not_paren, (Forall_inv (Forall_inv_tail TM))].
    - destruct yr as [|y2 yr]; cbn [app] in *.
      + eapply calm_ok; [exact F1|exact NO|exact WE|exact N1|]. unfold kind in K3. rewrite K3. discriminate.
      + eapply calm_ok; [exact F1|exact NO|exact WE|exact N1|]. apply tame_not_paren, (Forall_inv (Forall_inv_tail TM)). }
  assert (N3 : next_three ((o :: a) ++ fin ++ R ++ beyond) decides_function).
  { assert (G : exists x y r, (o :: a) ++ fin ++ R = o :: x :: y :: r).
    { cbn [app]. destruct fin as [|f fin]; [contradiction|]. destruct (at_params ps _ _ _ _ PW A3) as (o2 & a2 & b2 & E2 & _ & _ & A4'). destruct a as [|x a]; [|destruct a as [|y a]; eexists _, _, _; reflexivity].
      exfalso. specialize (PTS []). clear - PTS. inversion PTS as [g1 o' g2 c rest GP K1 GP2 K2 E1|g1 o' a' q m rest ps' GP K1 PTK MP E1]; subst.
      - destruct g1; cbn [app] in E1; [|destruct g1; discriminate E1]. injection E1 as _ E1. destruct g2; discriminate E1.
      - destruct g1; cbn [app] in E1; [|destruct g1; discriminate E1]. injection E1 as _ E1. apply app_eq_nil in E1. destruct E1 as (-> & ->). inversion MP; destruct g; discriminate. }
    destruct G as (x & y & r & EG). exists [], o, x, y, (r ++ beyond). split; [cbn [app]; replace (o :: a ++ fin ++ R ++ beyond) with (((o :: a) ++ fin ++ R) ++ beyond) by (repeat (rewrite <- ?app_assoc; cbn [app]); reflexivity); rewrite EG; reflexivity|]. split; [constructor|].
    split; [unfold kind in KO; unfold fmt; rewrite KO; intros [X|X]; discriminate X|]. split.
    - pose proof (at_lined src _ _ _ _ A3) as (_ & LN). apply lined_kinds in LN. rewrite EG in LN. assert (HI : In y (firstn 3 (o :: x :: y :: r))) by (cbn; auto). destruct (kinds_first _ _ LN 3 y HI) as [G|G]; [rewrite G; discriminate|]. clear - G NC LR PW ODD.
      assert (W : writes ms (params_text ps) (RelexSpec.params_tokens lx ps)). { pose proof (params_app lx ms ODD ps [] [] (params_written ps PW)) as H. rewrite !app_nil_r in H. apply H; [cbn; auto|constructor]. }
      specialize (NC _ W). destruct LR as (e & l & -> & NE). unfold parens in G. rewrite <- !app_assoc in G. cbn [app] in G. destruct (RelexSpec.params_tokens lx ps) as [|e1 [|e2 l2]]; cbn [app map firstn In] in *; intros X; rewrite X in G.
      + destruct G as [G|[G|[G|[]]]]; try discriminate G. exact (NE G).
      + apply Forall_inv in NC. destruct G as [G|[G|[G|[]]]]; try discriminate G. exact (NC G).
      + pose proof (Forall_inv NC) as N1. pose proof (Forall_inv (Forall_inv_tail NC)) as N2. destruct G as [G|[G|[G|[]]]]; try discriminate G; auto.
    - clear - NM EG. apply Forall_app in NM. destruct NM as (_ & NM). apply Forall_app in NM. destruct NM as (_ & NM). apply Forall_inv_tail in NM. rewrite EG in NM. apply (Forall_inv (Forall_inv_tail NM)). }
  assert (SA : starts inside None sl k0).
  { rewrite E0 in A0. cbn [app] in A0. unfold L in A0. fold L1 in A0. destruct specs as [ls|].
    - destruct B as (_ & _ & s & r & -> & HI). assert (SPE : sl = s :: r) by (destruct sl as [|s0 sl']; [discriminate ES|cbn [ParseSpec.some_specs] in ES; congruence]). rewrite SPE in *.
      destruct (leads _ FS) as (EL & _). apply starts_specs; [exact HI|intros EI; apply (Forall_inv (CS EI))|]. intros e l ETK. cbn [spec_words with_] in A0. unfold RelexSpec.some_specs in A0. cbn [tko] in A0. rewrite EL in A0. cbn [map concat flat_map] in A0. rewrite ETK in A0. repeat (rewrite <- ?app_assoc in A0; cbn [app] in A0). apply (at_sp src) in A0.
      apply (at_first src _ _ _ _ _ _ A0). apply first_spec. exact HI.
    - assert (SPE : sl = []) by (destruct sl; [reflexivity|discriminate ES]). rewrite SPE. cbn [spec_words with_ selects app] in A0. unfold RelexSpec.some_specs in A0. cbn [tko app] in A0.
      destruct B as (_ & B). unfold L1, typ_tokens in A0. pose proof PT as (EA & _ & (l & ((W & NE & _) & _) & _) & _). rewrite EA, NT in A0. cbn [tko app] in A0. rewrite (lx_ok ms _ _ W NE) in A0. destruct l as [|e l]; [contradiction|]. cbn [app] in A0.
      specialize (B e l W). rewrite <- (fun H => at_first src _ _ _ _ _ _ A0 H) in B; [unfold starts; revert B; unfold first_types; cbn [In]; tauto|]. unfold sp. repeat rewrite <- app_assoc. apply (type_head ms); auto. }
  pose proof (dc_function src beyond inside [] None pre sl [] (y1 :: yr) ret [] [kn] name (o :: a) ps [] [] fin [] body R cmt k0 (raw0 ++ fin) tr) as G. cbn [app] in G. rewrite !app_nil_r in G. apply G; auto; try exact (Forall_nil _); clear G.
  - reflexivity.
  - apply Forall_forall. intros s HI. right. destruct inside; cbn [specifiers_in].
    + specialize (CS eq_refl). rewrite ES in CS. destruct sl as [|s0 sl]; [contradiction|]. cbn [ParseSpec.some_specs oall] in CS. rewrite Forall_forall in CS. apply CS. exact HI.
    + rewrite Forall_forall in FS. apply file_global. unfold file_specifiers. rewrite in_app_iff. left. apply FS. exact HI.
  - intros k' r' E. injection E as <- _. destruct KY as [KY|KY]; [unfold kind in KY; unfold fmt; rewrite KY; intros [X|X]; discriminate X|unfold native in KY; unfold fmt, Tok_Type_Unsigned, Tok_Type_MS_W64, Tok_NewLine, Tok_Comment in *; lia].
  - apply TT. eapply simple_follows; [|exact K3]. reflexivity.
  - apply PT.
  - rewrite <- KN. apply (nm src kn [] []); [exact K3|left; auto|constructor].
  - apply Forall_forall. intros c HI. pose proof (name_flat ms name c N HI) as WC. unfold word_char in WC. cbn [In]. lia.
  - constructor.
  - change (k0 :: raw0 ++ fin) with ((k0 :: raw0) ++ fin). rewrite <- SP. repeat (rewrite <- ?app_assoc; cbn [app]). reflexivity.
Qed.

Lemma no_trails specs : lead_specs specs -> spec_words trails specs = [] /\ RelexSpec.some_specs trails specs = [].
Proof. destruct specs as [l|]; [|split; reflexivity]. intros (_ & F & _). destruct (leads l F) as (_ & E). unfold RelexSpec.some_specs. cbn [spec_words with_ tko]. rewrite E. split; reflexivity. Qed.
Lemma function_declared inside specs ret name ps cmt p rest toks lr :
  let t := FunctionFwd false None specs (Some ret) name ps cmt in
  class_specs inside specs -> lead_specs specs -> plain_typ ms ret -> begins ms specs ret -> is_name ms name -> Forall (param_written ms) ps -> no_early_comma ms ps -> oall line_comment_text cmt ->
  at_ p (render t ++ rest) toks (tokens lx t ++ lr) -> Forall (positioned src) toks -> no_outside (tokens lx t ++ lr) -> well_ended (tokens lx t ++ lr) -> no_macro toks ->
  exists raw R, toks = raw ++ R /\ at_m Fresh (p ++ render t) rest R lr /\ (cmt = None -> closed raw (p ++ render t)) /\ (ended cmt raw (R ++ beyond) -> declared src beyond inside raw R t).
Proof.
  intros t CS LS PT B N PW NC OC A PO NO WE NM. destruct (no_trails specs LS) as (E1 & E2).
  assert (ER : forall r, render t ++ r = lead_text specs ++ sp (typ_text ret) ++ name ++ txt "(" ++ params_text ps ++ txt ")" ++ semi cmt ++ r) by (intros r; unfold t; cbn [render when with_ present orb app]; rewrite E1; cbn [app]; repeat rewrite <- app_assoc; reflexivity).
  assert (ET : forall l, tokens lx t ++ l = RelexSpec.some_specs leading specs ++ typ_tokens lx ret ++ lx name ++ parens (RelexSpec.params_tokens lx ps) ++ end_tokens lx cmt ++ l) by (intros r; unfold t; cbn [tokens tks tko app]; rewrite E2; cbn [app]; repeat rewrite <- app_assoc; reflexivity).
  rewrite ER, ET in A. rewrite ET in NO, WE.
  destruct (function_front inside specs ret name ps p _ toks _ CS LS PT B N PW NC A) as (sl & k & front & b & -> & ES & FS & A1 & D); auto.
  { unfold end_tokens. cbn [app]. eexists _, _. split; [reflexivity|discriminate]. }
  destruct (at_semi src ms cmt _ rest b lr OC A1) as (semi_ & more & R & -> & SK0 & SE & MO & A2); [apply Forall_app in PO; apply PO|apply front_online; auto|].
  exists (k :: front ++ semi_ :: more), R. split; [cbn [app]; rewrite <- app_assoc; reflexivity|]. split; [|split].
  - pose proof (ER []) as EN. rewrite !app_nil_r in EN. rewrite EN. repeat rewrite <- app_assoc in A2. repeat rewrite <- app_assoc. exact A2.
  - intros ->. rewrite (MO eq_refl). exists (k :: front), semi_. eexists. split; [reflexivity|]. split; [exact SK0|]. pose proof (ER []) as EN. rewrite !app_nil_r in EN. rewrite EN. unfold semi. cbn [with_]. repeat rewrite <- app_assoc. reflexivity.
  - intros EN. change (k :: front ++ semi_ :: more) with ((k :: front) ++ semi_ :: more) in EN. apply ended_last in EN. apply (D (semi_ :: more) R None cmt); [reflexivity|discriminate|apply fe_semi, SE; exact EN|].
    unfold func_tree. cbn [f_body f_specs f_export f_attrs f_ret f_name f_params f_comment].
    replace (existsb (fun s => (s =? Spec_Pure) || (s =? Spec_Delete)) sl) with false; [unfold t; rewrite ES; reflexivity|]. symmetry. clear - FS. induction FS as [|s sl HI _ IH]; [reflexivity|]. cbn [existsb]. rewrite IH.
    assert (G : forallb (fun s => negb ((s =? Spec_Pure) || (s =? Spec_Delete))) first_specifiers = true) by (vm_compute; reflexivity). rewrite forallb_forall in G. specialize (G s HI). destruct ((s =? Spec_Pure) || (s =? Spec_Delete)); [discriminate G|reflexivity].
Qed.
Lemma function_defined inside specs ret name ps b p rest toks lr :
  let t := Function None specs (Some ret) name ps [Raw b] in
  class_specs inside specs -> lead_specs specs -> plain_typ ms ret -> begins ms specs ret -> is_name ms name -> Forall (param_written ms) ps -> no_early_comma ms ps -> body_text ms b ->
  at_ p (render t ++ rest) toks (tokens lx t ++ lr) -> no_outside (tokens lx t ++ lr) -> well_ended (tokens lx t ++ lr) -> no_macro toks ->
  exists raw R, toks = raw ++ R /\ at_m Fresh (p ++ render t) rest R lr /\ declared src beyond inside raw R t.
Proof.
  intros t CS LS PT B N PW NC BT A NO WE NM. destruct (no_trails specs LS) as (E1 & E2).
  assert (ER : forall r, render t ++ r = lead_text specs ++ sp (typ_text ret) ++ name ++ txt "(" ++ params_text ps ++ txt ")" ++ braces b ++ NL ++ r) by (intros r; unfold t; cbn [render when with_ present orb app]; rewrite E1; change (concat (map render [Raw b])) with (b ++ []); cbn [app]; rewrite ?app_nil_r; repeat rewrite <- app_assoc; reflexivity).
  assert (ET : forall l, tokens lx t ++ l = RelexSpec.some_specs leading specs ++ typ_tokens lx ret ++ lx name ++ parens (RelexSpec.params_tokens lx ps) ++ curly (lx b) ++ l) by (intros r; unfold t; cbn [tokens tks tko app]; rewrite E2; change (flat_map (tokens lx) [Raw b]) with (lx b ++ []); cbn [app]; rewrite ?app_nil_r; repeat rewrite <- app_assoc; reflexivity).
  rewrite ER, ET in A. rewrite ET in NO, WE.
  destruct (function_front inside specs ret name ps p _ toks _ CS LS PT B N PW NC A) as (sl & k & front & b0 & -> & ES & FS & A1 & D); auto.
  { unfold curly. cbn [app]. eexists _, _. split; [reflexivity|discriminate]. }
  destruct (at_body b _ rest b0 lr BT (online_solid _ (front_online p specs ret name ps N PW)) A1) as (o & a & R & -> & BD & A2).
  exists (k :: front ++ o :: a), R. split; [cbn [app]; rewrite <- app_assoc; reflexivity|]. split.
  - pose proof (ER []) as EN. rewrite !app_nil_r in EN. rewrite EN. repeat rewrite <- app_assoc in A2. repeat rewrite <- app_assoc. exact A2.
  - apply (D (o :: a) R (Some [b]) None); [reflexivity|discriminate|apply fe_body; exact BD|]. unfold func_tree. cbn [f_body f_specs f_export f_attrs f_ret f_name f_params f_comment map]. unfold t. rewrite ES. reflexivity.
Qed.
End P.
