(** The tokens of a file that was written: lexemes, kinds, and what the library looks at first. *)
From Coq Require Import String ZArith List Bool Lia ZifyBool ZifyNat.
From Verif Require Import Common HashModel Text EnumModel EnumSpec LexModel LexSpec LexProofs StripSpec AstModel AstSpec SerSpec RelexSpec RelexProofs RelexProofs2 RelexProofs3 RelexProofs4 RelexProofs5 RelexProofs6
  ParseSpec FnSpec GlobalSpec RoundSpec RoundProofs RoundProofs2 RoundProofs3 RoundProofs4 RoundProofs5 RoundProofs6 RoundProofs7 RoundProofs8 FileSpec.
Import ListNotations.
Close Scope string_scope.
Open Scope Z_scope.

Section P.
Variable src : list Z.
Variable ms : macros.
Notation spells := (spells src).
Notation lx := (lexed_as ms).
Notation at_ := (at_ src).
Notation at_m := (at_m src).

(** *** tokens and lexemes *)
Lemma lined_spells p x toks l : lined p x toks l -> (exists t, src = p ++ x ++ t) -> Forall2 spells (solids toks) l.
Proof.
  induction 1 as [p|p c t toks l B _ IH|p t tk toks l E K _ IH|p w k q t tk toks l SW K T C _ IH]; intros (t0 & S0).
  - constructor.
  - apply IH. exists t0. rewrite S0, <- !app_assoc. reflexivity.
  - unfold solids in *. cbn [filter]. rewrite K, Z.eqb_refl. cbn [negb]. apply IH. exists t0. rewrite S0, <- !app_assoc. reflexivity.
  - assert (SP : spells tk (w, k)). { apply (spells_at src p w k tk); auto. exists ((q ++ t) ++ t0). rewrite S0, <- !app_assoc. reflexivity. }
    pose proof (proj1 (proj2 SP)) as TK. cbn [snd] in TK. unfold solids in *. cbn [filter]. rewrite TK. destruct (Z.eqb_spec k Tok_NewLine); [contradiction|]. cbn [negb]. constructor; [exact SP|]. apply IH. exists t0. rewrite S0, <- !app_assoc. reflexivity.
Qed.
Lemma at_spells p t toks l : at_ p t toks l -> Forall2 spells (solids toks) l.
Proof. intros A. apply at_lined in A. destruct A as (E & L). eapply lined_spells; eauto. exists []. rewrite app_nil_r. exact E. Qed.
(** the first token *)
Lemma lined_first p t k r l : lined p t (k :: r) l -> ~ blank (hd 0 t) -> t_start k = zlen p /\ exists e l', l = e :: l' /\ t_type k = snd e.
Proof.
  intros L N. inversion L; subst.
  - cbn [hd] in N. contradiction.
  - cbn [hd] in N. unfold blank in N. exfalso. apply N. auto.
  - match goal with H : token_at _ _ _ _ |- _ => destruct H as (T1 & T2 & T3 & _) end. split; [exact T1|]. eexists _, _. split; [reflexivity|]. exact T3.
Qed.
Lemma at_first p t k r e l : at_ p t (k :: r) (e :: l) -> ~ blank (hd 0 t) -> t_type k = snd e.
Proof. intros A N. apply at_lined in A. destruct A as (_ & L). destruct (lined_first _ _ _ _ _ L N) as (_ & e' & l' & E & K). injection E as -> ->. exact K. Qed.
Lemma at_nonempty p t toks e l : at_ p t toks (e :: l) -> toks <> [].
Proof. intros A ->. apply at_spells in A. inversion A. Qed.

(** *** the kinds of lexemes *)
Lemma writes_kinds x l : writes ms x l -> Forall (fun e => snd e <> Tok_Preprocess_Macro_Expr) l.
Proof.
  assert (SY : forallb (fun '(_, k, _) => negb (k =? Tok_Preprocess_Macro_Expr)) symbols = true) by (vm_compute; reflexivity).
  induction 1 as [|c t l _ _ IH|w k t l _ WK _ _ IH|s k no t l HI _ _ IH|u t l _ _ _ _ IH|d t l _ _ _ _ _ IH|u t l _ _ _ _ IH|u t l _ _ _ _ IH]; auto; constructor; auto; cbn [snd]; try discriminate.
  - apply (kind_plain ms w t k WK).
  - rewrite forallb_forall in SY. specialize (SY _ HI). cbn in SY. lia.
Qed.
Lemma kinds_tokens toks l (P : Z -> Prop) : Forall2 spells (solids toks) l -> P Tok_NewLine -> Forall (fun e => P (snd e)) l -> Forall (fun k => P (t_type k)) toks.
Proof.
  intros F PN FP. apply (seg_all P toks l); auto. clear FP PN. induction F as [|k e a l0 (_ & K & _) _ IH]; cbn [map]; congruence.
Qed.

(** *** [to_paren] *)
Lemma to_paren_split : forall l seen d, to_paren src seen d l = l \/ exists o r, l = to_paren src seen d l ++ o :: r /\ kind Tok_Paren_Open o.
Proof.
  induction l as [|k r IH]; intros seen d; cbn [to_paren]; [left; auto|]. cbv zeta. set (s' := seen || (first_char src k =? 60)). set (d' := if s' then d + angle src k else d).
  destruct ((t_type k =? Tok_Paren_Open) && (d' =? 0)) eqn:E.
  - right. exists k, r. split; auto. unfold kind. lia.
  - destruct (IH s' d') as [-> |(o & r' & EQ & K)]; [left; auto|]. right. exists o, r'. split; [|exact K]. cbn [app]. f_equal. exact EQ.
Qed.
Definition finished (k : Z) : Prop := k = Tok_NewLine \/ k = Tok_Comment \/ k = Tok_Statement_End \/ k = Tok_BraceCurly_Close.
Definition well_ended (l : list lexeme) : Prop := forall a e, l = a ++ [e] -> finished (snd e).
Lemma last_finished toks l p k : Forall2 spells (solids toks) l -> well_ended l -> toks = p ++ [k] -> finished (t_type k).
Proof.
  intros F W ->. destruct (Z.eq_dec (t_type k) Tok_NewLine) as [E|N]; [left; exact E|]. rewrite solids_app in F. unfold solids at 2 in F. cbn [filter] in F. destruct (Z.eqb_spec (t_type k) Tok_NewLine) as [|_]; [contradiction|]. cbn [negb] in F.
  apply Forall2_app_inv_l in F. destruct F as (a & b & _ & F & ->). inversion F as [|k0 e q r (_ & K & _) F0]; subst. inversion F0; subst. rewrite K. apply (W a). reflexivity.
Qed.
(** a declaration that begins with two tokens, neither of them [(], in tokens of which the lexemes show no C::C( *)
Lemma calm_ok k1 k2 r l : Forall2 spells (solids (k1 :: k2 :: r)) l -> no_outside l -> well_ended l -> t_type k1 <> Tok_Paren_Open -> t_type k2 <> Tok_Paren_Open -> calm src (k1 :: k2 :: r).
Proof.
  intros F NO WE N1 N2. set (L := k1 :: k2 :: r) in *. unfold calm. destruct (to_paren_split L false 0) as [E|(o & r' & E & K)].
  - rewrite E. assert (Q : exists p k, L = p ++ [k]) by (destruct (exists_last (l := L)) as (p & k & Q); [discriminate|eauto]). destruct Q as (p & k & Q). assert (FN : finished (t_type k)) by (eapply last_finished; eauto).
    split; [|intros _; exists p, k; split; auto]; unfold finished in FN.
    + rewrite Q. apply nc_other. destruct FN as [-> | [-> | [-> | ->]]]; discriminate.
    + destruct FN as [-> | [-> | [-> | ->]]]; split; discriminate.
  - set (pre := to_paren src false 0 L) in *. split; [|intros Q; exfalso; rewrite Q in E; assert (G : length L = length (L ++ o :: r')) by congruence; rewrite app_length in G; cbn [length] in G; lia].
    assert (RV : forall m : list token, m = [] \/ exists p a, m = p ++ [a]) by (intros m; destruct m as [|x m]; [left; auto|right; destruct (exists_last (l := x :: m)) as (p & a & Q); [discriminate|eauto]]).
    clearbody pre. destruct (RV pre) as [-> |(pre0 & a0 & ->)].
    { exfalso. cbn [app] in E. injection E as E _. subst o. contradiction. }
    destruct (Z.eq_dec (t_type a0) Tok_Identifier) as [KI|NI]; [|apply nc_other; exact NI].
    destruct (RV pre0) as [-> |(pre1 & s & ->)].
    { exfalso. cbn [app] in E. injection E as E1 E2 _. subst o. contradiction. }
    rewrite <- (app_assoc pre1). cbn [app]. destruct (Z.eq_dec (t_type s) Tok_NewLine) as [NL|NNL]; [apply nc_plain; rewrite NL; [discriminate|intros (X & _); discriminate X]|].
    rewrite E in F. rewrite <- !app_assoc in F. cbn [app] in F. rewrite solids_app in F. unfold solids at 2 in F. cbn [filter] in F.
    destruct (Z.eqb_spec (t_type s) Tok_NewLine) as [|_]; [contradiction|]. rewrite KI in F. unfold kind in K. rewrite K in F. change (negb (Tok_Identifier =? Tok_NewLine)) with true in F. change (negb (Tok_Paren_Open =? Tok_NewLine)) with true in F. cbn [negb] in F.
    apply Forall2_app_inv_l in F. destruct F as (a & b & _ & F & ->). inversion F as [|? q ? ? (_ & Kq & _ & _ & Fq) F1]; subst. inversion F1 as [|? n ? ? (_ & Kn & _) F2]; subst. inversion F2 as [|? o' ? ? (_ & Ko & _) F3]; subst.
    destruct (NO a q n o' _ eq_refl) as (H1 & H2); [congruence|congruence|]. apply nc_plain; [rewrite Kq; exact H1|]. intros (X1 & X2). apply H2. split; [congruence|]. rewrite <- Fq. exact X2.
Qed.
End P.
