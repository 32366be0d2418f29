(** Names, types and array sizes. *)
From Coq Require Import String ZArith List Bool Lia ZifyBool ZifyNat.
From Verif Require Import Common HashModel Text EnumModel EnumSpec LexModel LexSpec StripSpec AstModel AstSpec SerSpec RelexSpec RelexProofs RelexProofs2 RelexProofs3 RelexProofs4 RelexProofs5
  ParseSpec RoundSpec RoundProofs RoundProofs2.
Import ListNotations.
Close Scope string_scope.
Open Scope Z_scope.

Section P.
Variable src : list Z.
Variable ms : macros.
Notation stands p x := (exists t', src = p ++ x ++ t').
Notation spells := (spells src).

(** the lexemes of a text *)
Definition lexed_as (x : list Z) : list lexeme :=
  match lex x (Z.to_nat (zlen x + 2)) ms with Done (Some (toks, _)) => RelexSpec.visible (lexemes_of x toks) | _ => [] end.
Notation lx := lexed_as.
Lemma lx_ok x l : writes ms x l -> l <> [] -> lx x = l.
Proof.
  intros W NE. unfold lexed_as. destruct (lex_writes x) with (ms := ms) (l := l) (fuel := Z.to_nat (zlen x + 2)) as (toks & E & V); auto.
  - destruct (writes_reads ms _ _ W) as (l' & R & _). exact (reads_bytes ms _ _ _ R).
  - pose proof (zlen_pos x). lia.
  - rewrite E. exact V.
Qed.
Lemma lx_leaf x l : writes ms x l -> l <> [] -> Forall (fun e => fst e <> txt "extern") l -> leaf lx ms x.
Proof. intros W NE F. unfold leaf. rewrite (lx_ok x l); auto. Qed.

(** *** what stands behind < and > *)
Fixpoint behinds (toks : list token) (l : list lexeme) : Prop :=
  match toks, l with
  | tk :: toks', e :: l' => (l' <> [] -> fst e = [62] -> char_behind src tk <> 62) /\
      (forall f, hd_error l' = Some f -> fst e = [60] -> hd 0 (fst f) <> 62 -> char_behind src tk <> 62) /\ behinds toks' l'
  | _, _ => True
  end.
Lemma writes_next t f l : writes ms t (f :: l) -> t <> [] /\ (blank (hd 0 t) \/ hd 0 t = hd 0 (fst f)).
Proof.
  intros W. pose proof (writes_head ms _ _ W) as SH. apply Forall_inv in SH. destruct SH as ((a & b & EF & _) & _). remember (f :: l) as e eqn:E. destruct W; try discriminate.
  - split; [discriminate|]. left. exact H.
  - injection E as <- <-. cbn [fst] in *. subst w. split; [discriminate|]. right. auto.
  - injection E as <- <-. cbn [fst] in *. rewrite EF. split; [discriminate|]. right. auto.
  - split; [discriminate|]. injection E as <- <-. right. auto.
  - injection E as <- <-. cbn [fst] in *. subst d. split; [discriminate|]. right. auto.
  - split; [discriminate|]. injection E as <- <-. right. auto.
  - split; [discriminate|]. injection E as <- <-. right. auto.
Qed.
Lemma char_behind_at p c t tk k : stands p ([c] ++ t) -> t <> [] -> token_at p [c] k tk -> char_behind src tk = hd 0 t.
Proof.
  intros (t' & E) NE (A & _). unfold char_behind. rewrite A. destruct t as [|b t]; [contradiction|]. replace (zlen p + 1) with (zlen (p ++ [c])) by (zl; lia). apply (byte_at_place src (p ++ [c]) b (t ++ t')). rewrite E, <- !app_assoc. auto.
Qed.
Lemma behinds_ok : forall x l, writes ms x l -> forall p toks, lined p x toks l -> stands p x -> ~ In 10 x -> behinds toks l.
Proof.
  intros x l W. pose proof (writes_head ms _ _ W) as SH.
  assert (TOKEN : forall w k q t l', solid_head w -> closing k q ->
    (w = [60] -> q = [] /\ forall f, hd_error l' = Some f -> t <> [] /\ (blank (hd 0 t) \/ hd 0 t = hd 0 (fst f))) -> (w = [62] -> q = [] /\ (l' <> [] -> t <> [] /\ hd 0 t <> 62)) ->
    (forall p toks, lined p t toks l' -> stands p t -> ~ In 10 t -> behinds toks l') ->
    forall p toks, lined p (w ++ q ++ t) toks ((w, k) :: l') -> stands p (w ++ q ++ t) -> ~ In 10 (w ++ q ++ t) -> behinds toks ((w, k) :: l')).
  { intros w k q t l' SW C C1 C2 IH p toks H ST N. destruct (lined_tok _ _ _ _ _ _ _ SW C H) as (tk & toks' & -> & TA & NN & H'). cbn [behinds fst].
    split; [|split].
    - intros NE ->. destruct (C2 eq_refl) as (-> & C3). destruct (C3 NE) as (T1 & T2). rewrite (char_behind_at p 62 t tk k); auto.
    - intros f EF -> NF. destruct (C1 eq_refl) as (-> & C3). destruct (C3 f EF) as (T1 & T2). rewrite (char_behind_at p 60 t tk k); auto. intros E6. destruct T2 as [[B|B]|B]; lia.
    - apply (IH (p ++ w ++ q)); auto; [|rewrite !in_app_iff in N; tauto]. destruct ST as (t' & E). exists t'. rewrite E, <- !app_assoc. auto. }
  assert (PLAIN : forall k, k <> Tok_String -> closing k []) by (intros k K; left; auto).
  induction W as [|c t l' HC H IH|w k t l' HW HK NW H IH|s k no t l' HS NB H IH|u t l' FU N1 N2 H IH|d t l' ND FD NX1 NX2 H IH|u t l' FU N1 N2 H IH|u t l' FU N1 N2 H IH].
  - intros p toks L _ _. destruct (lined_none _ _ _ L) as [-> _]. exact I.
  - intros p toks L ST N. specialize (IH SH). destruct HC as [-> | ->]; [|exfalso; apply N; left; auto]. apply lined_space in L. apply (IH _ _ L); [|cbn in N; tauto]. apply (stands_r src p [32] t ST).
  - pose proof (Forall_inv SH) as (S1 & _). apply Forall_inv_tail in SH. specialize (IH SH).
    assert (NOT : forall c, w = [c] -> ~ word_char c -> False) by (intros c -> NC; destruct HW as (FW & _); apply Forall_inv in FW; auto).
    apply (TOKEN w k [] t l'); auto; try (intros ->; exfalso; eapply NOT; [reflexivity|unfold word_char; lia]). apply PLAIN. eapply kind_not_string; eauto.
  - pose proof (Forall_inv SH) as (S1 & _). apply Forall_inv_tail in SH. specialize (IH SH). apply (TOKEN (txt s) k [] t l'); auto.
    + eapply symbol_closing; eauto.
    + intros _. split; auto. intros f EF. destruct l' as [|f' l']; [discriminate|]. injection EF as ->. exact (writes_next _ _ _ H).
    + intros E6. split; auto. intros NE. destruct l' as [|f' l']; [contradiction|]. split; [apply (writes_next _ _ _ H)|]. intros E7. apply NB. rewrite E7.
      assert (G : forallb (fun '(s, k, no) => negb ((hd 0 (txt s) =? 62) && (length (txt s) =? 1)%nat) || existsb (Z.eqb 62) (txt no)) symbols = true) by (vm_compute; reflexivity).
      rewrite forallb_forall in G. specialize (G _ HS). cbn beta iota in G. rewrite E6 in G. cbn [hd length Z.eqb Pos.eqb Nat.eqb andb negb orb] in G. apply existsb_exists in G. destruct G as (y & IY & EY). apply Z.eqb_eq in EY. subst y. exact IY.
  - pose proof (Forall_inv SH) as (S1 & _). apply Forall_inv_tail in SH. specialize (IH SH). replace (txt "//" ++ u ++ 10 :: t) with ((txt "//" ++ u ++ [10]) ++ [] ++ t) by (rewrite <- !app_assoc; reflexivity). apply TOKEN; auto; try (intros E6; discriminate E6). apply PLAIN. discriminate.
  - pose proof (Forall_inv SH) as (S1 & _). apply Forall_inv_tail in SH. specialize (IH SH). apply (TOKEN d Tok_Number [] t l'); auto; try (intros ->; exfalso; apply Forall_inv in FD; unfold digit in FD; lia). apply PLAIN. discriminate.
  - pose proof (Forall_inv SH) as (S1 & _). apply Forall_inv_tail in SH. specialize (IH SH). apply (TOKEN (34 :: u) Tok_String [34] t l'); auto; try (intros E6; discriminate E6). right. auto.
  - pose proof (Forall_inv SH) as (S1 & _). apply Forall_inv_tail in SH. specialize (IH SH). replace (39 :: u ++ 39 :: t) with ((39 :: u ++ [39]) ++ [] ++ t) by (cbn [app]; rewrite <- !app_assoc; reflexivity). apply TOKEN; auto; try (intros E6; discriminate E6). apply PLAIN. discriminate.
Qed.
Lemma behinds_app a la : forall b lb, length a = length la -> behinds (a ++ b) (la ++ lb) -> behinds a la /\ behinds b lb.
Proof.
  revert la. induction a as [|k a IH]; intros la b lb LN H; destruct la as [|e la]; try discriminate; [split; auto; exact I|]. cbn [app behinds] in *. destruct H as (A & B & H). apply IH in H; [|cbn in LN; lia]. destruct H as (H1 & H2).
  split; auto. split; [|split; auto].
  - intros NE. apply A. destruct la; [contradiction|discriminate].
  - intros f EF. apply B. destruct la; [discriminate|exact EF].
Qed.

(** the kinds that occur in template arguments are not those of < and > *)
Definition heads (l : list lexeme) : Prop := Forall (fun e => In (snd e) arg_kinds -> hd 0 (fst e) <> 60 /\ hd 0 (fst e) <> 62) l.
Lemma heads_ok : forall x l, writes ms x l -> heads l.
Proof.
  intros x l W. induction W as [|c t l' HC H IH|w k t l' HW HK NW H IH|s k no t l' HS NB H IH|u t l' FU N1 N2 H IH|d t l' ND FD NX1 NX2 H IH|u t l' FU N1 N2 H IH|u t l' FU N1 N2 H IH]; try exact IH; constructor; try exact IH; cbn [fst snd hd]; try (split; discriminate).
  - intros _. destruct HW as (FW & NE & _). destruct w as [|c w]; [contradiction|]. apply Forall_inv in FW. cbn [hd]. unfold word_char in FW. lia.
  - intros IK. assert (G : forallb (fun '(s, k, no) => negb (existsb (Z.eqb k) arg_kinds) || (negb (hd 0 (txt s) =? 60) && negb (hd 0 (txt s) =? 62))) symbols = true) by (vm_compute; reflexivity).
    rewrite forallb_forall in G. specialize (G _ HS). cbn beta iota in G. assert (EK : existsb (Z.eqb k) arg_kinds = true) by (apply existsb_exists; exists k; split; auto; lia). rewrite EK in G. cbn [negb orb] in G. lia.
  - intros _. destruct d as [|c d]; [contradiction|]. apply Forall_inv in FD. cbn [hd]. unfold digit in FD. lia.
Qed.
Lemma args_ok : forall d l, args_written d l -> forall toks, Forall2 spells toks l -> behinds toks l -> heads l -> args src d toks.
Proof.
  induction 1 as [e E|e E|d e f r E NF H IH|d e r E H IH|d e r E H IH]; intros toks F B HD; inversion F as [|k e0 toks' l0 SK F' EQ1 EQ2]; subst; pose proof (Forall_inv HD) as HD1; apply Forall_inv_tail in HD; cbn [behinds] in B; destruct B as (B1 & B2 & B3); destruct SK as (S1 & S2 & S3 & S4 & S5).
  - inversion F'; subst. unfold is_sym in E. subst e. apply a_end; auto.
  - inversion F'; subst. unfold is_sym in E. subst e. apply a_end2; auto.
  - unfold is_sym in E. subst e. apply a_open; auto. apply (B2 f); auto.
  - unfold is_sym in E. subst e. apply a_close; auto. apply B1; auto. inversion H; discriminate.
  - destruct (HD1 E) as (H1 & H2). assert (NK : ~ In Tok_Operator arg_kinds /\ ~ In Tok_NewLine arg_kinds /\ ~ In Tok_Comment arg_kinds) by (repeat split; intros HH; cbn in HH; repeat (destruct HH as [HH|HH]; [discriminate HH|]); exact HH).
    destruct NK as (K1 & K2 & K3). apply a_other; auto.
    + unfold fmt. rewrite S2. intros [HH|HH]; rewrite HH in E; auto.
    + rewrite S5; auto.
    + rewrite S5; auto.
    + rewrite S2. intros HH. rewrite HH in E. contradiction.
Qed.
Lemma template_ok l toks : template_written l -> Forall2 spells toks l -> behinds toks l -> heads l -> template_args src toks.
Proof.
  intros [-> | (e & r & -> & E & A)] F B HD; [inversion F; left; auto|]. right. inversion F as [|k e0 toks' l0 SK F' EQ1 EQ2]; subst. exists [], k, toks'. destruct SK as (S1 & S2 & _). unfold is_sym in E. subst e.
  split; auto. split; [constructor|]. split; [exact S2|]. split; [exact S1|]. cbn [behinds] in B. apply (args_ok 0 r); auto; [apply B|]. apply (Forall_inv_tail HD).
Qed.
Lemma spells_length (a : list token) (b : list lexeme) : Forall2 spells a b -> length a = length b.
Proof. induction 1; cbn; auto. Qed.
Lemma Forall2_app_split {A B} (R : A -> B -> Prop) toks a b : Forall2 R toks (a ++ b) -> exists x y, toks = x ++ y /\ Forall2 R x a /\ Forall2 R y b.
Proof. intros H. apply Forall2_app_inv_r in H. destruct H as (x & y & H1 & H2 & E). exists x, y. auto. Qed.
Lemma name_ok : forall l, name_written l -> forall toks, Forall2 spells toks l -> behinds toks l -> heads l ->
  exists first a q, toks = first :: a ++ q /\ kind Tok_Identifier first /\ template_args src a /\ qualifiers src q.
Proof.
  induction 1 as [w a TA|w a c r TA EC NW IH]; intros toks F B HD; inversion F as [|k e0 toks' l0 SK F' EQ1 EQ2]; subst; cbn [behinds] in B; destruct B as (_ & _ & B); apply Forall_inv_tail in HD; destruct SK as (S1 & S2 & _).
  - exists k, toks', []. rewrite app_nil_r. split; auto. split; [exact S2|]. split; [|constructor]. eapply template_ok; eauto.
  - apply Forall2_app_split in F'. destruct F' as (x & y & -> & F1 & F2). apply behinds_app in B; [|apply spells_length; auto]. destruct B as (B1 & B2). unfold heads in HD. rewrite Forall_app in HD. destruct HD as (HD1 & HD2).
    inversion F2 as [|kc e1 toks2 l1 SC F3 EQ3 EQ4]; subst. cbn [behinds] in B2. destruct B2 as (_ & _ & B2). destruct (IH toks2 F3 B2 (Forall_inv_tail HD2)) as (i & a2 & q2 & -> & KI & TA2 & Q2).
    exists k, x, (kc :: i :: a2 ++ q2). split; auto. split; [exact S2|]. split; [eapply template_ok; eauto|]. apply (q_more src [] kc [] i a2 q2); auto; try constructor. destruct SC as (_ & SC & _). exact SC.
Qed.

(** a name that is written as a phrase *)
Lemma named_ok x l p toks : phrase ms x l -> name_written l -> stands p x -> lined p x toks l -> named src toks x.
Proof.
  intros PH NW ST L. destruct (phrase_ok src ms x l p toks PH ST L) as (first & more & -> & A & F & NF & U & NX). destruct PH as ((W & _ & N10 & _) & _).
  destruct (name_ok l NW _ F (behinds_ok _ _ W _ _ L ST N10) (heads_ok _ _ W)) as (f & a & q & E & K & TA & Q). injection E as <- ->. rewrite <- U. constructor; auto.
Qed.
End P.
