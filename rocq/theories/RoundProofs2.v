(** From the places of tokens to the pieces of declarations in ParseSpec.v. *)
From Coq Require Import String ZArith List Bool Lia ZifyBool ZifyNat.
From Verif Require Import Common HashModel Text EnumModel EnumSpec LexModel LexSpec StripSpec AstModel AstSpec SerSpec RelexSpec RelexProofs RelexProofs2 RelexProofs3 ParseSpec RoundSpec RoundProofs.
Import ListNotations.
Close Scope string_scope.
Open Scope Z_scope.

Lemma last_cons {A} (l : list A) a d : last (a :: l) d = last l a.
Proof. revert a d. induction l as [|b l IH]; intros a d; auto. change (last (a :: b :: l) d) with (last (b :: l) d). rewrite IH. symmetry. apply IH. Qed.

Section P.
Variable src : list Z.
Notation stands p x := (exists t', src = p ++ x ++ t').
Definition spells (tk : token) (e : lexeme) : Prop :=
  word src tk = fst e /\ t_type tk = snd e /\ t_len tk = zlen (fst e) /\ marked (fst e) tk /\ first_char src tk = hd 0 (fst e).

Lemma stands_l p x y : stands p (x ++ y) -> stands p x.
Proof. intros (t & E). exists (y ++ t). rewrite E, <- !app_assoc. auto. Qed.
Lemma stands_r p x y : stands p (x ++ y) -> stands (p ++ x) y.
Proof. intros (t & E). exists t. rewrite E, <- !app_assoc. auto. Qed.
Lemma cut_at p x t n : src = p ++ x ++ t -> n = zlen x -> firstn (Z.to_nat n) (skipn (Z.to_nat (zlen p)) src) = x.
Proof.
  intros -> ->. unfold zlen. rewrite !Nat2Z.id, skipn_app, skipn_all, Nat.sub_diag. cbn [skipn app]. rewrite firstn_app, firstn_all, Nat.sub_diag, app_nil_r. auto.
Qed.
Lemma byte_at_place p c t : src = p ++ c :: t -> byte_at src (zlen p) = c.
Proof. intros ->. unfold byte_at, zlen. rewrite Nat2Z.id, app_nth2, Nat.sub_diag; auto. Qed.
Lemma upto_at p x a b : stands p x -> t_start a = zlen p -> t_end b = zlen p + zlen x -> upto src a b = x.
Proof. intros (t & E) A B. unfold upto. rewrite A, B. apply (cut_at p x t); auto. lia. Qed.
Lemma spells_at p w k tk : stands p w -> solid_head w -> token_at p w k tk -> spells tk (w, k).
Proof.
  intros ST (c & u & -> & _) (A & B & C & D). split; [|split; [auto|split; [auto|split; auto]]]; cbn [fst snd hd].
  - unfold word. apply (upto_at p); auto. unfold t_end. lia.
  - destruct ST as (t & E). unfold first_char. rewrite A. eapply byte_at_place. exact E.
Qed.

Lemma lined_flat : forall p x toks l, lined p x toks l -> stands p x -> ~ In 10 x -> Forall2 spells toks l.
Proof.
  induction 1 as [p|p c t toks l B _ IH|p t tk toks l _ _ _ _|p w k q t tk toks l SW K T C _ IH]; intros ST N.
  - constructor.
  - apply IH; [|cbn in N; tauto]. apply (stands_r p [c] t ST).
  - exfalso. apply N. left. auto.
  - constructor.
    + eapply spells_at; eauto. exact (stands_l p w _ ST).
    + apply IH; [|rewrite !in_app_iff in N; tauto]. apply stands_r in ST. destruct ST as (t' & E). exists t'. rewrite E, <- !app_assoc. auto.
Qed.
Lemma lined_first p x toks l : lined p x toks l -> solid_head x -> exists tk r, toks = tk :: r /\ t_start tk = zlen p.
Proof.
  intros H (a & u & -> & NB). remember (a :: u) as e eqn:E. destruct H as [p|p c t toks l B H|p t tk toks l E10 K H|p w k q t tk toks l SW K T C H].
  - discriminate.
  - injection E as -> ->. contradiction.
  - injection E as <- _. exfalso. apply NB. right. auto.
  - exists tk, toks. split; auto. apply T.
Qed.
Lemma lined_blank_text p x toks l : lined p x toks l -> l = [] -> Forall blank x.
Proof. induction 1 as [p|p c t toks l B _ IH|p t tk toks l _ _ _ IH|p w k q t tk toks l SW K T C _ IH]; intros E; try discriminate; constructor; auto. right. auto. Qed.
(** the last token ends where the text ends *)
Lemma lined_last : forall p x toks l, lined p x toks l -> forall d, x <> [] -> ~ blank (last x 0) -> snd (last l ([], 0)) <> Tok_String -> t_end (last toks d) = zlen p + zlen x.
Proof.
  induction 1 as [p|p c t toks l B H IH|p t tk toks l _ _ H IH|p w k q t tk toks l SW K T C H IH]; intros d NE NB NS.
  - contradiction.
  - destruct t as [|b t]; [cbn in NB; contradiction|]. rewrite last_cons in NB. rewrite (IH d); auto; [zl; lia|discriminate|]. rewrite last_cons in NB. rewrite last_cons. exact NB.
  - destruct t as [|b t]; [exfalso; apply NB; right; reflexivity|]. rewrite last_cons. rewrite (IH tk); [zl; lia|discriminate| |exact NS]. rewrite !last_cons in *. exact NB.
  - rewrite last_cons. destruct t as [|b t].
    + destruct (lined_none _ _ _ H) as [-> ->]. cbn in NS. destruct C as [[_ ->]|[C _]]; [|contradiction]. cbn [last]. destruct T as (A & L & _). unfold t_end. rewrite A, L. cbn [app]. rewrite app_nil_r. lia.
    + rewrite (IH tk).
      * zl. lia.
      * discriminate.
      * rewrite app_assoc in NB. rewrite last_cons. rewrite <- (app_nil_r (b :: t)) in NB. destruct (w ++ q) as [|z y] eqn:EW; [destruct SW as (x1 & x2 & -> & _); discriminate|]. rewrite app_nil_r in NB. clear - NB.
        revert z NB. induction y as [|y1 y IHy]; intros z NB; cbn [app] in *; [rewrite !last_cons in NB; exact NB|]. rewrite last_cons in NB. apply (IHy y1). rewrite !last_cons in *. exact NB.
      * destruct l as [|e l]; [cbn; discriminate|]. rewrite last_cons in NS. rewrite last_cons in *. exact NS.
Qed.

Variable ms : macros.
Lemma plain_kind x l : writes ms x l -> ~ In 10 x -> Forall (fun e => snd e <> Tok_Comment /\ snd e <> Tok_NewLine) l.
Proof.
  intros W N. pose proof (writes_head ms x l W) as SH. induction W as [|c t l' HC H IH|w k t l' HW HK NW H IH|s k no t l' HS NB H IH|u t l' FU N1 N2 H IH|d t l' ND FD NX1 NX2 H IH|u t l' FU N1 N2 H IH|u t l' FU N1 N2 H IH];
    try (pose proof (Forall_inv SH) as (_ & S2); apply Forall_inv_tail in SH); cbn [snd] in *.
  - constructor.
  - apply IH; auto. cbn in N. tauto.
  - constructor; [|apply IH; auto; rewrite in_app_iff in N; tauto]. split; auto. cbn [snd]. destruct HK as [(s & HK & _)|[(_ & -> & _)|[(_ & -> & _)|(_ & ->)]]]; try discriminate.
    assert (G : forallb (fun p => negb (fst p =? Tok_Comment)) token_spelling = true) by (vm_compute; reflexivity). rewrite forallb_forall in G. specialize (G _ HK). cbn [fst] in G. intros ->. discriminate G.
  - constructor; [|apply IH; auto; rewrite in_app_iff in N; tauto]. split; auto. cbn [snd].
    assert (G : forallb (fun '(s, k, no) => negb (k =? Tok_Comment)) symbols = true) by (vm_compute; reflexivity). rewrite forallb_forall in G. specialize (G _ HS). cbn beta iota in G. lia.
  - exfalso. apply N. rewrite !in_app_iff. right. right. left. auto.
  - constructor; [|apply IH; auto; rewrite in_app_iff in N; tauto]. split; discriminate.
  - constructor; [|apply IH; auto; cbn in N; rewrite in_app_iff in N; cbn in N; tauto]. split; discriminate.
  - constructor; [|apply IH; auto; cbn in N; rewrite in_app_iff in N; cbn in N; tauto]. split; discriminate.
Qed.
Lemma spells_plain toks l : Forall2 spells toks l -> Forall (fun e => snd e <> Tok_Comment /\ snd e <> Tok_NewLine) l -> Forall (fun k => ~ fmt k) toks.
Proof.
  induction 1 as [|k e toks l S _ IH]; intros F; constructor; [|apply IH; apply (Forall_inv_tail F)]. apply Forall_inv in F. destruct S as (_ & S & _). unfold fmt. rewrite S. tauto.
Qed.

Lemma solid_of x : (exists c u, x = c :: u /\ c <> 32) -> ~ In 10 x -> solid_head x.
Proof. intros (c & u & -> & N) T. exists c, u. split; auto. intros [B|B]; [auto|subst c; apply T; left; auto]. Qed.
Lemma line_ok x l p toks : line_text ms x l -> stands p x -> lined p x toks l ->
  exists first more, toks = first :: more /\ t_start first = zlen p /\ Forall2 spells toks l /\ Forall (fun k => ~ fmt k) toks.
Proof.
  intros (W & NE & N10 & _ & H) ST L. pose proof (lined_flat _ _ _ _ L ST N10) as F. destruct (lined_first _ _ _ _ L (solid_of x H N10)) as (tk & r & -> & A). exists tk, r.
  split; auto. split; auto. split; auto. eapply spells_plain; [exact F|]. eapply plain_kind; eauto.
Qed.
Lemma phrase_ok x l p toks : phrase ms x l -> stands p x -> lined p x toks l ->
  exists first more, toks = first :: more /\ t_start first = zlen p /\ Forall2 spells toks l /\ Forall (fun k => ~ fmt k) toks /\ upto src first (last more first) = x /\ x <> [].
Proof.
  intros (LT & (u & c & EX & NC) & NS) ST L. destruct (line_ok x l p toks LT ST L) as (first & more & -> & A & F & NF). exists first, more. split; auto. split; auto. split; auto. split; auto.
  destruct LT as (_ & _ & N10 & _). assert (NX : x <> []) by (subst x; destruct u; discriminate). split; auto. eapply upto_at; eauto. pose proof (lined_last _ _ _ _ L first NX) as K. rewrite last_cons in K. apply K; auto.
  rewrite EX, last_last. intros [B|B]; [auto|]. subst c. apply N10. rewrite EX, in_app_iff. right. left. auto.
Qed.
End P.
