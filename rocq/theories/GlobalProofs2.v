(** Bodies whose members stay (for C63): appending a member, and reading the whole body. *)
From Coq Require Import String ZArith List Bool Lia ZifyBool ZifyNat.
From Verif Require Import Common Text HashModel EnumModel EnumSpec LexModel LexSpec StripSpec AstModel AstSpec AstProofs UpfrontModel UpfrontSpec UpfrontProofs4 SerSpec ParseSpec FnSpec GlobalSpec ParseProofs3 ParseProofs5 ParseProofs9 GlobalProofs.
Import ListNotations.
Close Scope string_scope.
Open Scope Z_scope.

Lemma touch_append : forall h b c l x, In x l \/ x = c -> x <> b -> relinked (h_node h x) (append_node h b c l x).
Proof.
  intros h b c l x I N. unfold append_node. replace (x =? b) with false by lia. destruct (x =? c).
  - destruct l; [exists (n_front (h_node h x)), (n_next (h_node h x)), b; destruct (h_node h x); reflexivity|]. exists (last (z :: l) 0), (n_next (h_node h x)), b. destruct (h_node h x); reflexivity.
  - destruct l as [|z l]; [apply relinked_refl|]. destruct (x =? last (z :: l) 0); [|apply relinked_refl]. exists (n_front (h_node h x)), c, (n_parent (h_node h x)). destruct (h_node h x). reflexivity.
Qed.
Lemma append_else : forall h b c l x, ~ In x l -> x <> c -> x <> b -> append_node h b c l x = h_node h x.
Proof.
  intros h b c l x I N M. unfold append_node. replace (x =? b) with false by lia. replace (x =? c) with false by lia. destruct l as [|z l]; [reflexivity|]. destruct (x =? last (z :: l) 0) eqn:E; [|reflexivity]. exfalso. apply I. apply Z.eqb_eq in E. rewrite E. apply last_in. discriminate.
Qed.
Lemma form_append : forall h b c l, form (h_node h b) -> form (append_node h b c l b) /\ n_type (append_node h b c l b) = n_type (h_node h b).
Proof. intros h b c l F. unfold append_node. rewrite Z.eqb_refl. unfold form in *. destruct l; cbn; auto. Qed.

Section Open.
Variable O : Z -> Prop.
Definition forms (h : heap) : Prop := forall x, O x -> valid h x /\ form (h_node h x).
Fixpoint row (h : heap) (lo : Z) (xs : list Z) (l : list tree) (hi : Z) : Prop :=
  match xs, l with
  | [], [] => lo <= hi
  | x :: xs, t :: l => exists B T, lo <= B <= x /\ x < T /\ firm O B T h x t /\ row h T xs l hi
  | _, _ => False
  end.
Lemma row_le : forall xs l h lo hi, row h lo xs l hi -> lo <= hi /\ (forall x, In x xs -> lo <= x < hi).
Proof.
  induction xs as [|x xs IH]; intros [|t l] h lo hi R; cbn [row] in R; try contradiction; [split; [exact R|intros x []]|].
  destruct R as (B & T & L1 & L2 & _ & R). destruct (IH _ _ _ _ R) as (R1 & R2). split; [lia|]. intros y [<-|I]; [lia|]. specialize (R2 y I). lia.
Qed.
Lemma row_hi : forall xs l h lo hi hi', row h lo xs l hi -> hi <= hi' -> row h lo xs l hi'.
Proof. induction xs as [|x xs IH]; intros [|t l] h lo hi hi' R L; cbn [row] in *; try contradiction; [lia|]. destruct R as (B & T & L1 & L2 & F & R). exists B, T. eauto 10. Qed.
Lemma row_snoc : forall xs l h lo hi B T x t, row h lo xs l hi -> hi <= B <= x -> x < T -> firm O B T h x t -> row h lo (xs ++ [x]) (l ++ [t]) T.
Proof.
  induction xs as [|y xs IH]; intros [|u l] h lo hi B T x t R L1 L2 F; cbn [row app] in *; try contradiction.
  - exists B, T. split; [lia|]. split; [exact L2|]. split; [exact F|lia].
  - destruct R as (B' & T' & M1 & M2 & F' & R). exists B', T'. split; [exact M1|]. split; [exact M2|]. split; [exact F'|]. eapply IH; eauto.
Qed.
Lemma row_stable : forall xs l h h' lo hi, row h lo xs l hi -> h_top h <= h_top h' ->
  (forall x, In x xs -> relinked (h_node h x) (h_node h' x) /\ (n_parent (h_node h' x) = n_parent (h_node h x) \/ n_parent (h_node h' x) = 0 \/ O (n_parent (h_node h' x)))) ->
  (forall x, 0 < x < hi -> ~ In x xs -> ~ O x -> loose (h_node h x) (h_node h' x)) ->
  (forall x, lo <= x < hi -> ~ In x xs -> h_node h' x = h_node h x) -> (forall x, O x -> x < lo) -> row h' lo xs l hi.
Proof.
  intros xs l h h' lo hi R HT HX HR HS HO.
  assert (HA : forall x, 0 < x < hi -> ~ O x -> loose (h_node h x) (h_node h' x)). { intros x X1 X2. destruct (in_dec Z.eq_dec x xs) as [I|I]; [apply loose_relinked; apply HX; exact I|apply HR; auto]. }
  assert (G : forall xs0 l0 lo0, row h lo0 xs0 l0 hi -> lo <= lo0 -> (forall x, In x xs0 -> In x xs) -> (forall x, lo0 <= x < hi -> ~ In x xs0 -> h_node h' x = h_node h x) -> row h' lo0 xs0 l0 hi).
  { induction xs0 as [|x xs0 IH]; intros [|t l0] lo0 R0 LL SUB SM; cbn [row] in *; try contradiction; [exact R0|].
    destruct R0 as (B & T & L1 & L2 & F & R0). pose proof (row_le _ _ _ _ _ R0) as (TH & RI). exists B, T. split; [exact L1|]. split; [exact L2|]. split.
    - intros h'' T2 S2 R2 O2 C2 P2. destruct (HX x (SUB x (or_introl eq_refl))) as (C1 & P1). apply F; [exact T2| | |exact O2|eapply relinked_trans; eauto|].
      + intros y Y YX. rewrite (S2 y Y YX). apply SM; [lia|]. intros [I|I]; [congruence|]. specialize (RI y I). lia.
      + intros y Y NO. eapply loose_trans; [apply HA; [lia|exact NO]|apply R2; assumption].
      + destruct P2 as [P2|P2]; [|auto]. rewrite P2. exact P1.
    - apply IH; [exact R0|lia|intros y I; apply SUB; right; exact I|]. intros y Y I. apply SM; [lia|]. intros [<-|I']; [lia|contradiction]. }
  apply (G xs l lo R); auto. lia.
Qed.
(** reading the members in a later heap *)
Lemma rows_ok : forall xs l h h' lo hi, row h lo xs l hi -> linked h xs -> hi <= h_top h' -> (forall x, lo <= x < hi -> h_node h' x = h_node h x) ->
  (forall x, 0 < x < hi -> ~ O x -> loose (h_node h x) (h_node h' x)) -> (forall x, O x -> valid h' x /\ form (h_node h' x)) -> rows h' (hd 0 xs) l.
Proof.
  induction xs as [|x xs IH]; intros [|t l] h h' lo hi R L T SM RL OP; cbn [row] in R; try contradiction; [exact I|].
  destruct R as (B & T' & L1 & L2 & F & R). pose proof (row_le _ _ _ _ _ R) as (TH & RI). cbn [hd rows].
  assert (EX : h_node h' x = h_node h x) by (apply SM; lia). split.
  - apply F; [lia|intros y Y YX; apply SM; lia|intros y Y NO; apply RL; [lia|exact NO]|exact OP|rewrite EX; apply relinked_refl|rewrite EX; auto].
  - change ((fix rows (x0 : Z) (l0 : list tree) {struct l0} : Prop := match l0 with [] => True | t0 :: r => holds h' x0 t0 /\ rows (n_next (h_node h' x0)) r end) (n_next (h_node h' x)) l) with (rows h' (n_next (h_node h' x)) l).
    rewrite EX. destruct xs as [|y xs]; [destruct l; [exact I|contradiction]|]. destruct L as (EL & L). rewrite EL. apply (IH l h h' T' hi R L T); auto. intros z Z. apply SM. lia.
Qed.

Hypothesis OD : forall x, O x \/ ~ O x.
Record open (b lo : Z) (h : heap) (xs : list Z) (l : list tree) : Prop := {
  o_in : O b;
  o_entries : entries h b xs;
  o_row : row h lo xs l (h_top h);
  o_forms : forms h;
  o_below : forall x, O x -> x < lo;
  o_lo : 0 < lo }.
Lemma open_grow : forall b lo h h' xs l, open b lo h xs l -> grow h h' -> open b lo h' xs l.
Proof.
  intros b lo h h' xs l [I E R F BL L] (T & N). constructor; auto.
  - eapply entries_ext; [exact E|exact T|]. destruct E as (E0 & _ & E1 & _). intros x [<-|X]; apply N; [exact E0|]. apply E1. exact X.
  - eapply row_hi; [|exact T]. pose proof (row_le _ _ _ _ _ R) as (LE & RI). eapply row_stable; [exact R|exact T| | | |exact BL].
    + intros x X. specialize (RI x X). rewrite N by (split; lia). split; [apply relinked_refl|auto].
    + intros x X _ _. rewrite N by exact X. apply loose_refl.
    + intros x X _. apply N. split; lia.
  - intros x X. destruct (F x X) as (V & FX). split; [destruct V; split; lia|]. rewrite N by exact V. exact FX.
Qed.
Lemma append_ok : forall fuel b lo h xs l c t B, (0 < fuel)%nat -> open b lo h xs l -> row h lo xs l B -> B <= h_top h -> valid h c -> c <> b -> is_body_type (n_type (h_node h c)) = false ->
  (n_parent (h_node h c) = 0 /\ B <= c \/ n_parent (h_node h c) <> 0) -> (forall h' c', touch O B h h' c c' -> holds h' c' t) ->
  exists h' c', body_append fuel h b c = Done h' /\ open b lo h' (xs ++ [c']) (l ++ [t]) /\ h_top h <= h_top h' /\ n_type (h_node h' b) = n_type (h_node h b) /\
    (forall x, 0 < x < lo -> x <> b -> h_node h' x = h_node h x).
Proof.
  intros fuel b lo h xs l c t B FU OP RB BT VC CB BF PC HD. pose proof OP as [I E R F BL L]. destruct (row_le _ _ _ _ _ RB) as (LB & RI). pose proof (BL b I) as BLO.
  assert (K : exists h' c', body_append fuel h b c = Done h' /\ entries h' b (xs ++ [c']) /\ h_top h <= h_top h' /\ B <= c' < h_top h' /\ n_type (h_node h' b) = n_type (h_node h b) /\ form (h_node h' b) /\
     (c' = c \/ h_top h <= c') /\ relinked (h_node h c) (h_node h' c') /\ n_parent (h_node h' c') = b /\
     (forall x, In x xs -> relinked (h_node h x) (h_node h' x) /\ n_parent (h_node h' x) = n_parent (h_node h x)) /\ (forall x, valid h x -> x <> b -> ~ In x xs -> x <> c' -> h_node h' x = h_node h x)).
  { destruct (F b I) as (VB & FB). destruct PC as [(P0 & CB')|P1].
    - destruct (append_fresh_spec h b c xs E VC (not_eq_sym CB) P0) as (h' & A & T & N & E'). exists h', c. split; [rewrite body_append_plain by assumption; exact A|]. split; [exact E'|]. split; [lia|]. split; [destruct VC; lia|].
      rewrite !N. destruct (form_append h b c xs FB) as (FA & TA). split; [exact TA|]. split; [exact FA|]. split; [auto|]. split; [apply touch_append; auto|].
      assert (PP : forall y, In y (xs ++ [c]) -> n_parent (h_node h' y) = b) by (intros y Y; destruct E' as (_ & _ & E' & _); apply E'; exact Y).
      split; [rewrite <- N; apply PP; apply in_or_app; right; left; reflexivity|]. split.
      + intros x X. rewrite N. assert (x <> b) by (destruct E as (_ & _ & _ & _ & NB & _); intros ->; contradiction). split; [apply touch_append; auto|]. rewrite <- N. rewrite (PP x) by (apply in_or_app; auto). destruct E as (_ & _ & E & _). symmetry. apply E. exact X.
      + intros x V X1 X2 X3. rewrite N. apply append_else; assumption.
    - destruct (append_dup_spec h b c xs E VC (not_eq_sym CB) P1) as (h1 & h' & A & T & N1 & N & E' & E1). exists h', (h_top h). split; [rewrite body_append_plain by assumption; exact A|]. split; [exact E'|]. split; [lia|]. split; [lia|].
      assert (NT : forall x, x < h_top h -> h_node h1 x = h_node h x) by (intros x X; rewrite N1; replace (x =? h_top h) with false by lia; reflexivity).
      assert (NC : h_node h1 (h_top h) = set_parent 0 (h_node h c)) by (rewrite N1, Z.eqb_refl; reflexivity). assert (VB' : b < h_top h) by (destruct VB; lia).
      assert (FB1 : form (h_node h1 b)) by (rewrite NT by exact VB'; exact FB). destruct (form_append h1 b (h_top h) xs FB1) as (FA & TA). rewrite !N. split; [rewrite TA, NT by exact VB'; reflexivity|]. split; [exact FA|]. split; [right; lia|].
      assert (XS : ~ In (h_top h) xs) by (intros X; specialize (RI _ X); lia). split.
      { eapply relinked_trans; [|apply touch_append; [right; reflexivity|lia]]. rewrite NC. exists (n_front (h_node h c)), (n_next (h_node h c)), 0. destruct (h_node h c). reflexivity. }
      assert (PP : forall y, In y (xs ++ [h_top h]) -> n_parent (h_node h' y) = b) by (intros y Y; destruct E' as (_ & _ & E' & _); apply E'; exact Y).
      split; [rewrite <- N; apply PP; apply in_or_app; right; left; reflexivity|]. split.
      + intros x X. pose proof (RI x X) as RX. rewrite N. assert (x <> b) by (destruct E as (_ & _ & _ & _ & NB & _); intros ->; contradiction). rewrite <- NT by lia. split; [apply touch_append; auto|]. rewrite <- N. rewrite (PP x) by (apply in_or_app; auto). destruct E1 as (_ & _ & E1 & _). symmetry. apply E1. exact X.
      + intros x V X1 X2 X3. rewrite N. rewrite append_else by assumption. apply NT. destruct V. lia. }
  destruct K as (h' & c' & A & E' & T & CT & TY & FB & CC & RC & PB & XR & SM). exists h', c'. split; [exact A|]. split; [|split; [exact T|split; [exact TY|]]].
  2:{ intros x X XB. apply SM; [split; lia|exact XB|intros Y; specialize (RI x Y); lia|lia]. }
  assert (RL : forall x, valid h x -> ~ O x -> x <> c' -> loose (h_node h x) (h_node h' x)).
  { intros x V NO XC. destruct (in_dec Z.eq_dec x xs) as [X|X]; [apply loose_relinked; apply XR; exact X|]. rewrite SM; [apply loose_refl|exact V|intros ->; contradiction|exact X|exact XC]. }
  assert (FS : forms h'). { intros x X. destruct (F x X) as (V & FX). split; [destruct V; split; lia|]. destruct (Z.eq_dec x b) as [->|XB]; [exact FB|]. pose proof (BL x X). rewrite SM; [exact FX|exact V|exact XB|intros Y; specialize (RI x Y); lia|lia]. }
  constructor; auto. 
  - apply row_snoc with (hi := B) (B := B); [|lia|lia|].
    + eapply row_stable; [exact RB|exact T| | | |exact BL].
      * intros x X. destruct (XR x X) as (X1 & X2). auto.
      * intros x X1 X2 X3. apply RL; [split; lia|exact X3|lia].
      * intros x X1 X2. apply SM; [split; lia|lia|exact X2|lia].
    + intros h2 T2 S2 R2 O2 C2 P2. apply HD. constructor; [lia| | |exact O2|intros x X V; apply F; exact X|split; lia|eapply relinked_trans; eauto|].
      * intros x V XB XC. assert (x <> c') by (destruct CC; destruct V; lia). rewrite S2 by (destruct V; lia). apply SM; [exact V|lia|intros Y; specialize (RI x Y); lia|assumption].
      * intros x V NO. destruct (Z_lt_le_dec x B) as [XB|XB]; [eapply loose_trans; [apply RL; [exact V|exact NO|lia]|apply R2; [destruct V; lia|exact NO]]|].
        destruct (Z.eq_dec x c') as [->|XC]; [assert (c' = c) as -> by (destruct CC; destruct V; lia); apply loose_relinked; eapply relinked_trans; eauto|].
        rewrite S2 by (destruct V; lia). apply RL; assumption.
      * destruct P2 as [P2|P2]; [|auto]. right. right. rewrite P2, PB. exact I.
Qed.
Lemma row_length : forall xs l h lo hi, row h lo xs l hi -> length xs = length l.
Proof. induction xs as [|x xs IH]; intros [|t l] h lo hi R; cbn [row] in R; try contradiction; [reflexivity|]. destruct R as (B & T & _ & _ & _ & R). cbn. f_equal. eauto. Qed.
Lemma open_new : forall b h, O b -> (forall x, O x -> x < b + 1) -> 0 < b -> forms h -> h_top h = b + 1 -> (exists k, h_node h b = AstModel.set_type k zero_node) -> open b (b + 1) h [] [].
Proof.
  intros b h I BL B0 F T (k & N). constructor; auto; [|cbn; lia|lia]. split; [split; lia|]. rewrite N. cbn. split; [reflexivity|]. split; [intros x []|]. split; [constructor|]. split; [intros []|]. auto.
Qed.
Lemma open_block : forall b lo h xs l, open b lo h xs l -> bodied h b l.
Proof.
  intros b lo h xs l [I E R F BL L]. left. destruct (F b I) as (V & _ & _ & _ & _ & K). destruct E as (_ & N & _ & _ & _ & FR & _ & LK). split; [split; [exact V|]|].
  - cbn in K. destruct K as [<-|[<-|[<-|[<-|[<-|[<-|[]]]]]]]; cbn; auto 20.
  - split; [rewrite N, (row_length _ _ _ _ _ R); reflexivity|]. rewrite FR. eapply rows_ok; [exact R|exact LK|lia|reflexivity|intros; apply loose_refl|exact F].
Qed.
End Open.

(** a finished body inside an open one *)
Lemma block_touch : forall O b lo h1 xs l h2 h3 B c c', open (fun x => O x \/ x = b) b lo h1 xs l -> h_top h1 <= h_top h2 -> b < h_top h1 ->
  (forall x, b <= x < h_top h1 -> h_node h2 x = h_node h1 x) -> (forall x, 0 < x < h_top h1 -> ~ O x -> loose (h_node h1 x) (h_node h2 x)) ->
  touch O B h2 h3 c c' -> B <= b -> (c < b \/ h_top h1 <= c) -> bodied h3 b l.
Proof.
  intros O b lo h1 xs l h2 h3 B c c' [I E R F BL L] T BT SM RL TC BB CB. pose proof (BL b (or_intror eq_refl)) as BLO. pose proof (row_le _ _ _ _ _ _ R) as (LT & _).
  assert (S3 : forall x, b <= x < h_top h1 -> h_node h3 x = h_node h1 x). { intros x X. assert (B0 : 0 < b) by (destruct (F b I) as ((V & _) & _); exact V). rewrite (tc_same _ _ _ _ _ _ TC); [apply SM; exact X|split; lia|lia|lia]. }
  destruct (F b I) as (V & FB). pose proof FB as (_ & _ & _ & _ & K). destruct E as (_ & N & _ & _ & _ & FR & _ & LK). left. unfold kind_is. rewrite S3 by lia. pose proof (tc_top _ _ _ _ _ _ TC) as T3.
  split; [split; [destruct V; split; lia|]|].
  - cbn in K. destruct K as [<-|[<-|[<-|[<-|[<-|[<-|[]]]]]]]; cbn; auto 20.
  - split; [rewrite N, (row_length _ _ _ _ _ _ R); reflexivity|]. rewrite FR. eapply rows_ok; [exact R|exact LK|lia|intros x X; apply S3; lia| |].
    + intros x X NO. apply Decidable.not_or in NO. destruct NO as (NO & XB). eapply loose_trans; [apply RL; assumption|]. apply (tc_rel _ _ _ _ _ _ TC); [split; lia|exact NO].
    + intros x [X| ->]; [apply (tc_open _ _ _ _ _ _ TC); exact X|]. rewrite S3 by lia. split; [destruct V; split; lia|exact FB].
Qed.
