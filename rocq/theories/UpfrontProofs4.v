From Coq Require Import String ZArith List Bool Lia.
From Coq Require Import ZifyBool ZifyNat.
From Verif Require Import Common Text AstModel AstSpec AstProofs AstProofs2 AstProofs3 AstProofs4 EqModel EqSpec EqProofs EnumModel UpfrontModel UpfrontSpec UpfrontProofs.
Import ListNotations.
Close Scope string_scope.
Open Scope Z_scope.

(** one append, fresh or in use *)
Lemma append_step h r c l : entries h r l -> valid h c -> c <> r ->
  exists h' d, code_append h r c = Done h' /\ entries h' r (l ++ [d]) /\ h_top h <= h_top h' /\ same_content (h_node h c) (h_node h' d) /\
    n_next (h_node h' d) = n_next (h_node h c) /\
    (forall x, valid h x -> x <> r -> same_content (h_node h x) (h_node h' x)) /\
    (forall x, valid h x -> x <> r -> ~ In x l -> (x = c -> n_parent (h_node h c) <> 0) -> h_node h' x = h_node h x) /\
    same_but_count (h_node h r) (h_node h' r) /\ n_parent (h_node h' r) = n_parent (h_node h r) /\
    ((n_parent (h_node h c) = 0 /\ d = c) \/ (n_parent (h_node h c) <> 0 /\ ~ valid h d)).
Proof.
  intros E V N. destruct (Z.eq_dec (n_parent (h_node h c)) 0) as [P|P].
  - destruct (append_fresh_spec h r c l E V (not_eq_sym N) P) as (h' & A & T & HN & E').
    assert (Cl : ~ In c l). { intros X. destruct E as (Vr & _ & I & _). destruct (I _ X) as [_ Q]. unfold valid in Vr. lia. }
    exists h', c. split; auto. split; auto. split; [lia|]. split; [rewrite HN; apply append_node_content; auto|].
    split; [rewrite HN; apply append_node_next_e; auto|]. split; [intros; rewrite HN; apply append_node_content; auto|].
    split. { intros x Vx Xr Xl Xc. rewrite HN. apply append_node_frame; auto; [intros ->; now apply Xc|].
             destruct l; [now left|right]. intros ->. apply Xl, last_in. discriminate. }
    rewrite HN. destruct (append_node_self h r c l) as (S1 & _ & S2). auto.
  - destruct (append_dup_spec h r c l E V (not_eq_sym N) P) as (h1 & h' & A & T & H1 & HN & E' & E1).
    assert (TT : r <> h_top h) by (destruct E as (Vr & _); unfold valid in Vr; lia).
    assert (Tl : ~ In (h_top h) l) by (intros X; destruct E as (_ & _ & I & _); destruct (I _ X) as [Vx _]; unfold valid in Vx; lia).
    assert (O : forall x, valid h x -> h_node h1 x = h_node h x) by (intros x Vx; rewrite H1; unfold valid in Vx; replace (x =? h_top h) with false by lia; reflexivity).
    assert (D : h_node h1 (h_top h) = set_parent 0 (h_node h c)) by (rewrite H1, Z.eqb_refl; reflexivity).
    exists h', (h_top h). split; auto. split; auto. split; [lia|].
    split. { rewrite HN. eapply same_trans; [|apply append_node_content; auto]. rewrite D. unfold same_content. cbn. tauto. }
    split. { rewrite HN, append_node_next_e by auto. rewrite D. reflexivity. }
    split. { intros x Vx Xr. rewrite HN. rewrite <- (O x Vx). apply append_node_content; auto. }
    split. { intros x Vx Xr Xl _. rewrite HN. rewrite append_node_frame; [apply O; auto|auto|unfold valid in Vx; lia|]. destruct l; [now left|right]. intros ->. apply Xl, last_in. discriminate. }
    destruct (append_node_self h1 r (h_top h) l) as (S1 & _ & S2). rewrite HN. assert (Vr : valid h r) by exact (proj1 E). rewrite (O r Vr) in S1, S2.
    split; auto. split; auto. right. split; auto. unfold valid. lia.
Qed.

Definition outcome (h h' : heap) (r : Z) (l cs ds : list Z) : Prop :=
  entries h' r (l ++ ds) /\ h_top h <= h_top h' /\ Forall2 (fun c d => same_content (h_node h c) (h_node h' d)) cs ds /\
  (forall d, In d ds -> In d cs \/ ~ valid h d) /\
  (forall x, valid h x -> x <> r -> same_content (h_node h x) (h_node h' x)) /\
  (forall x, valid h x -> x <> r -> ~ In x l -> (In x cs -> n_parent (h_node h x) <> 0) -> h_node h' x = h_node h x) /\
  same_but_count (h_node h r) (h_node h' r) /\ n_parent (h_node h' r) = n_parent (h_node h r) /\
  (NoDup cs -> (forall x, In x cs -> ~ In x l) ->
     ((forall c, In c cs -> n_parent (h_node h c) = 0) -> ds = cs) /\
     (cs <> [] -> n_next (h_node h' (last (l ++ ds) 0)) = n_next (h_node h (last cs 0)))).

Lemma append_list r : forall cs h l, entries h r l -> (forall c, In c cs -> valid h c /\ c <> r) ->
  exists h' ds, append_all h r cs = Done h' /\ outcome h h' r l cs ds.
Proof.
  induction cs as [|c cs IH]; intros h l E HC.
  - exists h, []. split; [reflexivity|]. unfold outcome. rewrite app_nil_r. split; auto. split; [lia|]. split; [constructor|].
    split; [intros ? []|]. split; [intros; apply same_refl|]. split; auto. split; [apply same_but_refl|]. split; auto. intros _ _. split; [auto|]. intros X. now elim X.
  - destruct (HC c (or_introl eq_refl)) as [Vc Nc].
    destruct (append_step h r c l E Vc Nc) as (h1 & d & A & E1 & T1 & S1 & X1 & C1 & F1 & B1 & P1 & D1).
    assert (Vd1 : valid h1 d) by (destruct E1 as (_ & _ & I & _); apply I, in_or_app; right; now left).
    assert (Nd : d <> r) by (destruct E1 as (_ & _ & _ & _ & I & _); intros ->; apply I, in_or_app; right; now left).
    destruct (IH h1 (l ++ [d]) E1) as (h2 & ds & A2 & E2 & T2 & S2 & D2 & C2 & F2 & B2 & P2 & Q2).
    { intros x Hx. destruct (HC x (or_intror Hx)) as [Vx Nx]. split; auto. unfold valid in *. lia. }
    exists h2, (d :: ds). cbn [append_all]. rewrite A. cbn [rbind]. split; [exact A2|].
    replace ((l ++ [d]) ++ ds) with (l ++ d :: ds) in * by (rewrite <- app_assoc; reflexivity).
    split; [exact E2|]. split; [lia|]. split.
    { constructor; [eapply same_trans; [exact S1|apply C2; auto]|].
      clear -S2 C1 HC. apply (forall2_snoc_impl _ _ _ _ S2). intros a b Ha _ Hab. eapply same_trans; [|exact Hab].
      destruct (HC a (or_intror Ha)). apply C1; auto. }
    split. { intros x [<-|Hx]; [destruct D1 as [[_ ->]|[_ D1]]; [left; now left|now right]|].
      destruct (D2 x Hx) as [Y|Y]; [left; now right|right]. intros Vx. apply Y. unfold valid in *. lia. }
    split. { intros x Vx Nx. eapply same_trans; [apply C1; auto|apply C2; auto]. unfold valid in *. lia. }
    split. { intros x Vx Nx Xl Xc. rewrite F2.
      - apply F1; auto. intros ->. apply Xc. now left.
      - unfold valid in *. lia.
      - exact Nx.
      - intros Y. apply in_app_or in Y as [Y|[<-|[]]]; auto. destruct D1 as [[D1 ->]|[_ D1]]; [apply Xc in D1; [auto|now left]|auto].
      - intros Y. rewrite F1; auto; [apply Xc; now right|]. intros ->. apply Xc. now left. }
    split; [eapply same_but_trans; eauto|]. split; [congruence|].
    intros ND NI. inversion ND as [|? ? Hc1 ND']; subst.
    assert (FX : forall x, In x cs -> h_node h1 x = h_node h x).
    { intros x Hx. destruct (HC x (or_intror Hx)) as [Vx Nx]. apply F1; auto; [apply NI; now right|]. intros ->. contradiction. }
    assert (NI2 : forall x, In x cs -> ~ In x (l ++ [d])).
    { intros x Hx Y. destruct (HC x (or_intror Hx)) as [Vx Nx]. apply in_app_or in Y as [Y|[<-|[]]]; [apply (NI x); [now right|exact Y]|].
      destruct D1 as [[_ ->]|[_ D1]]; auto. }
    destruct (Q2 ND' NI2) as [Q3 Q4]. split.
    + intros PA. rewrite Q3 by (intros x Hx; rewrite FX by auto; apply PA; now right).
      destruct D1 as [[_ ->]|[D1 _]]; [reflexivity|]. exfalso. apply D1, PA. now left.
    + intros _. destruct cs as [|c2 cs].
      * inversion S2; subst. cbn [last]. rewrite last_snoc. cbn [append_all] in A2. injection A2 as <-. exact X1.
      * rewrite Q4 by discriminate. rewrite FX by (apply last_in; discriminate). reflexivity.
Qed.
Lemma append_all_app r : forall a h b, append_all h r (a ++ b) = (do h1 <- append_all h r a; append_all h1 r b).
Proof.
  induction a as [|c a IH]; intros h b; cbn [append_all app rbind]; [reflexivity|].
  destruct (code_append h r c); cbn [rbind]; auto.
Qed.

Lemma entries_ext h h' b l : entries h b l -> h_top h <= h_top h' -> (forall x, In x (b :: l) -> h_node h' x = h_node h x) -> entries h' b l.
Proof.
  intros (Vb & N & I & ND & Nb & F & B & L) T X. assert (VV : forall x, valid h x -> valid h' x) by (unfold valid; lia).
  unfold entries. rewrite (X b) by now left. split; auto. split; auto.
  split; [intros c Hc; destruct (I c Hc) as [Vc Pc]; split; [apply VV; exact Vc|rewrite (X c); [exact Pc|right; exact Hc]]|]. split; auto. split; auto. split; auto. split; auto.
  apply (linked_ext h); auto. intros x Hx. rewrite (X x); auto. right. now apply removelast_incl.
Qed.

Definition flat (h : heap) (cs : list Z) : Prop := forall c, In c cs -> valid h c /\ is_body_type (n_type (h_node h c)) = false.

Lemma body_append_plain fuel h r c : (0 < fuel)%nat -> valid h c -> is_body_type (n_type (h_node h c)) = false -> body_append fuel h r c = code_append h r c.
Proof. intros F V B. destruct fuel as [|f]; [lia|]. cbn [body_append]. rewrite AstProofs.get_valid by auto. cbn [rbind]. now rewrite B. Qed.

Lemma splice_eq r B lb : r <> B -> forall suf pre h l fuel, lb = pre ++ suf -> entries h r l -> n_parent (h_node h r) <> B -> entries h B lb -> flat h lb -> ~ In B l ->
  ~ In (n_next (h_node h (last lb 0))) suf -> lb <> [] -> (length suf + 1 < fuel)%nat ->
  body_append_loop fuel h r B (match suf with [] => n_next (h_node h (last lb 0)) | x :: _ => x end) = append_all h r suf.
Proof.
  intros NB. induction suf as [|c suf IH]; intros pre h l fuel EL E PR EB FL BL NX NE F; destruct fuel as [|fuel]; try lia; cbn [body_append_loop append_all];
    rewrite (end_body_eq h B lb EB NE); cbn [rbind].
  - rewrite Z.eqb_refl. reflexivity.
  - cbn [length] in F. assert (Ic : In c lb) by (rewrite EL; apply in_or_app; right; now left). destruct (FL c Ic) as [Vc Bc].
    replace (c =? n_next (h_node h (last lb 0))) with false by (symmetry; apply Z.eqb_neq; intros X; apply NX; rewrite <- X; now left).
    rewrite body_append_plain by (auto; lia).
    pose proof EB as (VB & _ & IB & NDB & NBB & _ & _ & LB).
    assert (rl : forall x, In x lb -> x <> r) by (intros x Hx ->; destruct (IB _ Hx); congruence).
    assert (xl : forall x, In x lb -> ~ In x l) by (intros x Hx Y; destruct (IB _ Hx) as [_ Q]; destruct E as (_ & _ & I & _); destruct (I _ Y) as [_ Q']; congruence).
    destruct (append_step h r c l E Vc (rl c Ic)) as (h1 & d & A & E1 & T1 & S1 & X1 & C1 & F1 & B1 & P1 & D1).
    rewrite A. cbn [rbind].
    assert (PC : n_parent (h_node h c) <> 0) by (destruct (IB _ Ic) as [_ ->]; unfold valid in VB; lia).
    assert (SAME : forall x, In x (B :: lb) -> h_node h1 x = h_node h x).
    { intros x [<-|Hx]; [apply F1; auto|]. destruct (IB x Hx). apply F1; auto. }
    assert (EB1 : entries h1 B lb) by (apply (entries_ext h); auto).
    assert (Vc1 : valid h1 c) by (unfold valid in *; lia).
    unfold next_body at 1. rewrite (AstProofs.get_valid h1 c Vc1). cbn [rbind]. rewrite (SAME c) by now right.
    assert (LL : last lb 0 = last (c :: suf) 0) by (rewrite EL; apply last_app_cons).
    assert (NXC : n_next (h_node h c) = match suf with [] => n_next (h_node h1 (last lb 0)) | x :: _ => x end).
    { destruct suf as [|x suf]; [rewrite LL; cbn [last]; rewrite (SAME c) by (now right); reflexivity|]. rewrite EL in LB. exact (linked_app_next _ _ _ _ _ LB). }
    rewrite NXC. apply (IH (pre ++ [c]) h1 (l ++ [d])); auto.
    + rewrite <- app_assoc. exact EL.
    + congruence.
    + intros x Hx. destruct (FL x Hx). rewrite SAME by now right. split; auto. unfold valid in *. lia.
    + intros Y. apply in_app_or in Y as [Y|[->|[]]]; auto. destruct D1 as [[D1 _]|[_ D1]]; [contradiction|]. apply D1. exact VB.
    + rewrite SAME by (right; apply last_in; auto). intros Y. apply NX. now right.
    + lia.
Qed.
Lemma body_splice r B lb h l fuel : r <> B -> entries h r l -> n_parent (h_node h r) <> B -> entries h B lb -> flat h lb -> ~ In B l ->
  ~ In (n_next (h_node h (last lb 0))) lb -> lb <> [] -> (length lb + 2 < fuel)%nat ->
  body_append_body fuel h r B = append_all h r lb.
Proof.
  intros NB E PR EB FL BL NX NE F. destruct fuel as [|fuel]; [lia|]. cbn [body_append_body]. replace (r =? B) with false by lia.
  unfold begin_body. rewrite AstProofs.get_valid by exact (proj1 EB). cbn [rbind].
  pose proof EB as (_ & _ & _ & _ & _ & FR & _). rewrite FR. destruct lb as [|x lb]; [contradiction|]. cbn [hd].
  exact (splice_eq r B (x :: lb) NB (x :: lb) [] h l fuel eq_refl E PR EB FL BL NX NE ltac:(lia)).
Qed.

Section Bodies.
  Context (e : env) (bad : codetype -> bool) (splice : bool) (r : Z) (fuel : nat).
  Definition okc (h : heap) (c : Z) : Prop := (splice = true /\ n_type (h_node h c) = CT_Global_Body) \/ bad (n_type (h_node h c)) = false.
  Lemma entry_step h l c cs : entries h r l -> n_parent (h_node h r) = 0 -> flat h l -> c <> r -> adds h c cs -> okc h c -> (length cs + 3 < fuel)%nat ->
    forall codes num, body_entries fuel e h r bad splice (c :: codes) (S num) = (do h1 <- append_all h r cs; body_entries fuel e h1 r bad splice codes num) /\ flat h cs /\ ~ In r cs.
  Proof.
    intros E PR FL NR AD OK F codes num. unfold adds in AD.
    assert (Vc : valid h c) by (destruct (is_body_type _); [exact (proj1 (proj1 AD))|exact (proj1 AD)]).
    assert (C0 : (c =? 0) = false) by (unfold valid in Vc; lia).
    cbn [body_entries]. rewrite C0, (AstProofs.get_valid h c Vc). cbn [rbind].
    destruct (is_body_type (n_type (h_node h c))) eqn:B.
    - destruct AD as (EB & NE & NX & NB).
      assert (FB : flat h cs) by (intros x Hx; split; [destruct EB as (_ & _ & I & _); apply (I _ Hx)|auto]).
      assert (BL : ~ In c l) by (intros X; destruct (FL _ X); congruence).
      assert (PRc : n_parent (h_node h r) <> c) by lia.
      assert (SP : forall f, (length cs + 2 < f)%nat -> body_append_body f h r c = append_all h r cs) by (intros f Hf; apply (body_splice r c cs h l f); auto).
      split; [|split; auto; intros X; destruct EB as (_ & _ & I & _); destruct (I _ X); congruence].
      destruct (splice && ct_eqb (n_type (h_node h c)) CT_Global_Body) eqn:SG; [rewrite SP by lia; reflexivity|].
      assert (BB : bad (n_type (h_node h c)) = false).
      { destruct OK as [[-> X]|X]; auto. rewrite X in SG. discriminate. }
      rewrite BB. destruct fuel as [|f]; [lia|]. cbn [body_append]. rewrite (AstProofs.get_valid h c Vc). cbn [rbind]. rewrite B, SP by lia. reflexivity.
    - destruct AD as [_ ->].
      assert (SG : splice && ct_eqb (n_type (h_node h c)) CT_Global_Body = false).
      { apply andb_false_intro2. unfold ct_eqb. destruct (ct_eq_dec _ _) as [X|]; auto. rewrite X in B. discriminate. }
      rewrite SG. assert (BB : bad (n_type (h_node h c)) = false) by (destruct OK as [[_ X]|X]; auto; rewrite X in B; discriminate).
      rewrite BB, body_append_plain by (auto; lia). cbn [append_all]. split.
      + destruct (code_append h r c); reflexivity.
      + split; [intros x [<-|[]]; auto|]. intros [X|[]]; congruence.
  Qed.
  Lemma same_type n m : same_content n m -> n_type m = n_type n. Proof. intros H. apply H. Qed.
  Lemma step_flat h h1 l cs ds : entries h r l -> outcome h h1 r l cs ds -> flat h l -> flat h cs -> ~ In r cs -> flat h1 (l ++ ds).
  Proof.
    intros E (E1 & T & S & D & C & _) FL FC NR x Hx. split; [destruct E1 as (_ & _ & I & _); apply (I _ Hx)|].
    assert (Rl : ~ In r l) by apply E.
    apply in_app_or in Hx as [Hx|Hx].
    - destruct (FL x Hx) as [V B]. rewrite (same_type _ _ (C x V ltac:(intros ->; auto))). exact B.
    - clear -S Hx FC. induction S as [|c d cs ds S1 S IH]; [contradiction|]. destruct Hx as [<-|Hx].
      + rewrite (same_type _ _ S1). apply FC. now left.
      + apply IH; auto. intros y Hy. apply FC. now right.
  Qed.
  Lemma step_adds h h1 l cs ds c' cs' : entries h r l -> n_parent (h_node h r) = 0 -> outcome h h1 r l cs ds -> flat h l -> flat h cs -> c' <> r -> adds h c' cs' -> adds h1 c' cs'.
  Proof.
    intros E PR (E1 & T & S & D & C & F & _) FL FC NR AD. unfold adds in *.
    assert (V' : valid h c') by (destruct (is_body_type (n_type (h_node h c'))); [exact (proj1 (proj1 AD))|exact (proj1 AD)]).
    rewrite (same_type _ _ (C c' V' NR)). destruct (is_body_type (n_type (h_node h c'))) eqn:B.
    - destruct AD as (EB & NE & NX & NB). pose proof EB as (VB & _ & I & _).
      assert (SAME : forall x, In x (c' :: cs') -> h_node h1 x = h_node h x).
      { intros x [<-|Hx].
        - apply F; auto; [intros X; destruct (FL _ X); congruence|]. intros X. destruct (FC _ X). congruence.
        - destruct (I x Hx) as [Vx Px]. apply F; auto.
          + intros ->. unfold valid in VB. lia.
          + intros X. destruct E as (_ & _ & I' & _). destruct (I' _ X). congruence.
          + intros _. unfold valid in VB. lia. }
      split; [apply (entries_ext h); auto|]. split; auto. split; [rewrite SAME by (right; apply last_in; auto); exact NX|].
      intros x Hx. rewrite SAME by now right. auto.
    - destruct AD as [_ ->]. split; auto. unfold valid in *. lia.
  Qed.
  Lemma step_okc h h1 l cs ds c' : outcome h h1 r l cs ds -> valid h c' -> c' <> r -> okc h c' -> okc h1 c'.
  Proof. intros (E1 & T & S & D & C & _) V N OK. unfold okc in *. rewrite (same_type _ _ (C c' V N)). exact OK. Qed.
  Lemma adds_valid h c cs : adds h c cs -> valid h c.
  Proof. unfold adds. destruct (is_body_type _); intros H; [exact (proj1 (proj1 H))|exact (proj1 H)]. Qed.

  Lemma f2_imp {A B} (R R' : A -> B -> Prop) la lb : Forall2 R la lb -> (forall a b, R a b -> R' a b) -> Forall2 R' la lb.
  Proof. intros H I. induction H; constructor; auto. Qed.

  (** good entries, then whatever follows *)
  Lemma entries_run : forall codes css h l rest num, entries h r l -> n_parent (h_node h r) = 0 -> flat h l ->
    Forall2 (fun c cs => c <> r /\ adds h c cs /\ okc h c /\ (length cs + 3 < fuel)%nat) codes css ->
    body_entries fuel e h r bad splice (codes ++ rest) (length codes + num) =
      (do h1 <- append_all h r (concat css); body_entries fuel e h1 r bad splice rest num) /\ (forall c, In c (concat css) -> valid h c /\ c <> r).
  Proof.
    induction codes as [|c codes IH]; intros css h l rest num E PR FL H; inversion H as [|? cs ? css' HC HR]; subst.
    - cbn. split; auto. intros ? [].
    - destruct HC as (NR & AD & OK & F). cbn [app length Nat.add concat].
      destruct (entry_step h l c cs E PR FL NR AD OK F (codes ++ rest) (length codes + num)%nat) as (-> & FC & NRC).
      rewrite append_all_app.
      destruct (append_list r cs h l E) as (h1 & ds & A & O).
      { intros x Hx. split; [apply (FC x Hx)|]. intros ->. auto. }
      rewrite A. cbn [rbind].
      pose proof O as (E1 & T & S & D & C & F1 & B1 & P1 & _).
      destruct (IH css' h1 (l ++ ds) rest num E1) as [R1 R2].
      + congruence.
      + exact (step_flat h h1 l cs ds E O FL FC NRC).
      + apply (f2_imp _ _ _ _ HR). intros a b (N1 & A1 & O1 & L1). split; auto. split; [apply (step_adds h h1 l cs ds); auto|].
        split; auto. apply (step_okc h h1 l cs ds); auto. apply (adds_valid _ _ _ A1).
      + rewrite R1. split; [reflexivity|]. intros x Hx. apply in_app_or in Hx as [Hx|Hx].
        * split; [apply (FC x Hx)|]. intros ->. auto.
        * split; [|apply (R2 x Hx)]. clear -HR Hx. revert css' HR Hx. induction codes as [|y codes IHc]; intros css' HR Hx; inversion HR as [|? cs2 ? css2 H1 H2]; subst; [contradiction|].
          cbn [concat] in Hx. apply in_app_or in Hx as [Hx|Hx]; [|apply (IHc css2); auto]. destruct H1 as (_ & A & _). unfold adds in A.
          destruct (is_body_type _); [destruct A as ((_ & _ & I & _) & _); apply (I _ Hx)|destruct A as (V & ->); destruct Hx as [<-|[]]; exact V].
  Qed.
End Bodies.

(** ** whole constructors *)
Section Whole.
  Context (e : env) (h : heap) (W : world e h).
  Notation tp := (top_pos e h W).
  Lemma new_entries h1 n : is_new h h1 n -> n_num n = 0 -> n_front n = 0 -> n_next n = 0 -> entries h1 (h_top h) [].
  Proof. intros (T & N & _) A B C. pose proof tp. apply empty_entries; rewrite ?N; auto. unfold valid. lia. Qed.
  Lemma is_new_adds h1 n c cs : is_new h h1 n -> adds h c cs -> adds h1 c cs.
  Proof.
    intros I AD. pose proof (adds_valid _ _ _ AD) as V. pose proof I as (T & _ & K). unfold adds in *. rewrite K by auto.
    destruct (is_body_type _).
    - destruct AD as (EB & NE & NX & NB). pose proof EB as (VB & _ & IB & _).
      assert (SAME : forall x, In x (c :: cs) -> h_node h1 x = h_node h x) by (intros x [<-|Hx]; apply K; auto; apply (IB _ Hx)).
      split; [apply (entries_ext h); auto; lia|]. split; auto. split; [rewrite SAME by (right; apply last_in; auto); exact NX|].
      intros x Hx. rewrite SAME by now right. auto.
    - destruct AD as [_ ->]. split; auto. apply (new_valid _ _ _ _ I V).
  Qed.

  Lemma def_x_ok type bad splice fuel codes css rest :
    codes <> [] ->
    Forall2 (fun c cs => adds h c cs /\ okc bad splice h c /\ (length cs + 3 < fuel)%nat) codes css ->
    exists h' b ds, def_x_body type bad splice fuel e h (Z.of_nat (length codes)) (codes ++ rest) = Done (h', b) /\
      ~ valid h b /\ valid h' b /\ holds h h' b (concat css) ds /\ same_but_count (node_of type []) (h_node h' b) /\ n_parent (h_node h' b) = 0 /\
      h_top h <= h_top h' /\ (forall x, valid h x -> same_content (h_node h x) (h_node h' x)) /\
      (forall x, valid h x -> (In x (concat css) -> n_parent (h_node h x) <> 0) -> h_node h' x = h_node h x).
  Proof.
    intros NE H. unfold def_x_body, require. cbn [rbind]. replace (Z.of_nat (length codes) <=? 0) with false by (destruct codes; [contradiction|cbn [length]; lia]). cbn [negb].
    destruct (make_new h (set_type type) tp) as (h1 & -> & I). pose proof I as (T & N & K). pose proof tp as TP.
    assert (E1 : entries h1 (h_top h) []) by (apply (new_entries h1 _ I); reflexivity).
    assert (P1 : n_parent (h_node h1 (h_top h)) = 0) by (rewrite N; reflexivity).
    assert (FLT : flat h1 []) by (intros ? []).
    assert (HF : Forall2 (fun c cs => c <> h_top h /\ adds h1 c cs /\ okc bad splice h1 c /\ (length cs + 3 < fuel)%nat) codes css).
    { apply (f2_imp _ _ _ _ H). intros c cs (A & O & L). pose proof (adds_valid _ _ _ A) as V. split; [unfold valid in V; lia|].
      split; [apply (is_new_adds _ _ _ _ I A)|]. split; auto. unfold okc in *. rewrite K by auto. exact O. }
    destruct (entries_run e bad splice (h_top h) fuel codes css h1 [] rest 0 E1 P1 FLT HF) as [R1 R2].
    rewrite Nat2Z.id. rewrite Nat.add_0_r in R1. rewrite R1.
    destruct (append_list (h_top h) (concat css) h1 [] E1 R2) as (h2 & ds & A & E2 & T2 & S2 & D2 & C2 & F2 & B2 & P2 & Q2).
    rewrite A. cbn [rbind body_entries]. cbn [app] in *.
    assert (VC : forall c, In c (concat css) -> valid h c).
    { intros c Hc. destruct (R2 c Hc) as [V X]. unfold valid in *. lia. }
    exists h2, (h_top h), ds. split; [destruct rest; reflexivity|]. split; [unfold valid; lia|]. split; [exact (proj1 E2)|]. split.
    - split; [exact E2|]. split; [apply count_for_ok; auto|]. split.
      { clear -S2 VC K. revert VC. induction S2 as [|c d cs ds S1 S IH]; intros VC; constructor.
        - rewrite <- K by (apply VC; now left). exact S1.
        - apply IH. intros x Hx. apply VC. now right. }
      split. { intros d Hd. destruct (D2 d Hd) as [Y|Y]; [now left|right]. intros V. apply Y, (new_valid _ _ _ _ I V). }
      split.
      + intros ND PA. apply Q2; auto. intros c Hc. rewrite K; auto.
      + intros ND NX f Hf. destruct (Q2 ND ltac:(auto)) as [_ Q3].
        assert (LEN : length ds = length (concat css)) by (clear -S2; induction S2; cbn; auto).
        assert (CN : concat css <> []).
        { intros X. destruct codes as [|c codes]; [contradiction|]. inversion H as [|? cs ? css' (AD & _) _]; subst. cbn [concat] in X. apply app_eq_nil in X as [X _]. subst cs.
          unfold adds in AD. destruct (is_body_type _); [destruct AD as (_ & Y & _); auto|destruct AD; discriminate]. }
        apply range_for_ok; auto; [destruct ds; [destruct (concat css); [contradiction|discriminate]|discriminate]| |lia].
        rewrite Q3 by auto. rewrite K by (apply VC, last_in; auto). rewrite NX. intros X. destruct E2 as (_ & _ & I2 & _). destruct (I2 _ X) as [V0 _]. unfold valid in V0. lia.
    - split; [rewrite N in B2; exact B2|]. split; [congruence|]. split; [lia|]. split.
      + intros x V. rewrite <- K by auto. apply C2; [apply (new_valid _ _ _ _ I V)|unfold valid in V; lia].
      + intros x V X. rewrite <- K by auto. apply F2; [apply (new_valid _ _ _ _ I V)|unfold valid in V; lia|auto|]. intros Y. rewrite K by auto. auto.
  Qed.

  (** a null or unallowed entry after any number of good ones *)
  Lemma def_x_bad type bad splice fuel codes css c rest num :
    Forall2 (fun c cs => adds h c cs /\ okc bad splice h c /\ (length cs + 3 < fuel)%nat) codes css ->
    (c = 0 \/ (valid h c /\ bad (n_type (h_node h c)) = true /\ ~ (splice = true /\ n_type (h_node h c) = CT_Global_Body))) ->
    Z.of_nat (length codes) < num ->
    exists h', def_x_body type bad splice fuel e h num (codes ++ c :: rest) = Done (h', e_invalid e) /\ h_top h <= h_top h' /\
      (forall x, valid h x -> same_content (h_node h x) (h_node h' x)).
  Proof.
    intros H HC LN. unfold def_x_body, require. cbn [rbind]. replace (num <=? 0) with false by lia. cbn [negb].
    destruct (make_new h (set_type type) tp) as (h1 & -> & I). pose proof I as (T & N & K). pose proof tp as TP.
    assert (E1 : entries h1 (h_top h) []) by (apply (new_entries h1 _ I); reflexivity).
    assert (P1 : n_parent (h_node h1 (h_top h)) = 0) by (rewrite N; reflexivity).
    assert (FLT : flat h1 []) by (intros ? []).
    assert (HF : Forall2 (fun c cs => c <> h_top h /\ adds h1 c cs /\ okc bad splice h1 c /\ (length cs + 3 < fuel)%nat) codes css).
    { apply (f2_imp _ _ _ _ H). intros c' cs (A & O & L). pose proof (adds_valid _ _ _ A) as V. split; [unfold valid in V; lia|].
      split; [apply (is_new_adds _ _ _ _ I A)|]. split; auto. unfold okc in *. rewrite K by auto. exact O. }
    destruct (entries_run e bad splice (h_top h) fuel codes css h1 [] (c :: rest) (Z.to_nat num - length codes) E1 P1 FLT HF) as [R1 R2].
    replace (length codes + (Z.to_nat num - length codes))%nat with (Z.to_nat num) in R1 by lia. rewrite R1.
    destruct (append_list (h_top h) (concat css) h1 [] E1 R2) as (h2 & ds & A & E2 & T2 & S2 & D2 & C2 & F2 & B2 & P2 & Q2).
    rewrite A. cbn [rbind]. destruct (Z.to_nat num - length codes)%nat as [|k] eqn:EK; [lia|]. cbn [body_entries].
    exists h2. split.
    - destruct HC as [->|(V & BT & NS)]; [reflexivity|]. replace (c =? 0) with false by (unfold valid in V; lia).
      assert (V1 : valid h1 c) by apply (new_valid _ _ _ _ I V). assert (V2 : valid h2 c) by (unfold valid in *; lia).
      rewrite (AstProofs.get_valid h2 c V2). cbn [rbind].
      assert (TY : n_type (h_node h2 c) = n_type (h_node h c)).
      { rewrite <- (K c V). apply (same_type _ _ (C2 c V1 ltac:(unfold valid in V; lia))). }
      rewrite TY, BT. replace (splice && ct_eqb (n_type (h_node h c)) CT_Global_Body) with false; [reflexivity|].
      symmetry. destruct splice; auto. cbn [andb]. unfold ct_eqb. destruct (ct_eq_dec _ _); auto. exfalso. apply NS. auto.
    - split; [lia|]. intros x V. rewrite <- K by auto. apply C2; [apply (new_valid _ _ _ _ I V)|unfold valid in V; lia].
  Qed.
  Lemma def_x_none type bad splice fuel num codes : num <= 0 -> def_x_body type bad splice fuel e h num codes = Done (h, e_invalid e).
  Proof. intros L. unfold def_x_body, require. cbn [rbind]. replace (num <=? 0) with true by lia. reflexivity. Qed.
End Whole.

(** ** the constructors by name *)
Lemma ctor_shape f t : In (f, t) body_ctors -> exists bad splice, f = def_x_body t bad splice /\
  (forall k, ((splice = true /\ k = CT_Global_Body) \/ bad k = false) <-> body_takes t k).
Proof.
  assert (DEC : forall k l, {In k l} + {~ In k l}) by (intros; apply (in_dec ct_eq_dec)).
  unfold body_ctors. cbn [In]. intros H.
  repeat match type of H with _ \/ _ => destruct H as [H|H] end; try contradiction; injection H as <- <-;
    (eexists; eexists; split; [reflexivity|]); intros k; cbn [body_takes]; split;
    try (intros [[X Y]|X]; [try discriminate X; subst k; cbn; intuition discriminate|
         cbn [body_forbids In]; intros Y; repeat (destruct Y as [Y|Y]; [subst k; discriminate X|]); contradiction]).
  all: try (intros [[X _]|X]; [discriminate X|unfold not_untyped_or_comment in X; apply andb_false_iff in X as [X|X]; apply negb_false_iff in X; apply ct_eqb_eq in X; auto]).
  all: try (intros [->| ->]; right; reflexivity).
  all: intros X; right; destruct k; try reflexivity; exfalso; apply X; cbn [body_forbids In]; tauto.
Qed.

Section Named.
  Context (e : env) (h : heap) (W : world e h).
  Lemma p34_entries f t fuel codes css rest : In (f, t) body_ctors -> codes <> [] -> Forall2 (good_entry fuel h t) codes css ->
    makes_body h (f fuel e h (Z.of_nat (length codes)) (codes ++ rest)) t (concat css).
  Proof.
    intros I NE H. destruct (ctor_shape f t I) as (bad & sp & -> & K).
    apply (def_x_ok e h W t bad sp fuel codes css rest NE). apply (f2_imp _ _ _ _ H). intros c cs (A & B & L). split; auto. split; auto. now apply K.
  Qed.
  Lemma p34_rejects f t fuel codes css c rest num : In (f, t) body_ctors -> Forall2 (good_entry fuel h t) codes css ->
    (c = 0 \/ (valid h c /\ ~ body_takes t (n_type (h_node h c)))) -> Z.of_nat (length codes) < num ->
    exists h', f fuel e h num (codes ++ c :: rest) = Done (h', e_invalid e) /\ h_top h <= h_top h' /\ (forall x, valid h x -> same_content (h_node h x) (h_node h' x)).
  Proof.
    intros I H C L. destruct (ctor_shape f t I) as (bad & sp & -> & K).
    apply (def_x_bad e h W t bad sp fuel codes css c rest num); auto.
    - apply (f2_imp _ _ _ _ H). intros x cs (A & B & F). split; auto. split; auto. now apply K.
    - destruct C as [->|[V N]]; [now left|right]. split; auto. rewrite <- K in N.
      destruct (bad (n_type (h_node h c))); [|exfalso; apply N; now right]. split; auto.
  Qed.
  Lemma p34_none f t fuel num codes : In (f, t) body_ctors -> num <= 0 -> f fuel e h num codes = Done (h, e_invalid e).
  Proof. intros I L. destruct (ctor_shape f t I) as (bad & sp & -> & _). now apply def_x_none. Qed.
  Lemma p34_class_arr fuel codes css rest : codes <> [] -> Forall2 (good_entry fuel h CT_Class_Body) codes css ->
    makes_body h (def_class_body_arr fuel e h (Z.of_nat (length codes)) (codes ++ rest)) CT_Function_Body (concat css).
  Proof.
    intros NE H. destruct (ctor_shape def_class_body CT_Class_Body (or_introl eq_refl)) as (bad & sp & E & K).
    apply (def_x_ok e h W CT_Function_Body class_unallowed false fuel codes css rest NE). apply (f2_imp _ _ _ _ H). intros c cs (A & B & L). split; auto. split; auto.
    right. destruct (n_type (h_node h c)); try reflexivity; exfalso; apply B; cbn; tauto.
  Qed.
  Lemma p34_namespace_arr fuel codes css rest : codes <> [] -> Forall2 (good_entry fuel h CT_Namespace_Body) codes css ->
    makes_body h (def_namespace_body_arr fuel e h (Z.of_nat (length codes)) (codes ++ rest)) CT_Global_Body (concat css).
  Proof.
    intros NE H.
    apply (def_x_ok e h W CT_Global_Body namespace_unallowed false fuel codes css rest NE). apply (f2_imp _ _ _ _ H). intros c cs (A & B & L). split; auto. split; auto.
    right. destruct (n_type (h_node h c)); try reflexivity; exfalso; apply B; cbn; tauto.
  Qed.

  (** parameter lists *)
  Lemma params_rest_eq r : forall ps h1 l rest, plist h1 r l -> (forall c, In c ps -> valid h1 c /\ n_parent (h_node h1 c) = 0 /\ n_next (h_node h1 c) = 0 /\ n_type (h_node h1 c) = CT_Parameters) ->
    NoDup (l ++ ps) -> params_rest e h1 r (ps ++ rest) (length ps) = (do h2 <- params_append_all h1 r ps; Done (h2, r)).
  Proof.
    induction ps as [|c ps IH]; intros h1 l rest P C ND; [destruct rest; reflexivity|].
    cbn [app length params_rest params_append_all]. destruct (C c (or_introl eq_refl)) as (Vc & Pc & Nc & Tc).
    rewrite (AstProofs.get_valid h1 c Vc). cbn [rbind]. rewrite Tc. change (negb (ct_eqb CT_Parameters CT_Parameters)) with false. cbv iota.
    assert (Hni : ~ In c l) by (apply NoDup_remove_2 in ND; intros X; apply ND, in_or_app; now left).
    destruct (p28_step h1 r c l P Vc Hni Pc Nc) as (h2 & A & P2 & T2 & _ & S1 & S2 & Fr & _ & PP). rewrite A. cbn [rbind].
    apply (IH h2 (l ++ [c])); auto; [|rewrite <- app_assoc; exact ND].
    intros x Hx. destruct (C x (or_intror Hx)) as (Vx & Px & Nx & Tx).
    assert (x <> c) by (intros ->; apply NoDup_remove_2 in ND; apply ND, in_or_app; now right).
    assert (Hxl : ~ In x l). { intros Hi. clear - ND Hx Hi. induction l as [|a l IH]; [destruct Hi|]. cbn in ND. inversion ND; subst. destruct Hi as [->|Hi]; [apply H1, in_or_app; right; now right|]. auto. }
    pose proof P as ((q & El & _) & _). rewrite Fr; auto; [|intros ->; apply Hxl; rewrite El; now left|intros ->; apply Hxl, last_in; rewrite El; discriminate].
    split; [unfold valid in *; lia|auto].
  Qed.
  Lemma p34_params p ps rest :
    (forall c, In c (p :: ps) -> valid h c /\ n_type (h_node h c) = CT_Parameters /\ n_next (h_node h c) = 0) ->
    n_num (h_node h p) = 1 -> n_front (h_node h p) = 0 -> (forall c, In c ps -> n_parent (h_node h c) = 0) -> NoDup ps ->
    exists h' c, def_params e h (Z.of_nat (length (p :: ps))) ((p :: ps) ++ rest) = Done (h', c) /\ ~ valid h c /\ valid h' c /\
      plist h' c (c :: ps) /\ (forall fuel, (length ps + 1 < fuel)%nat -> params_iter fuel h' c = Done (c :: ps)) /\
      same_but_count (h_node h p) (h_node h' c) /\ n_num (h_node h' c) = Z.of_nat (length (p :: ps)) /\
      (forall x, valid h x -> same_content (h_node h x) (h_node h' x)).
  Proof.
    intros C N1 F1 PA ND. destruct (C p (or_introl eq_refl)) as (Vp & Tp & Xp).
    unfold def_params, require, null_check. cbn [rbind app length]. replace (Z.of_nat (S (length ps)) <=? 0) with false by lia. cbn [negb].
    replace (p =? 0) with false by (unfold valid in Vp; lia). cbn [negb]. rewrite (AstProofs.get_valid h p Vp). cbn [rbind]. rewrite Tp.
    change (negb (ct_eqb CT_Parameters CT_Parameters)) with false. cbv iota.
    destruct (dup_spec h p Vp) as (h1 & -> & T1 & HN1). cbn [rbind]. pose proof (top_pos e h W) as TP.
    assert (NC : h_node h1 (h_top h) = set_parent 0 (h_node h p)) by (rewrite HN1, Z.eqb_refl; reflexivity).
    assert (K : forall x, valid h x -> h_node h1 x = h_node h x) by (intros x V; rewrite HN1; unfold valid in V; replace (x =? h_top h) with false by lia; reflexivity).
    assert (PS : plist h1 (h_top h) [h_top h]) by (apply plist_single; rewrite ?NC; auto; unfold valid; lia).
    assert (CC : forall c, In c ps -> valid h1 c /\ n_parent (h_node h1 c) = 0 /\ n_next (h_node h1 c) = 0 /\ n_type (h_node h1 c) = CT_Parameters).
    { intros c Hc. destruct (C c (or_intror Hc)) as (V & T & X). rewrite K by auto. split; [unfold valid in *; lia|]. auto. }
    assert (ND1 : NoDup ([h_top h] ++ ps)). { constructor; auto. intros X. destruct (C _ (or_intror X)) as (V & _). unfold valid in V. lia. }
    replace (Z.to_nat (Z.of_nat (S (length ps))) - 1)%nat with (length ps) by lia.
    rewrite (params_rest_eq (h_top h) ps h1 [h_top h] rest PS CC ND1).
    destruct (p28_all (h_top h) ps h1 [h_top h] PS) as (h2 & -> & P2 & T2 & S2 & B2); [intros c Hc; destruct (CC c Hc) as (A & B & D & _); auto|exact ND1|].
    cbn [rbind]. exists h2, (h_top h). split; [reflexivity|]. split; [unfold valid; lia|]. split; [unfold valid; lia|]. split; [exact P2|].
    split; [intros f Hf; apply plist_iter; auto; cbn [app length]; lia|].
    split. { rewrite NC in B2. clear -B2. unfold same_but_count in *. unfold same_content in *. cbn in *. intuition. }
    split; [destruct P2 as (_ & X & _); rewrite X; reflexivity|].
    intros x V. rewrite <- K by auto. apply S2. unfold valid in V. lia.
  Qed.
  Lemma p34_params_first c rest num : 0 < num -> (c = 0 \/ (valid h c /\ n_type (h_node h c) <> CT_Parameters)) -> def_params e h num (c :: rest) = Done (h, e_invalid e).
  Proof.
    intros L C. unfold def_params, require, null_check. cbn [rbind]. replace (num <=? 0) with false by lia. cbn [negb].
    destruct C as [->|[V N]]; [reflexivity|]. replace (c =? 0) with false by (unfold valid in V; lia). cbn [negb]. rewrite (AstProofs.get_valid h c V). cbn [rbind].
    destruct (ct_eqb _ _) eqn:E; [apply ct_eqb_eq in E; contradiction|reflexivity].
  Qed.
  Lemma p34_params_none num codes : num <= 0 -> def_params e h num codes = Done (h, e_invalid e) /\ def_params_arr e h num codes = Done (h, e_invalid e).
  Proof. intros L. unfold def_params, def_params_arr, require. cbn [rbind]. replace (num <=? 0) with true by lia. auto. Qed.
  Lemma p34_params_null p rest num : valid h p -> n_type (h_node h p) = CT_Parameters -> 1 < num -> def_params e h num (p :: 0 :: rest) = Undefined.
  Proof.
    intros V T L. unfold def_params, require, null_check. cbn [rbind]. replace (num <=? 0) with false by lia. cbn [negb].
    replace (p =? 0) with false by (unfold valid in V; lia). cbn [negb]. rewrite (AstProofs.get_valid h p V). cbn [rbind]. rewrite T. change (negb (ct_eqb CT_Parameters CT_Parameters)) with false. cbv iota.
    destruct (dup_spec h p V) as (h1 & -> & _). cbn [rbind]. destruct (Z.to_nat num - 1)%nat eqn:E; [lia|]. reflexivity.
  Qed.
  Lemma p34_params_arr_past p : valid h p -> n_type (h_node h p) = CT_Parameters -> def_params_arr e h 1 [p] = Undefined.
  Proof.
    intros V T. unfold def_params_arr, require. cbn [rbind]. change (negb (1 <=? 0)) with true. cbv iota.
    destruct (dup_spec h p V) as (h1 & -> & T1 & N1). cbn [rbind]. pose proof (top_pos e h W).
    rewrite (AstProofs.get_valid h1 (h_top h)) by (unfold valid; lia). cbn [rbind]. rewrite N1, Z.eqb_refl. cbn [n_type set_parent]. rewrite T. change (negb (ct_eqb CT_Parameters CT_Parameters)) with false. cbv iota. reflexivity.
  Qed.
  Lemma p34_params_arr_one p x : valid h p -> n_type (h_node h p) = CT_Parameters ->
    exists h' c, def_params_arr e h 1 [p; x] = Done (h', c) /\ ~ valid h c /\ valid h' c /\
      h_node h' c = set_ret (n_ret (h_node h p)) (node_of CT_Parameters (n_name (h_node h p))).
  Proof.
    intros V T. unfold def_params_arr, require. cbn [rbind]. change (negb (1 <=? 0)) with true. cbv iota.
    destruct (dup_spec h p V) as (h1 & -> & T1 & N1). cbn [rbind]. pose proof (top_pos e h W).
    rewrite (AstProofs.get_valid h1 (h_top h)) by (unfold valid; lia). cbn [rbind]. rewrite N1, Z.eqb_refl. cbn [n_type n_ret n_name set_parent]. rewrite T. change (negb (ct_eqb CT_Parameters CT_Parameters)) with false. cbv iota.
    match goal with |- context [make h1 ?f] => destruct (make_new h1 f ltac:(lia)) as (h2 & -> & T2 & N2 & _) end.
    exists h2, (h_top h1). split; [reflexivity|]. split; [unfold valid; lia|]. split; [unfold valid; lia|]. rewrite N2. reflexivity.
  Qed.
End Named.
