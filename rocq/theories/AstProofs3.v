From Coq Require Import ZArith List Bool Lia.
From Coq Require Import ZifyBool ZifyNat.
From Verif Require Import Common Text AstModel AstSpec AstProofs AstProofs2.
Import ListNotations.
Open Scope Z_scope.

(** ** C27 *)
Lemma dup_step h self e l b2 l2 : entries h self l -> valid h e -> self <> e -> n_parent (h_node h e) <> 0 -> b2 <> self -> entries h b2 l2 -> ~ In self l2 -> ~ In b2 l ->
  exists h', code_append h self e = Done h' /\ h_top h' = h_top h + 1 /\ entries h' self (l ++ [h_top h]) /\
    same_content (h_node h e) (h_node h' (h_top h)) /\ n_next (h_node h' (h_top h)) = n_next (h_node h e) /\
    entries h' b2 l2 /\ h_node h' b2 = h_node h b2 /\ (forall x, In x l2 -> h_node h' x = h_node h x) /\
    (forall x, valid h x -> x <> self -> same_content (h_node h x) (h_node h' x)) /\
    same_but_count (h_node h self) (h_node h' self) /\
    (forall x, valid h x -> x <> self -> (l = [] \/ x <> last l 0) -> h_node h' x = h_node h x).
Proof.
  intros HE Ve Hne Hp Hb2 HE2 Hs2 Hb2l.
  destruct (p26 h self e l b2 l2 HE Ve Hne Hp Hb2 HE2 Hs2) as (h' & d & E & -> & HE' & SC & _ & NX & _ & _ & HB & HL2 & Fr).
  destruct (append_dup_spec h self e l HE Ve Hne Hp) as (h1 & h2 & E2 & Ht & HN1 & HN & _ & _). rewrite E in E2. injection E2 as <-.
  destruct (HB Hb2l) as [HB1 HB2]. exists h'. split; [exact E|]. split; [exact Ht|]. split; [exact HE'|]. split; [exact SC|]. split; [exact NX|]. split; [exact HB1|]. split; [exact HB2|]. split; [exact HL2|]. split; [|split].
  - intros x Vx Hx. rewrite HN. eapply same_trans; [|apply append_node_content; auto]. rewrite HN1. unfold valid in Vx. replace (x =? h_top h) with false by lia. apply same_refl.
  - rewrite HN. destruct (append_node_self h1 self (h_top h) l) as (S & _). rewrite HN1 in S at 1. destruct HE as (Vs & _). unfold valid in Vs. replace (self =? h_top h) with false in S by lia. exact S.
  - exact Fr.
Qed.

Lemma forall2_snoc_impl {A B} (R R' : A -> B -> Prop) la lb : Forall2 R la lb -> (forall a b, In a la -> In b lb -> R a b -> R' a b) -> Forall2 R' la lb.
Proof. intros H. induction H as [|a b la lb H1 H2 IH]; intros E; constructor; [apply E; auto; now left|]. apply IH. intros x y Hx Hy. apply E; now right. Qed.
Lemma same_but_trans a b c : same_but_count a b -> same_but_count b c -> same_but_count a c.
Proof. unfold same_but_count, same_content. cbn. intuition congruence. Qed.
Lemma same_but_refl a : same_but_count a a.
Proof. unfold same_but_count, same_content. cbn. tauto. Qed.

Lemma splice_loop self body lb e : self <> body -> forall suf pre h l fuel, lb = pre ++ suf ->
  entries h self l -> entries h body lb -> ~ In self lb -> ~ In body l ->
  lb <> [] -> n_next (h_node h (last lb 0)) = e -> ~ In e lb -> (forall c, In c lb -> is_body_type (n_type (h_node h c)) = false) ->
  (length suf + 1 < fuel)%nat ->
  exists h' ds, body_append_loop fuel h self body (hd e suf) = Done h' /\ entries h' self (l ++ ds) /\
    Forall2 (fun c d => same_content (h_node h c) (h_node h' d)) suf ds /\
    (suf <> [] -> n_next (h_node h' (last (l ++ ds) 0)) = e) /\
    entries h' body lb /\ h_node h' body = h_node h body /\ (forall x, In x lb -> h_node h' x = h_node h x) /\
    (forall x, valid h x -> x <> self -> same_content (h_node h x) (h_node h' x)) /\ same_but_count (h_node h self) (h_node h' self) /\
    (forall x, valid h x -> valid h' x) /\ (forall d, In d ds -> ~ valid h d).
Proof.
  intros Hsb. induction suf as [|c suf IH]; intros pre h l fuel EL HE HEb Hsl Hbl Hne He Hni Hbt Hf; (destruct fuel as [|fuel]; [lia|]); cbn [body_append_loop hd];
    rewrite (end_body_eq h body lb HEb Hne); cbn [rbind]; rewrite He.
  - rewrite Z.eqb_refl. exists h, []. rewrite app_nil_r. split; auto. split; auto. split; [constructor|]. split; [intros; contradiction|]. split; auto. split; auto. split; auto. split; [intros; apply same_refl|]. split; [apply same_but_refl|]. split; [auto|]. intros d [].
  - assert (Ic : In c lb) by (rewrite EL; apply in_or_app; right; now left).
    assert (c <> e) by (intros ->; auto). replace (c =? e) with false by lia.
    pose proof HEb as (Vb & Nb & Hinb & NDb & NSb & Fb & Bb & Lb). destruct (Hinb c Ic) as [Vc Pc].
    destruct fuel as [|fuel]; [cbn in Hf; lia|]. cbn [body_append]. rewrite (get_valid h c Vc). cbn [rbind]. rewrite (Hbt c Ic).
    assert (Hsc : self <> c) by (intros ->; auto).
    destruct (dup_step h self c l body lb HE Vc Hsc ltac:(unfold valid in Vb; lia) ltac:(auto) HEb Hsl Hbl) as (h1 & E1 & Ht1 & HE1 & SC1 & NX1 & HB1 & HN1 & HL1 & SA1 & SS1 & Fr1).
    rewrite E1. cbn [rbind]. unfold next_body.
    assert (V1 : forall x, valid h x -> valid h1 x) by (intros x; unfold valid; rewrite Ht1; lia).
    rewrite (get_valid h1 c (V1 _ Vc)). cbn [rbind]. rewrite (HL1 c Ic).
    assert (Enx : n_next (h_node h c) = hd e suf).
    { destruct suf as [|y suf]; cbn [hd].
      - rewrite <- He, EL, last_last. reflexivity.
      - rewrite EL in Lb. eapply linked_app_next; eauto. }
    rewrite Enx. destruct (IH (pre ++ [c]) h1 (l ++ [h_top h]) (S fuel)) as (h2 & ds & E2 & HE2 & F2 & NX2 & HB2 & HN2 & HL2 & SA2 & SS2 & V2 & D2); auto.
    + rewrite <- app_assoc. exact EL.
    + intros Hi. apply in_snoc in Hi as [Hi| ->]; auto. unfold valid in Vb. lia.
    + rewrite HL1; [exact He|]. apply last_in; auto.
    + intros x Hx. rewrite (HL1 x Hx). auto.
    + cbn in Hf. lia.
    + exists h2, (h_top h :: ds). replace (l ++ h_top h :: ds) with ((l ++ [h_top h]) ++ ds) by (rewrite <- app_assoc; reflexivity).
      split; auto. split; auto. split; [|split; [|split; [|split; [|split; [|split; [|split; [|split]]]]]]].
      * constructor.
        { eapply same_trans; [exact SC1|]. apply SA2; [unfold valid; rewrite Ht1; destruct HE as (V & _); unfold valid in V; lia|]. destruct HE as (V & _); unfold valid in V; lia. }
        eapply forall2_snoc_impl; [exact F2|]. cbn beta. intros a b Ha Hb HR. assert (Ia : In a lb) by (rewrite EL; apply in_or_app; right; now right). rewrite (HL1 a Ia) in HR. exact HR.
      * intros _. destruct suf as [|y suf]; [|apply NX2; discriminate]. inversion F2; subst ds. rewrite app_nil_r, last_snoc.
        cbn [hd] in E2. clear IH. cbn [hd] in Enx. cbn [body_append_loop] in E2. rewrite (end_body_eq h1 body lb HB1 Hne) in E2. cbn [rbind] in E2. rewrite HL1 in E2 by (apply last_in; auto). rewrite He, Z.eqb_refl in E2. injection E2 as <-. rewrite NX1. exact Enx.
      * exact HB2.
      * rewrite HN2. exact HN1.
      * intros x Hx. rewrite HL2 by auto. auto.
      * intros x Vx Hx. eapply same_trans; [apply SA1; auto|]. apply SA2; auto.
      * eapply same_but_trans; eauto.
      * intros x Vx. apply V2, V1, Vx.
      * intros d [<-|Hd]; [unfold valid; lia|]. intros Vd. apply (D2 d Hd). auto.
Qed.

Lemma p27 h self body l lb fuel : self <> body -> entries h self l -> entries h body lb -> ~ In self lb -> ~ In body l ->
  lb <> [] -> ~ In (n_next (h_node h (last lb 0))) lb -> (forall c, In c lb -> is_body_type (n_type (h_node h c)) = false) ->
  (length lb + 2 < fuel)%nat ->
  exists h' ds, body_append_body fuel h self body = Done h' /\ entries h' self (l ++ ds) /\
    Forall2 (fun c d => same_content (h_node h c) (h_node h' d)) lb ds /\ (forall d, In d ds -> ~ valid h d) /\
    count_for h' self = Done (l ++ ds) /\
    (n_next (h_node h (last lb 0)) = 0 -> forall fuel', (length (l ++ ds) < fuel')%nat -> range_for fuel' h' self = Done (l ++ ds)) /\
    entries h' body lb /\ h_node h' body = h_node h body /\ (forall x, In x lb -> h_node h' x = h_node h x) /\
    (forall x, valid h x -> x <> self -> same_content (h_node h x) (h_node h' x)) /\ same_but_count (h_node h self) (h_node h' self).
Proof.
  intros Hsb HE HEb Hs Hb Hne Hni Hbt Hf. destruct fuel as [|fuel]; [lia|]. cbn [body_append_body]. replace (self =? body) with false by lia.
  unfold begin_body. pose proof HEb as (Vb & Nb & Hinb & NDb & NSb & Fb & Bb & Lb). rewrite (get_valid h body Vb). cbn [rbind]. rewrite Fb.
  destruct (splice_loop self body lb _ Hsb lb [] h l fuel eq_refl HE HEb Hs Hb Hne eq_refl Hni Hbt ltac:(lia)) as (h' & ds & E & HE' & F & NX & HB & HN & HL & SA & SS & V & D).
  exists h', ds. replace (hd 0 lb) with (hd (n_next (h_node h (last lb 0))) lb) by (destruct lb; [contradiction|reflexivity]).
  split; auto. split; auto. split; auto. split; auto. split; [apply count_for_ok; auto|]. split.
  { intros H0 fuel' Hf'. apply range_for_ok; auto.
    - intros Hn. apply app_eq_nil in Hn as [_ ->]. inversion F. subst lb. contradiction.
    - rewrite NX by auto. rewrite H0. intros Hi. destruct HE' as (_ & _ & Hin & _). destruct (Hin 0 Hi) as [V0 _]. unfold valid in V0. lia. }
  do 4 (split; auto).
Qed.
(** appending an empty body reads through a null Back *)
Lemma p27_empty h self body fuel : self <> body -> entries h body [] -> (1 < fuel)%nat -> body_append_body fuel h self body = Undefined.
Proof.
  intros Hsb (Vb & _ & _ & _ & _ & Fb & Bb & _) Hf. destruct fuel as [|[|fuel]]; [lia|lia|]. cbn [body_append_body]. replace (self =? body) with false by lia.
  unfold begin_body. rewrite (get_valid h body Vb). cbn [rbind body_append_loop]. unfold end_body. rewrite (get_valid h body Vb). cbn [rbind]. rewrite Bb. reflexivity.
Qed.
Lemma p25_range_empty h b fuel : entries h b [] -> (0 < fuel)%nat -> range_for fuel h b = Undefined.
Proof.
  intros (Vb & _ & _ & _ & _ & Fb & Bb & _) Hf. destruct fuel as [|fuel]; [lia|]. unfold range_for, begin_body. rewrite (get_valid h b Vb). cbn [rbind range_loop].
  unfold end_body. rewrite (get_valid h b Vb). cbn [rbind]. rewrite Bb. reflexivity.
Qed.
