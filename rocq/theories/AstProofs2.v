From Coq Require Import ZArith List Bool Lia.
From Coq Require Import ZifyBool ZifyNat.
From Verif Require Import Common Text AstModel AstSpec AstProofs.
Import ListNotations.
Open Scope Z_scope.

Lemma linked_tail h x r : linked h (x :: r) -> linked h r.
Proof. destruct r; cbn [linked]; tauto. Qed.
Lemma linked_app_next h pre x y r : linked h (pre ++ x :: y :: r) -> n_next (h_node h x) = y.
Proof. induction pre as [|a pre IH]; cbn [app]; intros H; [apply H|]. apply IH. eapply linked_tail; eauto. Qed.
Lemma linked_app_r h pre r : linked h (pre ++ r) -> linked h r.
Proof. induction pre as [|a pre IH]; cbn [app]; intros H; auto. apply IH. eapply linked_tail; eauto. Qed.

Lemma end_body_eq h b l : entries h b l -> l <> [] -> end_body h b = Done (n_next (h_node h (last l 0))).
Proof.
  intros (Vs & Hn & Hin & Hnd & Hns & Hf & Hb & Hl) Hne. unfold end_body. rewrite get_valid by auto. cbn [rbind]. rewrite Hb.
  rewrite get_valid; [reflexivity|]. apply Hin, last_in, Hne.
Qed.
(** iterating from the head of a suffix [suf] up to an end marker [e] that first occurs at the end *)
Lemma range_loop_ok h b e : end_body h b = Done e -> forall suf fuel, linked h suf -> (forall c, In c suf -> valid h c) ->
  (suf <> [] -> n_next (h_node h (last suf 0)) = e) -> ~ In e suf -> (length suf < fuel)%nat ->
  range_loop fuel h b (hd e suf) = Done suf.
Proof.
  intros HE. induction suf as [|x r IH]; intros fuel Hl Hv Hlast Hni Hf; destruct fuel as [|fuel]; [cbn in Hf; lia| |cbn in Hf; lia|]; cbn [range_loop hd].
  - rewrite HE. cbn [rbind]. rewrite Z.eqb_refl. reflexivity.
  - rewrite HE. cbn [rbind]. assert (x <> e) by (intros ->; apply Hni; now left). replace (x =? e) with false by lia.
    unfold next_body. rewrite get_valid by (apply Hv; now left). cbn [rbind].
    assert (En : n_next (h_node h x) = hd e r).
    { destruct r as [|y r]; [apply Hlast; discriminate|]. exact (proj1 Hl). }
    rewrite En, IH; [reflexivity|eapply linked_tail; eauto|intros c Hc; apply Hv; now right| |intros Hc; apply Hni; now right|cbn in Hf; lia].
    intros Hr. rewrite <- (Hlast ltac:(discriminate)). destruct r; [contradiction|reflexivity].
Qed.
Lemma range_for_ok h b l fuel : entries h b l -> l <> [] -> ~ In (n_next (h_node h (last l 0))) l -> (length l < fuel)%nat -> range_for fuel h b = Done l.
Proof.
  intros HE Hne Hni Hf. pose proof (end_body_eq h b l HE Hne) as EE. pose proof HE as (Vs & Hn & Hin & Hnd & Hns & Hfr & Hb & Hl).
  unfold range_for, begin_body. rewrite get_valid by auto. cbn [rbind]. rewrite Hfr.
  destruct l as [|a l]; [contradiction|]. apply (range_loop_ok h b _ EE (a :: l)); auto. intros c Hc. apply Hin, Hc.
Qed.
(** when the end marker occurs inside, iteration stops there *)
Lemma range_for_early h b fuel pre x suf : entries h b (pre ++ x :: suf) -> pre <> [] -> n_next (h_node h (last (pre ++ x :: suf) 0)) = x ->
  (length pre < fuel)%nat -> range_for fuel h b = Done pre.
Proof.
  intros HE Hne Hx Hf. pose proof (end_body_eq h b _ HE ltac:(destruct pre; discriminate)) as EE. rewrite Hx in EE.
  pose proof HE as (Vs & Hn & Hin & Hnd & Hns & Hfr & Hb & Hl).
  unfold range_for, begin_body. rewrite get_valid by auto. cbn [rbind]. rewrite Hfr.
  replace (hd 0 (pre ++ x :: suf)) with (hd x pre) by (destruct pre; [contradiction|reflexivity]).
  assert (Hpl : linked h pre /\ (pre <> [] -> n_next (h_node h (last pre 0)) = x)).
  { clear - Hl. induction pre as [|a pre IH]; [split; [exact I|intros; contradiction]|]. destruct (IH (linked_tail _ _ _ Hl)) as [A B].
    destruct pre as [|c pre]; [split; [exact I|intros _; exact (proj1 Hl)]|]. split; [split; [exact (proj1 Hl)|exact A]|intros _; apply B; discriminate]. }
  destruct Hpl as [A B]. apply (range_loop_ok h b x EE pre); auto.
  - intros c Hc. apply Hin. apply in_or_app. now left.
  - apply NoDup_remove_2 in Hnd. intros Hi. apply Hnd, in_or_app. now left.
Qed.
Lemma count_loop_ok h : forall suf, linked h suf -> (forall c, In c suf -> valid h c) -> count_loop (length suf) h (hd 0 suf) = Done suf.
Proof.
  induction suf as [|x r IH]; intros Hl Hv; cbn [length count_loop hd]; auto.
  assert (Vx : valid h x) by (apply Hv; now left). pose proof Vx as Vx'. unfold valid in Vx'. replace (x =? 0) with false by lia. rewrite get_valid by auto. cbn [rbind].
  destruct r as [|y r].
  - cbn [length count_loop rbind]. reflexivity.
  - destruct Hl as [E Hl]. rewrite E. cbn [hd] in IH. rewrite IH; auto. intros c Hc. apply Hv. now right.
Qed.
Lemma count_for_ok h b l : entries h b l -> count_for h b = Done l.
Proof.
  intros (Vs & Hn & Hin & Hnd & Hns & Hfr & Hb & Hl). unfold count_for. rewrite get_valid by auto. cbn [rbind]. rewrite Hn, Hfr, Nat2Z.id.
  apply count_loop_ok; auto. intros c Hc. apply Hin, Hc.
Qed.
Lemma code_entry_at_ok h : forall suf i, linked h suf -> (forall c, In c suf -> valid h c) -> (i < length suf)%nat -> code_entry_at h (hd 0 suf) i = Done (nth i suf 0).
Proof.
  induction suf as [|x r IH]; intros i Hl Hv Hi; [cbn in Hi; lia|]. destruct i as [|i]; [reflexivity|]. cbn [code_entry_at hd nth].
  rewrite get_valid by (apply Hv; now left). cbn [rbind]. destruct r as [|y r]; [cbn in Hi; lia|]. destruct Hl as [E Hl]. rewrite E. apply (IH i); auto; [|cbn in Hi |- *; lia]. intros c Hc. apply Hv. now right.
Qed.
Lemma code_entry_ok h b l i : entries h b l -> 0 <= i < Z.of_nat (length l) -> code_entry h b i = Done (nth (Z.to_nat i) l 0).
Proof.
  intros (Vs & Hn & Hin & Hnd & Hns & Hfr & Hb & Hl) Hi. unfold code_entry. rewrite get_valid by auto. cbn [rbind]. rewrite Hfr.
  apply code_entry_at_ok; auto; [|lia]. intros c Hc. apply Hin, Hc.
Qed.

Ltac sc := unfold same_but_count, same_content; cbn; repeat split; reflexivity.
(** what appending does to the nodes *)
Lemma append_node_content h self e l x : x <> self -> same_content (h_node h x) (append_node h self e l x).
Proof.
  intros H. unfold append_node. replace (x =? self) with false by lia. destruct (x =? e); [destruct l; sc|].
  destruct l; [sc|]. destruct (x =? last (z :: l) 0); sc.
Qed.
Lemma append_node_self h self e l : same_but_count (h_node h self) (append_node h self e l self) /\ n_num (append_node h self e l self) = n_num (h_node h self) + 1 /\ n_parent (append_node h self e l self) = n_parent (h_node h self).
Proof. unfold append_node, same_but_count. rewrite Z.eqb_refl. destruct l; (split; [sc|split; reflexivity]). Qed.
Lemma append_node_frame h self e l x : x <> self -> x <> e -> (l = [] \/ x <> last l 0) -> append_node h self e l x = h_node h x.
Proof.
  intros H1 H2 H3. unfold append_node. replace (x =? self) with false by lia. replace (x =? e) with false by lia.
  destruct l as [|a l]; auto. destruct H3 as [H3|H3]; [discriminate|]. now replace (x =? last (a :: l) 0) with false by lia.
Qed.
Lemma append_node_next_e h self e l : self <> e -> ~ In e l -> n_next (append_node h self e l e) = n_next (h_node h e).
Proof. intros H Hi. unfold append_node. replace (e =? self) with false by lia. rewrite Z.eqb_refl. destruct l; reflexivity. Qed.

(** ** C25 *)
Lemma p25_step h self e l : entries h self l -> valid h e -> self <> e -> n_parent (h_node h e) = 0 ->
  exists h', code_append h self e = Done h' /\ entries h' self (l ++ [e]) /\
    n_next (h_node h' e) = n_next (h_node h e) /\
    (forall x, x <> self -> same_content (h_node h x) (h_node h' x)) /\
    same_but_count (h_node h self) (h_node h' self) /\
    (forall x, x <> self -> x <> e -> (l = [] \/ x <> last l 0) -> h_node h' x = h_node h x).
Proof.
  intros HE Ve Hne Hp. destruct (append_fresh_spec h self e l HE Ve Hne Hp) as (h' & E & Ht & HN & HE').
  exists h'. split; auto. split; auto.
  assert (Hel : ~ In e l).
  { intros Hi. destruct HE as (Vs & _ & Hin & _). destruct (Hin e Hi) as [_ P]. unfold valid in Vs. lia. }
  split; [rewrite HN; apply append_node_next_e; auto|]. split; [intros x Hx; rewrite HN; apply append_node_content; auto|].
  split; [rewrite HN; apply append_node_self|]. intros x H1 H2 H3. rewrite HN. apply append_node_frame; auto.
Qed.

Lemma append_all_spec : forall cs h b l, entries h b l -> (forall c, In c cs -> valid h c /\ n_parent (h_node h c) = 0 /\ n_next (h_node h c) = 0) -> NoDup cs -> ~ In b cs ->
  (l <> [] -> n_next (h_node h (last l 0)) = 0) ->
  exists h', append_all h b cs = Done h' /\ entries h' b (l ++ cs) /\ (l ++ cs <> [] -> n_next (h_node h' (last (l ++ cs) 0)) = 0) /\
    (forall x, x <> b -> same_content (h_node h x) (h_node h' x)) /\ same_but_count (h_node h b) (h_node h' b).
Proof.
  induction cs as [|c cs IH]; intros h b l HE Hc Hnd Hb Hlast; cbn [append_all].
  - exists h. rewrite app_nil_r. split; auto. split; auto. split; auto. split; [intros; sc|]. unfold same_but_count. destruct (h_node h b). sc.
  - destruct (Hc c (or_introl eq_refl)) as (Vc & Pc & Nc).
    assert (Hne : b <> c) by (intros ->; apply Hb; now left).
    destruct (append_fresh_spec h b c l HE Vc Hne Pc) as (h1 & E & Ht & HN & HE1). rewrite E. cbn [rbind].
    assert (Hcl : ~ In c l).
    { intros Hi. destruct HE as (Vs & _ & Hin & _). destruct (Hin c Hi) as [_ P]. unfold valid in Vs. lia. }
    inversion Hnd as [|? ? Hc1 Hnd']; subst.
    destruct (IH h1 b (l ++ [c]) HE1) as (h2 & E2 & HE2 & HL2 & HC2 & HB2).
    + intros d Hd. destruct (Hc d (or_intror Hd)) as (Vd & Pd & Nd). unfold valid in *. rewrite Ht.
      assert (d <> b) by (intros ->; apply Hb; now right). assert (d <> c) by (intros ->; auto).
      rewrite HN. rewrite append_node_frame; auto. destruct l as [|a l]; [now left|right]. intros ->.
      destruct HE as (Vs & _ & Hin & _). destruct (Hin (last (a :: l) 0)) as [_ P]; [apply last_in; discriminate|]. unfold valid in Vs. lia.
    + exact Hnd'.
    + intros Hi. apply Hb. now right.
    + intros _. rewrite last_snoc, HN, append_node_next_e; auto.
    + exists h2. replace (l ++ c :: cs) with ((l ++ [c]) ++ cs) by (rewrite <- app_assoc; reflexivity). split; auto. split; auto. split; auto. split.
      * intros x Hx. eapply same_trans; [|apply HC2; auto]. rewrite HN. apply append_node_content; auto.
      * destruct (append_node_self h b c l) as (S1 & S2 & _). rewrite <- (HN b) in S1, S2. clear - S1 HB2. unfold same_but_count in *. eapply same_trans; [exact S1|].
        unfold same_content in *. cbn in *. intuition congruence.
Qed.
Lemma empty_entries h b : valid h b -> n_num (h_node h b) = 0 -> n_front (h_node h b) = 0 -> n_next (h_node h b) = 0 -> entries h b [].
Proof. intros V N F B. split; auto. split; [exact N|]. split; [intros c []|]. split; [constructor|]. split; [auto|]. split; [exact F|]. split; [exact B|exact I]. Qed.

Lemma p25 h b cs : valid h b -> n_num (h_node h b) = 0 -> n_front (h_node h b) = 0 -> n_next (h_node h b) = 0 ->
  (forall c, In c cs -> valid h c /\ n_parent (h_node h c) = 0 /\ n_next (h_node h c) = 0) -> NoDup cs -> ~ In b cs ->
  exists h', append_all h b cs = Done h' /\
    n_num (h_node h' b) = Z.of_nat (length cs) /\ n_front (h_node h' b) = hd 0 cs /\ n_next (h_node h' b) = last cs 0 /\
    (cs <> [] -> forall fuel, (length cs < fuel)%nat -> range_for fuel h' b = Done cs) /\
    count_for h' b = Done cs /\
    (forall i, 0 <= i < Z.of_nat (length cs) -> code_entry h' b i = Done (nth (Z.to_nat i) cs 0)) /\
    (forall x, x <> b -> same_content (h_node h x) (h_node h' x)).
Proof.
  intros V N F B Hc Hnd Hb. destruct (append_all_spec cs h b [] (empty_entries h b V N F B) Hc Hnd Hb) as (h' & E & HE & HL & HC & _); [intros; contradiction|].
  cbn [app] in *. exists h'. split; auto. pose proof HE as (Vs & Hn & Hin & Hnd' & Hns & Hfr & Hbk & Hl). do 3 (split; auto). split; [|split; [|split; auto]].
  - intros Hne fuel Hf. apply range_for_ok; auto. rewrite HL by auto. intros Hi. destruct (Hin 0 Hi) as [V0 _]. unfold valid in V0. lia.
  - apply count_for_ok; auto.
  - intros i Hi. apply code_entry_ok; auto.
Qed.

(** ** C26 *)
Lemma p26 h self e l b2 l2 : entries h self l -> valid h e -> self <> e -> n_parent (h_node h e) <> 0 -> b2 <> self -> entries h b2 l2 -> ~ In self l2 ->
  exists h' d, code_append h self e = Done h' /\ d = h_top h /\ entries h' self (l ++ [d]) /\
    same_content (h_node h e) (h_node h' d) /\ n_parent (h_node h' d) = self /\ n_next (h_node h' d) = n_next (h_node h e) /\
    count_for h' self = Done (l ++ [d]) /\
    (~ In (n_next (h_node h e)) (l ++ [d]) -> forall fuel, (length l + 1 < fuel)%nat -> range_for fuel h' self = Done (l ++ [d])) /\
    (~ In b2 l -> entries h' b2 l2 /\ h_node h' b2 = h_node h b2) /\ (forall x, In x l2 -> h_node h' x = h_node h x) /\
    (forall x, valid h x -> x <> self -> (l = [] \/ x <> last l 0) -> h_node h' x = h_node h x).
Proof.
  intros HE Ve Hne Hp Hb2 HE2 Hs2. destruct (append_dup_spec h self e l HE Ve Hne Hp) as (h1 & h' & E & Ht & HN1 & HN & HE' & HE1).
  set (d := h_top h) in *. exists h', d. split; auto. split; auto. split; auto.
  assert (Hds : d <> self) by (destruct HE as (V & _); unfold valid in V; fold d in V; lia).
  assert (Hdl : ~ In d l). { intros Hi. destruct HE as (_ & _ & Hin & _). destruct (Hin d Hi) as [V _]. unfold valid in V. fold d in V. lia. }
  assert (Hd1 : h_node h1 d = set_parent 0 (h_node h e)) by (rewrite HN1, Z.eqb_refl; auto).
  assert (Fr : forall x, valid h x -> x <> self -> (l = [] \/ x <> last l 0) -> h_node h' x = h_node h x).
  { intros x Vx H1 H2. unfold valid in Vx. fold d in Vx. rewrite HN, append_node_frame; auto; [|lia]. rewrite HN1. now replace (x =? d) with false by lia. }
  assert (Hll2 : forall x, In x l2 -> h_node h' x = h_node h x).
  { intros x Hx. destruct HE2 as (V2 & _ & Hin2 & _). destruct (Hin2 x Hx) as [Vx Px]. apply Fr; auto; [intros ->; auto|]. destruct l as [|a l]; [now left|right]. intros ->.
    destruct HE as (_ & _ & Hin & _). destruct (Hin (last (a :: l) 0)) as [_ P]; [apply last_in; discriminate|]. congruence. }
  split.
  { rewrite HN. eapply same_trans; [|apply append_node_content; auto]. rewrite Hd1. sc. }
  split. { destruct HE' as (_ & _ & Hin & _). apply Hin. apply in_snoc. now right. }
  assert (Hnx : n_next (h_node h' d) = n_next (h_node h e)) by (rewrite HN, append_node_next_e; auto; rewrite Hd1; reflexivity).
  split; auto. split; [apply count_for_ok; auto|]. split.
  { intros Hni fuel Hf. apply range_for_ok; auto; [destruct l; discriminate| |rewrite app_length; cbn; lia]. rewrite last_snoc, Hnx. exact Hni. }
  split; [|split; auto].
  intros Hb2l. assert (Hnb2 : h_node h' b2 = h_node h b2).
  { apply Fr; [exact (proj1 HE2)|exact Hb2|]. destruct l as [|a l]; [now left|right]. intros ->. apply Hb2l. apply last_in. discriminate. }
  split; auto. pose proof HE2 as (V2 & N2 & Hin2 & ND2 & NS2 & F2 & B2 & L2). unfold entries. rewrite Hnb2. unfold valid in *. rewrite Ht. split; [fold d in V2; lia|]. split; auto. split.
  { intros c Hc. rewrite Hll2 by auto. destruct (Hin2 c Hc). split; auto. fold d in H. lia. }
  do 4 (split; auto). apply (linked_ext h); auto. intros x Hx. rewrite Hll2; auto. now apply removelast_incl.
Qed.
(** appending an entry that is already in the same list, not at its end *)
Lemma p26_same h self pre a x suf fuel : entries h self (pre ++ a :: x :: suf) -> (length pre + 1 < fuel)%nat ->
  exists h' d, code_append h self a = Done h' /\ count_for h' self = Done (pre ++ a :: x :: suf ++ [d]) /\ range_for fuel h' self = Done (pre ++ [a]).
Proof.
  intros HE Hf. pose proof HE as (Vs & Hn & Hin & Hnd & Hns & Hfr & Hbk & Hl).
  assert (Ia : In a (pre ++ a :: x :: suf)) by (apply in_or_app; right; now left).
  destruct (Hin a Ia) as [Va Pa].
  assert (Hsa : self <> a) by (intros ->; auto). assert (Hpa : n_parent (h_node h a) <> 0) by (unfold valid in Vs; lia).
  destruct (append_dup_spec h self a _ HE Va Hsa Hpa) as (h1 & h' & E & Ht & HN1 & HN & HE' & HE1).
  exists h', (h_top h). split; auto.
  assert (El : (pre ++ a :: x :: suf) ++ [h_top h] = (pre ++ [a]) ++ x :: (suf ++ [h_top h])) by (rewrite <- !app_assoc; reflexivity).
  split. { rewrite (count_for_ok _ _ _ HE'), El, <- app_assoc. reflexivity. }
  rewrite El in HE'. eapply range_for_early; [exact HE'| | |rewrite app_length; cbn; lia]; [destruct pre; discriminate|].
  rewrite <- El, last_snoc, HN, append_node_next_e.
  - rewrite HN1, Z.eqb_refl. cbn. eapply linked_app_next; eauto.
  - unfold valid in Vs. lia.
  - intros Hi. destruct (Hin _ Hi) as [V _]. unfold valid in V. lia.
Qed.
