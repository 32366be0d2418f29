From Coq Require Import ZArith List Bool Lia.
From Coq Require Import ZifyBool ZifyNat.
From Verif Require Import Common Text AstModel AstSpec.
Import ListNotations.
Open Scope Z_scope.

Lemma get_valid h c : valid h c -> get h c = Done (h_node h c).
Proof. unfold valid, get. intros H. replace ((0 <? c) && (c <? h_top h)) with true by lia. reflexivity. Qed.
Lemma put_valid h c f : valid h c -> put h c f = Done (upd h c f).
Proof. intros H. unfold put. now rewrite get_valid. Qed.
Lemma upd_same h c f : h_node (upd h c f) c = f (h_node h c).
Proof. cbn. now rewrite Z.eqb_refl. Qed.
Lemma upd_other h c f x : x <> c -> h_node (upd h c f) x = h_node h x.
Proof. intros H. cbn. now replace (x =? c) with false by lia. Qed.
Lemma upd_node h c f x : h_node (upd h c f) x = if x =? c then f (h_node h x) else h_node h x.
Proof. reflexivity. Qed.
Lemma valid_upd h c f x : valid (upd h c f) x <-> valid h x.
Proof. reflexivity. Qed.
Lemma new_node h x : h_node (fst (new_code h)) x = if x =? h_top h then zero_node else h_node h x.
Proof. reflexivity. Qed.

Lemma linked_ext h h' l : (forall x, In x (removelast l) -> n_next (h_node h' x) = n_next (h_node h x)) -> linked h l -> linked h' l.
Proof.
  induction l as [|x [|y r] IH]; cbn [linked]; auto. intros E [H1 H2]. split.
  - rewrite E; auto. cbn. now left.
  - apply IH; auto. intros z Hz. apply E. cbn [removelast]. right. exact Hz.
Qed.
Lemma linked_snoc h l y : linked h l -> (l <> [] -> n_next (h_node h (last l 0)) = y) -> linked h (l ++ [y]).
Proof.
  induction l as [|x [|z r] IH]; intros H E; cbn [app linked]; auto.
  - split; auto. apply E. discriminate.
  - destruct H as [H1 H2]. split; auto. apply IH; auto. intros _. apply E. discriminate.
Qed.
Lemma last_snoc {A} (l : list A) x d : last (l ++ [x]) d = x.
Proof. apply last_last. Qed.
Lemma removelast_snoc {A} (l : list A) x : removelast (l ++ [x]) = l.
Proof. apply removelast_last. Qed.
Lemma hd_app {A} (l : list A) x d : l <> [] -> hd d (l ++ [x]) = hd d l.
Proof. destruct l; auto. contradiction. Qed.
Lemma last_in {A} (l : list A) d : l <> [] -> In (last l d) l.
Proof.
  intros H. destruct (exists_last H) as (l' & x & ->). rewrite last_last. apply in_or_app. right. now left.
Qed.
Lemma nodup_removelast_last (l : list Z) : NoDup l -> ~ In (last l 0) (removelast l) \/ l = [].
Proof.
  intros H. destruct l as [|a l]; [now right|left]. destruct (@exists_last _ (a :: l) ltac:(discriminate)) as (l' & x & E). rewrite E in *. rewrite last_last, removelast_last.
  apply NoDup_remove_2 in H. now rewrite app_nil_r in H.
Qed.
Lemma removelast_incl {A} (l : list A) x : In x (removelast l) -> In x l.
Proof. induction l as [|a [|b r] IH]; cbn [removelast]; [auto|intros []|]. intros [<-|H]; [now left|right; auto]. Qed.

Lemma nodup_snoc {A} (l : list A) x : NoDup l -> ~ In x l -> NoDup (l ++ [x]).
Proof. intros H Hx. apply NoDup_rev in H. rewrite <- (rev_involutive (l ++ [x])). apply NoDup_rev. rewrite rev_app_distr. cbn. constructor; auto. now rewrite <- in_rev. Qed.
Lemma in_snoc {A} (l : list A) x y : In y (l ++ [x]) <-> In y l \/ y = x.
Proof. rewrite in_app_iff. cbn. intuition. Qed.

Lemma same_refl n : same_content n n.
Proof. unfold same_content. tauto. Qed.
Lemma same_trans a b c : same_content a b -> same_content b c -> same_content a c.
Proof. unfold same_content. intuition congruence. Qed.

(** the node at [x] after appending [e] to a list with body [self] and entries [l] *)
Definition append_node (h : heap) (self e : Z) (l : list Z) (x : Z) : node :=
  let n := h_node h x in
  if x =? self then set_num (n_num n + 1) (set_next e (if l then set_front e n else n))
  else if x =? e then (if l then set_parent self n else set_front (last l 0) (set_parent self n))
  else if (match l with [] => false | _ => x =? last l 0 end) then set_next e n
  else n.

Lemma append_core h self e l : entries h self l -> valid h e -> self <> e -> ~ In e l ->
  exists h', (do h1 <- put h e (set_parent self);
    do s <- get h1 self;
    if n_front s =? 0 then Done (upd h1 self (fun n => set_num (n_num n + 1) (set_next e (set_front e n))))
    else do h2 <- put h1 (n_next s) (set_next e); do h3 <- put h2 e (set_front (n_next s)); do h4 <- put h3 self (set_next e);
         put h4 self (fun n => set_num (n_num n + 1) n)) = Done h' /\
    h_top h' = h_top h /\ (forall x, h_node h' x = append_node h self e l x) /\ entries h' self (l ++ [e]).
Proof.
  intros (Vs & Hn & Hin & Hnd & Hns & Hf & Hb & Hl) Ve Hne Hel.
  rewrite put_valid by auto. cbn [rbind]. rewrite get_valid by exact Vs. cbn [rbind].
  rewrite (upd_other h e _ self) by auto. rewrite Hf, Hb.
  assert (HX : exists h', (if hd 0 l =? 0 then Done (upd (upd h e (set_parent self)) self (fun n => set_num (n_num n + 1) (set_next e (set_front e n))))
    else do h2 <- put (upd h e (set_parent self)) (last l 0) (set_next e); do h3 <- put h2 e (set_front (last l 0)); do h4 <- put h3 self (set_next e);
         put h4 self (fun n => set_num (n_num n + 1) n)) = Done h' /\ h_top h' = h_top h /\ (forall x, h_node h' x = append_node h self e l x)).
  { destruct l as [|a l].
    - cbn [hd]. cbn [Z.eqb]. eexists. split; [reflexivity|]. split; auto. intros x. rewrite !upd_node. unfold append_node.
      destruct (x =? self) eqn:E1; [replace (x =? e) with false by lia|]; reflexivity.
    - cbn [hd]. assert (Va : valid h a) by (apply Hin; now left). unfold valid in Va. replace (a =? 0) with false by lia.
      assert (Hll : In (last (a :: l) 0) (a :: l)) by (apply last_in; discriminate).
      assert (Vl : valid h (last (a :: l) 0)) by (apply Hin; exact Hll).
      assert (N1 : last (a :: l) 0 <> self) by (intros E; apply Hns; rewrite <- E; exact Hll).
      assert (N2 : last (a :: l) 0 <> e) by (intros E; apply Hel; rewrite <- E; exact Hll).
      rewrite put_valid by exact Vl. cbn [rbind]. rewrite put_valid by exact Ve. cbn [rbind]. rewrite put_valid by exact Vs. cbn [rbind]. rewrite put_valid by exact Vs.
      eexists. split; [reflexivity|]. split; auto. intros x. rewrite !upd_node. unfold append_node. set (la := last (a :: l) 0) in *.
      destruct (x =? self) eqn:E1.
      + replace (x =? e) with false by lia. replace (x =? la) with false by lia. reflexivity.
      + destruct (x =? e) eqn:E2.
        * replace (x =? la) with false by lia. reflexivity.
        * destruct (x =? la) eqn:E3; reflexivity. }
  destruct HX as (h' & E & Ht & HN). exists h'. split; auto. split; auto. split; auto.
  assert (Vv : forall c, valid h' c <-> valid h c) by (intros c; unfold valid; rewrite Ht; tauto).
  split; [apply Vv; exact Vs|]. split; [rewrite HN; unfold append_node; rewrite Z.eqb_refl; rewrite app_length; destruct l; cbn [n_num set_num set_next set_front length] in *; lia|].
  split.
  { intros c Hc. apply in_snoc in Hc as [Hc| ->].
    - destruct (Hin c Hc) as [Vc Pc]. split; [apply Vv; exact Vc|]. rewrite HN. unfold append_node. assert (c <> self) by (intros ->; auto). assert (c <> e) by (intros ->; auto).
      replace (c =? self) with false by lia. replace (c =? e) with false by lia. destruct l; [exact Pc|]. destruct (c =? last (z :: l) 0); exact Pc.
    - split; [apply Vv; exact Ve|]. rewrite HN. unfold append_node. replace (e =? self) with false by lia. rewrite Z.eqb_refl. destruct l; reflexivity. }
  split; [apply nodup_snoc; auto|]. split; [intros Hc; apply in_snoc in Hc as [Hc|Hc]; auto|].
  split.
  { rewrite HN. unfold append_node. rewrite Z.eqb_refl. destruct l; [reflexivity|]. cbn. rewrite Hf. reflexivity. }
  split; [rewrite HN; unfold append_node; rewrite Z.eqb_refl, last_snoc; reflexivity|].
  apply linked_snoc.
  - apply (linked_ext h); auto. intros x Hx. pose proof (removelast_incl _ _ Hx) as Hx2. rewrite HN. unfold append_node.
    assert (x <> self) by (intros ->; auto). assert (x <> e) by (intros ->; auto).
    replace (x =? self) with false by lia. replace (x =? e) with false by lia. destruct l as [|a l]; [reflexivity|].
    destruct (nodup_removelast_last _ Hnd) as [Hni|?]; [|discriminate].
    destruct (x =? last (a :: l) 0) eqn:E3; [|reflexivity]. exfalso. apply Hni. replace (last (a :: l) 0) with x by lia. exact Hx.
  - intros Hnil. rewrite HN. unfold append_node. pose proof (last_in l 0 Hnil) as Hll.
    assert (last l 0 <> self) by (intros Hx; apply Hns; rewrite <- Hx; exact Hll). assert (last l 0 <> e) by (intros Hx; apply Hel; rewrite <- Hx; exact Hll).
    replace (last l 0 =? self) with false by lia. replace (last l 0 =? e) with false by lia. destruct l; [contradiction|]. rewrite Z.eqb_refl. reflexivity.
Qed.

Lemma append_fresh_spec h self e l : entries h self l -> valid h e -> self <> e -> n_parent (h_node h e) = 0 ->
  exists h', code_append h self e = Done h' /\ h_top h' = h_top h /\ (forall x, h_node h' x = append_node h self e l x) /\ entries h' self (l ++ [e]).
Proof.
  intros HE Ve Hne Hp. assert (Hel : ~ In e l).
  { intros Hi. destruct HE as (Vs & _ & Hin & _). destruct (Hin e Hi) as [_ P]. unfold valid in Vs. lia. }
  destruct (append_core h self e l HE Ve Hne Hel) as (h' & E & R). exists h'. split; auto.
  unfold code_append. replace (self =? e) with false by lia. rewrite get_valid by auto. cbn [rbind]. rewrite Hp. cbn [Z.eqb negb rbind]. exact E.
Qed.

Lemma dup_spec h c : valid h c -> exists h', code_duplicate h c = Done (h', h_top h) /\ h_top h' = h_top h + 1 /\
  (forall x, h_node h' x = if x =? h_top h then set_parent 0 (h_node h c) else h_node h x).
Proof.
  intros V. unfold code_duplicate. rewrite get_valid by auto. cbn [rbind]. unfold new_code. eexists. split; [reflexivity|]. split; [reflexivity|].
  intros x. cbn. destruct (x =? h_top h); reflexivity.
Qed.

Lemma append_dup_spec h self e l : entries h self l -> valid h e -> self <> e -> n_parent (h_node h e) <> 0 ->
  exists h1 h', code_append h self e = Done h' /\ h_top h' = h_top h + 1 /\
    (forall x, h_node h1 x = if x =? h_top h then set_parent 0 (h_node h e) else h_node h x) /\
    (forall x, h_node h' x = append_node h1 self (h_top h) l x) /\ entries h' self (l ++ [h_top h]) /\ entries h1 self l.
Proof.
  intros HE Ve Hne Hp. destruct (dup_spec h e Ve) as (h1 & ED & Ht & HN).
  assert (HE1 : entries h1 self l).
  { destruct HE as (Vs & Hn & Hin & Hnd & Hns & Hf & Hb & Hl). unfold valid in *.
    assert (Eq : forall x, In x (self :: l) -> h_node h1 x = h_node h x).
    { intros x Hx. rewrite HN. replace (x =? h_top h) with false; auto. destruct Hx as [<-|Hx]; [lia|]. destruct (Hin x Hx). lia. }
    unfold entries, valid. rewrite Ht. rewrite !(Eq self) by now left. split; [lia|]. split; auto. split.
    { intros c Hc. rewrite Eq by now right. destruct (Hin c Hc) as [? ?]. split; auto. lia. }
    do 4 (split; auto). apply (linked_ext h); auto. intros x Hx. rewrite Eq; auto. right. now apply removelast_incl. }
  destruct (append_core h1 self (h_top h) l HE1) as (h' & E & R1 & R2 & R3).
  - unfold valid in *. rewrite Ht. lia.
  - destruct HE as (Vs & _). unfold valid in Vs. lia.
  - intros Hi. destruct HE as (_ & _ & Hin & _). destruct (Hin _ Hi) as [V _]. unfold valid in V. lia.
  - exists h1, h'. split.
    + unfold code_append. replace (self =? e) with false by lia. rewrite get_valid by auto. cbn [rbind]. replace (n_parent (h_node h e) =? 0) with false by lia. cbn [negb].
      rewrite ED. cbn [rbind]. exact E.
    + split; [lia|]. auto.
Qed.
