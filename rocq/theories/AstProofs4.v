From Coq Require Import ZArith List Bool Lia.
From Coq Require Import ZifyBool ZifyNat.
From Verif Require Import Common Text AstModel AstSpec AstProofs AstProofs2 AstProofs3.
Import ListNotations.
Open Scope Z_scope.

(** ** C28 *)
Definition pa_node (h : heap) (p e : Z) (l : list Z) (x : Z) : node :=
  if x =? p then set_num (n_num (h_node h p) + 1) (set_front e (if (length l =? 1)%nat then set_next e (h_node h p) else h_node h p))
  else if x =? e then set_parent p (h_node h e)
  else if x =? last l 0 then set_next e (h_node h x) else h_node h x.

Lemma pa_core h p e l : plist h p l -> valid h e -> e <> p -> ~ In e l -> n_parent (h_node h e) = 0 ->
  exists h', params_append h p e = Done h' /\ h_top h' = h_top h /\ forall x, h_node h' x = pa_node h p e l x.
Proof.
  intros ((r & -> & HF) & HN & HV & ND & HL & HT) Ve Hne Hni Hp.
  assert (Vp : valid h p) by (apply HV; now left).
  unfold params_append. replace (p =? e) with false by lia. rewrite (get_valid h e Ve). cbn [rbind]. rewrite Hp, Z.eqb_refl. cbn [negb rbind].
  rewrite (put_valid h e _ Ve). cbn [rbind]. rewrite (get_valid (upd h e (set_parent p)) p) by (apply valid_upd; exact Vp). cbn [rbind].
  rewrite upd_other by auto. rewrite HF. destruct r as [|y r].
  - cbn [last]. rewrite Z.eqb_refl. eexists. split; [reflexivity|]. split; [reflexivity|]. intros x. unfold pa_node. cbn [length Nat.eqb last].
    rewrite upd_node. destruct (x =? p) eqn:E; [apply Z.eqb_eq in E; subst x; rewrite upd_other by auto; reflexivity|].
    rewrite upd_node. destruct (x =? e) eqn:E2; [apply Z.eqb_eq in E2; subst x; reflexivity|reflexivity].
  - assert (Hla : last (y :: r) 0 = last (p :: y :: r) 0) by reflexivity. rewrite Hla.
    set (la := last (p :: y :: r) 0). assert (Ila : In la (y :: r)) by (unfold la; rewrite <- Hla; apply last_in; discriminate).
    assert (Vla : valid h la) by (apply HV; now right). inversion ND as [|? ? N1 N2]; subst.
    assert (la <> p) by (intros ->; auto). assert (la <> e) by (intros ->; apply Hni; now right).
    replace (la =? 0) with false by (unfold valid in Vla; lia).
    rewrite put_valid by (apply valid_upd; exact Vla). cbn [rbind].
    rewrite put_valid by (apply valid_upd; apply valid_upd; exact Vp). cbn [rbind].
    rewrite put_valid by (do 3 apply valid_upd; exact Vp). eexists. split; [reflexivity|]. split; [reflexivity|].
    intros x. unfold pa_node. cbn [length Nat.eqb]. fold la. rewrite !upd_node.
    destruct (x =? p) eqn:E; [apply Z.eqb_eq in E; subst x; replace (p =? la) with false by lia; replace (p =? e) with false by lia; reflexivity|].
    destruct (x =? e) eqn:E2; [apply Z.eqb_eq in E2; subst x; replace (e =? la) with false by lia; reflexivity|].
    destruct (x =? la) eqn:E3; reflexivity.
Qed.

Lemma params_iter_ok h : forall l fuel, linked h l -> (forall c, In c l -> valid h c) -> n_next (h_node h (last l 0)) = 0 -> l <> [] -> (length l < fuel)%nat ->
  params_iter fuel h (hd 0 l) = Done l.
Proof.
  induction l as [|x l IH]; intros fuel HL HV HT Hne Hf; [contradiction|]. destruct fuel as [|fuel]; [cbn in Hf; lia|]. cbn [params_iter hd].
  assert (Vx : valid h x) by (apply HV; now left). replace (x =? 0) with false by (unfold valid in Vx; lia). rewrite (get_valid h x Vx). cbn [rbind].
  destruct l as [|y l].
  - cbn [last] in HT. rewrite HT. destruct fuel; [cbn in Hf; lia|]. cbn [params_iter rbind]. reflexivity.
  - destruct HL as [H1 H2]. rewrite H1. change y with (hd 0 (y :: l)) at 1. rewrite (IH fuel); [reflexivity|exact H2|intros; apply HV; now right|exact HT|discriminate|cbn in *; lia].
Qed.
Lemma plist_iter h p l fuel : plist h p l -> (length l < fuel)%nat -> params_iter fuel h p = Done l.
Proof.
  intros ((r & -> & HF) & HN & HV & ND & HL & HT) Hf. change p with (hd 0 (p :: r)) at 1. apply params_iter_ok; auto. discriminate.
Qed.

Lemma linked_glue h : forall l e suf, linked h l -> linked h (e :: suf) -> n_next (h_node h (last l 0)) = e -> l <> [] -> linked h (l ++ e :: suf).
Proof.
  induction l as [|x l IH]; intros e suf H1 H2 H3 Hne; [contradiction|]. destruct l as [|y l].
  - cbn in H3. cbn [app]. split; auto.
  - destruct H1 as [H1 H1']. split; auto. apply IH; auto. discriminate.
Qed.
Lemma last_app_cons {A} (l : list A) e suf d : last (l ++ e :: suf) d = last (e :: suf) d.
Proof. induction l as [|x l IH]; [reflexivity|]. cbn [app]. rewrite <- IH. destruct l; reflexivity. Qed.
Lemma last_cons_d {A} (l : list A) d d' : l <> [] -> last l d = last l d'.
Proof. induction l as [|x l IH]; intros; [contradiction|]. destruct l; [reflexivity|]. cbn [last]. apply IH. discriminate. Qed.

(** appending a parameter that heads a chain of further parameters: the chain comes along *)
Lemma pa_chain h p e l suf : plist h p l -> valid h e -> n_parent (h_node h e) = 0 -> NoDup (l ++ e :: suf) ->
  linked h (e :: suf) -> (forall c, In c suf -> valid h c) -> n_next (h_node h (last (e :: suf) 0)) = 0 ->
  exists h', params_append h p e = Done h' /\ h_top h' = h_top h /\
    n_num (h_node h' p) = n_num (h_node h p) + 1 /\ n_front (h_node h' p) = e /\
    linked h' (l ++ e :: suf) /\ n_next (h_node h' (last (l ++ e :: suf) 0)) = 0 /\
    (forall fuel, (length (l ++ e :: suf) < fuel)%nat -> params_iter fuel h' p = Done (l ++ e :: suf)) /\
    (forall x, x <> p -> same_content (h_node h x) (h_node h' x)) /\ same_but_count (h_node h p) (h_node h' p) /\
    (forall x, x <> p -> x <> e -> x <> last l 0 -> h_node h' x = h_node h x) /\
    n_parent (h_node h' e) = p /\ (forall x, x <> e -> n_parent (h_node h' x) = n_parent (h_node h x)).
Proof.
  intros HP Ve Hp ND HL HV HT. pose proof HP as ((r & El & HF) & HN & HVl & NDl & HLl & HTl).
  assert (Hni : ~ In e l) by (intros Hi; apply NoDup_remove_2 in ND; apply ND, in_or_app; now left).
  assert (Ip : In p l) by (rewrite El; now left). assert (Hne : e <> p) by (intros ->; auto).
  destruct (pa_core h p e l HP Ve Hne Hni Hp) as (h' & E & Ht & HN').
  assert (Il : In (last l 0) l) by (apply last_in; rewrite El; discriminate).
  assert (Hsuf : forall x, In x suf -> ~ In x l /\ x <> e).
  { intros x Hx. split; [intros Hi|intros ->; apply NoDup_remove_2 in ND; apply ND, in_or_app; now right].
    clear - ND Hx Hi. induction l as [|a l IH]; [destruct Hi|]. cbn in ND. inversion ND; subst. destruct Hi as [->|Hi]; [apply H1, in_or_app; right; now right|]. auto. }
  assert (NX : forall x, x <> last l 0 -> n_next (h_node h' x) = n_next (h_node h x)).
  { intros x Hx. rewrite HN'. unfold pa_node. destruct (x =? p) eqn:E1.
    - apply Z.eqb_eq in E1; subst x. destruct (length l =? 1)%nat eqn:E2; [|reflexivity]. subst l. destruct r; [|cbn in E2; discriminate]. cbn in Hx. congruence.
    - destruct (x =? e) eqn:E2; [apply Z.eqb_eq in E2; subst; reflexivity|]. replace (x =? last l 0) with false by lia. reflexivity. }
  assert (NL : n_next (h_node h' (last l 0)) = e).
  { rewrite HN'. unfold pa_node. destruct (last l 0 =? p) eqn:E1.
    - subst l. destruct r as [|y r]; [reflexivity|]. exfalso. change (last (p :: y :: r) 0) with (last (y :: r) 0) in E1. apply Z.eqb_eq in E1. apply NoDup_cons_iff in NDl as [N1 _]. apply N1. rewrite <- E1. apply last_in. discriminate.
    - replace (last l 0 =? e) with false by (symmetry; apply Z.eqb_neq; intros Hx; apply Hni; rewrite <- Hx; exact Il). rewrite Z.eqb_refl. reflexivity. }
  assert (L' : linked h' (l ++ e :: suf)).
  { apply linked_glue; auto.
    - apply (linked_ext h); auto. intros x Hx. apply NX. destruct (nodup_removelast_last l NDl) as [H|H]; [intros ->; auto|subst; discriminate].
    - apply (linked_ext h); auto. intros x Hx. apply NX. intros ->. apply removelast_incl in Hx as [->|Hx]; [auto|]. destruct (Hsuf _ Hx). auto.
    - rewrite El; discriminate. }
  assert (T' : n_next (h_node h' (last (l ++ e :: suf) 0)) = 0).
  { rewrite last_app_cons. rewrite NX; auto. intros Hx. assert (Hi : In (last (e :: suf) 0) (e :: suf)) by (apply last_in; discriminate). rewrite Hx in Hi. destruct Hi as [Hi|Hi]; [apply Hni; rewrite Hi; auto|destruct (Hsuf _ Hi); auto]. }
  exists h'. split; [exact E|]. split; [exact Ht|].
  assert (Hpn : h_node h' p = pa_node h p e l p) by apply HN'. unfold pa_node in Hpn. rewrite Z.eqb_refl in Hpn.
  split; [rewrite Hpn; reflexivity|]. split; [rewrite Hpn; reflexivity|]. split; [exact L'|]. split; [exact T'|].
  split; [|split; [|split; [|split; [|split]]]].
  - intros fuel Hf. replace p with (hd 0 (l ++ e :: suf)) by (rewrite El; reflexivity). apply params_iter_ok; auto; [|rewrite El; discriminate].
    intros c Hc. unfold valid. rewrite Ht. apply in_app_or in Hc as [Hc|[<-|Hc]]; [apply HVl|apply Ve|apply HV]; auto.
  - intros x Hx. rewrite HN'. unfold pa_node. replace (x =? p) with false by lia. destruct (x =? e) eqn:E2; [apply Z.eqb_eq in E2; subst; unfold same_content; cbn; tauto|]. destruct (x =? last l 0); unfold same_content; cbn; tauto.
  - rewrite Hpn. destruct (length l =? 1)%nat; unfold same_but_count, same_content; cbn; tauto.
  - intros x H1 H2 H3. rewrite HN'. unfold pa_node. replace (x =? p) with false by lia. replace (x =? e) with false by lia. replace (x =? last l 0) with false by lia. reflexivity.
  - rewrite HN'. unfold pa_node. replace (e =? p) with false by lia. rewrite Z.eqb_refl. reflexivity.
  - intros x H1. rewrite HN'. unfold pa_node. destruct (x =? p) eqn:E1; [apply Z.eqb_eq in E1; subst x; destruct (length l =? 1)%nat; reflexivity|]. replace (x =? e) with false by lia. destruct (x =? last l 0); reflexivity.
Qed.

Lemma p28_step h p e l : plist h p l -> valid h e -> ~ In e l -> n_parent (h_node h e) = 0 -> n_next (h_node h e) = 0 ->
  exists h', params_append h p e = Done h' /\ plist h' p (l ++ [e]) /\ h_top h' = h_top h /\
    (forall fuel, (length (l ++ [e]) < fuel)%nat -> params_iter fuel h' p = Done (l ++ [e])) /\
    (forall x, x <> p -> same_content (h_node h x) (h_node h' x)) /\ same_but_count (h_node h p) (h_node h' p) /\
    (forall x, x <> p -> x <> e -> x <> last l 0 -> h_node h' x = h_node h x) /\
    n_parent (h_node h' e) = p /\ (forall x, x <> e -> n_parent (h_node h' x) = n_parent (h_node h x)).
Proof.
  intros HP Ve Hni Hp Hn. pose proof HP as ((r & El & HF) & HN & HVl & NDl & HLl & HTl).
  destruct (pa_chain h p e l [] HP Ve Hp) as (h' & E & Ht & N1 & F1 & L1 & T1 & I1 & S1 & S2 & Fr & P1 & P2); auto; [apply nodup_snoc; auto|cbn; auto|intros c []|].
  exists h'. split; [exact E|]. split; [|do 6 (split; auto)].
  split; [exists (r ++ [e]); subst l; split; [reflexivity|rewrite last_snoc; exact F1]|]. split; [rewrite N1, HN, app_length; cbn; lia|].
  split; [|split; [apply nodup_snoc; auto|split; auto]]. intros c Hc. unfold valid. rewrite Ht. apply in_snoc in Hc as [Hc| ->]; [apply HVl; auto|apply Ve].
Qed.

Lemma p28_all p : forall cs h l, plist h p l -> (forall c, In c cs -> valid h c /\ n_parent (h_node h c) = 0 /\ n_next (h_node h c) = 0) -> NoDup (l ++ cs) ->
  exists h', params_append_all h p cs = Done h' /\ plist h' p (l ++ cs) /\ h_top h' = h_top h /\
    (forall x, x <> p -> same_content (h_node h x) (h_node h' x)) /\ same_but_count (h_node h p) (h_node h' p).
Proof.
  induction cs as [|c cs IH]; intros h l HP HC ND.
  - exists h. rewrite app_nil_r. split; [reflexivity|]. split; auto. split; auto. split; [intros; apply same_refl|apply same_but_refl].
  - destruct (HC c (or_introl eq_refl)) as (Vc & Pc & Nc). assert (Hni : ~ In c l) by (intros Hi; apply NoDup_remove_2 in ND; apply ND, in_or_app; now left).
    destruct (p28_step h p c l HP Vc Hni Pc Nc) as (h1 & E & HP1 & Ht & _ & S1 & S2 & Fr & _ & PP). cbn [params_append_all]. rewrite E. cbn [rbind].
    destruct (IH h1 (l ++ [c])) as (h2 & E2 & HP2 & Ht2 & S3 & S4); auto.
    + intros x Hx. destruct (HC x (or_intror Hx)) as (Vx & Px & Nx). unfold valid in *. rewrite Ht. split; auto.
      assert (x <> c) by (intros ->; apply NoDup_remove_2 in ND; apply ND, in_or_app; now right).
      assert (Hxl : ~ In x l). { intros Hi. clear - ND Hx Hi. induction l as [|a l IH]; [destruct Hi|]. cbn in ND. inversion ND; subst. destruct Hi as [->|Hi]; [apply H1, in_or_app; right; now right|]. auto. }
      pose proof HP as ((r & El & _) & _). rewrite Fr; auto; [intros ->; apply Hxl; rewrite El; now left|intros ->; apply Hxl, last_in; rewrite El; discriminate].
    + rewrite <- app_assoc. exact ND.
    + exists h2. rewrite <- app_assoc in HP2. split; auto. split; auto. split; [congruence|]. split; [intros x Hx; eapply same_trans; eauto|eapply same_but_trans; eauto].
Qed.
Lemma plist_single h p : valid h p -> n_num (h_node h p) = 1 -> n_front (h_node h p) = 0 -> n_next (h_node h p) = 0 -> plist h p [p].
Proof.
  intros V N F X. split; [exists []; auto|]. split; auto. split; [intros c [<-|[]]; auto|]. split; [constructor; [intros []|constructor]|]. split; cbn; auto.
Qed.
(** building a parameter list from single parameters *)
Lemma p28 h p cs : valid h p -> n_num (h_node h p) = 1 -> n_front (h_node h p) = 0 -> n_next (h_node h p) = 0 ->
  (forall c, In c cs -> valid h c /\ n_parent (h_node h c) = 0 /\ n_next (h_node h c) = 0) -> NoDup (p :: cs) ->
  exists h', params_append_all h p cs = Done h' /\ n_num (h_node h' p) = 1 + Z.of_nat (length cs) /\ plist h' p (p :: cs) /\
    (forall fuel, (length cs + 1 < fuel)%nat -> params_iter fuel h' p = Done (p :: cs)) /\
    (forall x, x <> p -> same_content (h_node h x) (h_node h' x)) /\ same_but_count (h_node h p) (h_node h' p).
Proof.
  intros V N F X HC ND. destruct (p28_all p cs h [p] (plist_single h p V N F X) HC ND) as (h' & E & HP & Ht & S1 & S2). exists h'. split; auto.
  split; [destruct HP as (_ & HN & _); rewrite HN; cbn [app length]; lia|]. split; auto. split; auto. intros fuel Hf. eapply plist_iter; eauto. cbn [app length]. lia.
Qed.
(** appending a parameter that is in use: a copy, but its Next is copied with it *)
Lemma p28_dup h p e l suf : plist h p l -> valid h e -> e <> p -> n_parent (h_node h e) <> 0 -> NoDup (l ++ suf) ->
  linked h (e :: suf) -> (forall c, In c suf -> valid h c) -> n_next (h_node h (last (e :: suf) 0)) = 0 ->
  exists h', params_append h p e = Done h' /\ h_top h' = h_top h + 1 /\
    n_num (h_node h' p) = n_num (h_node h p) + 1 /\ same_content (h_node h e) (h_node h' (h_top h)) /\
    (forall fuel, (length l + 1 + length suf < fuel)%nat -> params_iter fuel h' p = Done (l ++ h_top h :: suf)) /\
    (suf = [] -> plist h' p (l ++ [h_top h])) /\
    (forall x, valid h x -> x <> p -> x <> last l 0 -> h_node h' x = h_node h x).
Proof.
  intros HP Ve Hep Hp ND HL HV HT. pose proof HP as ((r & El & HF) & HN & HVl & NDl & HLl & HTl).
  destruct (dup_spec h e Ve) as (h1 & E1 & Ht1 & D1). set (d := h_top h) in *.
  assert (Vold : forall x, valid h x -> x <> d) by (intros x Vx; unfold valid in Vx; subst d; lia).
  assert (Old : forall x, valid h x -> h_node h1 x = h_node h x) by (intros x Vx; rewrite D1; pose proof (Vold x Vx); replace (x =? d) with false by lia; reflexivity).
  assert (Dn : h_node h1 d = set_parent 0 (h_node h e)) by (rewrite D1, Z.eqb_refl; reflexivity).
  assert (V1 : forall x, valid h x -> valid h1 x) by (intros x; unfold valid; rewrite Ht1; lia).
  assert (Vp : valid h p) by (apply HVl; rewrite El; now left).
  assert (HP1 : plist h1 p l).
  { split; [exists r; rewrite Old by auto; auto|]. rewrite Old by auto. split; auto. split; [auto|]. split; auto. split.
    - apply (linked_ext h); auto. intros x Hx. rewrite Old; auto. apply HVl. now apply removelast_incl.
    - rewrite Old; auto. apply HVl, last_in. rewrite El; discriminate. }
  assert (Vd : valid h1 d) by (unfold valid in Vp |- *; fold d in Vp; lia).
  assert (Eq : params_append h p e = params_append h1 p d).
  { unfold params_append. replace (p =? e) with false by lia. pose proof (Vold p Vp). replace (p =? d) with false by lia.
    rewrite (get_valid h e Ve), (get_valid h1 d Vd). cbn [rbind]. replace (n_parent (h_node h e) =? 0) with false by lia. rewrite Dn. cbn [n_parent set_parent Z.eqb negb]. rewrite E1. reflexivity. }
  assert (NDd : NoDup (l ++ d :: suf)).
  { apply NoDup_Add with (a := d) (l := l ++ suf); [apply Add_app|]. split; auto. intros Hi. apply in_app_or in Hi as [Hi|Hi]; [apply (Vold d)|apply (Vold d)]; auto. }
  destruct (pa_chain h1 p d l suf HP1 Vd) as (h' & E & Ht & N1 & F1 & L1 & T1 & I1 & S1 & S2 & Fr & P1 & P2); auto.
  - rewrite Dn. reflexivity.
  - destruct suf as [|y suf]; [cbn; auto|]. destruct HL as [H1 H2]. split; [rewrite Dn; exact H1|]. apply (linked_ext h); auto. intros x Hx. rewrite Old; auto. apply HV. now apply removelast_incl.
  - destruct suf as [|y suf]; [cbn [last] in *; rewrite Dn; exact HT|]. change (last (d :: y :: suf) 0) with (last (y :: suf) 0). change (last (e :: y :: suf) 0) with (last (y :: suf) 0) in HT. rewrite Old; auto. apply HV, last_in. discriminate.
  - exists h'. rewrite Eq. split; [exact E|]. split; [lia|]. rewrite N1, Old by auto. split; [reflexivity|]. split; [|split; [|split]].
    + specialize (S1 d ltac:(pose proof (Vold p Vp); lia)). rewrite Dn in S1. exact S1.
    + intros fuel Hf. apply I1. rewrite app_length. cbn. lia.
    + intros ->. split; [exists (r ++ [d]); subst l; split; [reflexivity|rewrite last_snoc; exact F1]|]. rewrite N1, Old by auto. split; [rewrite HN, app_length; cbn; lia|].
      split; [|split; auto]. intros c Hc. unfold valid. rewrite Ht. apply in_snoc in Hc as [Hc| ->]; [apply V1, HVl; auto|apply Vd].
    + intros x Vx H1 H2. rewrite Fr; auto.
Qed.

(** params_get never returns the parameter asked for *)
Lemma p28_get_many h p l fuel i : plist h p l -> (2 <= length l)%nat -> (0 < fuel)%nat -> params_get fuel h p i = Done 0.
Proof.
  intros ((r & -> & HF) & HN & HV & ND & HL & HT) Hl Hf. destruct fuel as [|fuel]; [lia|]. unfold params_get. cbn [params_get_loop].
  rewrite get_valid by (apply HV; now left). cbn [rbind]. destruct r as [|y r]; [cbn in Hl; lia|]. destruct HL as [H1 _]. rewrite H1.
  assert (Vy : valid h y) by (apply HV; right; now left). unfold valid in Vy. replace (y =? 0) with false by lia. reflexivity.
Qed.
Lemma p28_get_one h p fuel i : plist h p [p] -> (0 < fuel)%nat -> params_get fuel h p i = Undefined.
Proof.
  intros ((r & Er & HF) & HN & HV & ND & HL & HT) Hf. destruct fuel as [|fuel]; [lia|]. unfold params_get. cbn [params_get_loop].
  rewrite get_valid by (apply HV; now left). cbn [rbind]. cbn [last] in HT. rewrite HT. reflexivity.
Qed.

(** ** C29 *)
Lemma list_set_length {A} (l : list A) i x : (i < length l)%nat -> length (list_set l i x) = length l.
Proof. intros. unfold list_set. rewrite app_length, firstn_length. cbn [length]. rewrite skipn_length. lia. Qed.
Lemma list_set_firstn {A} (l : list A) i x : (i < length l)%nat -> firstn (S i) (list_set l i x) = firstn i l ++ [x].
Proof. intros. unfold list_set. rewrite firstn_app, firstn_firstn, firstn_length. replace (Nat.min (S i) i) with i by lia. replace (S i - Nat.min i (length l))%nat with 1%nat by lia. reflexivity. Qed.
Lemma cap_eq : SPECS_CAP = 14. Proof. reflexivity. Qed.

Lemma p29_append n s : specs_ok n -> n_num n < 14 ->
  exists n', specifiers_append n s = Done (n', true) /\ specs_of n' = specs_of n ++ [s] /\ specs_ok n' /\ same_but_specs n n'.
Proof.
  intros [H1 H2] H3. unfold specifiers_append. rewrite cap_eq. replace (n_num n =? 14) with false by lia. unfold arr_put. rewrite cap_eq.
  replace ((0 <=? n_num n) && (n_num n <? 14)) with true by lia. cbn [rbind]. eexists. split; [reflexivity|]. unfold specs_of, specs_ok, same_but_specs. cbn [n_num n_arr set_num set_arr].
  replace (Z.to_nat (n_num n + 1)) with (S (Z.to_nat (n_num n))) by lia. rewrite list_set_firstn by lia. rewrite list_set_length by lia. repeat split; auto; try lia. destruct n; reflexivity.
Qed.
Lemma p29_full n s : n_num n = 14 -> specifiers_append n s = Done (n, false).
Proof. intros H. unfold specifiers_append. rewrite cap_eq, H. reflexivity. Qed.

Lemma skip_nth (l : list Z) i : (i < length l)%nat -> skipn i l = nth i l 0 :: skipn (S i) l.
Proof. revert l. induction i as [|k IH]; intros [|a l] Hi; cbn in *; try lia; auto. rewrite (IH l) by lia. destruct l; reflexivity. Qed.
Lemma has_loop_ok n s : length (n_arr n) = 14%nat -> forall left idx, 0 <= idx -> idx + Z.of_nat left <= 14 ->
  has_loop left n idx s = Done (existsb (fun x => x =? s) (firstn left (skipn (Z.to_nat idx) (n_arr n)))).
Proof.
  intros HL. induction left as [|k IH]; intros idx H0 H1; [reflexivity|]. cbn [has_loop]. unfold arr_at. rewrite cap_eq. replace ((0 <=? idx) && (idx <? 14)) with true by lia. cbn [rbind].
  rewrite (skip_nth (n_arr n) (Z.to_nat idx)) by lia. replace (S (Z.to_nat idx)) with (Z.to_nat (idx + 1)) by lia.
  cbn [firstn existsb]. destruct (nth (Z.to_nat idx) (n_arr n) 0 =? s); [reflexivity|]. cbn [orb]. apply IH; lia.
Qed.
Lemma p29_has n s : specs_ok n -> exists b, specifiers_has n s = Done b /\ (b = true <-> In s (specs_of n)).
Proof.
  intros [H1 H2]. unfold specifiers_has. rewrite has_loop_ok by lia. eexists. split; [reflexivity|]. cbn [Z.to_nat skipn]. unfold specs_of. rewrite existsb_exists. split.
  - intros (x & Hx & E). apply Z.eqb_eq in E. subst. auto.
  - intros Hi. exists s. rewrite Z.eqb_refl. auto.
Qed.
Lemma index_loop_ok n s : length (n_arr n) = 14%nat -> forall left idx, 0 <= idx -> idx + Z.of_nat left <= 14 ->
  exists r, index_loop left n idx s = Done r /\
    ((r = -1 /\ ~ In s (firstn left (skipn (Z.to_nat idx) (n_arr n)))) \/
     (idx <= r < idx + Z.of_nat left /\ nth (Z.to_nat r) (n_arr n) 0 = s /\ forall j, idx <= j < r -> nth (Z.to_nat j) (n_arr n) 0 <> s)).
Proof.
  intros HL. induction left as [|k IH]; intros idx H0 H1; [exists (-1); split; auto; left; split; auto|]. cbn [index_loop]. unfold arr_at. rewrite cap_eq. replace ((0 <=? idx) && (idx <? 14)) with true by lia. cbn [rbind].
  destruct (nth (Z.to_nat idx) (n_arr n) 0 =? s) eqn:E.
  - apply Z.eqb_eq in E. exists idx. split; auto. right. split; [lia|]. split; auto. intros; lia.
  - apply Z.eqb_neq in E. destruct (IH (idx + 1) ltac:(lia) ltac:(lia)) as (r & Er & Hr). exists r. split; auto. destruct Hr as [[-> Hn]|(R1 & R2 & R3)].
    + left. split; auto. rewrite (skip_nth (n_arr n) (Z.to_nat idx)) by lia. replace (S (Z.to_nat idx)) with (Z.to_nat (idx + 1)) by lia. cbn [firstn]. intros [Hx|Hx]; auto.
    + right. split; [lia|]. split; auto. intros j Hj. destruct (Z.eq_dec j idx) as [->|]; auto. apply R3. lia.
Qed.
Lemma p29_index n s : specs_ok n -> exists r, specifiers_index_of n s = Done r /\
  ((r = -1 /\ ~ In s (specs_of n)) \/ (0 <= r < n_num n /\ nth (Z.to_nat r) (specs_of n) 0 = s /\ forall j, 0 <= j < r -> nth (Z.to_nat j) (specs_of n) 0 <> s)).
Proof.
  intros [H1 H2]. unfold specifiers_index_of. destruct (index_loop_ok n s H2 (Z.to_nat (n_num n)) 0 ltac:(lia) ltac:(lia)) as (r & E & Hr). exists r. split; auto.
  destruct Hr as [[-> Hn]|(R1 & R2 & R3)]; [left; split; auto|right]. split; [lia|]. unfold specs_of.
  assert (Hf : forall j, 0 <= j < n_num n -> nth (Z.to_nat j) (firstn (Z.to_nat (n_num n)) (n_arr n)) 0 = nth (Z.to_nat j) (n_arr n) 0).
  { intros j Hj. rewrite <- (firstn_skipn (Z.to_nat (n_num n)) (n_arr n)) at 2. rewrite app_nth1; [reflexivity|]. rewrite firstn_length. lia. }
  rewrite Hf by lia. split; auto. intros j Hj. rewrite Hf by lia. auto.
Qed.

(** remove: the copying loop *)
Lemma arr_at_ok n i : 0 <= i < 14 -> arr_at n i = Done (nth (Z.to_nat i) (n_arr n) 0).
Proof. intros. unfold arr_at. rewrite cap_eq. replace ((0 <=? i) && (i <? 14)) with true by lia. reflexivity. Qed.
Lemma arr_put_ok n i v : 0 <= i < 14 -> arr_put n i v = Done (set_arr (list_set (n_arr n) (Z.to_nat i) v) n).
Proof. intros. unfold arr_put. rewrite cap_eq. replace ((0 <=? i) && (i <? 14)) with true by lia. reflexivity. Qed.
Lemma list_set_self (l : list Z) i : (i < length l)%nat -> list_set l i (nth i l 0) = l.
Proof. intros H. unfold list_set. rewrite <- skip_nth by auto. apply firstn_skipn. Qed.
Lemma set_arr_self n : set_arr (n_arr n) n = n. Proof. destruct n; reflexivity. Qed.
Lemma same_specs_refl n : same_but_specs n n. Proof. unfold same_but_specs. destruct n; reflexivity. Qed.
Lemma same_specs_arr n n' v : same_but_specs n n' -> same_but_specs n (set_arr v n').
Proof. unfold same_but_specs. intros H. rewrite <- H at 3. reflexivity. Qed.
Lemma nth_list_set (l : list Z) i j v : (i < length l)%nat -> j <> i -> nth j (list_set l i v) 0 = nth j l 0.
Proof.
  intros H Hj. unfold list_set. destruct (Nat.lt_ge_cases j i).
  - rewrite app_nth1 by (rewrite firstn_length; lia). rewrite <- (firstn_skipn i l) at 2. rewrite app_nth1; [reflexivity|rewrite firstn_length; lia].
  - rewrite app_nth2 by (rewrite firstn_length; lia). rewrite firstn_length. replace (j - Nat.min i (length l))%nat with (S (j - S i)) by lia. cbn [nth].
    rewrite <- (firstn_skipn (S i) l) at 2. rewrite app_nth2 by (rewrite firstn_length; lia). rewrite firstn_length. f_equal. lia.
Qed.
Lemma nth_ext_firstn (l l' : list Z) k : (k <= length l)%nat -> (k <= length l')%nat -> (forall j, (j < k)%nat -> nth j l 0 = nth j l' 0) -> firstn k l = firstn k l'.
Proof.
  revert l l'. induction k as [|k IH]; intros [|a l] [|b l'] H1 H2 H; cbn in *; try lia; auto. f_equal; [apply (H 0%nat); lia|]. apply IH; try lia. intros j Hj. apply (H (S j)). lia.
Qed.

Lemma same_specs_set n n' v : same_but_specs (set_arr v n) n' -> same_but_specs n n'.
Proof. unfold same_but_specs. intros H. apply (f_equal (set_arr (n_arr n))) in H. rewrite <- (set_arr_self n) at 3. exact H. Qed.
Lemma same_specs_num n n' k : same_but_specs n n' -> same_but_specs n (set_num k n').
Proof. unfold same_but_specs. intros H. rewrite <- H at 3. reflexivity. Qed.
(** before the specifier is met the loop copies every slot onto itself *)
Lemma remove_none s n : specs_ok n -> forall left i fuel, 0 <= i -> i + Z.of_nat left <= n_num n -> (left < fuel)%nat -> (forall j, i <= j < i + Z.of_nat left -> nth (Z.to_nat j) (n_arr n) 0 <> s) ->
  exists fuel', (fuel - left = fuel')%nat /\ remove_loop fuel n i i (-1) s = remove_loop fuel' n (i + Z.of_nat left) (i + Z.of_nat left) (-1) s.
Proof.
  intros [H1 H2]. induction left as [|k IH]; intros i fuel Hi Hk Hf HA.
  - exists fuel. split; [lia|]. replace (i + Z.of_nat 0) with i by lia. reflexivity.
  - destruct fuel as [|fuel]; [lia|]. destruct (IH (i + 1) fuel ltac:(lia) ltac:(lia) ltac:(lia)) as (f' & E1 & E2); [intros j Hj; apply HA; lia|].
    exists f'. split; [lia|]. cbn [remove_loop]. replace (i <? n_num n) with true by lia. cbn [negb]. rewrite arr_at_ok by lia. cbn [rbind]. pose proof (HA i ltac:(lia)). replace (nth (Z.to_nat i) (n_arr n) 0 =? s) with false by lia.
    rewrite arr_put_ok by lia. cbn [rbind]. rewrite list_set_self by lia. rewrite set_arr_self. rewrite E2. f_equal; lia.
Qed.
(** after it, every slot is moved down by one *)
Lemma remove_shift s r : forall left n c fuel, specs_ok n -> n_num n = c + 1 + Z.of_nat left -> 0 <= c -> (left < fuel)%nat -> (forall j, c + 1 <= j < n_num n -> nth (Z.to_nat j) (n_arr n) 0 <> s) ->
  exists n', remove_loop fuel n c (c + 1) r s = Done (n', r) /\ n_num n' = n_num n /\ length (n_arr n') = 14%nat /\ same_but_specs n n' /\
    (forall j, 0 <= j < c -> nth (Z.to_nat j) (n_arr n') 0 = nth (Z.to_nat j) (n_arr n) 0) /\
    (forall j, c <= j < n_num n - 1 -> nth (Z.to_nat j) (n_arr n') 0 = nth (Z.to_nat (j + 1)) (n_arr n) 0).
Proof.
  induction left as [|k IH]; intros n c fuel [H1 H2] HN Hc Hf HA; (destruct fuel as [|fuel]; [lia|]); cbn [remove_loop].
  - replace (c + 1 <? n_num n) with false by lia. cbn [negb]. exists n. split; auto. split; auto. split; auto. split; [apply same_specs_refl|]. split; auto. intros; lia.
  - replace (c + 1 <? n_num n) with true by lia. cbn [negb]. rewrite arr_at_ok by lia. cbn [rbind]. pose proof (HA (c + 1) ltac:(lia)). replace (nth (Z.to_nat (c + 1)) (n_arr n) 0 =? s) with false by lia.
    rewrite arr_put_ok by lia. cbn [rbind]. set (n1 := set_arr _ n).
    assert (N1 : forall j, 0 <= j -> j <> c -> nth (Z.to_nat j) (n_arr n1) 0 = nth (Z.to_nat j) (n_arr n) 0) by (intros j Hj Hn; apply nth_list_set; lia).
    assert (N2 : nth (Z.to_nat c) (n_arr n1) 0 = nth (Z.to_nat (c + 1)) (n_arr n) 0).
    { unfold n1. cbn [n_arr set_arr]. unfold list_set. rewrite app_nth2 by (rewrite firstn_length; lia). rewrite firstn_length. replace (Z.to_nat c - Nat.min (Z.to_nat c) (length (n_arr n)))%nat with 0%nat by lia. reflexivity. }
    destruct (IH n1 (c + 1) fuel) as (n' & E & E1 & E2 & E3 & E4 & E5); try lia.
    + split; [exact H1|]. unfold n1. cbn [n_arr set_arr]. rewrite list_set_length; lia.
    + change (n_num n1) with (n_num n). lia.
    + intros j Hj. change (n_num n1) with (n_num n) in Hj. rewrite N1 by lia. apply HA. lia.
    + change (n_num n1) with (n_num n) in *. exists n'. split; auto. split; auto. split; auto. split.
      { eapply same_specs_set. exact E3. }
      split.
      * intros j Hj. rewrite E4 by lia. apply N1; lia.
      * intros j Hj. destruct (Z.eq_dec j c) as [->|]; [rewrite E4 by lia; exact N2|]. rewrite E5 by lia. apply N1; lia.
Qed.

Lemma specs_nth n j : specs_ok n -> 0 <= j < n_num n -> nth (Z.to_nat j) (specs_of n) 0 = nth (Z.to_nat j) (n_arr n) 0.
Proof. intros [H1 H2] Hj. unfold specs_of. rewrite <- (firstn_skipn (Z.to_nat (n_num n)) (n_arr n)) at 2. rewrite app_nth1; [reflexivity|]. rewrite firstn_length. lia. Qed.
Lemma specs_len n : specs_ok n -> length (specs_of n) = Z.to_nat (n_num n).
Proof. intros [H1 H2]. unfold specs_of. rewrite firstn_length. lia. Qed.

Lemma p29_remove_absent n s : specs_ok n -> n_num n < 14 -> ~ In s (specs_of n) -> specifiers_remove n s = Done (n, -1).
Proof.
  intros HO Hn Hni. pose proof HO as [H1 H2]. unfold specifiers_remove. rewrite cap_eq. replace (n_num n =? 14) with false by lia.
  destruct (remove_none s n HO (Z.to_nat (n_num n)) 0 (S (Z.to_nat (n_num n))) ltac:(lia) ltac:(lia) ltac:(lia)) as (f' & E1 & E2).
  - intros j Hj E. apply Hni. rewrite <- E, <- specs_nth by (auto; lia). apply nth_In. rewrite specs_len by auto. lia.
  - rewrite E2. destruct f' as [|f']; [lia|]. cbn [remove_loop]. replace (0 + Z.of_nat (Z.to_nat (n_num n)) <? n_num n) with false by lia. reflexivity.
Qed.

Lemma p29_remove n s pre suf : specs_ok n -> n_num n < 14 -> specs_of n = pre ++ s :: suf -> ~ In s pre -> ~ In s suf ->
  exists n', specifiers_remove n s = Done (n', Z.of_nat (length pre)) /\ specs_of n' = pre ++ suf /\ specs_ok n' /\ same_but_specs n n'.
Proof.
  intros HO Hn Es Hp Hs. pose proof HO as [H1 H2]. pose proof (specs_len n HO) as HL. rewrite Es, app_length in HL. cbn [length] in HL.
  unfold specifiers_remove. rewrite cap_eq. replace (n_num n =? 14) with false by lia. set (r := Z.of_nat (length pre)).
  assert (AT : forall j, 0 <= j < n_num n -> nth (Z.to_nat j) (n_arr n) 0 = nth (Z.to_nat j) (pre ++ s :: suf) 0) by (intros j Hj; rewrite <- specs_nth, Es by auto; reflexivity).
  destruct (remove_none s n HO (length pre) 0 (S (Z.to_nat (n_num n))) ltac:(lia) ltac:(lia) ltac:(lia)) as (f' & E1 & E2).
  { intros j Hj E. rewrite AT in E by lia. rewrite app_nth1 in E by lia. apply Hp. rewrite <- E. apply nth_In. lia. }
  rewrite E2. replace (0 + Z.of_nat (length pre)) with r by lia. destruct f' as [|f']; [lia|]. cbn [remove_loop]. replace (r <? n_num n) with true by lia. cbn [negb]. rewrite arr_at_ok by lia. cbn [rbind].
  rewrite AT by lia. rewrite app_nth2 by lia. replace (Z.to_nat r - length pre)%nat with 0%nat by lia. cbn [nth]. rewrite Z.eqb_refl.
  assert (TL : forall j, r + 1 <= j < n_num n -> nth (Z.to_nat j) (n_arr n) 0 <> s).
  { intros j Hj E. rewrite AT in E by lia. rewrite app_nth2 in E by lia. replace (Z.to_nat j - length pre)%nat with (S (Z.to_nat j - length pre - 1)) in E by lia. cbn [nth] in E. apply Hs. rewrite <- E. apply nth_In. lia. }
  assert (SP : firstn (Z.to_nat (n_num n - 1)) (pre ++ suf) = pre ++ suf) by (apply firstn_all2; rewrite app_length; lia).
  destruct (r + 1 >=? n_num n) eqn:EB.
  - cbn [rbind]. replace (r >? -1) with true by lia. eexists. split; [reflexivity|]. assert (suf = []) by (destruct suf; cbn in HL; [auto|lia]). subst suf. rewrite app_nil_r in *.
    split; [|split; [split; cbn [n_num n_arr set_num]; [lia|exact H2]|unfold same_but_specs; destruct n; reflexivity]].
    unfold specs_of. cbn [n_num n_arr set_num]. unfold specs_of in Es. replace (Z.to_nat (n_num n - 1)) with (length pre) by lia. replace (Z.to_nat (n_num n)) with (S (length pre)) in Es by lia.
    apply (f_equal (firstn (length pre))) in Es. rewrite firstn_firstn in Es. replace (Nat.min (length pre) (S (length pre))) with (length pre) in Es by lia. rewrite Es, firstn_app, Nat.sub_diag, firstn_all. cbn. apply app_nil_r.
  - rewrite arr_at_ok by lia. cbn [rbind]. rewrite arr_put_ok by lia. cbn [rbind]. set (n1 := set_arr _ n).
    assert (N1 : forall j, 0 <= j -> j <> r -> nth (Z.to_nat j) (n_arr n1) 0 = nth (Z.to_nat j) (n_arr n) 0) by (intros j Hj Hnj; apply nth_list_set; lia).
    assert (N2 : nth (Z.to_nat r) (n_arr n1) 0 = nth (Z.to_nat (r + 1)) (n_arr n) 0).
    { unfold n1. cbn [n_arr set_arr]. unfold list_set. rewrite app_nth2 by (rewrite firstn_length; lia). rewrite firstn_length. replace (Z.to_nat r - Nat.min (Z.to_nat r) (length (n_arr n)))%nat with 0%nat by lia. reflexivity. }
    assert (HO1 : specs_ok n1) by (split; [exact H1|unfold n1; cbn [n_arr set_arr]; rewrite list_set_length; lia]).
    destruct (remove_shift s r (Z.to_nat (n_num n - r - 2)) n1 (r + 1) f') as (n' & E & F1 & F2 & F3 & F4 & F5); auto; try lia.
    + change (n_num n1) with (n_num n). lia.
    + intros j Hj. change (n_num n1) with (n_num n) in Hj. rewrite N1 by lia. apply TL. lia.
    + change (n_num n1) with (n_num n) in *. rewrite E. cbn [rbind]. replace (r >? -1) with true by lia. eexists. split; [reflexivity|].
      assert (SS : same_but_specs n n') by (eapply same_specs_set; exact F3).
      split; [|split; [split; cbn [n_num n_arr set_num]; lia|apply same_specs_num; exact SS]].
      unfold specs_of. cbn [n_num n_arr set_num]. rewrite F1. rewrite <- SP. apply nth_ext_firstn; [lia|rewrite app_length; lia|].
      intros j Hj. rewrite <- (Nat2Z.id j). set (z := Z.of_nat j). destruct (Z.lt_trichotomy z r) as [Hz|[Hz|Hz]].
      * rewrite F4, N1, AT by lia. rewrite !app_nth1 by lia. reflexivity.
      * rewrite Hz. rewrite F4, N2, AT by lia. rewrite !app_nth2 by lia. replace (Z.to_nat (r + 1) - length pre)%nat with 1%nat by lia. replace (Z.to_nat r - length pre)%nat with 0%nat by lia. destruct suf; reflexivity.
      * rewrite F5, N1, AT by lia. rewrite !app_nth2 by lia. replace (Z.to_nat (z + 1) - length pre)%nat with (S (Z.to_nat z - length pre)) by lia. reflexivity.
Qed.
Lemma p29_remove_full n s : n_num n = 14 -> specifiers_remove n s = Done (n, -1).
Proof. intros H. unfold specifiers_remove. rewrite cap_eq, H. reflexivity. Qed.

(** ** add_interface *)
Lemma chain_end_ok h : forall l fuel, linked h l -> (forall c, In c l -> valid h c) -> n_next (h_node h (last l 0)) = 0 -> l <> [] -> (length l < fuel)%nat -> chain_end fuel h (hd 0 l) = Done (last l 0).
Proof.
  induction l as [|x l IH]; intros fuel HL HV HT Hne Hf; [contradiction|]. destruct fuel as [|fuel]; [cbn in Hf; lia|]. cbn [chain_end hd]. rewrite get_valid by (apply HV; now left). cbn [rbind].
  destruct l as [|y l]; [cbn [last] in *; rewrite HT; reflexivity|]. destruct HL as [H1 H2]. rewrite H1. assert (Vy : valid h y) by (apply HV; right; now left). unfold valid in Vy. replace (y =? 0) with false by lia.
  change y with (hd 0 (y :: l)) at 1. rewrite (IH fuel); auto; [intros; apply HV; now right|discriminate|cbn in *; lia].
Qed.
Lemma p49 h self ty l fuel : valid h self -> chain_of h (n_ret (h_node h self)) l -> ~ In self l -> valid h ty -> ty <> self -> ~ In ty l -> n_next (h_node h ty) = 0 -> (length l < fuel)%nat ->
  exists h', add_interface fuel h self ty = Done h' /\ n_num (h_node h' self) = 3 /\ chain_of h' (n_ret (h_node h' self)) (l ++ [ty]) /\
    h_node h' ty = h_node h ty /\ (forall x, x <> self -> same_content (h_node h x) (h_node h' x)) /\ h_node h' self = set_num 3 (h_node h self).
Proof.
  intros Vs (Hne & HR & HV & ND & HL & HT) Hs Vt Hts Hni Hn Hf. unfold add_interface. rewrite (get_valid h self Vs). cbn [rbind].
  assert (Vr : valid h (n_ret (h_node h self))) by (rewrite HR; destruct l; [contradiction|apply HV; now left]).
  replace (n_ret (h_node h self) =? 0) with false by (unfold valid in Vr; lia). cbn [negb]. set (h1 := upd h self (set_num 3)).
  assert (O1 : forall x, x <> self -> h_node h1 x = h_node h x) by (intros; apply upd_other; auto).
  assert (NX : forall x, n_next (h_node h1 x) = n_next (h_node h x)) by (intros x; unfold h1; rewrite upd_node; destruct (x =? self); reflexivity).
  rewrite HR. assert (CE : chain_end fuel h1 (hd 0 l) = Done (last l 0)) by (apply chain_end_ok; auto; [apply (linked_ext h); auto|rewrite NX; auto]). rewrite CE.
  cbn [rbind]. assert (Il : In (last l 0) l) by (apply last_in; auto). assert (last l 0 <> self) by (intros E; rewrite E in Il; auto). assert (last l 0 <> ty) by (intros E; rewrite E in Il; auto).
  rewrite put_valid by (apply valid_upd; auto). eexists. split; [reflexivity|].
  assert (Es : h_node (upd h1 (last l 0) (set_next ty)) self = set_num 3 (h_node h self)) by (rewrite upd_other by auto; apply upd_same).
  rewrite Es. cbn [n_num set_num n_ret]. split; auto. split; [|split; [rewrite upd_other, O1 by auto; reflexivity|split; auto]].
  - split; [destruct l; discriminate|]. split; [rewrite HR; symmetry; destruct l; [contradiction|reflexivity]|]. split.
    + intros c Hc. apply valid_upd, valid_upd. apply in_snoc in Hc as [Hc| ->]; auto.
    + split; [apply nodup_snoc; auto|]. split.
      * apply linked_snoc; [|intros _; rewrite upd_same; reflexivity]. apply (linked_ext h); auto. intros x Hx. rewrite upd_other; [apply NX|]. destruct (nodup_removelast_last l ND) as [H1|H1]; [intros ->; auto|contradiction].
      * rewrite last_snoc. rewrite upd_other by auto. rewrite NX. exact Hn.
  - intros x Hx. rewrite upd_node. destruct (x =? last l 0); [rewrite O1 by auto; unfold same_content; cbn; tauto|]. rewrite O1 by auto. apply same_refl.
Qed.
Lemma p49_none h self ty fuel : valid h self -> n_ret (h_node h self) = 0 -> (0 < fuel)%nat -> add_interface fuel h self ty = Undefined.
Proof. intros Vs HR Hf. destruct fuel as [|fuel]; [lia|]. unfold add_interface. rewrite (get_valid h self Vs). cbn [rbind]. rewrite HR. reflexivity. Qed.
