From Coq Require Import String ZArith List Bool Lia.
From Coq Require Import ZifyBool ZifyNat.
From Verif Require Import Common Text AstModel AstSpec AstProofs AstProofs2 AstProofs4 EqModel EqSpec EqProofs EnumModel UpfrontModel UpfrontSpec UpfrontProofs.
Import ListNotations.
Open Scope Z_scope.

(** ** interfaces *)
Lemma add_interface_top fuel h r t h' : add_interface fuel h r t = Done h' -> h_top h' = h_top h.
Proof.
  unfold add_interface, put. destruct (get h r); cbn [rbind]; try discriminate.
  match goal with |- context [chain_end fuel ?g ?s] => destruct (chain_end fuel g s) as [x| |]; cbn [rbind]; try discriminate;
    destruct (get g x); cbn [rbind]; try discriminate end.
  intros [= <-]. cbn. destruct (negb _); reflexivity.
Qed.
Lemma add_interface_frame fuel h r t h' l x : add_interface fuel h r t = Done h' -> chain_of h (n_ret (h_node h r)) l -> valid h r -> (length l < fuel)%nat -> ~ In r l ->
  x <> r -> ~ In x l -> h_node h' x = h_node h x.
Proof.
  intros A (Hne & HR & HV & ND & HL & HT) Vr F Nr Xr Xl. unfold add_interface in A. rewrite (AstProofs.get_valid h r Vr) in A. cbn [rbind] in A.
  set (h1 := if negb (n_ret (h_node h r) =? 0) then upd h r (set_num 3) else h) in *.
  assert (NX : forall x, n_next (h_node h1 x) = n_next (h_node h x)).
  { intros y. unfold h1. destruct (negb _); [|reflexivity]. rewrite upd_node. destruct (y =? r); reflexivity. }
  assert (VX : forall x, valid h1 x <-> valid h x) by (intros y; unfold h1; destruct (negb _); [apply valid_upd|tauto]).
  rewrite HR in A. rewrite chain_end_ok in A; auto.
  - cbn [rbind] in A. rewrite put_valid in A by (apply VX, HV, last_in; auto). injection A as <-.
    rewrite upd_other. + unfold h1. destruct (negb _); [apply upd_other; auto|reflexivity].
    + intros ->. apply Xl, last_in; auto.
  - apply (linked_ext h); auto.
  - intros c Hc. apply VX. auto.
  - rewrite NX. auto.
Qed.
Lemma add_interfaces_ok fuel r : forall ts h l,
  valid h r -> chain_of h (n_ret (h_node h r)) l -> ~ In r (l ++ ts) -> NoDup (l ++ ts) -> (forall t, In t ts -> valid h t /\ n_next (h_node h t) = 0) ->
  (length (l ++ ts) < fuel)%nat ->
  exists h', add_interfaces fuel h r ts = Done h' /\ h_top h' = h_top h /\ chain_of h' (n_ret (h_node h r)) (l ++ ts) /\
    (forall x, x <> r -> same_content (h_node h x) (h_node h' x)) /\
    h_node h' r = (if (length ts =? 0)%nat then h_node h r else set_num 3 (h_node h r)).
Proof.
  induction ts as [|t ts IH]; intros h l Vr C Nr ND HT F.
  - exists h. rewrite app_nil_r. split; [reflexivity|]. split; auto. split; auto. split; [intros; apply same_refl|reflexivity].
  - cbn [add_interfaces]. rewrite app_length in F. cbn [length] in F.
    assert (Ntl : ~ In t l) by (apply NoDup_remove_2 in ND; intros X; apply ND, in_or_app; auto).
    destruct (HT t (or_introl eq_refl)) as [Vt Nt].
    assert (Rl : ~ In r l) by (intros X; apply Nr, in_or_app; auto).
    destruct (p49 h r t l fuel Vr C Rl Vt) as (h1 & A & _ & C1 & Et & S1 & E1); auto; [intros ->; apply Nr, in_or_app; right; now left|lia|].
    rewrite A. cbn [rbind]. pose proof (add_interface_top _ _ _ _ _ A) as T1.
    assert (R1 : n_ret (h_node h1 r) = n_ret (h_node h r)) by (rewrite E1; reflexivity).
    destruct (IH h1 (l ++ [t])) as (h2 & -> & T2 & C2 & S2 & E2).
    + unfold valid in *. lia.
    + exact C1.
    + rewrite <- app_assoc. exact Nr.
    + rewrite <- app_assoc. exact ND.
    + intros u U. destruct (HT u (or_intror U)) as [Vu Nu]. split; [unfold valid in *; lia|].
      rewrite (add_interface_frame _ _ _ _ _ l u A C Vr); auto; [lia| |].
      * intros ->. apply Nr, in_or_app. right. now right.
      * intros X. apply NoDup_remove_1 in ND. revert X U. clear -ND. induction l as [|a l IHl]; cbn in *; [tauto|].
        inversion ND; subst. intros [->|X] U; [apply H1, in_or_app; auto|auto].
    + rewrite !app_length in *. cbn [length] in *. lia.
    + rewrite <- app_assoc in C2. exists h2. split; [reflexivity|]. split; [lia|]. rewrite R1 in C2. split; [exact C2|]. split.
      * intros x X. eapply same_trans; eauto.
      * rewrite E2, E1. cbn. destruct (length ts =? 0)%nat; destruct (h_node h r); reflexivity.
Qed.

Section Ctors2.
  Context (e : env) (h : heap) (W : world e h).
  Notation tp := (top_pos e h W).
  Ltac check_name := match goal with |- context [require e h (Done (name_check ?s)) ?k] => destruct (req_name e h s k) as [[-> ?]|[-> ?]]; [|reject] end.
  Ltac check_opt := match goal with
    | R : ref h ?c |- context [require e h (opt_kind h ?c ?ts) ?k] => destruct (req_opt e h c ts k R) as [[-> ?]|[-> ?]]; [|reject] end.

  (** the heap before the interfaces are added *)
  Lemma struct_core fuel s p : ref h (os_attrs p) -> ref h (os_parent p) -> ref h (os_body p) ->
    (struct_accepts h [CT_Typename] [CT_Struct_Body] p /\ exists h1,
       is_new h h1 (struct_node (os_body p) (os_parent p) CT_Struct CT_Struct_Fwd s p) /\
       def_struct fuel e h s p = (do h2 <- add_interfaces fuel h1 (h_top h) (os_interfaces p); Done (h2, h_top h))) \/
    (~ struct_accepts h [CT_Typename] [CT_Struct_Body] p /\ rejects e h (def_struct fuel e h s p)).
  Proof.
    intros R1 R2 R3. unfold def_struct, struct_accepts. check_opt. check_opt. check_opt.
    left. split; [auto|].
    match goal with |- context [make h ?f] => destruct (make_new h f tp) as (h1 & -> & I) end.
    cbv beta zeta in I.
    match type of I with is_new _ _ (if ?b then ?x else ?y) => assert (E : (if b then x else y) = x) by (destruct (str_text s); reflexivity) end.
    rewrite E in I. clear E.
    eexists. split; [|reflexivity]. destruct (os_body p =? 0) eqn:B; cbn [negb].
    - match goal with |- is_new _ (upd _ _ ?g) _ => pose proof (upd_new _ _ _ g (upd_new _ _ _ (set_type CT_Struct_Fwd) I)) as J end.
      unfold struct_node, with_body. rewrite B. exact J.
    - match goal with |- is_new _ (upd (upd _ _ ?f) _ ?g) _ => pose proof (upd_new _ _ _ g (upd_new _ _ _ f I)) as J end.
      unfold struct_node, with_body. rewrite B. exact J.
  Qed.
  Lemma p32_struct fuel s p : ref h (os_attrs p) -> ref h (os_parent p) -> ref h (os_body p) -> os_interfaces p = [] ->
    accepts_iff e h (def_struct fuel e h s p) (struct_accepts h [CT_Typename] [CT_Struct_Body] p)
      (struct_node (os_body p) (os_parent p) CT_Struct CT_Struct_Fwd s p).
  Proof.
    intros R1 R2 R3 N. destruct (struct_core fuel s p R1 R2 R3) as [(P & h1 & I & E)|(P & E)]; [left|right]; (split; [exact P|]); [|exact E].
    rewrite E, N. cbn [add_interfaces rbind]. exact (new_creates _ _ _ _ tp I eq_refl).
  Qed.

  Lemma class_core fuel s p : ref h (os_attrs p) -> ref h (os_parent p) -> ref h (os_body p) ->
    ((has_name s /\ struct_accepts h class_kinds [CT_Class_Body; CT_Untyped] p) /\ exists h1,
       h_top h1 = h_top h + 1 /\ h_node h1 (h_top h) = struct_node (os_body p) (os_parent p) CT_Class CT_Class_Fwd s p /\
       (forall c, valid h c -> c <> os_body p -> h_node h1 c = h_node h c) /\
       (os_body p <> 0 -> h_node h1 (os_body p) = set_parent (h_top h) (h_node h (os_body p))) /\
       def_class fuel e h s p = (do h2 <- add_interfaces fuel h1 (h_top h) (os_interfaces p); Done (h2, h_top h))) \/
    (~ (has_name s /\ struct_accepts h class_kinds [CT_Class_Body; CT_Untyped] p) /\ rejects e h (def_class fuel e h s p)).
  Proof.
    intros R1 R2 R3. unfold def_class, struct_accepts. check_name. check_opt. check_opt.
    match goal with |- context [make h ?f] => destruct (make_new h f tp) as (h1 & -> & I) end.
    destruct R3 as [B0|V].
    - rewrite B0. cbn [negb Z.eqb]. left. split; [split; auto; split; auto; split; auto; now left|].
      pose proof (upd_new _ _ _ (set_type CT_Class_Fwd) I) as (T & N & K).
      exists (upd h1 (h_top h) (set_type CT_Class_Fwd)). split; [exact T|]. split; [exact N|]. split; [auto|]. split; [intros X; now elim X|reflexivity].
    - pose proof V as V'. unfold valid in V'. replace (os_body p =? 0) with false by lia. cbn [negb].
      match goal with |- context [require e h1 (is_kind h1 (os_body p) ?ts) ?k] =>
        destruct (req_is e h h1 (os_body p) ts k V (new_is_kind _ _ _ _ _ I V)) as [[-> A]|[-> A]] end.
      2:{ right. split; [intros (_ & _ & _ & [X|X]); [lia|contradiction]|apply rejects_now; eauto using new_kept]. }
      left. split; [split; auto; split; auto; split; auto; now right|].
      pose proof (upd_new _ _ _ (fun n => set_body (os_body p) (set_type CT_Class n)) I) as (T & N & K).
      rewrite put_valid by (unfold valid; lia). cbn [rbind].
      eexists. split; [|split; [|split; [|split; [|reflexivity]]]].
      + exact T.
      + rewrite upd_other by lia. rewrite N. unfold struct_node, with_body. replace (os_body p =? 0) with false by lia. reflexivity.
      + intros c Vc Nc. rewrite upd_other by auto. auto.
      + intros _. rewrite upd_same. now rewrite K.
  Qed.
  Lemma p32_class fuel s p : ref h (os_attrs p) -> ref h (os_parent p) -> ref h (os_body p) -> os_interfaces p = [] ->
    adopts_iff e h (def_class fuel e h s p) (os_body p) (has_name s /\ struct_accepts h class_kinds [CT_Class_Body; CT_Untyped] p)
      (struct_node (os_body p) (os_parent p) CT_Class CT_Class_Fwd s p).
  Proof.
    intros R1 R2 R3 N. destruct (class_core fuel s p R1 R2 R3) as [(P & h1 & T & M & K & B & E)|(P & E)]; [left|right]; (split; [exact P|]); [|exact E].
    rewrite E, N. cbn [add_interfaces rbind]. exists h1, (h_top h). pose proof tp.
    split; [reflexivity|]. split; [unfold valid; lia|]. split; [unfold valid; lia|]. split; [exact M|]. split; [|exact B].
    split; [lia|]. intros c Vc Nc. apply K; auto. intros ->. apply Nc. now left.
  Qed.

  (** interfaces: appended to the chain that starts at the parent type *)
  Lemma interfaces_ok fuel h1 (n : node) parent ts l :
    h_top h1 = h_top h + 1 -> h_node h1 (h_top h) = n -> n_ret n = parent ->
    (forall c, valid h c -> same_content (h_node h c) (h_node h1 c) /\ n_next (h_node h1 c) = n_next (h_node h c)) ->
    chain_of h parent l -> NoDup (l ++ ts) -> (forall t, In t ts -> valid h t /\ n_next (h_node h t) = 0) -> ts <> [] -> (length (l ++ ts) < fuel)%nat ->
    exists h', add_interfaces fuel h1 (h_top h) ts = Done h' /\ valid h' (h_top h) /\ h_node h' (h_top h) = set_num 3 n /\
      chain_of h' parent (l ++ ts) /\ (forall c, valid h c -> same_content (h_node h c) (h_node h' c)).
  Proof.
    intros T M R K C ND TS NE F. pose proof tp. pose proof C as (Hne & HR & HV & NDl & HL & HT).
    assert (FR : forall c, valid h c -> c <> h_top h) by (unfold valid; lia).
    destruct (add_interfaces_ok fuel (h_top h) ts h1 l) as (h' & A & T' & C' & S' & E').
    - unfold valid. lia.
    - rewrite M, R. split; auto. split; auto. split; [intros c Hc; specialize (HV _ Hc); unfold valid in *; lia|]. split; auto. split.
      + apply (linked_ext h); auto. intros x Hx. apply K, HV. now apply removelast_incl.
      + rewrite (proj2 (K _ (HV _ (last_in _ _ Hne)))). auto.
    - intros X. apply in_app_or in X as [X|X]; [apply (FR _ (HV _ X)); reflexivity|apply (FR _ (proj1 (TS _ X))); reflexivity].
    - exact ND.
    - intros t Ht. destruct (TS t Ht) as [V N]. split; [unfold valid in *; lia|]. rewrite (proj2 (K t V)). auto.
    - exact F.
    - rewrite M, R in *. exists h'. split; auto. split; [unfold valid; lia|]. split; [destruct ts; [contradiction|exact E']|]. split; auto.
      intros c V. eapply same_trans; [apply K; auto|apply S'; auto].
  Qed.
  Lemma p32_struct_interfaces fuel s p l : ref h (os_attrs p) -> ref h (os_body p) -> struct_accepts h [CT_Typename] [CT_Struct_Body] p -> os_parent p <> 0 ->
    chain_of h (os_parent p) l -> NoDup (l ++ os_interfaces p) -> (forall t, In t (os_interfaces p) -> valid h t /\ n_next (h_node h t) = 0) ->
    os_interfaces p <> [] -> (length (l ++ os_interfaces p) < fuel)%nat ->
    exists h' c, def_struct fuel e h s p = Done (h', c) /\ ~ valid h c /\ valid h' c /\
      h_node h' c = set_num 3 (struct_node (os_body p) (os_parent p) CT_Struct CT_Struct_Fwd s p) /\
      chain_of h' (os_parent p) (l ++ os_interfaces p) /\ (forall x, valid h x -> same_content (h_node h x) (h_node h' x)).
  Proof.
    intros R1 R3 P NP C ND TS NE F. assert (R2 : ref h (os_parent p)) by (destruct P as (_ & [X|[X _]] & _); [now left|now right]).
    destruct (struct_core fuel s p R1 R2 R3) as [(_ & h1 & (T & M & K) & E)|(X & _)]; [|contradiction].
    destruct (interfaces_ok fuel h1 _ (os_parent p) (os_interfaces p) l T M eq_refl) as (h' & A & V & N & C' & S); auto.
    { intros c Vc. rewrite K by auto. split; [apply same_refl|reflexivity]. }
    rewrite E, A. cbn [rbind]. exists h', (h_top h). split; auto. split; [unfold valid; lia|]. auto.
  Qed.
  Lemma p32_class_interfaces fuel s p l : ref h (os_attrs p) -> ref h (os_body p) -> has_name s -> struct_accepts h class_kinds [CT_Class_Body; CT_Untyped] p -> os_parent p <> 0 ->
    chain_of h (os_parent p) l -> NoDup (l ++ os_interfaces p) -> (forall t, In t (os_interfaces p) -> valid h t /\ n_next (h_node h t) = 0) ->
    os_interfaces p <> [] -> (length (l ++ os_interfaces p) < fuel)%nat ->
    exists h' c, def_class fuel e h s p = Done (h', c) /\ ~ valid h c /\ valid h' c /\
      h_node h' c = set_num 3 (struct_node (os_body p) (os_parent p) CT_Class CT_Class_Fwd s p) /\
      chain_of h' (os_parent p) (l ++ os_interfaces p) /\ (forall x, valid h x -> same_content (h_node h x) (h_node h' x)).
  Proof.
    intros R1 R3 HN P NP C ND TS NE F. assert (R2 : ref h (os_parent p)) by (destruct P as (_ & [X|[X _]] & _); [now left|now right]).
    destruct (class_core fuel s p R1 R2 R3) as [(_ & h1 & T & M & K & B & E)|(X & _)]; [|tauto].
    destruct (interfaces_ok fuel h1 _ (os_parent p) (os_interfaces p) l T M eq_refl) as (h' & A & V & N & C' & S); auto.
    { intros c Vc. destruct (Z.eq_dec c (os_body p)) as [->|Q].
      - rewrite B by (unfold valid in Vc; lia). split; [unfold same_content; cbn; tauto|reflexivity].
      - rewrite K by auto. split; [apply same_refl|reflexivity]. }
    rewrite E, A. cbn [rbind]. exists h', (h_top h). split; auto. split; [unfold valid; lia|]. auto.
  Qed.
  (** without a parent type, interfaces are written through null *)
  Lemma p32_struct_no_parent fuel s p : ref h (os_attrs p) -> ref h (os_body p) -> struct_accepts h [CT_Typename] [CT_Struct_Body] p -> os_parent p = 0 ->
    os_interfaces p <> [] -> (0 < fuel)%nat -> def_struct fuel e h s p = Undefined.
  Proof.
    intros R1 R3 P NP NE F. assert (R2 : ref h (os_parent p)) by now left.
    destruct (struct_core fuel s p R1 R2 R3) as [(_ & h1 & (T & M & K) & E)|(X & _)]; [|contradiction].
    rewrite E. destruct (os_interfaces p) as [|t ts]; [contradiction|]. cbn [add_interfaces]. pose proof tp.
    rewrite p49_none; [reflexivity|unfold valid; lia| |auto]. rewrite M. exact NP.
  Qed.
  Lemma p32_class_no_parent fuel s p : ref h (os_attrs p) -> ref h (os_body p) -> has_name s -> struct_accepts h class_kinds [CT_Class_Body; CT_Untyped] p -> os_parent p = 0 ->
    os_interfaces p <> [] -> (0 < fuel)%nat -> def_class fuel e h s p = Undefined.
  Proof.
    intros R1 R3 HN P NP NE F. assert (R2 : ref h (os_parent p)) by now left.
    destruct (class_core fuel s p R1 R2 R3) as [(_ & h1 & T & M & K & B & E)|(X & _)]; [|tauto].
    rewrite E. destruct (os_interfaces p) as [|t ts]; [contradiction|]. cbn [add_interfaces]. pose proof tp.
    rewrite p49_none; [reflexivity|unfold valid; lia| |auto]. rewrite M. exact NP.
  Qed.

  (** specifier lists *)
  Lemma append_spec_ok h1 l s : is_new h h1 (specs_list l) -> (length l < 14)%nat ->
    append_spec h1 (h_top h) s = Done (upd h1 (h_top h) (fun _ => specs_list (l ++ [s]))) .
  Proof.
    intros (T & N & K) L. unfold append_spec. pose proof tp. rewrite AstProofs.get_valid by (unfold valid; lia). cbn [rbind]. rewrite N.
    unfold specifiers_append. rewrite cap_eq. replace (n_num (specs_list l)) with (Z.of_nat (length l)) by reflexivity.
    replace (Z.of_nat (length l) =? 14) with false by lia. rewrite arr_put_ok by lia. cbn [rbind]. do 2 f_equal.
    rewrite Nat2Z.id. change (n_arr (specs_list l)) with (l ++ repeat 0 (14 - length l)).
    assert (E : list_set (l ++ repeat 0 (14 - length l)) (length l) s = (l ++ [s]) ++ repeat 0 (14 - length (l ++ [s]))).
    { unfold list_set. rewrite firstn_app, firstn_all, Nat.sub_diag. cbn [firstn]. rewrite app_nil_r, <- app_assoc. f_equal. cbn [app]. f_equal.
      rewrite skipn_app, skipn_all2 by lia. cbn [app]. rewrite app_length. cbn [length].
      replace (S (length l) - length l)%nat with 1%nat by lia. replace (14 - length l)%nat with (S (14 - (length l + 1))) by lia. reflexivity. }
    rewrite E. unfold specs_list at 3, set_num, set_arr. cbn [n_num specs_list set_num set_arr].
    replace (Z.of_nat (length (l ++ [s]))) with (Z.of_nat (length l) + 1) by (rewrite app_length; cbn [length]; lia). reflexivity.
  Qed.
  Lemma append_specs_ok : forall ss h1 l, is_new h h1 (specs_list l) -> (length l + length ss <= 14)%nat ->
    exists h2, append_specs h1 (h_top h) ss = Done h2 /\ is_new h h2 (specs_list (l ++ ss)).
  Proof.
    induction ss as [|s ss IH]; intros h1 l I L; cbn [append_specs length] in *.
    - exists h1. rewrite app_nil_r. auto.
    - rewrite (append_spec_ok _ _ _ I) by lia. cbn [rbind].
      destruct (IH (upd h1 (h_top h) (fun _ => specs_list (l ++ [s]))) (l ++ [s])) as (h2 & -> & J).
      + exact (upd_new _ _ _ _ I).
      + rewrite app_length. cbn [length]. lia.
      + exists h2. rewrite <- app_assoc in J. auto.
  Qed.
  Lemma p32_specifiers ss : accepts_iff e h (def_specifiers e h ss) (0 < Z.of_nat (length ss) <= 14) (specs_list ss).
  Proof.
    unfold def_specifiers. rewrite cap_eq. unfold require. cbn [rbind].
    destruct (Z.of_nat (length ss) <=? 0) eqn:A; cbn [negb].
    { right. split; [lia|apply rejects_now, kept_refl]. }
    destruct (Z.of_nat (length ss) >? 14) eqn:B; cbn [negb].
    { right. split; [lia|apply rejects_now, kept_refl]. }
    left. split; [lia|]. destruct (make_new h (set_type CT_Specifiers) tp) as (h1 & -> & I).
    destruct (append_specs_ok ss h1 [] I) as (h2 & -> & J); [cbn [length]; lia|]. exact (new_creates _ _ _ _ tp J eq_refl).
  Qed.
  Lemma p32_specifier s : creates h (def_specifier h s) (specs_list [s]).
  Proof.
    unfold def_specifier. destruct (make_new h (set_type CT_Specifiers) tp) as (h1 & -> & I).
    rewrite (append_spec_ok h1 [] s I) by (cbn; lia). cbn [rbind]. exact (new_creates _ _ _ _ tp (upd_new _ _ _ _ I) eq_refl).
  Qed.
End Ctors2.
