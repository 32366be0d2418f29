From Coq Require Import ZArith List Bool Lia.
From Coq Require Import ZifyBool ZifyNat.
From Verif Require Import Common Text AstModel AstSpec EqModel EqSpec.
Import ListNotations.
Open Scope Z_scope.

Lemma bytes_eqb_eq a b : bytes_eqb a b = true <-> a = b.
Proof.
  revert b; induction a as [|x a IH]; intros [|y b]; cbn; split; try congruence; intros H.
  - apply andb_prop in H as [H1 H2]. apply IH in H2. f_equal; [lia|auto].
  - inversion H. subst. rewrite Z.eqb_refl. cbn. now apply IH.
Qed.
Lemma bytes_eqb_refl a : bytes_eqb a a = true.
Proof. now apply bytes_eqb_eq. Qed.
Lemma ct_eqb_eq a b : ct_eqb a b = true <-> a = b.
Proof. unfold ct_eqb; destruct (ct_eq_dec a b); split; congruence. Qed.
Lemma get_valid h c : valid h c -> get h c = Done (h_node h c).
Proof. unfold get, valid; intros. replace ((0 <? c) && (c <? h_top h)) with true by lia. reflexivity. Qed.
Lemma get_done h c n : get h c = Done n -> valid h c /\ n = h_node h c.
Proof. unfold get, valid. destruct ((0 <? c) && (c <? h_top h)) eqn:E; [|discriminate]. intros [= <-]. split; [lia|auto]. Qed.

Lemma f2_len {A B} (R : A -> B -> Prop) la lb : Forall2 R la lb -> length la = length lb.
Proof. induction 1; cbn; congruence. Qed.
Lemma f2_impl {A B} (R Q : A -> B -> Prop) la lb : (forall x y, R x y -> Q x y) -> Forall2 R la lb -> Forall2 Q la lb.
Proof. intros H. induction 1; constructor; auto. Qed.

(** ** more fuel never changes an answer *)
Definition lep {A} (r r' : run A) : Prop := r = NoFuel \/ r' = r.
Lemma lep_refl {A} (r : run A) : lep r r. Proof. now right. Qed.
Lemma lep_bind {A B} (r r' : run A) (f f' : A -> run B) : lep r r' -> (forall x, lep (f x) (f' x)) -> lep (rbind r f) (rbind r' f').
Proof. intros [->| ->] H; [now left|]. destruct r; cbn; auto using lep_refl. Qed.

Section Mono.
  Context (h : heap) (eq eq' : Z -> Z -> run bool) (E : forall x y, lep (eq x y) (eq' x y)).
  Lemma mono_check_ast a b k k' : lep k k' -> lep (check_ast eq a b k) (check_ast eq' a b k').
  Proof.
    intros K. unfold check_ast. destruct (a =? 0); auto. destruct (b =? 0); [apply lep_refl|].
    apply lep_bind; auto. intros [|]; auto using lep_refl.
  Qed.
  Lemma mono_check_val a b k k' : lep k k' -> lep (check_val a b k) (check_val a b k').
  Proof. unfold check_val. destruct (_ =? _); auto using lep_refl. Qed.
  Lemma mono_check_str a b k k' : lep k k' -> lep (check_str a b k) (check_str a b k').
  Proof. unfold check_str. destruct (bytes_eqb _ _); auto using lep_refl. Qed.
  Lemma mono_checks s o cs k : lep (run_checks eq s o cs k) (run_checks eq' s o cs k).
  Proof.
    induction cs as [|[f|f|f] cs IH]; cbn [run_checks]; auto using lep_refl, mono_check_ast, mono_check_val, mono_check_str.
  Qed.
  Lemma mono_params_loop lf lf' k : (lf <= lf')%nat -> forall c o, lep (params_loop lf eq h c o k) (params_loop lf' eq' h c o k).
  Proof.
    revert lf'; induction lf as [|lf IH]; intros lf' L c o; [now left|].
    destruct lf' as [|lf']; [lia|]. cbn [params_loop].
    destruct (c =? 0); [apply lep_refl|]. destruct (o =? 0); [apply lep_refl|].
    apply lep_bind; [apply lep_refl|intros cn]. apply lep_bind; [apply lep_refl|intros on].
    destruct (bytes_eqb _ _); [apply lep_refl|].
    apply lep_bind; [destruct (_ =? 0); auto using lep_refl|intros [|]; cbn [negb]; auto using lep_refl].
    apply lep_bind; [destruct (_ =? 0); auto using lep_refl|intros [|]; cbn [negb]; auto using lep_refl].
    apply IH; lia.
  Qed.
  Lemma mono_body_loop lf lf' k : (lf <= lf')%nat -> forall c o, lep (body_loop lf eq h c o k) (body_loop lf' eq' h c o k).
  Proof.
    revert lf'; induction lf as [|lf IH]; intros lf' L c o; [now left|].
    destruct lf' as [|lf']; [lia|]. cbn [body_loop].
    destruct (c =? 0); [apply lep_refl|]. destruct (o =? 0); [apply lep_refl|].
    apply lep_bind; auto. intros [|]; cbn [negb]; auto using lep_refl.
    apply lep_bind; [apply lep_refl|intros cn]. apply lep_bind; [apply lep_refl|intros on].
    apply IH; lia.
  Qed.
  Lemma mono_step lf lf' a b : (lf <= lf')%nat -> lep (is_equal_step lf eq h a b) (is_equal_step lf' eq' h a b).
  Proof.
    intros L. unfold is_equal_step. destruct (b =? 0); [apply lep_refl|].
    apply lep_bind; [apply lep_refl|intros s]. apply lep_bind; [apply lep_refl|intros o].
    destruct (negb _); [apply lep_refl|].
    destruct (n_type s); try apply mono_checks; try apply lep_refl.
    all: try (apply mono_check_ast, mono_check_ast, mono_body_loop; assumption).
    destruct (n_num s >? 1); [apply mono_params_loop; assumption|apply mono_checks].
  Qed.
End Mono.

Lemma is_equal_mono f f' h a b : (f <= f')%nat -> lep (code_is_equal f h a b) (code_is_equal f' h a b).
Proof.
  revert f' a b; induction f as [|f IH]; intros f' a b L; [now left|].
  destruct f' as [|f']; [lia|]. cbn [code_is_equal]. apply mono_step; [intros; apply IH|]; lia.
Qed.
Lemma is_equal_more f f' h a b r : (f <= f')%nat -> code_is_equal f h a b = Done r -> code_is_equal f' h a b = Done r.
Proof. intros L H. destruct (is_equal_mono f f' h a b L); congruence. Qed.

(** ** simple verdicts *)
Lemma p30_null f h a : code_is_equal (S f) h a 0 = Done false.
Proof. reflexivity. Qed.
Lemma p30_kinds f h a b : valid h a -> valid h b -> n_type (h_node h a) <> n_type (h_node h b) ->
  code_is_equal (S f) h a b = Done false.
Proof.
  intros Va Vb N. cbn [code_is_equal]. unfold is_equal_step. rewrite (get_valid _ _ Va), (get_valid _ _ Vb). cbn [rbind].
  unfold valid in Vb. replace (b =? 0) with false by lia.
  destruct (ct_eqb _ _) eqn:E; [apply ct_eqb_eq in E; contradiction|reflexivity].
Qed.

(** unfolding on two valid nodes of the same kind *)
Lemma step_same lf eq h a b : valid h a -> valid h b -> n_type (h_node h a) = n_type (h_node h b) ->
  is_equal_step lf eq h a b =
  match n_type (h_node h a) with
  | CT_Parameters =>
      if n_num (h_node h a) >? 1 then params_loop lf eq h a b (check_val (n_num (h_node h a)) (n_num (h_node h b)) (Done true))
      else run_checks eq (h_node h a) (h_node h b) [Str n_name; Ast n_ret; Ast n_body; Ast n_body] (Done true)
  | CT_Parameters_Define => Done false
  | CT_Preprocess_Define =>
      check_str (n_name (h_node h a)) (n_name (h_node h b))
        (do _ <- get h (n_body (h_node h a)); do _ <- get h (n_body (h_node h b)); Done true)
  | CT_Specifiers =>
      check_val (n_num (h_node h a)) (n_num (h_node h b)) (check_str (n_name (h_node h a)) (n_name (h_node h b))
        (specs_loop (Z.to_nat (n_num (h_node h a))) (h_node h a) (h_node h b) 0))
  | CT_Class_Body | CT_Enum_Body | CT_Export_Body | CT_Global_Body | CT_Namespace_Body | CT_Struct_Body
  | CT_Union_Body =>
      check_ast eq (n_front (h_node h a)) (n_front (h_node h b))
       (check_ast eq (n_next (h_node h a)) (n_next (h_node h b))
        (body_loop lf eq h (n_front (h_node h a)) (n_front (h_node h b)) (check_val (n_num (h_node h a)) (n_num (h_node h b)) (Done true))))
  | t => run_checks eq (h_node h a) (h_node h b) (checks t) (Done true)
  end.
Proof.
  intros Va Vb T. unfold is_equal_step. rewrite (get_valid _ _ Va), (get_valid _ _ Vb). cbn [rbind].
  unfold valid in Vb. replace (b =? 0) with false by lia.
  replace (ct_eqb (n_type (h_node h a)) (n_type (h_node h b))) with true by (symmetry; now apply ct_eqb_eq).
  reflexivity.
Qed.
Lemma is_equal_true_inv f h a b : code_is_equal f h a b = Done true ->
  exists f', f = S f' /\ valid h a /\ valid h b /\ n_type (h_node h a) = n_type (h_node h b).
Proof.
  destruct f as [|f]; [discriminate|]. cbn [code_is_equal]. unfold is_equal_step. intros H. exists f. split; auto.
  destruct (b =? 0); [discriminate|].
  destruct (get h a) as [s| |] eqn:Ga; try discriminate. destruct (get h b) as [o| |] eqn:Gb; try discriminate.
  cbn [rbind] in H. apply get_done in Ga as [Va ->]. apply get_done in Gb as [Vb ->].
  destruct (ct_eqb _ _) eqn:E; [|discriminate]. apply ct_eqb_eq in E. auto.
Qed.

(** ** what a true answer guarantees *)
Lemma check_ast_true eq a b k : check_ast eq a b k = Done true -> (a = 0 \/ (b <> 0 /\ eq a b = Done true)) /\ k = Done true.
Proof.
  unfold check_ast. destruct (a =? 0) eqn:A; [intros; split; auto; left; lia|].
  destruct (b =? 0) eqn:B; [discriminate|]. destruct (eq a b) as [[|]| |] eqn:E; try discriminate.
  cbn [rbind]. intros. split; auto. right. split; [lia|auto].
Qed.
Lemma check_val_true a b k : check_val a b k = Done true -> a = b /\ k = Done true.
Proof. unfold check_val. destruct (_ =? _) eqn:E; [|discriminate]. intros; split; auto; lia. Qed.
Lemma check_str_true a b k : check_str a b k = Done true -> a = b /\ k = Done true.
Proof. unfold check_str. destruct (bytes_eqb _ _) eqn:E; [|discriminate]. apply bytes_eqb_eq in E. auto. Qed.

Definition check_holds (eq : Z -> Z -> run bool) (s o : node) (c : check) : Prop :=
  match c with
  | Val f => f s = f o
  | Str f => f s = f o
  | Ast f => f s = 0 \/ (f o <> 0 /\ eq (f s) (f o) = Done true)
  end.
Lemma run_checks_true eq s o cs k : run_checks eq s o cs k = Done true -> Forall (check_holds eq s o) cs /\ k = Done true.
Proof.
  induction cs as [|[f|f|f] cs IH]; cbn [run_checks]; intros H; auto.
  - apply check_val_true in H as [? H]. apply IH in H as [? ?]. split; auto; constructor; auto.
  - apply check_str_true in H as [? H]. apply IH in H as [? ?]. split; auto; constructor; auto.
  - apply check_ast_true in H as [? H]. apply IH in H as [? ?]. split; auto; constructor; auto.
Qed.
Lemma check_hold_in eq s o cs c : Forall (check_holds eq s o) cs -> In c cs -> check_holds eq s o c.
Proof. intros H I. rewrite Forall_forall in H. now apply H. Qed.

Ltac kinds H T := 
  let K := fresh "K" in
  cbn [In] in H; repeat match type of H with _ \/ _ => destruct H as [H|H] end; try contradiction; rewrite <- H in T.

Lemma p30_name f h a b : code_is_equal f h a b = Done true -> name_compared (n_type (h_node h a)) ->
  n_name (h_node h a) = n_name (h_node h b).
Proof.
  intros H N. destruct (is_equal_true_inv _ _ _ _ H) as (f' & -> & Va & Vb & T). cbn [code_is_equal] in H.
  rewrite step_same in H by auto. unfold name_compared in N.
  destruct (n_type (h_node h a)); cbn [In] in N; repeat match type of N with _ \/ _ => destruct N as [N|N] end;
    try discriminate; try contradiction; clear N;
    try (apply run_checks_true in H as [F _]; apply (check_hold_in _ _ _ _ (Str n_name)) in F; [exact F|cbn; tauto]).
  - apply check_str_true in H as [F _]; exact F.
  - apply check_val_true in H as [_ H]. apply check_str_true in H as [F _]; exact F.
Qed.
Lemma p30_flags f h a b : code_is_equal f h a b = Done true -> flags_compared (n_type (h_node h a)) ->
  n_flags (h_node h a) = n_flags (h_node h b).
Proof.
  intros H N. destruct (is_equal_true_inv _ _ _ _ H) as (f' & -> & Va & Vb & T). cbn [code_is_equal] in H.
  rewrite step_same in H by auto. unfold flags_compared in N.
  destruct (n_type (h_node h a)); cbn [In] in N; repeat match type of N with _ \/ _ => destruct N as [N|N] end;
    try discriminate; try contradiction; clear N;
    (apply run_checks_true in H as [F _]; apply (check_hold_in _ _ _ _ (Val n_flags)) in F; [exact F|cbn; tauto]).
Qed.
Lemma p30_parts f h a b part : code_is_equal f h a b = Done true -> In part (parts_compared (n_type (h_node h a))) ->
  part (h_node h a) = 0 \/
  (part (h_node h b) <> 0 /\ exists f', code_is_equal f' h (part (h_node h a)) (part (h_node h b)) = Done true).
Proof.
  intros H N. destruct (is_equal_true_inv _ _ _ _ H) as (f' & -> & Va & Vb & T). cbn [code_is_equal] in H.
  rewrite step_same in H by auto.
  destruct (n_type (h_node h a)); cbn [In parts_compared] in N; try contradiction;
    apply run_checks_true in H as [F _];
    (apply (check_hold_in _ _ _ _ (Ast part)) in F; [cbn [check_holds] in F; destruct F as [F|[F G]]; [left; exact F|right; split; [exact F|exists f'; exact G]]|]);
    cbn [In checks]; repeat match type of N with _ \/ _ => destruct N as [N|N] end; try contradiction; subst part; tauto.
Qed.
(** number fields: ParentAccess of classes, IsFunction of typedefs, IsParamPack of typenames *)
Lemma p30_nums f h a b : code_is_equal f h a b = Done true ->
  In (n_type (h_node h a)) [CT_Class; CT_Struct; CT_Class_Fwd; CT_Struct_Fwd; CT_Typedef; CT_Typename] ->
  n_num (h_node h a) = n_num (h_node h b).
Proof.
  intros H N. destruct (is_equal_true_inv _ _ _ _ H) as (f' & -> & Va & Vb & T). cbn [code_is_equal] in H.
  rewrite step_same in H by auto.
  destruct (n_type (h_node h a)); cbn [In] in N; repeat match type of N with _ \/ _ => destruct N as [N|N] end;
    try discriminate; try contradiction; clear N;
    (apply run_checks_true in H as [F _]; apply (check_hold_in _ _ _ _ (Val n_num)) in F; [exact F|cbn; tauto]).
Qed.

(** bodies *)
Lemma step_body lf eq h a b : valid h a -> valid h b -> listed_body (n_type (h_node h a)) ->
  n_type (h_node h a) = n_type (h_node h b) ->
  is_equal_step lf eq h a b =
      check_ast eq (n_front (h_node h a)) (n_front (h_node h b))
       (check_ast eq (n_next (h_node h a)) (n_next (h_node h b))
        (body_loop lf eq h (n_front (h_node h a)) (n_front (h_node h b)) (check_val (n_num (h_node h a)) (n_num (h_node h b)) (Done true)))).
Proof.
  intros Va Vb L T. rewrite step_same by auto. unfold listed_body in L. cbn [In] in L.
  repeat match type of L with _ \/ _ => destruct L as [L|L] end; try contradiction; rewrite <- L; reflexivity.
Qed.
(** the list of nodes reached from [c] through Next until null *)
Fixpoint null_chain (h : heap) (c : Z) (l : list Z) : Prop :=
  match l with [] => c = 0 | x :: r => c = x /\ valid h x /\ null_chain h (n_next (h_node h x)) r end.
Lemma linked_chain h l : linked h l -> (forall c, In c l -> valid h c) -> (l <> [] -> n_next (h_node h (last l 0)) = 0) ->
  null_chain h (hd 0 l) l.
Proof.
  induction l as [|x l IH]; intros L V N; [reflexivity|]. cbn [null_chain hd]. split; auto. split; [apply V; now left|].
  destruct l as [|y l]; [cbn; apply N; discriminate|].
  destruct L as [L1 L2]. rewrite L1. change y with (hd 0 (y :: l)) at 1. apply IH; auto.
  - intros; apply V; now right.
  - intros _. apply N. discriminate.
Qed.
Lemma body_chain h b l : body_of h b l -> null_chain h (n_front (h_node h b)) l /\ n_next (h_node h b) = last l 0 /\
  n_num (h_node h b) = Z.of_nat (length l) /\ valid h b.
Proof.
  intros [(V & N & C & _ & _ & F & B & L) E]. repeat split; auto; try apply V. rewrite F. apply linked_chain; auto. intros; apply C; auto.
Qed.
Lemma body_loop_true eq h k : forall lf c o lc lo, null_chain h c lc -> null_chain h o lo ->
  body_loop lf eq h c o k = Done true ->
  exists lo1 lo2, lo = lo1 ++ lo2 /\ Forall2 (fun x y => eq x y = Done true) lc lo1 /\ k = Done true.
Proof.
  induction lf as [|lf IH]; intros c o lc lo C O H; [discriminate|]. cbn [body_loop] in H.
  destruct lc as [|x lc]; cbn [null_chain] in C.
  - subst c. cbn in H. exists [], lo. auto.
  - destruct C as (-> & V & C). pose proof V as V'. unfold valid in V'. replace (x =? 0) with false in H by lia.
    destruct lo as [|y lo]; cbn [null_chain] in O; [subst o; cbn in H; discriminate|].
    destruct O as (-> & W & O). pose proof W as W'. unfold valid in W'. replace (y =? 0) with false in H by lia.
    destruct (eq x y) as [[|]| |] eqn:E; try discriminate. cbn [rbind negb] in H.
    rewrite (get_valid _ _ V), (get_valid _ _ W) in H. cbn [rbind] in H.
    destruct (IH _ _ _ _ C O H) as (l1 & l2 & -> & F & K). exists (y :: l1), l2. repeat split; auto.
Qed.
Lemma p30_bodies f h a b la lb : listed_body (n_type (h_node h a)) -> body_of h a la -> body_of h b lb ->
  code_is_equal f h a b = Done true ->
  Forall2 (fun x y => exists f', code_is_equal f' h x y = Done true) la lb.
Proof.
  intros L A B H. destruct (is_equal_true_inv _ _ _ _ H) as (f' & -> & Va & Vb & T). cbn [code_is_equal] in H.
  rewrite step_body in H by auto.
  destruct (body_chain _ _ _ A) as (CA & _ & NA & _). destruct (body_chain _ _ _ B) as (CB & _ & NB & _).
  apply check_ast_true in H as [_ H]. apply check_ast_true in H as [_ H].
  destruct (body_loop_true _ _ _ _ _ _ _ _ CA CB H) as (l1 & l2 & -> & F & K).
  apply check_val_true in K as [K _]. pose proof (f2_len _ _ _ F) as FL. rewrite NA, NB, app_length in K.
  assert (l2 = []) as -> by (destruct l2; [auto|cbn [length] in K; lia]). rewrite app_nil_r.
  eapply f2_impl; [|exact F]. cbn. intros x y E. now exists f'.
Qed.

(** ** copies compare equal *)
Lemma body_loop_copy eq h k : forall lc lo c o lf, null_chain h c lc -> null_chain h o lo ->
  Forall2 (fun x y => eq x y = Done true) lc lo -> (length lc < lf)%nat -> body_loop lf eq h c o k = k.
Proof.
  induction lc as [|x lc IH]; intros lo c o lf C O F L.
  - destruct lf; [lia|]. cbn in *. subst. reflexivity.
  - inversion F as [|? y ? lo' E F' X Y]; subst. cbn [null_chain] in C, O. destruct C as (-> & V & C), O as (-> & W & O).
    destruct lf as [|lf]; [lia|]. cbn [body_loop]. pose proof V as V'. pose proof W as W'. unfold valid in V', W'.
    replace (x =? 0) with false by lia. replace (y =? 0) with false by lia. rewrite E. cbn [rbind negb].
    rewrite (get_valid _ _ V), (get_valid _ _ W). cbn [rbind]. apply (IH lo'); auto. cbn [length] in L; lia.
Qed.
Lemma run_checks_copy eq s o cs k : Forall (fun c => match c with
    | Val f => f s = f o | Str f => f s = f o
    | Ast f => (f s = 0 /\ f o = 0) \/ (f o <> 0 /\ eq (f s) (f o) = Done true) end) cs -> run_checks eq s o cs k = k.
Proof.
  induction 1 as [|[f|f|f] cs C _ IH]; cbn [run_checks]; auto.
  - unfold check_val. rewrite C, Z.eqb_refl. exact IH.
  - unfold check_str. rewrite C, bytes_eqb_refl. exact IH.
  - unfold check_ast. destruct C as [[-> _]|[N E]]; [exact IH|]. destruct (_ =? 0); auto.
    replace (f o =? 0) with false by lia. rewrite E. exact IH.
Qed.
Lemma specs_loop_copy s o : n_arr s = n_arr o -> forall k idx, 0 <= idx -> idx + Z.of_nat k <= SPECS_CAP ->
  specs_loop k s o idx = Done true.
Proof.
  intros A. induction k as [|k IH]; intros idx L R; auto. cbn [specs_loop]. unfold arr_at. rewrite A.
  replace ((0 <=? idx) && (idx <? SPECS_CAP)) with true by lia. cbn [rbind]. rewrite Z.eqb_refl. apply IH; lia.
Qed.

(** one fuel for many comparisons *)
Definition enough (h : heap) (F : nat) (x y : Z) : Prop := forall f, (F <= f)%nat -> code_is_equal f h x y = Done true.
Lemma enough_all h la lb : Forall2 (fun x y => exists F, enough h F x y) la lb -> exists F, Forall2 (enough h F) la lb.
Proof.
  induction 1 as [|x y la lb [F E] _ [G IH]]; [exists O; constructor|]. exists (Nat.max F G). constructor.
  - intros f L. apply E. lia.
  - eapply f2_impl; [|exact IH]. intros ? ? H f L. apply H. lia.
Qed.
Definition slot_enough (h : heap) (F : nat) (x y : Z) : Prop := (x = 0 /\ y = 0) \/ (y <> 0 /\ enough h F x y).
Lemma slot_more h F G x y : (F <= G)%nat -> slot_enough h F x y -> slot_enough h G x y.
Proof. intros L [H|[N H]]; [now left|right]. split; auto. intros f K. apply H. lia. Qed.

Ltac all_in := repeat (apply Forall_cons; [cbn [In]; repeat first [left; reflexivity | right]|]); apply Forall_nil.
Lemma plain_copy_valid d h x y : plain_copy d h x y -> valid h x /\ valid h y.
Proof. destruct d; [intros []|]. intros (A & B & _). auto. Qed.
Lemma p30_copy d : forall h a b, plain_copy d h a b -> exists F, enough h F a b.
Proof.
  induction d as [|d IH]; intros h a b H; [contradiction|]. cbn [plain_copy] in H.
  destruct H as (Va & Vb & T & FL & NM & _ & NU & AR & S1 & S2 & S3 & S4 & S5 & S6 & ND & NP & NB & SP & BD).
  assert (SL : forall x y, (x = 0 /\ y = 0) \/ plain_copy d h x y -> exists F, slot_enough h F x y).
  { intros x y [Z|P]; [exists O; now left|]. destruct (IH _ _ _ P) as [F E]. exists F. right. split; auto.
    apply plain_copy_valid in P as [_ V]. unfold valid in V. lia. }
  destruct (SL _ _ S1) as [F1 E1], (SL _ _ S2) as [F2 E2], (SL _ _ S3) as [F3 E3], (SL _ _ S4) as [F4 E4],
    (SL _ _ S5) as [F5 E5], (SL _ _ S6) as [F6 E6].
  set (F := (F1 + F2 + F3 + F4 + F5 + F6)%nat).
  assert (M : forall f x y G, (F <= f)%nat -> (G <= F)%nat -> slot_enough h G x y ->
     (x = 0 /\ y = 0) \/ (y <> 0 /\ code_is_equal f h x y = Done true)).
  { intros f x y G L1 L2 [Z|[N E]]; [now left|right]. split; auto. apply E. lia. }
  assert (BODY : listed_body (n_type (h_node h a)) -> exists F, enough h F a b).
  { intros L. destruct (BD L) as (la & lb & A & B & C).
    destruct (enough_all h la lb) as [G E]; [eapply f2_impl; [|exact C]; intros; now apply IH|].
    exists (S (S (G + length la))). intros f Lf. destruct f as [|f]; [lia|]. cbn [code_is_equal].
    rewrite step_body by auto.
    destruct (body_chain _ _ _ A) as (CA & LA & _). destruct (body_chain _ _ _ B) as (CB & LB & _).
    assert (E' : Forall2 (fun x y => code_is_equal f h x y = Done true) la lb)
      by (eapply f2_impl; [|exact E]; intros ? ? X; apply X; lia).
    rewrite body_loop_copy with (lc := la) (lo := lb); auto; [|lia].
    unfold check_val. rewrite NU, Z.eqb_refl.
    assert (VB : forall y, In y lb -> y <> 0).
    { intros y I. destruct B as [(_ & _ & V & _) _]. destruct (V y I) as [V' _]. unfold valid in V'. lia. }
    assert (CK : forall x y k, (x = 0 /\ y = 0) \/ (y <> 0 /\ code_is_equal f h x y = Done true) ->
       check_ast (code_is_equal f h) x y k = k).
    { intros x y k [[-> _]|[N X]]; [reflexivity|]. unfold check_ast. destruct (x =? 0); auto.
      replace (y =? 0) with false by lia. now rewrite X. }
    rewrite LA, LB. rewrite CK; [apply CK|].
    - clear - E' VB. induction E' as [|x y la lb X Y IHE]; [now left|]. right.
      destruct Y as [|x2 y2 la lb X2 Y]; [cbn; split; [apply VB; now left|exact X]|].
      destruct IHE as [[_ Z]|IHE]; [intros; apply VB; now right| |exact IHE].
      exfalso. change (last (y2 :: lb) 0) with (last (y2 :: lb) 0) in Z.
      assert (In (last (y2 :: lb) 0) (y2 :: lb)).
      { clear. revert y2. induction lb as [|z lb IH]; intros; [now left|]. right. apply IH. }
      apply (VB 0); auto. right. rewrite <- Z at 1. assumption.
    - clear - E' VB CA CB. destruct E' as [|x y la lb X Y]; cbn [null_chain] in CA, CB; [left; auto|].
      destruct CA as (-> & _), CB as (-> & _). right. split; [apply VB; now left|exact X]. }
  assert (CH : forall cs, Forall (fun c => In c [Val n_flags; Val n_num; Str n_name; Ast n_attrs; Ast n_specs; Ast n_ret; Ast n_params; Ast n_body; Ast n_suffix]) cs ->
     forall f, (F <= f)%nat -> run_checks (code_is_equal f h) (h_node h a) (h_node h b) cs (Done true) = Done true).
  { intros cs HC f L. apply run_checks_copy. eapply Forall_impl; [|exact HC]. intros c I. cbn [In] in I.
    repeat match type of I with _ \/ _ => destruct I as [I|I] end; try contradiction; subst c; auto;
      (eapply M; [exact L| |eassumption]); unfold F; lia. }
  assert (GEN : (forall f, is_equal_step (S f) (code_is_equal f h) h a b =
       run_checks (code_is_equal f h) (h_node h a) (h_node h b) (checks (n_type (h_node h a))) (Done true)) -> exists F, enough h F a b).
  { intros G. exists (S F). intros f L. destruct f as [|f]; [lia|]. cbn [code_is_equal]. rewrite G. apply CH; [|lia].
    destruct (n_type (h_node h a)); cbn [checks]; all_in. }
  clear BD. assert (SS := fun f => step_same (S f) (code_is_equal f h) h a b Va Vb T).
  revert SS GEN BODY NP NB SP ND CH T.
  destruct (n_type (h_node h a)) eqn:K; intros SS GEN BODY NP NB SP ND CH T; try (apply GEN; intros f; rewrite SS; reflexivity); try (apply BODY; unfold listed_body; cbn [In]; repeat first [left; reflexivity | right]; fail);
    clear BODY GEN; cbn [enough].
  - exists (S F). intros f L. destruct f as [|f]; [lia|]. cbn [code_is_equal]. rewrite SS.
    specialize (NP eq_refl). replace (n_num (h_node h a) >? 1) with false by lia.
    apply CH; [|lia]. all_in.
  - now elim ND.
  - exists 1%nat. intros f L. destruct f as [|f]; [lia|]. cbn [code_is_equal]. rewrite SS.
    unfold check_str. rewrite NM, bytes_eqb_refl. destruct S5 as [[Z _]|P]; [now elim (NB eq_refl)|].
    apply plain_copy_valid in P as [P Q]. rewrite (get_valid _ _ P), (get_valid _ _ Q). reflexivity.
  - exists 1%nat. intros f L. destruct f as [|f]; [lia|]. cbn [code_is_equal]. rewrite SS.
    unfold check_val, check_str. rewrite NM, bytes_eqb_refl. rewrite NU, Z.eqb_refl.
    destruct (SP eq_refl) as [R _]. apply specs_loop_copy; auto; [lia|]. rewrite <- NU. unfold SPECS_CAP. cbn. lia.
Qed.

(** specifier lists *)
Lemma specs_loop_true s o : forall k idx, specs_loop k s o idx = Done true -> forall i, idx <= i < idx + Z.of_nat k ->
  nth (Z.to_nat i) (n_arr s) 0 = nth (Z.to_nat i) (n_arr o) 0.
Proof.
  induction k as [|k IH]; intros idx H i I; [lia|]. cbn [specs_loop] in H. unfold arr_at in H.
  destruct ((0 <=? idx) && (idx <? SPECS_CAP)); [|discriminate]. cbn [rbind] in H.
  destruct (_ =? _) eqn:E in H; [|discriminate].
  destruct (Z.eq_dec i idx) as [->|N]; [lia|]. apply (IH _ H). lia.
Qed.
Lemma specs_loop_total s o : forall k idx, 0 <= idx -> idx + Z.of_nat k <= SPECS_CAP ->
  exists r, specs_loop k s o idx = Done r.
Proof.
  induction k as [|k IH]; intros idx L R; [now exists true|]. cbn [specs_loop]. unfold arr_at.
  replace ((0 <=? idx) && (idx <? SPECS_CAP)) with true by lia. cbn [rbind].
  destruct (_ =? _); [apply IH; lia|now exists false].
Qed.
Lemma specs_ext s o : specs_ok s -> specs_ok o -> n_num s = n_num o ->
  (forall i, 0 <= i < n_num s -> nth (Z.to_nat i) (n_arr s) 0 = nth (Z.to_nat i) (n_arr o) 0) -> specs_of s = specs_of o.
Proof.
  intros [A1 A2] [B1 B2] N H. unfold specs_of. rewrite <- N. apply (nth_ext _ _ 0 0).
  - rewrite !firstn_length. lia.
  - intros i L. rewrite firstn_length in L. rewrite <- (Nat2Z.id i). 
    assert (X : forall l, (i < Z.to_nat (n_num s))%nat -> nth (Z.to_nat (Z.of_nat i)) (firstn (Z.to_nat (n_num s)) l) 0 = nth (Z.to_nat (Z.of_nat i)) l 0).
    { intros l Q. rewrite Nat2Z.id. rewrite <- (firstn_skipn (Z.to_nat (n_num s)) l) at 2.
      destruct (Nat.lt_ge_cases i (length l)).
      - rewrite app_nth1; auto. rewrite firstn_length. lia.
      - rewrite !nth_overflow; auto; rewrite ?app_length, firstn_length, ?skipn_length; lia. }
    rewrite !X by lia. apply H. lia.
Qed.
Lemma p30_specs f h a b : valid h a -> valid h b -> n_type (h_node h a) = CT_Specifiers -> n_type (h_node h b) = CT_Specifiers ->
  specs_ok (h_node h a) -> specs_ok (h_node h b) ->
  exists r, code_is_equal (S f) h a b = Done r /\
   (r = true <-> specs_of (h_node h a) = specs_of (h_node h b) /\ n_name (h_node h a) = n_name (h_node h b)).
Proof.
  intros Va Vb Ta Tb A B. cbn [code_is_equal]. rewrite step_same by congruence. rewrite Ta.
  unfold check_val, check_str. destruct (_ =? _) eqn:N.
  2:{ exists false. split; auto. split; [discriminate|]. intros [E _]. apply (f_equal (@length Z)) in E.
      unfold specs_of in E. rewrite !firstn_length in E. destruct A, B. lia. }
  apply Z.eqb_eq in N. destruct (bytes_eqb _ _) eqn:M.
  2:{ exists false. split; auto. split; [discriminate|]. intros [_ E]. apply bytes_eqb_eq in E. congruence. }
  apply bytes_eqb_eq in M. destruct (A) as [A1 A2].
  destruct (specs_loop_total (h_node h a) (h_node h b) (Z.to_nat (n_num (h_node h a))) 0) as [r R]; [lia|change SPECS_CAP with 14; lia|].
  exists r. rewrite R. split; auto. split.
  - intros ->. split; auto. apply specs_ext; auto. intros i I. apply (specs_loop_true _ _ _ _ R). lia.
  - intros [E _]. destruct r; auto. exfalso.
    assert (X : forall k idx, 0 <= idx -> idx + Z.of_nat k <= n_num (h_node h a) -> specs_loop k (h_node h a) (h_node h b) idx <> Done false).
    { induction k as [|k IH]; intros idx L1 L2; [discriminate|]. cbn [specs_loop]. unfold arr_at.
      replace ((0 <=? idx) && (idx <? SPECS_CAP)) with true by (change SPECS_CAP with 14; lia). cbn [rbind].
      replace (nth _ (n_arr (h_node h a)) 0 =? nth _ (n_arr (h_node h b)) 0) with true; [apply IH; lia|].
      symmetry. apply Z.eqb_eq.
      assert (Y : forall l, (Z.to_nat idx < Z.to_nat (n_num (h_node h a)))%nat -> nth (Z.to_nat idx) l 0 = nth (Z.to_nat idx) (firstn (Z.to_nat (n_num (h_node h a))) l) 0).
      { intros l Q. rewrite <- (firstn_skipn (Z.to_nat (n_num (h_node h a))) l) at 1.
        destruct (Nat.lt_ge_cases (Z.to_nat idx) (length l)).
        - rewrite app_nth1; auto. rewrite firstn_length. lia.
        - rewrite !nth_overflow; auto; rewrite ?app_length, firstn_length, ?skipn_length; lia. }
      rewrite (Y (n_arr (h_node h a))), (Y (n_arr (h_node h b))) by lia. unfold specs_of in E. rewrite <- N in E. now rewrite E. }
    apply (X _ 0) in R; auto; lia.
Qed.

(** ** what goes wrong *)
Lemma p30_params_self f h p : valid h p -> n_type (h_node h p) = CT_Parameters -> 1 < n_num (h_node h p) ->
  code_is_equal (S f) h p p = Done false.
Proof.
  intros V T N. cbn [code_is_equal]. rewrite step_same by auto. rewrite T. replace (n_num _ >? 1) with true by lia.
  cbn [params_loop]. rewrite (get_valid _ _ V). cbn [rbind]. rewrite bytes_eqb_refl. unfold valid in V.
  now replace (p =? 0) with false by lia.
Qed.
Lemma p30_owner_self f h d p : In n_params (parts_compared (n_type (h_node h d))) -> n_params (h_node h d) = p ->
  valid h p -> n_type (h_node h p) = CT_Parameters -> 1 < n_num (h_node h p) -> code_is_equal f h d d <> Done true.
Proof.
  intros I P V T N H. destruct (p30_parts _ _ _ _ _ H I) as [Z|[_ [f' E]]]; rewrite P in *.
  - unfold valid in V. lia.
  - destruct f'; [discriminate|]. rewrite p30_params_self in E; auto. discriminate.
Qed.
Lemma p30_contents f h a b : valid h a -> valid h b -> contents_ignored (n_type (h_node h a)) ->
  n_type (h_node h b) = n_type (h_node h a) -> code_is_equal (S f) h a b = Done true.
Proof.
  intros Va Vb C T. cbn [code_is_equal]. rewrite step_same by auto. unfold contents_ignored in C. cbn [In] in C.
  repeat match type of C with _ \/ _ => destruct C as [C|C] end; try contradiction; rewrite <- C; reflexivity.
Qed.
Lemma p30_ctor_names f h a b : valid h a -> valid h b -> n_type (h_node h a) = CT_Constructor -> n_type (h_node h b) = CT_Constructor ->
  n_ret (h_node h a) = 0 -> n_params (h_node h a) = 0 -> n_body (h_node h a) = 0 -> code_is_equal (S f) h a b = Done true.
Proof.
  intros Va Vb Ta Tb R P B. cbn [code_is_equal]. rewrite step_same by congruence. rewrite Ta. cbn [checks run_checks].
  unfold check_ast. rewrite R, P, B. reflexivity.
Qed.

(** ** body validation *)
Lemma validate_loop_false fuel bad h b e : validate_loop fuel bad h b e <> Done true.
Proof.
  induction fuel as [|fuel IH]; [discriminate|]. cbn [validate_loop].
  destruct (end_body h b); try discriminate. cbn [rbind]. destruct (e =? a); [discriminate|].
  destruct (get h e) eqn:G; try discriminate. cbn [rbind]. destruct (bad _); [discriminate|].
  unfold next_body. rewrite G. cbn [rbind]. exact IH.
Qed.
Lemma p31_never_true fuel h b : code_validate_body fuel h b <> Done true.
Proof.
  unfold code_validate_body. destruct (get h b) as [s| |] eqn:G; try discriminate. cbn [rbind].
  destruct (validated_kind _); [|discriminate]. unfold begin_body. rewrite G. cbn [rbind]. apply validate_loop_false.
Qed.
Lemma p31_table t e : (allowed_in t e -> exists bad, validated_kind t = Some bad /\ bad e = false) /\
                      (forbidden_in t e -> exists bad, validated_kind t = Some bad /\ bad e = true).
Proof.
  unfold allowed_in, forbidden_in, untyped_only, plain_body, not_untyped. cbn [In].
  split; intros [[H N]|[H N]]; repeat match type of H with _ \/ _ => destruct H as [H|H] end; try contradiction; subst t;
    cbn [validated_kind]; eexists; (split; [reflexivity|]); cbn [body_forbids In] in N.
  all: try (destruct e; try reflexivity; exfalso; try apply N; tauto).
  all: try (destruct e; try reflexivity; exfalso; repeat (destruct N as [N|N]; [discriminate|]); contradiction).
  all: try (subst e; reflexivity).
  all: try (unfold not_untyped; destruct (ct_eqb e CT_Untyped) eqn:X; [apply ct_eqb_eq in X; contradiction|reflexivity]).
Qed.
Lemma body_first h b c l : entries h b (c :: l) -> get h b = Done (h_node h b) /\ n_front (h_node h b) = c /\ valid h c /\
  end_body h b = Done (n_next (h_node h (last (c :: l) 0))).
Proof.
  intros (V & _ & C & _ & _ & F & B & _). assert (valid h (last (c :: l) 0)).
  { apply C. clear. revert c. induction l as [|x l IH]; intros; [now left|]. right. apply IH. }
  repeat split; auto; try apply C; try (now left). { now apply get_valid. }
  unfold end_body. rewrite (get_valid _ _ V). cbn [rbind]. rewrite B, get_valid by auto. reflexivity.
Qed.
Lemma p31_diverges h b c l fuel : body_of h b (c :: l) -> allowed_in (n_type (h_node h b)) (n_type (h_node h c)) ->
  code_validate_body fuel h b = NoFuel.
Proof.
  intros [E N] A. destruct (body_first _ _ _ _ E) as (G & F & V & EB). rewrite N in EB by discriminate.
  destruct (proj1 (p31_table _ _) A) as (bad & K & NB). unfold code_validate_body, begin_body. rewrite G. cbn [rbind].
  rewrite K, F. induction fuel as [|fuel IH]; [reflexivity|]. cbn [validate_loop]. rewrite EB. cbn [rbind].
  pose proof V as V'. unfold valid in V'. replace (c =? 0) with false by lia. rewrite (get_valid _ _ V). cbn [rbind].
  rewrite NB. unfold next_body. rewrite (get_valid _ _ V). cbn [rbind]. exact IH.
Qed.
Lemma p31_forbidden h b c l fuel : body_of h b (c :: l) -> forbidden_in (n_type (h_node h b)) (n_type (h_node h c)) ->
  code_validate_body (S fuel) h b = Done false.
Proof.
  intros [E N] A. destruct (body_first _ _ _ _ E) as (G & F & V & EB). rewrite N in EB by discriminate.
  destruct (proj2 (p31_table _ _) A) as (bad & K & NB). unfold code_validate_body, begin_body. rewrite G. cbn [rbind].
  rewrite K, F. cbn [validate_loop]. rewrite EB. cbn [rbind].
  pose proof V as V'. unfold valid in V'. replace (c =? 0) with false by lia. rewrite (get_valid _ _ V). cbn [rbind].
  now rewrite NB.
Qed.
Lemma p31_empty h b fuel : entries h b [] -> plain_body (n_type (h_node h b)) \/ untyped_only (n_type (h_node h b)) ->
  code_validate_body (S fuel) h b = Undefined.
Proof.
  intros (V & _ & _ & _ & _ & F & B & _) P. unfold code_validate_body, begin_body. rewrite (get_valid _ _ V). cbn [rbind].
  assert (exists bad, validated_kind (n_type (h_node h b)) = Some bad) as [bad ->].
  { unfold plain_body, untyped_only in P. cbn [In] in P.
    repeat match type of P with _ \/ _ => destruct P as [P|P] end; try contradiction; first [rewrite <- P|rewrite P]; cbn; eauto. }
  cbn [validate_loop]. unfold end_body. rewrite (get_valid _ _ V). cbn [rbind]. cbn [last] in B. rewrite B. reflexivity.
Qed.
Lemma p31_not_body h b fuel : valid h b -> ~ In (n_type (h_node h b))
    [CT_Class_Body; CT_Struct_Body; CT_Enum_Body; CT_Union_Body; CT_Export_Body; CT_Extern_Linkage; CT_Global_Body;
     CT_Function_Body; CT_Namespace_Body] -> code_validate_body fuel h b = Done false.
Proof.
  intros V N. unfold code_validate_body. rewrite (get_valid _ _ V). cbn [rbind]. cbn [In] in N.
  destruct (n_type (h_node h b)); try reflexivity; exfalso; apply N; tauto.
Qed.
