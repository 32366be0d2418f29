(** Proofs for C41, continued: more fuel does not change a result; the text of a body is the
    concatenation of the texts of its entries, whatever they are. *)
From Coq Require Import String ZArith List Bool Lia ZifyBool ZifyNat.
From Verif Require Import Common Text ArrayModel StrOpsModel EnumModel EnumSpec AstModel AstSpec SerModel SerSpec SerProofs SerProofs2 SerProofs3.
Import ListNotations.
Close Scope string_scope.
Open Scope Z_scope.

Definition le {A} (r r' : run A) : Prop := r = NoFuel \/ r = r'.
Lemma le_refl {A} (r : run A) : le r r. Proof. right. reflexivity. Qed.
Lemma le_nofuel {A} (r : run A) : le NoFuel r. Proof. left. reflexivity. Qed.
Lemma le_bind {A B} (r r' : run A) (f f' : A -> run B) : le r r' -> (forall a, le (f a) (f' a)) -> le (rbind r f) (rbind r' f').
Proof. intros [->| ->] H; [left; reflexivity|]. destruct r'; cbn [rbind]; [apply H|right; reflexivity|right; reflexivity]. Qed.
Lemma le_cat rs rs' : Forall2 le rs rs' -> le (cat rs) (cat rs').
Proof. induction 1 as [|r r' rs rs' H _ IH]; [apply le_refl|]. cbn [cat]. apply le_bind; [exact H|intros a]. apply le_bind; [exact IH|intros b; apply le_refl]. Qed.
Lemma le_next h : forall k k' f f' c, (k <= k')%nat -> (forall x, le (f x) (f' x)) -> le (next_loop k h f c) (next_loop k' h f' c).
Proof.
  induction k as [|k IH]; intros k' f f' c Hk Hf; [apply le_nofuel|]. destruct k' as [|k']; [lia|]. cbn [next_loop]. destruct (c =? 0); [apply le_refl|].
  apply le_bind; [apply Hf|intros a]. apply le_bind; [apply le_refl|intros n]. apply le_bind; [apply IH; [lia|exact Hf]|intros b; apply le_refl].
Qed.
Lemma le_body h rec rec' : (forall f c, le (rec f c) (rec' f c)) -> forall k c, le (body_loop rec h k c) (body_loop rec' h k c).
Proof.
  intros H. induction k as [|k IH]; intros c; [apply le_refl|]. cbn [body_loop]. apply le_bind; [apply H|intros a]. apply le_bind; [apply le_refl|intros n]. apply le_bind; [apply IH|intros b; apply le_refl].
Qed.

Section Mono.
Variables (h : heap) (rec rec' : fn -> Z -> run (list Z)) (lf lf' : nat).
Hypothesis Hrec : forall f c, le (rec f c) (rec' f c).
Hypothesis Hlf : (lf <= lf')%nat.
Ltac mono := repeat match goal with
  | |- le ?a ?a => apply le_refl
  | |- le NoFuel _ => apply le_nofuel
  | |- le (rec _ _) (rec' _ _) => apply Hrec
  | |- le (rbind _ _) (rbind _ _) => apply le_bind; [|intros]
  | |- le (cat _) (cat _) => apply le_cat
  | |- Forall2 _ (_ :: _) (_ :: _) => constructor
  | |- Forall2 _ [] [] => constructor
  | |- le (next_loop _ _ _ _) (next_loop _ _ _ _) => apply le_next; [exact Hlf|intros]
  | |- le (body_loop _ _ _ _) (body_loop _ _ _ _) => apply le_body; exact Hrec
  | |- le (if ?b then _ else _) _ => destruct b
  | |- le (match ?x with _ => _ end) _ => destruct x
  end.
Lemma step_mono f c : le (ser_step rec lf h f c) (ser_step rec' lf' h f c).
Proof.
  destruct f; cbn [ser_step]; unfold code_ref, body_to, typename_ref, params_ref, define_params_ref, specifiers_ref, var_ref, body_ref, body_export,
    class_def, class_fwd, ctor_def, ctor_fwd, ctor_head, dtor_def, dtor_fwd, enum_def, enum_fwd, enum_class_def, enum_class_fwd, extern_to, friend_ref, fn_def, fn_fwd,
    fn_sig, params_close, suffix_specs, module_ref, namespace_ref, op_def, op_fwd, opcast_def, opcast_fwd, define_ref, struct_def, struct_fwd, template_ref, typedef_ref,
    union_def, union_fwd, using_ref, using_ns, var_arrays, var_init, in_braces, in_braces_nl, array_exprs; mono.
  all: unfold var_arrays, var_init, array_exprs; mono.
  all: unfold array_exprs, params_close; mono.
Qed.
End Mono.
Lemma serialize_mono h : forall m m' f c, (m <= m')%nat -> le (serialize m h f c) (serialize m' h f c).
Proof.
  induction m as [|m IH]; intros m' f c H; [apply le_nofuel|]. destruct m' as [|m']; [lia|]. cbn [serialize]. apply step_mono; [|lia]. intros f' c'. apply IH. lia.
Qed.
Lemma p41_fuel h m m' f c r : serialize m h f c = r -> r <> NoFuel -> (m <= m')%nat -> serialize m' h f c = r.
Proof. intros E Nr H. destruct (serialize_mono h m m' f c H) as [Z|Z]; congruence. Qed.
Lemma p41_one_text h m m' f c t u : serialize m h f c = Done t -> serialize m' h f c = Done u -> t = u.
Proof.
  intros A B. destruct (Nat.le_ge_cases m m') as [H|H].
  - apply (p41_fuel h m m' f c _ A) in H; congruence.
  - apply (p41_fuel h m' m f c _ B) in H; congruence.
Qed.

(** the entries of a body: [cs] are the nodes reached from [c] over Next *)
Inductive chain_texts (h : heap) : Z -> list (list Z) -> Prop :=
| chain_nil c : chain_texts h c []
| chain_cons c m t ts : code_to_strbuilder m h c = Done t -> valid h c -> chain_texts h (n_next (h_node h c)) ts -> chain_texts h c (t :: ts).
Lemma chain_ok h : forall ts c, chain_texts h c ts -> exists k, forall m, (k <= m)%nat -> body_loop (serialize m h) h (List.length ts) c = Done (concat ts).
Proof.
  induction ts as [|t ts IH]; intros c H; inversion H; subst.
  - exists 0%nat. reflexivity.
  - destruct (IH _ H5) as (k & Hk). exists (m + k)%nat. intros m' Hm. cbn [List.length body_loop concat].
    unfold code_to_strbuilder in H2. rewrite (p41_fuel _ _ m' _ _ _ H2) by (first [discriminate|lia]). cbn [rbind]. rewrite get_valid by assumption. cbn [rbind]. rewrite Hk by lia. reflexivity.
Qed.
Lemma p41_body h b ts : kind_is h b body_kinds -> n_num (h_node h b) = Z.of_nat (List.length ts) -> chain_texts h (n_front (h_node h b)) ts ->
  exists k, forall m, (k <= m)%nat -> code_to_strbuilder m h b = Done (concat ts) /\ body_to_strbuilder m h b = Done (concat ts).
Proof.
  intros (Vb & K) Nm C. destruct (chain_ok h ts _ C) as (k & Hk). exists (S k). intros m Hm. destruct m as [|m]; [lia|].
  assert (R : body_ref (serialize m h) h (h_node h b) = Done (concat ts)).
  { unfold body_ref. rewrite Nm. replace (Z.of_nat (List.length ts) <? 0) with false by lia. rewrite Nat2Z.id. apply Hk. lia. }
  unfold code_to_strbuilder, body_to_strbuilder. cbn [serialize ser_step]. unfold code_ref, body_to. rewrite get_valid by assumption. cbn [rbind].
  split; kinds K; exact R.
Qed.
(** an export body never finishes: its loop starts at the body itself *)
Lemma p41_export h b : valid h b -> n_type (h_node h b) = CT_Export_Body -> 1 <= n_num (h_node h b) -> forall m, code_to_strbuilder m h b = NoFuel.
Proof.
  intros Vb T Nm. induction m as [|m IH]; [reflexivity|]. unfold code_to_strbuilder in *. cbn [serialize ser_step]. unfold code_ref. rewrite get_valid by assumption. cbn [rbind]. rewrite T.
  unfold body_export. replace (n_num (h_node h b) <? 0) with false by lia. destruct (Z.to_nat (n_num (h_node h b))) as [|k] eqn:E; [lia|]. cbn [cat body_loop]. rewrite IH. reflexivity.
Qed.
