From Coq Require Import ZArith List Bool Lia ZifyBool ZifyNat.
From Verif Require Import Common.
Import ListNotations.
Open Scope Z_scope.
Ltac Zify.zify_post_hook ::= Z.div_mod_to_equations.

Lemma while_inv {St} (Inv : St -> Prop) (measure : St -> Z) cond body :
  (forall s, Inv s -> cond s = true -> Inv (body s) /\ 0 <= measure (body s) < measure s) ->
  forall fuel s, Inv s -> (cond s = true -> measure s <= Z.of_nat fuel) ->
  exists s', while fuel cond body s = Some s' /\ Inv s' /\ cond s' = false.
Proof.
  intros Hstep fuel. induction fuel as [|f IH]; intros s Hs Hf; cbn [while].
  - destruct (cond s) eqn:E.
    + destruct (Hstep s Hs E). specialize (Hf eq_refl). lia.
    + exists s; auto.
  - destruct (cond s) eqn:E.
    + destruct (Hstep s Hs E) as [H1 H2]. apply IH; auto.
      intros _. specialize (Hf eq_refl). lia.
    + exists s; auto.
Qed.

Lemma store_le_spec n : forall m a v x,
  store_le n m a v x =
  if (a <=? x) && (x <? a + Z.of_nat n) then (v / 256 ^ (x - a)) mod 256 else m x.
Proof.
  induction n as [|n IH]; intros m a v x.
  - cbn [store_le]. destruct (a <=? x) eqn:?, (x <? a + Z.of_nat 0) eqn:?; cbn; auto; lia.
  - cbn [store_le]. rewrite IH. unfold store8.
    destruct (Z.eq_dec x a) as [->|Hne].
    + replace (a + 1 <=? a) with false by lia. cbn [andb]. rewrite Z.eqb_refl.
      replace (a <=? a) with true by lia. replace (a <? a + Z.of_nat (S n)) with true by lia.
      cbn [andb]. replace (a - a) with 0 by lia. rewrite Z.pow_0_r, Z.div_1_r. reflexivity.
    + replace (x =? a) with false by lia.
      destruct ((a + 1 <=? x) && (x <? a + 1 + Z.of_nat n)) eqn:E.
      * replace ((a <=? x) && (x <? a + Z.of_nat (S n))) with true by lia.
        replace (x - a) with (1 + (x - (a + 1))) by lia.
        rewrite Z.pow_add_r by lia. rewrite Z.pow_1_r.
        rewrite Z.div_div by lia. reflexivity.
      * replace ((a <=? x) && (x <? a + Z.of_nat (S n))) with false by lia. reflexivity.
Qed.

Lemma load_le_range n : forall m a, byte_mem m -> 0 <= load_le n m a < 256 ^ Z.of_nat n.
Proof.
  induction n as [|n IH]; intros m a Hm.
  - cbn. lia.
  - cbn [load_le]. specialize (IH m (a + 1) Hm). specialize (Hm a).
    rewrite Nat2Z.inj_succ, Z.pow_succ_r by lia. lia.
Qed.

Lemma load_le_byte n : forall m a i, byte_mem m -> 0 <= i < Z.of_nat n ->
  (load_le n m a / 256 ^ i) mod 256 = m (a + i).
Proof.
  induction n as [|n IH]; intros m a i Hm Hi; [lia|].
  cbn [load_le]. destruct (Z.eq_dec i 0) as [->|Hne].
  - rewrite Z.pow_0_r, Z.div_1_r. rewrite Z.mul_comm, Z.mod_add by lia.
    rewrite Z.add_0_r. apply Z.mod_small, Hm.
  - replace i with (1 + (i - 1)) by lia. rewrite Z.pow_add_r, Z.pow_1_r by lia.
    rewrite <- Z.div_div by lia.
    replace ((m a + 256 * load_le n m (a + 1)) / 256) with (load_le n m (a + 1)).
    2:{ pose proof (Hm a). rewrite Z.mul_comm, Z.div_add by lia. rewrite Z.div_small; lia. }
    rewrite IH by (auto; lia). f_equal; lia.
Qed.

Lemma load_le_ext n : forall m m' a, (forall i, 0 <= i < Z.of_nat n -> m (a + i) = m' (a + i)) ->
  load_le n m a = load_le n m' a.
Proof.
  induction n as [|n IH]; intros m m' a H; [reflexivity|]. cbn [load_le].
  rewrite (IH m m' (a + 1)). 2:{ intros i Hi. replace (a + 1 + i) with (a + (1 + i)) by lia. apply H. lia. }
  specialize (H 0). rewrite Z.add_0_r in H. rewrite H by lia. reflexivity.
Qed.

Lemma store8_byte m a v : byte_mem m -> byte_mem (store8 m a v).
Proof. intros H x. unfold store8. destruct (x =? a); [lia|apply H]. Qed.
Lemma store_le_bytes n m a v : byte_mem m -> byte_mem (store_le n m a v).
Proof.
  intros H x. rewrite store_le_spec. destruct (_ && _); [|apply H].
  apply Z.mod_pos_bound. lia.
Qed.

(** same-length word copy *)
Lemma copy_le_spec n m d s x : byte_mem m ->
  store_le n m d (load_le n m s) x =
  if (d <=? x) && (x <? d + Z.of_nat n) then m (s + (x - d)) else m x.
Proof.
  intros Hm. rewrite store_le_spec.
  destruct ((d <=? x) && (x <? d + Z.of_nat n)) eqn:E; [|reflexivity].
  rewrite load_le_byte by (auto; lia). reflexivity.
Qed.

(** finite sweep over 0 <= z < n *)
Definition zrange (n : nat) : list Z := map Z.of_nat (seq 0 n).
Lemma zrange_forallb n (f : Z -> bool) : forallb f (zrange n) = true ->
  forall z, 0 <= z < Z.of_nat n -> f z = true.
Proof.
  intros H z Hz. rewrite forallb_forall in H. apply H. unfold zrange.
  apply in_map_iff. exists (Z.to_nat z). split; [lia|]. apply in_seq. lia.
Qed.
