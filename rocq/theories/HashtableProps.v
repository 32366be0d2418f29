(** Property theorems C11, C12, C13 (hash table). *)
From Coq Require Import ZArith List Bool.
From Verif Require Import HashtableModel HashtableSpec HashtableProofs HashtablePropProofs.
Import ListNotations.
Open Scope Z_scope.

(** *** C11: any history of set / clear / remove / grow / rehash, starting from a table with any
    positive number of slots, runs without out-of-range access or endless walk, and get answers as a
    map does. *)
Theorem c11_hashtable_is_a_map : forall (V : Type) (dflt : V) n ops, 0 < n -> Forall ht_op_wf ops ->
  exists t, ht_run V dflt (ht_init_reserve V n) ops = Some t /\
    forall k, ht_get t k = Some (map_run (fun _ => None) ops k).
Proof. exact @p11. Qed.
Print Assumptions c11_hashtable_is_a_map.

(** hashtable_map visits exactly the bindings, each once *)
Theorem c11_hashtable_map_visits_all : forall (V : Type) (dflt : V) n ops t, 0 < n -> Forall ht_op_wf ops ->
  ht_run V dflt (ht_init_reserve V n) ops = Some t ->
  NoDup (map fst (ht_map_calls t)) /\
  forall k v, In (k, v) (ht_map_calls t) <-> map_run (fun _ => None) ops k = Some v.
Proof. exact @p12_map. Qed.
Print Assumptions c11_hashtable_map_visits_all.

Example c11_hypotheses_met :
  let ops := [HSet 3 10; HSet 11 20; HSet 19 30; HRemove 11; HSet 3 40; HSet 5 1; HSet 6 2; HSet 7 3; HSet 8 4; HSet 27 5] in
  Forall ht_op_wf ops /\
  option_map (fun t => (ht_get t 3, ht_get t 11, ht_get t 27, length (hashes t))) (ht_run Z 0 (ht_init_reserve Z 8) ops)
  = Some (Some (Some 40), Some None, Some (Some 5), 20%nat).
Proof. split; [repeat constructor; discriminate|vm_compute; reflexivity]. Qed.

(** *** C12 *)
(** from every slot the chain is finite, duplicate free and lists exactly the entries of that slot *)
Theorem c12_chains_finite : forall (V : Type) (dflt : V) n ops t, 0 < n -> Forall ht_op_wf ops ->
  ht_run V dflt (ht_init_reserve V n) ops = Some t ->
  forall b h, at_ (hashes t) b = Some h -> exists l, chain (entries t) h l /\ NoDup l /\
    (forall i, In i l <-> exists e, at_ (entries t) i = Some e /\ e_key e mod Z.of_nat (length (hashes t)) = b).
Proof. exact @p12_chain. Qed.
Print Assumptions c12_chains_finite.

(** after every set the table is below its load threshold (single-precision 0.7) *)
Theorem c12_load_bounded : forall (V : Type) (dflt : V) n ops k v, 0 < n -> Forall ht_op_wf ops -> 0 <= k < 2 ^ 64 ->
  exists t, ht_run V dflt (ht_init_reserve V n) (ops ++ [HSet k v]) = Some t /\
    Z.of_nat (length (entries t)) <= critical_load (Z.of_nat (length (hashes t))).
Proof.
  intros V dflt n ops k v Hn HF Hk. destruct (p12_load dflt n ops k v Hn HF Hk) as (t & E & H).
  exists t. split; [exact E|]. unfold ht_full in H. rewrite Z.gtb_ltb in H. apply Z.ltb_ge in H. exact H.
Qed.
Print Assumptions c12_load_bounded.

(** *** C13 *)
Theorem c13_remove : forall (V : Type) (dflt : V) n ops t k, 0 < n -> Forall ht_op_wf ops ->
  ht_run V dflt (ht_init_reserve V n) ops = Some t -> 0 <= k < 2 ^ 64 ->
  exists t', ht_remove t k = Some t' /\ ht_get t' k = Some None /\
    forall k', k' <> k -> ht_get t' k' = ht_get t k'.
Proof.
  intros V dflt n ops t k Hn HF E Hk.
  destruct (run_denotes dflt ops _ _ (init_denotes n Hn) HF) as (t1 & E' & HW & H).
  rewrite E in E'. injection E' as <-. destruct (remove_spec t k HW) as (t' & E2 & HW' & _ & _ & H2).
  exists t'. split; [exact E2|]. split.
  - rewrite ht_get_spec by exact HW'. rewrite lookup_kv. fold (kv t'). rewrite H2, Z.eqb_refl. reflexivity.
  - intros k' Hne. rewrite !ht_get_spec by assumption. rewrite !lookup_kv. fold (kv t') (kv t). rewrite H2.
    apply Z.eqb_neq in Hne. rewrite Hne. reflexivity.
Qed.
Print Assumptions c13_remove.

(** hashtable_remove_entry leaves the chains untouched: other keys become unreachable or wrong *)
Theorem c13_remove_entry_refuted : exists t t', ht_run Z 0 (ht_init_reserve Z 8) [HSet 1 100; HSet 2 200] = Some t /\
  ht_remove_entry t 0 = Some t' /\ ht_get t 2 = Some (Some 200) /\ ht_get t' 2 = None.
Proof. eexists _, _. vm_compute. repeat split; reflexivity. Qed.
Print Assumptions c13_remove_entry_refuted.
