From Coq Require Import ZArith List Bool Lia ZifyBool ZifyNat.
From Verif Require Import HashtableModel HashtableSpec HashtableProofs.
Import ListNotations.
Open Scope Z_scope.

(** ** the single-precision threshold *)
Lemma round24_bound z : 0 < z -> z - z / 2 ^ 23 <= round24 z /\ round24 z <= z + z / 2 ^ 23.
Proof.
  intros Hz. unfold round24. set (e := Z.max 0 (Z.log2 z - 23)).
  assert (He : 0 <= e) by (unfold e; lia).
  assert (H2 : 0 < 2 ^ e) by (apply Z.pow_pos_nonneg; lia).
  pose proof (Z.div_mod z (2 ^ e) ltac:(lia)) as Hdm. pose proof (Z.mod_pos_bound z (2 ^ e) H2) as Hm.
  assert (Hpow : e = 0 \/ 2 ^ e <= z / 2 ^ 23).
  { unfold e. destruct (Z.le_gt_cases (Z.log2 z) 23) as [H|H]; [left; lia|right].
    replace (Z.max 0 (Z.log2 z - 23)) with (Z.log2 z - 23) by lia.
    apply Z.div_le_lower_bound; [lia|]. rewrite <- Z.pow_add_r by lia.
    replace (23 + (Z.log2 z - 23)) with (Z.log2 z) by lia. apply Z.log2_spec. auto. }
  pose proof (Z.div_pos z (2 ^ 23) ltac:(lia) ltac:(lia)).
  set (q := z / 2 ^ e) in *. set (r := z mod 2 ^ e) in *.
  destruct Hpow as [E0|Hpow].
  - rewrite E0 in *. cbn [Z.pow] in *. change (2 ^ 0) with 1 in *. change (1 / 2) with 0.
    assert (r = 0) by lia. replace ((r >? 0) || ((r =? 0) && (0 <? 0) && Z.odd q)) with false by (rewrite H0; reflexivity). lia.
  - destruct ((r >? 2 ^ e / 2) || ((r =? 2 ^ e / 2) && (0 <? e) && Z.odd q)) eqn:E; nia.
Qed.
Lemma critical_ge_half n : 0 <= n -> n <= critical_load (2 * n + 8).
Proof.
  intros Hn. unfold critical_load. apply Z.div_le_lower_bound; [lia|].
  set (h := 2 * n + 8). assert (Hh : 8 <= h) by (unfold h; lia).
  destruct (round24_bound h ltac:(lia)) as [H1 _].
  assert (D1 : h / 2 ^ 23 <= h - 8 * (h / 2 ^ 23)). { pose proof (Z.mul_div_le h (2 ^ 23) ltac:(lia)). pose proof (Z.div_pos h (2 ^ 23) ltac:(lia) ltac:(lia)). lia. }
  assert (P1 : 100 * h <= 101 * round24 h). { pose proof (Z.mul_div_le h (2 ^ 23) ltac:(lia)). pose proof (Z.div_pos h (2 ^ 23) ltac:(lia) ltac:(lia)). lia. }
  set (r := round24 h) in *.
  destruct (round24_bound (11744051 * r) ltac:(lia)) as [H2 _].
  pose proof (Z.mul_div_le (11744051 * r) (2 ^ 23) ltac:(lia)). pose proof (Z.div_pos (11744051 * r) (2 ^ 23) ltac:(lia) ltac:(lia)).
  unfold h in *. lia.
Qed.

Section P.
Context {V : Type}.
Variable dflt : V.

Lemma grow_spec (t : table V) : WF t -> exists t', ht_grow V dflt t = Some t' /\ WF t' /\ kv t' = kv t /\ ht_full t' = false.
Proof.
  intros HW. destruct (rehash_spec dflt t (2 * Z.of_nat (length (entries t)) + 8) HW ltac:(lia)) as (t' & E & HW' & Hnh & Hkv).
  exists t'. split; auto. split; auto. split; auto.
  unfold ht_full. fold (nh t'). rewrite Hnh. rewrite <- (kv_len t'), Hkv, kv_len.
  pose proof (critical_ge_half (Z.of_nat (length (entries t))) ltac:(lia)). lia.
Qed.
Lemma set_spec (t : table V) k v : WF t -> exists t', ht_set V dflt t k v = Some t' /\ WF t' /\ kv t' = aset (kv t) k v /\ ht_full t' = false.
Proof.
  intros HW. unfold ht_set.
  assert (exists t0, (if ht_full t then ht_grow V dflt t else Some t) = Some t0 /\ WF t0 /\ kv t0 = kv t) as (t0 & -> & HW0 & Hkv0).
  { destruct (ht_full t); [|eauto]. destruct (grow_spec t HW) as (t' & -> & ? & ? & _). eauto. }
  cbn [bindo]. destruct (set_core dflt t0 k v HW0) as (t3 & E3 & HW3 & Hnh3 & Hkv3).
  assert (Hb : forall (f : find_result -> option (table V * Z)) (g : table V -> option (table V)),
     bindo (ht_find t0 k) (fun r => bindo (f r) (fun '(t2, idx) => bindo (set_entry t2 idx (with_val v)) g)) =
     bindo (bindo (ht_find t0 k) (fun r => bindo (f r) (fun '(t2, idx) => set_entry t2 idx (with_val v)))) g).
  { intros f g. destruct (ht_find t0 k); cbn [bindo]; auto. destruct (f f0) as [[? ?]|]; auto. }
  rewrite Hb, E3. cbn [bindo]. destruct (ht_full t3) eqn:Ef.
  - destruct (grow_spec t3 HW3) as (t' & -> & ? & ? & ?). exists t'. split; auto. split; auto. split; [congruence|auto].
  - exists t3. split; auto. split; auto. split; [congruence|auto].
Qed.

Definition denotes (t : table V) (f : Z -> option V) : Prop := WF t /\ forall k, alookup (kv t) k = f k.
Lemma step_denotes t f o : denotes t f -> ht_op_wf o -> exists t', ht_step V dflt t o = Some t' /\ denotes t' (map_step f o) /\
  match o with HSet _ _ => ht_full t' = false | _ => True end.
Proof.
  intros [HW Hf] Hwf. destruct o as [k v| |k| |n]; cbn [ht_step map_step].
  - destruct (set_spec t k v HW) as (t' & -> & HW' & Hkv & Hfull). exists t'. split; auto. split; auto. split; auto.
    intros x. rewrite Hkv, aset_lookup, Hf. auto.
  - destruct (clear_WF t HW) as (H1 & H2 & _). eexists. split; [reflexivity|]. split; [split; [auto|intros x; rewrite H2; auto]|auto].
  - destruct (remove_spec t k HW) as (t' & -> & HW' & _ & _ & H). exists t'. split; auto. split; auto. split; auto.
    intros x. rewrite H, Hf. auto.
  - destruct (grow_spec t HW) as (t' & -> & HW' & Hkv & _). exists t'. split; auto. split; auto. split; auto. intros x. rewrite Hkv. auto.
  - destruct (rehash_spec dflt t n HW Hwf) as (t' & -> & HW' & _ & Hkv). exists t'. split; auto. split; auto. split; auto. intros x. rewrite Hkv. auto.
Qed.
Lemma run_denotes ops : forall t f, denotes t f -> Forall ht_op_wf ops ->
  exists t', ht_run V dflt t ops = Some t' /\ denotes t' (map_run f ops).
Proof.
  induction ops as [|o ops IH]; intros t f HD HF.
  - exists t. auto.
  - inversion HF; subst. destruct (step_denotes t f o HD) as (t1 & E & HD1 & _); auto.
    destruct (IH t1 _ HD1) as (t' & E' & HD'); auto. exists t'. split; auto.
    unfold ht_run in *. cbn [fold_left bindo]. rewrite E. auto.
Qed.
Lemma init_denotes n : 0 < n -> denotes (ht_init_reserve V n) (fun _ => None).
Proof. intros Hn. split; [apply init_WF; auto|]. auto. Qed.
Lemma p11 n ops : 0 < n -> Forall ht_op_wf ops -> exists t, ht_run V dflt (ht_init_reserve V n) ops = Some t /\
  forall k, ht_get t k = Some (map_run (fun _ => None) ops k).
Proof.
  intros Hn HF. destruct (run_denotes ops _ _ (init_denotes n Hn) HF) as (t & E & HW & H).
  exists t. split; auto. intros k. rewrite ht_get_spec by auto. rewrite lookup_kv. fold (kv t). rewrite H. auto.
Qed.
Lemma p12_chain n ops t : 0 < n -> Forall ht_op_wf ops -> ht_run V dflt (ht_init_reserve V n) ops = Some t ->
  forall b h, at_ (hashes t) b = Some h -> exists l, chain (entries t) h l /\ NoDup l /\
    (forall i, In i l <-> exists e, at_ (entries t) i = Some e /\ e_key e mod Z.of_nat (length (hashes t)) = b).
Proof.
  intros Hn HF E b h Hb. destruct (run_denotes ops _ _ (init_denotes n Hn) HF) as (t' & E' & HW & _).
  rewrite E in E'. injection E' as <-. destruct HW as [(Hnh & _ & HC) _].
  exists (bucket (nh t) (keys t) (length (entries t)) b). split; [apply HC; auto|]. split; [apply bucket_nodup|].
  intros i. rewrite bucket_in. fold (nh t). split.
  - intros [Hi Hm]. destruct (at_in (entries t) i Hi) as [e He]. exists e. split; auto. rewrite <- (keys_at t i e He). auto.
  - intros (e & He & Hm). split; [apply (at_some _ _ _ He)|]. rewrite (keys_at t i e He). auto.
Qed.
Lemma p12_load n ops k v : 0 < n -> Forall ht_op_wf ops -> 0 <= k < 2 ^ 64 ->
  exists t, ht_run V dflt (ht_init_reserve V n) (ops ++ [HSet k v]) = Some t /\ ht_full t = false.
Proof.
  intros Hn HF Hk. destruct (run_denotes ops _ _ (init_denotes n Hn) HF) as (t & E & HD).
  destruct (step_denotes t _ (HSet k v) HD Hk) as (t' & E' & _ & Hfull). exists t'. split; auto.
  unfold ht_run in *. rewrite fold_left_app, E. exact E'.
Qed.
Lemma p12_map n ops t : 0 < n -> Forall ht_op_wf ops -> ht_run V dflt (ht_init_reserve V n) ops = Some t ->
  NoDup (map fst (ht_map_calls t)) /\ forall k v, In (k, v) (ht_map_calls t) <-> map_run (fun _ => None) ops k = Some v.
Proof.
  intros Hn HF E. destruct (run_denotes ops _ _ (init_denotes n Hn) HF) as (t' & E' & HW & H).
  rewrite E in E'. injection E' as <-. change (ht_map_calls t) with (kv t). destruct HW as [_ Hnd].
  rewrite <- kv_keys in Hnd. split; auto. intros k v. rewrite <- H. clear -Hnd. unfold alookup.
  induction (kv t) as [|[a b] l IH]; cbn; [split; [easy|discriminate]|].
  inversion Hnd as [|? ? Hni Hnd']; subst. destruct (a =? k) eqn:Ea; cbn.
  - apply Z.eqb_eq in Ea. subst a. split.
    + intros [Heq|Hin]; [congruence|]. exfalso. apply Hni. apply (in_map fst) in Hin. auto.
    + intros [= ->]. auto.
  - rewrite <- IH by auto. split; [|auto]. intros [Heq|?]; auto. exfalso. injection Heq as -> ->. lia.
Qed.
End P.
