(** Proofs for FallbackModel.v. *)
From Coq Require Import ZArith List Bool Lia ZifyBool ZifyNat.
From Verif Require Import Common MemModel AllocModel MemSpec MemProps FallbackModel FallbackSpec.
Import ListNotations.
Open Scope Z_scope.

Section Run.
Variables (bs first fsz : Z) (all : list Z).
Hypothesis BS : 0 <= bs.

Definition bucket_ok (x : arena) : Prop :=
  0 <= ar_used x <= ar_size x /\ 0 < ar_start x /\ ar_start x + ar_size x + 16 <= 2 ^ 64 /\ (16 | ar_start x + ar_used x) /\
  ((ar_start x = first /\ ar_size x = fsz) \/ (In (ar_start x) all /\ ar_size x = bs)).
Definition buckets_apart (x y : arena) : Prop := apart (ar_size x) (ar_size y) (ar_start x) (ar_start y).
Definition lies_in (b : buckets) (k : block) : Prop :=
  let '(p, s, _) := k in (16 | p) /\ 0 <= s /\ exists x, In x b /\ ar_start x <= p /\ p + s <= ar_start x + ar_used x.
Definition INV (b : buckets) (live : list block) (ff : list Z) : Prop :=
  Forall bucket_ok b /\ ForallOrdPairs buckets_apart b /\ Forall (fun x => Forall (apart (ar_size x) bs (ar_start x)) ff) b /\
  Forall (fun f => region_ok bs f /\ In f all) ff /\ ForallOrdPairs (apart bs bs) ff /\ Forall (lies_in b) live /\ ForallOrdPairs disjoint live.

Lemma inv_drop b live f ff : INV b live (f :: ff) -> INV b live ff.
Proof.
  intros (H1 & H2 & H3 & H4 & H5 & H6 & H7). split; auto. split; auto. split; [|split; [exact (Forall_inv_tail H4)|split; [inversion H5; auto|auto]]].
  eapply Forall_impl; [|exact H3]. intros x X. exact (Forall_inv_tail X).
Qed.

(** one allocation from the last bucket *)
Lemma from_last m last rest live ff s m' last' p : INV (last :: rest) live ff -> 0 <= s -> arena_alloc m last s 16 = Ok (m', last', p) ->
  INV (last' :: rest) ((p, s, 16) :: live) ff.
Proof.
  intros (H1 & H2 & H3 & H4 & H5 & H6 & H7) S0 E. destruct last as [st sz us]. pose proof (Forall_inv H1) as (K1 & K2 & K3 & K4 & K5). cbn [ar_start ar_size ar_used] in *.
  destruct (c01_arena_alloc_effect m st sz us s 16 K2 K1 S0 eq_refl K3 K4) as (tot & (T1 & T2 & _) & R).
  destruct (us + tot <=? sz) eqn:F; [|congruence]. destruct R as (m1 & R & _). rewrite R in E. injection E as <- <- <-.
  pose proof (Forall_inv_tail H1) as H1'.
  split; [constructor; auto; split; cbn [ar_start ar_size ar_used]; [lia|split; auto; split; auto; split; [replace (st + (us + tot)) with ((st + us) + tot) by lia; apply Z.divide_add_r; auto|auto]]|].
  split; [inversion H2; subst; constructor; auto|]. split; [inversion H3; subst; constructor; auto|]. split; auto. split; auto.
  assert (OLD : forall k, lies_in ({| ar_start := st; ar_size := sz; ar_used := us |} :: rest) k -> lies_in ({| ar_start := st; ar_size := sz; ar_used := us + tot |} :: rest) k).
  { intros [[p' s'] a'] (A1 & A0 & x & I & A2 & A3). split; auto. split; auto. destruct I as [<-|I]; [|exists x; split; [right; auto|auto]]. cbn [ar_start ar_used] in *. eexists. split; [left; reflexivity|]. cbn [ar_start ar_used]. lia. }
  split.
  - constructor; [|eapply Forall_impl; [exact OLD|exact H6]]. split; auto. split; auto. eexists. split; [left; reflexivity|]. cbn [ar_start ar_used]. lia.
  - constructor; auto. apply Forall_forall. intros [[p' s'] a'] I. rewrite Forall_forall in H6. destruct (H6 _ I) as (A1 & A0 & x & IX & A2 & A3). cbn [disjoint].
    destruct IX as [<-|IX]; cbn [ar_start ar_used] in *; [lia|]. inversion H2 as [|? ? PA _]; subst. rewrite Forall_forall in PA. specialize (PA x IX). unfold buckets_apart, apart in PA. cbn [ar_start ar_size] in PA.
    rewrite Forall_forall in H1'. destruct (H1' x IX) as (B1 & _). lia.
Qed.
Lemma new_bucket b live f ff : INV b live (f :: ff) -> INV (arena_init_from_memory f bs :: b) live ff.
Proof.
  intros (H1 & H2 & H3 & H4 & H5 & H6 & H7). pose proof (Forall_inv H4) as ((R1 & R2 & R3) & RA).
  split; [constructor; auto; unfold bucket_ok; cbn [arena_init_from_memory ar_start ar_size ar_used]; split; [lia|]; split; [auto|]; split; [auto|]; split; [replace (f + 0) with f by lia; auto|right; auto]|].
  split; [constructor; auto; eapply Forall_impl; [|exact H3]; intros x X; pose proof (Forall_inv X) as Y; unfold buckets_apart, apart in *; cbn [arena_init_from_memory ar_start ar_size]; lia|].
  split; [constructor; [inversion H5; subst; auto|eapply Forall_impl; [|exact H3]; intros x X; exact (Forall_inv_tail X)]|].
  split; [exact (Forall_inv_tail H4)|]. split; [inversion H5; auto|]. split; auto.
  eapply Forall_impl; [|exact H6]. intros [[p s] a] (A1 & A0 & x & I & A). split; auto. split; auto. exists x. split; [right; auto|auto].
Qed.

Lemma run_inv more : forall ops m b live st', INV b live (fresh_of (ops ++ more)) -> sizes_in ops (fun s => 0 <= s) -> fb_run bs (m, b, live) ops = Ok st' ->
  exists m' b' live', st' = (m', b', live') /\ INV b' live' (fresh_of more).
Proof.
  induction ops as [|o r IH]; intros m b live st' I SZ E; [injection E as <-; exists m, b, live; auto|].
  assert (SZ' : sizes_in r (fun s => 0 <= s)) by (intros s f H; apply (SZ s f); right; auto).
  cbn [fb_run] in E. destruct o as [s f|p|]; cbn [fb_step] in E; [|exact (IH _ _ _ _ I SZ' E)|exact (IH _ _ _ _ I SZ' E)].
  change (fresh_of ((FAlloc s f :: r) ++ more)) with (f :: fresh_of (r ++ more)) in I. assert (S0 : 0 <= s) by (apply (SZ s f); left; auto).
  unfold fallback_alloc, with_room in E. destruct b as [|last rest]; [discriminate|]. change DEFAULT_ALIGNMENT with 16 in E.
  destruct (ar_used last + s >? ar_size last).
  - destruct (arena_alloc m (arena_init_from_memory f bs) s 16) as [[[m1 l1] p]| |] eqn:A; try discriminate.
    refine (IH _ _ _ _ _ SZ' E). refine (from_last _ _ _ _ _ _ _ _ _ _ S0 A). apply new_bucket. exact I.
  - destruct (arena_alloc m last s 16) as [[[m1 l1] p]| |] eqn:A; try discriminate.
    refine (IH _ _ _ _ _ SZ' E). refine (from_last _ _ _ _ _ _ _ _ _ _ S0 A). eapply inv_drop. exact I.
Qed.

(** the multiple of 16 above a size that fits a room that is a multiple of 16 fits it too *)
Lemma fits_rounded room s tot : (16 | room) -> s <= room -> least_multiple_ge s 16 tot -> tot <= room.
Proof. intros D L (_ & _ & M). apply M; auto. Qed.
Lemma never_fails : forall ops m b live, (16 | bs) -> (16 | fsz) -> (16 | first) -> Forall (fun f => (16 | f)) all -> b <> [] -> INV b live (fresh_of ops) -> sizes_in ops (fun s => 0 <= s <= bs) ->
  exists st', fb_run bs (m, b, live) ops = Ok st'.
Proof.
  intros ops m b live DB DF D1 DA. revert m b live. induction ops as [|o r IH]; intros m b live NE I SZ; [eexists; reflexivity|].
  assert (SZ' : sizes_in r (fun s => 0 <= s <= bs)) by (intros s f H; apply (SZ s f); right; auto).
  cbn [fb_run]. destruct o as [s f|p|]; cbn [fb_step]; [|apply IH; auto|apply IH; auto].
  change (fresh_of (FAlloc s f :: r)) with (f :: fresh_of r) in I. assert (S0 : 0 <= s <= bs) by (apply (SZ s f); left; auto).
  unfold fallback_alloc, with_room. destruct b as [|last rest]; [contradiction|]. change DEFAULT_ALIGNMENT with 16.
  assert (ONE : forall x rest live ff, INV (x :: rest) live ff -> ar_used x + s <= ar_size x -> exists m' x' p, arena_alloc m x s 16 = Ok (m', x', p)).
  { intros [st sz us] rs lv ff (H1 & _) FIT. pose proof (Forall_inv H1) as (K1 & K2 & K3 & K4 & K5). cbn [ar_start ar_size ar_used] in *.
    destruct (c01_arena_alloc_effect m st sz us s 16 K2 K1 (proj1 S0) eq_refl K3 K4) as (tot & T & R).
    assert (DS : (16 | st) /\ (16 | sz)). { destruct K5 as [(-> & ->)|(IN & ->)]; auto. rewrite Forall_forall in DA. auto. }
    assert (DU : (16 | sz - us)). { destruct DS as (X & Y). replace (sz - us) with (sz - ((st + us) - st)) by lia. apply Z.divide_sub_r; auto. apply Z.divide_sub_r; auto. }
    pose proof (fits_rounded (sz - us) s tot DU ltac:(lia) T). replace (us + tot <=? sz) with true in R by lia. destruct R as (m1 & R & _). eauto. }
  destruct (ar_used last + s >? ar_size last) eqn:F.
  - pose proof (new_bucket _ _ _ _ I) as I'. destruct (ONE _ _ _ _ I') as (m1 & x1 & p & A); [cbn; lia|]. rewrite A. apply IH; [discriminate| |auto]. exact (from_last _ _ _ _ _ _ _ _ _ I' (proj1 S0) A).
  - pose proof (inv_drop _ _ _ _ I) as I'. destruct (ONE _ _ _ _ I') as (m1 & x1 & p & A); [lia|]. rewrite A. apply IH; [discriminate| |auto]. exact (from_last _ _ _ _ _ _ _ _ _ I' (proj1 S0) A).
Qed.
End Run.

Lemma start_inv bs first fsz ops : 0 <= fsz -> heap_ok bs first fsz ops -> INV bs first fsz (fresh_of ops) (fallback_init first fsz) [] (fresh_of ops).
Proof.
  intros F0 ((R1 & R2 & R3) & H2 & H3 & H4). split; [constructor; auto; unfold bucket_ok; cbn; split; [lia|]; split; auto; split; auto; split; [replace (first + 0) with first by lia; auto|auto]|].
  split; [constructor; [constructor|constructor]|]. split; [constructor; [exact H3|constructor]|]. split; [|split; [auto|split; constructor]].
  rewrite Forall_forall in *. intros f I. auto.
Qed.
Lemma blocks bs first fsz ops m m' b' live : 0 <= bs -> 0 <= fsz -> heap_ok bs first fsz ops -> sizes_in ops (fun s => 0 <= s) ->
  fb_run bs (m, fallback_init first fsz, []) ops = Ok (m', b', live) -> blocks_ok first fsz bs (fresh_of ops) live.
Proof.
  intros B0 F0 H SZ E. destruct (run_inv bs first fsz (fresh_of ops) B0 [] ops m (fallback_init first fsz) [] (m', b', live)) as (m1 & b1 & l1 & EQ & I); [rewrite app_nil_r; exact (start_inv bs first fsz ops F0 H)|auto|auto|]. injection EQ as <- <- <-.
  destruct I as (H1 & _ & _ & _ & _ & H6 & H7). split; auto. intros p s a IN. rewrite Forall_forall in H6. destruct (H6 _ IN) as (A1 & _ & x & IX & A2 & A3). split; auto.
  rewrite Forall_forall in H1. destruct (H1 x IX) as (B1 & _ & _ & _ & [(C1 & C2)|(C1 & C2)]); [left; lia|right; exists (ar_start x); split; auto; lia].
Qed.
Lemma alloc_zeroes bs first fsz ops s f m m1 b1 l1 m2 b2 p : 0 <= bs -> 0 <= fsz -> heap_ok bs first fsz (ops ++ [FAlloc s f]) -> sizes_in (ops ++ [FAlloc s f]) (fun s => 0 <= s) ->
  fb_run bs (m, fallback_init first fsz, []) ops = Ok (m1, b1, l1) -> fallback_alloc m1 b1 f bs s 16 = Ok (m2, b2, p) -> filled m1 m2 p 0 s.
Proof.
  intros B0 F0 H SZ E A. assert (SZ' : sizes_in ops (fun s => 0 <= s)) by (intros x y I; apply (SZ x y); apply in_or_app; auto). assert (S0 : 0 <= s) by (apply (SZ s f); apply in_or_app; right; left; auto).
  destruct (run_inv bs first fsz (fresh_of (ops ++ [FAlloc s f])) B0 [FAlloc s f] ops m (fallback_init first fsz) [] (m1, b1, l1)) as (m' & b' & l' & EQ & I); [exact (start_inv bs first fsz _ F0 H)|auto|auto|]. injection EQ as <- <- <-.
  unfold fallback_alloc, with_room in A. destruct b1 as [|last rest]; [discriminate|].
  assert (ONE : forall x rest live ff m2 x' p, INV bs first fsz (fresh_of (ops ++ [FAlloc s f])) (x :: rest) live ff -> arena_alloc m1 x s 16 = Ok (m2, x', p) -> filled m1 m2 p 0 s).
  { clear - S0. intros [st sz us] rs lv ff m2 x' p (H1 & _) E. pose proof (Forall_inv H1) as (K1 & K2 & K3 & K4 & K5). cbn [ar_start ar_size ar_used] in *.
    destruct (c01_arena_alloc_effect m1 st sz us s 16 K2 K1 S0 eq_refl K3 K4) as (tot & T & R). destruct (us + tot <=? sz); [|congruence]. destruct R as (m3 & R & FL). rewrite R in E. injection E as <- _ <-. exact FL. }
  destruct (ar_used last + s >? ar_size last).
  - destruct (arena_alloc m1 (arena_init_from_memory f bs) s 16) as [[[m3 l3] p3]| |] eqn:AA; try discriminate. injection A as <- _ <-. exact (ONE _ _ _ _ _ _ _ (new_bucket _ _ _ _ B0 _ _ _ _ I) AA).
  - destruct (arena_alloc m1 last s 16) as [[[m3 l3] p3]| |] eqn:AA; try discriminate. injection A as <- _ <-. exact (ONE _ _ _ _ _ _ _ I AA).
Qed.
