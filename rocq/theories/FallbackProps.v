(** C61: memory from the fallback allocator: aligned, disjoint, inside what heap() handed out, zeroed. *)
From Coq Require Import ZArith List Bool Lia ZifyBool ZifyNat.
From Verif Require Import Common MemModel AllocModel MemSpec FallbackModel FallbackSpec FallbackProofs.
Import ListNotations.
Open Scope Z_scope.

(** For every history of allocations and frees, whatever regions heap() hands out and however many buckets are opened:
    all blocks are aligned, inside one of the regions, and no two overlap. (The alignment is the default, the only one
    the library asks for; mixed alignments fail as in C01.) *)
Theorem c61_blocks : forall bs first fsz ops m m' b' live, 0 <= bs -> 0 <= fsz -> heap_ok bs first fsz ops -> sizes_in ops (fun s => 0 <= s) ->
  fb_run bs (m, fallback_init first fsz, []) ops = Ok (m', b', live) -> blocks_ok first fsz bs (fresh_of ops) live.
Proof. exact blocks. Qed.
Print Assumptions c61_blocks.
(** A new block is zeroed, and nothing else changes: what earlier blocks hold stays. *)
Theorem c61_contents_kept : forall bs first fsz ops s f m m1 b1 l1 m2 b2 p, 0 <= bs -> 0 <= fsz -> heap_ok bs first fsz (ops ++ [FAlloc s f]) -> sizes_in (ops ++ [FAlloc s f]) (fun s => 0 <= s) ->
  fb_run bs (m, fallback_init first fsz, []) ops = Ok (m1, b1, l1) -> fallback_alloc m1 b1 f bs s 16 = Ok (m2, b2, p) -> filled m1 m2 p 0 s.
Proof. exact alloc_zeroes. Qed.
Print Assumptions c61_contents_kept.
(** While heap() has memory, no request up to the bucket size fails, if the bucket size is a multiple of the alignment -
    also when the first bucket is empty, as it is with the default settings. *)
Theorem c61_never_fails : forall bs first fsz ops m, 0 <= bs -> 0 <= fsz -> (16 | bs) -> (16 | fsz) -> heap_ok bs first fsz ops -> sizes_in ops (fun s => 0 <= s <= bs) ->
  exists st, fb_run bs (m, fallback_init first fsz, []) ops = Ok st.
Proof.
  intros bs first fsz ops m B0 F0 DB DF H SZ. apply (never_fails bs first fsz (fresh_of ops) B0); auto.
  - destruct H as ((_ & _ & X) & _). exact X.
  - destruct H as (_ & X & _). eapply Forall_impl; [|exact X]. intros f (_ & _ & Y). exact Y.
  - discriminate.
  - apply start_inv; auto.
Qed.
Print Assumptions c61_never_fails.

(** ** what fails *)
(** A bucket size that is no multiple of 16: a request at the end of the bucket stops the program, although a new bucket
    would hold it (the test uses the size, the arena the rounded size). *)
Theorem c61_end_of_bucket_refuted : fb_run 100 (fun _ => 0, fallback_init 4096 100, []) [FAlloc 90 8192; FAlloc 3 8192] = Fatal /\
  (exists st, fb_run 100 (fun _ => 0, fallback_init 4096 100, []) [FAlloc 90 8192; FAlloc 30 8192] = Ok st).
Proof. split; [vm_compute; reflexivity|]. eexists. vm_compute. reflexivity. Qed.
Print Assumptions c61_end_of_bucket_refuted.
(** A request larger than the bucket size always stops the program. *)
Theorem c61_large_refuted : forall bs first fsz m s f ops st, bs < s -> 0 < f -> 0 <= bs -> f + bs + 16 <= 2 ^ 64 -> (16 | f) -> fb_run bs (m, fallback_init first fsz, []) ops = Ok st ->
  (forall x, In x (snd (fst st)) -> ar_size x < s /\ 0 <= ar_used x) -> fb_step bs st (FAlloc s f) = Fatal \/ fb_step bs st (FAlloc s f) = AssertFail.
Proof.
  intros bs first fsz m s f ops [[m1 b] l] L F0 B0 FB DF _ X. cbn [fst snd] in X. unfold fb_step, fallback_alloc, with_room. destruct b as [|last rest]; [right; reflexivity|]. left.
  destruct (X last (or_introl eq_refl)). replace (ar_used last + s >? ar_size last) with true by lia. unfold arena_alloc. cbn [arena_init_from_memory ar_used ar_size ar_start].
  assert (Q : 0 + align_forward_s64 s DEFAULT_ALIGNMENT > bs). { unfold align_forward_s64, DEFAULT_ALIGNMENT. rewrite (Z.rem_mod_nonneg s 16) by lia. rewrite Z.rem_mod_nonneg by (pose proof (Z.mod_pos_bound s 16); lia). pose proof (Z.mod_pos_bound (16 - s mod 16) 16). lia. }
  replace (0 + align_forward_s64 s DEFAULT_ALIGNMENT >? bs) with true by lia. reflexivity.
Qed.
Print Assumptions c61_large_refuted.
(** Shrinking writes the old size: the bytes behind the new, smaller block are overwritten. *)
Theorem c61_shrink_refuted : forall m b fresh fresh2 bs old old_size size m' b' p x, 0 < fresh2 -> 0 < old -> 0 <= size < old_size -> fresh2 + size <= x < fresh2 + old_size ->
  fallback_resize m b fresh fresh2 bs old old_size size = Ok (m', b', p) -> p = fresh2 /\ m' x = m (old + (x - fresh2)).
Proof.
  intros m b fresh fresh2 bs old old_size size m' b' p x F O L X E. unfold fallback_resize in E. destruct (with_room b fresh bs size); try discriminate. injection E as <- <- <-. split; auto.
  replace (negb (fresh2 =? 0) && negb (old =? 0)) with true by lia. unfold mem_copy. replace (fresh2 =? 0) with false by lia. unfold copy_region. replace ((fresh2 <=? x) && (x <? fresh2 + old_size)) with true by lia. reflexivity.
Qed.
Print Assumptions c61_shrink_refuted.

(** witnesses: an empty first bucket, then three blocks in two buckets *)
Definition some_allocs := [FAlloc 100 65536; FAlloc 30 131072; FFree 65536; FAlloc 200 262144].
Example c61_hypotheses_met : heap_ok 256 4096 0 some_allocs /\ sizes_in some_allocs (fun s => 0 <= s <= 256) /\
  exists m' b' live, fb_run 256 (fun _ => 7, fallback_init 4096 0, []) some_allocs = Ok (m', b', live) /\ live = [(262144, 200, 16); (65536 + 112, 30, 16); (65536, 100, 16)].
Proof.
  split; [|split].
  - unfold heap_ok, region_ok, apart. cbn. split; [split; [lia|]; split; [lia|]; exists 256; reflexivity|].
    split; [repeat constructor; try lia; [exists 4096|exists 8192|exists 16384]; reflexivity|]. split; [repeat constructor; lia|]. repeat constructor; lia.
  - intros s f [E|[E|[E|[E|[]]]]]; inversion E; lia.
  - eexists _, _, _. split; [vm_compute; reflexivity|reflexivity].
Qed.
