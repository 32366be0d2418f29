From Coq Require Import ZArith List Bool Lia ZifyBool ZifyNat Permutation.
From Verif Require Import Common CommonProofs MemModel AllocModel MemSpec MemProofs MemFindProofs AllocProofs.
Import ListNotations.
Open Scope Z_scope.

Lemma filled_of m m' dst c n :
  (forall x, m' x = if (dst <=? x) && (x <? dst + n) then c else m x) -> filled m m' dst c n.
Proof.
  intros H. split; intros x Hx; rewrite H.
  - replace ((dst <=? x) && (x <? dst + n)) with true by lia. auto.
  - replace ((dst <=? x) && (x <? dst + n)) with false by lia. auto.
Qed.

Lemma p01_desc start size lim ops m m' ar live :
    0 < start -> 0 <= size -> start + size + lim <= 2 ^ 64 ->
    descending start lim None ops ->
    arena_run (m, arena_init_from_memory start size, []) ops = Ok (m', ar, live) ->
    arena_ok start size live.
Proof. intros. eapply arena_run_ok; eauto. Qed.

Lemma p01_uniform start size a ops m m' ar live :
    0 < start -> 0 <= size -> is_power_of_two a = true -> (a | start) -> start + size + a <= 2 ^ 64 ->
    (forall o, In o ops -> o = AFreeAll \/ exists s, 0 <= s /\ o = AAlloc s a) ->
    arena_run (m, arena_init_from_memory start size, []) ops = Ok (m', ar, live) ->
    arena_ok start size live.
Proof.
  intros H1 H2 H3 H4 H5 H6 H7. eapply (p01_desc _ _ a); eauto. clear H7 H5.
  assert (G : forall cur, (cur = None \/ cur = Some a) -> descending start a cur ops).
  { induction ops as [|o r IH]; intros cur Hc; cbn; auto.
    destruct (H6 o (or_introl eq_refl)) as [->|(s & Hs & ->)].
    - apply IH; auto. intros; apply H6; now right.
    - repeat split; auto; try lia.
      + destruct Hc as [->| ->]; auto. apply Z.divide_refl.
      + apply IH; auto. intros; apply H6; now right. }
  apply G. auto.
Qed.

Lemma p01_effect m start size used sz a :
    0 < start -> 0 <= used <= size -> 0 <= sz -> is_power_of_two a = true ->
    start + size + a <= 2 ^ 64 -> (a | start + used) ->
    let ar := {| ar_start := start; ar_size := size; ar_used := used |} in
    exists tot, least_multiple_ge sz a tot /\
    if used + tot <=? size then
      exists m', arena_alloc m ar sz a =
                 Ok (m', {| ar_start := start; ar_size := size; ar_used := used + tot |}, start + used) /\
                 filled m m' (start + used) 0 sz
    else arena_alloc m ar sz a = Fatal.
Proof.
  intros H1 H2 H3 H4 H5 H6 ar. exists ((sz + a - 1) / a * a).
  assert (Ha : 0 < a). { apply is_pow2_spec in H4 as (k & Hk & ->). apply Z.pow_pos_nonneg; lia. }
  split; [apply align_up_least; auto|].
  destruct (arena_alloc_ok start size a H1 H5 m ar sz a eq_refl eq_refl H2 H3 H4 ltac:(lia) H6)
    as [[Hgt E]|[Hle (m' & E & Hm')]]; cbn [ar_used ar] in *.
  - replace (used + (sz + a - 1) / a * a <=? size) with false by lia. exact E.
  - replace (used + (sz + a - 1) / a * a <=? size) with true by lia. exists m'. split; [exact E|].
    apply filled_of, Hm'.
Qed.

Lemma e01 : exists m' ar live,
  arena_run (fun _ => 7, arena_init_from_memory 4096 256, [])
    [AAlloc 16 16; AAlloc 5 16; AFreeAll; AAlloc 33 16; AAlloc 0 4; AAlloc 3 4; AAlloc 9 1] = Ok (m', ar, live) /\
  length live = 4%nat /\ descending 4096 16 None
    [AAlloc 16 16; AAlloc 5 16; AFreeAll; AAlloc 33 16; AAlloc 0 4; AAlloc 3 4; AAlloc 9 1].
Proof.
  eexists _, _, _. split; [reflexivity|]. split; [reflexivity|].
  cbn [descending]. repeat split; try lia; try (apply Z.mod_divide; [lia|reflexivity]).
Qed.

Lemma p01_refuted :
  exists start size ops m' ar live,
    arena_run (fun _ => 0, arena_init_from_memory start size, []) ops = Ok (m', ar, live) /\
    (forall s a, In (AAlloc s a) ops -> 0 <= s /\ is_power_of_two a = true /\ (a | start)) /\
    exists b1 b2, live = [b1; b2; (start, 4, 4)] /\ ~ disjoint b1 b2.
Proof.
  exists 4096, 64, [AAlloc 4 4; AAlloc 16 16; AAlloc 4 4]. eexists _, _, _.
  split; [reflexivity|]. split.
  - intros s a [E|[E|[E|[]]]]; injection E as <- <-; repeat split; try lia; apply Z.mod_divide; try lia; reflexivity.
  - eexists _, _. split; [reflexivity|]. cbn. lia.
Qed.

Lemma p01_oob :
  exists start size ops m' ar p s a live,
    arena_run (fun _ => 0, arena_init_from_memory start size, []) ops = Ok (m', ar, (p, s, a) :: live) /\
    (forall s a, In (AAlloc s a) ops -> 0 <= s /\ is_power_of_two a = true /\ (a | start)) /\
    p + s > start + size.
Proof.
  exists 4096, 20, [AAlloc 4 4; AAlloc 16 16]. eexists _, _, _, _, _, _.
  split; [reflexivity|]. split; [|vm_compute; auto].
  intros s a [E|[E|[]]]; injection E as <- <-; repeat split; try lia; apply Z.mod_divide; try lia; reflexivity.
Qed.

Section P02.
Variables (start num bsize balign : Z) (m0 : mem).
Hypothesis G : pool_geometry start num bsize balign.
Let stride := bsize + balign.

Lemma p02_block b : In b (blocks start num bsize balign) <-> is_pool_block start num bsize balign b.
Proof. destruct G as (?&?&?&?&?&?). apply blocks_in; auto. Qed.

Lemma p02_pinv ops st : pool_run (pool_start start num bsize balign m0) ops = Ok st -> PInv start num bsize balign st.
Proof. destruct G as (?&?&?&?&?&?). intros. eapply pool_reachable; eauto. Qed.
End P02.

Lemma p02_owned start num bsize balign m0 ops m p live :
    pool_geometry start num bsize balign ->
    pool_run (pool_start start num bsize balign m0) ops = Ok (m, p, live) ->
    NoDup live /\
    (forall b, In b live -> is_pool_block start num bsize balign b) /\
    (forall b, In b live -> start <= b /\ b + bsize <= start + num * (bsize + balign)) /\
    (forall b1 b2, In b1 live -> In b2 live -> b1 <> b2 -> b1 + bsize <= b2 \/ b2 + bsize <= b1).
Proof.
  intros G HR. apply p02_pinv in HR; auto. pose proof G as (?&?&?&?&?&?).
  apply PInv_live in HR as [Hnd Hin]; auto.
  split; auto. split; [intros; apply p02_block; auto|]. split.
  - intros b Hb. apply Hin in Hb. apply blocks_bound in Hb; auto. lia.
  - intros b1 b2 Hb1 Hb2 Hne. apply Hin in Hb1. apply Hin in Hb2.
    destruct (blocks_apart start num bsize balign ltac:(auto) ltac:(auto) b1 b2 Hb1 Hb2 Hne); lia.
Qed.

Lemma p02_alloc start num bsize balign m0 ops m p live :
    pool_geometry start num bsize balign ->
    pool_run (pool_start start num bsize balign m0) ops = Ok (m, p, live) ->
    (Z.of_nat (length live) = num /\ pool_alloc m p bsize balign = AssertFail) \/
    (Z.of_nat (length live) < num /\ exists m' p' b,
       pool_alloc m p bsize balign = Ok (m', p', b) /\ is_pool_block start num bsize balign b /\
       ~ In b live /\ filled m m' b 0 bsize).
Proof.
  intros G HR. apply p02_pinv in HR; auto. pose proof G as (?&?&?&?&?&?).
  eapply pool_alloc_spec in HR; auto. destruct HR as [HR|(Hlt & m' & p' & b & E & _ & Hb & Hn & Hm & _)]; [left; auto|right].
  split; auto. exists m', p', b. split; [auto|]. split; [apply p02_block; auto|]. split; [auto|]. apply filled_of, Hm.
Qed.

Lemma p02_free start num bsize balign m0 ops m p live b m1 p1 :
    pool_geometry start num bsize balign ->
    pool_run (pool_start start num bsize balign m0) ops = Ok (m, p, live) ->
    In b live -> pool_free_block m p b = (m1, p1) ->
    (forall c i, In c live -> c <> b -> 0 <= i < bsize -> m1 (c + i) = m (c + i)) /\
    exists m2 p2, pool_alloc m1 p1 bsize balign = Ok (m2, p2, b).
Proof.
  intros G HR Hb HF. pose proof (p02_owned _ _ _ _ _ _ _ _ _ G HR) as (Hnd & _).
  apply p02_pinv in HR; auto. pose proof G as (?&?&?&?&?&?).
  pose proof (PInv_live start num bsize balign ltac:(auto) ltac:(auto) ltac:(auto) _ _ _ HR) as [_ Hin].
  destruct (pool_free_inv start num bsize balign ltac:(auto) ltac:(auto) ltac:(auto) ltac:(auto) m p live b m1 p1 HR Hb HF)
    as (HI & Hfree & Hfr).
  split.
  - intros c i Hc Hne Hi. apply Hfr.
    destruct (blocks_apart start num bsize balign ltac:(auto) ltac:(auto) c b (Hin c Hc) (Hin b Hb) Hne); lia.
  - eapply pool_alloc_spec in HI; auto. destruct HI as [[Hlen _]|(_ & m' & p' & b' & E & -> & _)].
    + exfalso. pose proof (remove_length_lt Z.eq_dec live b Hb).
      pose proof (NoDup_incl_length Hnd Hin). pose proof (blocks_len start num bsize balign ltac:(auto)). lia.
    + rewrite Hfree in E. eauto.
Qed.

Lemma p02_clear_aux start num bsize balign : pool_geometry start num bsize balign ->
  forall k m p live, PInv start num bsize balign (m, p, live) ->
  Z.of_nat (length live) + Z.of_nat k = num ->
  exists m' p' live', pool_run (m, p, live) (repeat (PAlloc bsize balign) k) = Ok (m', p', live') /\
    PInv start num bsize balign (m', p', live') /\ Z.of_nat (length live') = num.
Proof.
  intros G. pose proof G as (?&?&?&?&?&?). induction k as [|k IH]; intros m p live HI Hlen.
  - exists m, p, live. split; auto. split; auto. lia.
  - cbn [repeat pool_run pool_step].
    pose proof HI as HI0. eapply pool_alloc_spec in HI0; auto.
    destruct HI0 as [[? _]|(_ & m' & p' & b & -> & _ & _ & _ & _ & HI')]; [lia|].
    apply IH; auto. cbn [length]. lia.
Qed.

Lemma p02_clear start num bsize balign m0 ops m p live o :
    pool_geometry start num bsize balign ->
    pool_run (pool_start start num bsize balign m0) ops = Ok (m, p, live) ->
    o = PFreeAll \/ o = PClear ->
    exists st', pool_step (m, p, live) o = Ok st' /\
    exists m' p' live', pool_run st' (repeat (PAlloc bsize balign) (Z.to_nat num)) = Ok (m', p', live') /\
      NoDup live' /\ forall b, In b live' <-> is_pool_block start num bsize balign b.
Proof.
  intros G HR Ho. pose proof G as (?&?&?&?&?&?). apply p02_pinv in HR; auto.
  assert (exists mm pp, pool_step (m, p, live) o = Ok (mm, pp, [])) as (mm & pp & Es).
  { destruct Ho as [->| ->]; cbn; eauto. }
  exists (mm, pp, []). split; auto.
  eapply (pool_step_inv start num bsize balign) in Es; eauto.
  destruct (p02_clear_aux start num bsize balign G (Z.to_nat num) mm pp [] Es) as (m' & p' & live' & E & HI & Hlen).
  { cbn. lia. }
  exists m', p', live'. split; auto.
  eapply PInv_live in HI as [Hnd Hin]; auto. split; auto.
  intros b. rewrite <- p02_block by auto. split; auto.
  apply NoDup_length_incl; auto. pose proof (blocks_len start num bsize balign ltac:(auto)). lia.
Qed.

Lemma e02 : pool_geometry 4096 3 32 16 /\
  exists m p, pool_run (pool_start 4096 3 32 16 (fun _ => 9))
    [PAlloc 32 16; PAlloc 32 16; PWrite 4096 7 255; PFree 4096; PAlloc 32 16; PAlloc 32 16] =
    Ok (m, p, [4192; 4096; 4144]).
Proof.
  split; [unfold pool_geometry; lia|].
  match goal with |- exists m p, ?R = _ =>
    assert (H : match R with Ok (_, _, l) => l | _ => [] end = [4192; 4096; 4144]) by (vm_compute; reflexivity);
    destruct R as [[[m p] l]| |]; [|discriminate H..] end.
  subst l. eauto.
Qed.

Lemma p03_align p k : 0 <= p -> 0 <= k -> p + 2 ^ k - 1 < 2 ^ 64 ->
  exists q, align_forward p (2 ^ k) = Some q /\ least_multiple_ge p (2 ^ k) q.
Proof.
  intros. eexists. split; [apply align_forward_eq; auto|]. apply align_up_least, Z.pow_pos_nonneg; lia.
Qed.
Lemma p03_s64 v a : 0 < a -> least_multiple_ge v a (align_forward_s64 v a).
Proof.
  intros Ha. destruct (Z_le_gt_dec 0 v) as [Hv|Hv].
  - rewrite align_s64_eq by auto. apply align_up_least; auto.
  - unfold align_forward_s64. pose proof (Z.quot_rem' v a) as Hq. pose proof (Z.rem_bound_pos_neg v a ltac:(lia) ltac:(lia)) as Hr.
    set (r := Z.rem v a) in *. set (q := v ÷ a) in *.
    assert (E : Z.rem (a - r) a = - r).
    { destruct (Z.eq_dec r 0) as [->|Hn].
      - rewrite Z.sub_0_r, Z.rem_same by lia. reflexivity.
      - rewrite Z.rem_mod_nonneg by lia. replace (a - r) with (- r + 1 * a) by lia.
        rewrite Z.mod_add by lia. apply Z.mod_small. lia. }
    rewrite E. split; [exists q; lia|]. split; [lia|].
    intros m [k Hk] Hm. subst m. assert (q - 1 < k) by (apply (Zmult_lt_reg_r _ _ a); lia). nia.
Qed.

Lemma p04 m dst c n : dst <> 0 -> 0 <= c < 256 -> 0 <= n ->
  exists m', mem_set m dst c n = Some m' /\ filled m m' dst c n.
Proof.
  intros H1 H2 H3. destruct (mem_set_correct m dst c n H1 H2 H3) as (m' & E & H). exists m'. split; auto.
  apply filled_of, H.
Qed.
Lemma p04_null m c n : mem_set m 0 c n = Some m.
Proof. reflexivity. Qed.

Lemma p05 m dst src n : byte_mem m -> 0 <= n -> dst <> 0 ->
  exists m', mem_move m dst src n = Some m' /\ moved_bytes m m' dst src n.
Proof.
  intros H1 H2 H3. destruct (mem_move_correct m dst src n H1 H2 H3) as (m' & E & H). exists m'. split; auto.
  split.
  - intros i Hi. rewrite H. replace ((dst <=? dst + i) && (dst + i <? dst + n)) with true by lia. f_equal. lia.
  - intros x Hx. rewrite H. replace ((dst <=? x) && (x <? dst + n)) with false by lia. auto.
Qed.
Lemma e05 : byte_mem (fun x => x mod 256) /\
  exists m', mem_move (fun x => x mod 256) 1003 995 50 = Some m' /\ m' 1003 = 995 mod 256 /\ m' 1052 = 1044 mod 256.
Proof.
  split; [intros x; apply Z.mod_pos_bound; lia|]. eexists. split; [reflexivity|]. vm_compute. auto.
Qed.
Lemma e07 :
  let al := fun (m : mem) n (_ : Z) => (fun x => if (9000 <=? x) && (x <? 9000 + n) then 0 else m x, 9000) in
  let fr := fun (m : mem) (_ : Z) => m in
  exists m', default_resize_align al fr (fun x => x mod 256) 1000 20 64 16 = Some (m', 9000) /\ m' 9019 = 1019 mod 256
  /\ (forall n, let '(m1, p) := al (fun x => x mod 256) n 16 in
     byte_mem m1 /\ (p = 0 \/ ((p + n <= 1000 \/ 1000 + 20 <= p) /\
       forall x, ~ (p <= x < p + n) -> m1 x = x mod 256))).
Proof.
  cbv zeta. eexists. split; [reflexivity|]. split; [vm_compute; auto|].
  intros n. split.
  - intros x. destruct (_ && _); [lia|]. apply Z.mod_pos_bound. lia.
  - right. split; [lia|]. intros x Hx. replace ((9000 <=? x) && (x <? 9000 + n)) with false by lia. auto.
Qed.

(** who frees what: the old block is freed exactly once, after the copy, and never when the call fails *)
Lemma p07_frees al fr m old old_size new_size a :
  byte_mem m -> old <> 0 -> 0 <= old_size -> byte_mem (fst (al m new_size a)) ->
  exists m' p, default_resize_align al fr m old old_size new_size a = Some (m', p) /\    (new_size = 0 -> p = 0 /\ m' = fr m old) /\    (old_size < new_size -> new_size <> 0 -> p = snd (al m new_size a) /\       (p = 0 -> m' = fst (al m new_size a)) /\       (p <> 0 -> exists m2, m' = fr m2 old /\ forall i, 0 <= i < old_size -> m2 (p + i) = fst (al m new_size a) (old + i))).
Proof.
  intros Hm Hold Hos Hb1. unfold default_resize_align. replace (old =? 0) with false by lia.
  destruct (new_size =? 0) eqn:E0.
  { eexists _, _. split; [reflexivity|]. split; [auto|intros; lia]. }
  cbv zeta. destruct (new_size <? old_size) eqn:E1.
  { rewrite Z.eqb_refl. eexists _, _. split; [reflexivity|]. split; intros; lia. }
  destruct (old_size =? new_size) eqn:E2.
  { eexists _, _. split; [reflexivity|]. split; intros; lia. }
  destruct (al m new_size a) as [m1 p]. cbn [fst snd] in *.
  destruct (p =? 0) eqn:Ep.
  { eexists _, _. split; [reflexivity|]. split; [intros; lia|]. intros _ _. split; [lia|]. split; [auto|intros; lia]. }
  rewrite Z.min_r by lia.
  destruct (mem_move_correct m1 p old old_size Hb1 Hos) as (m2 & -> & Hm2); [lia|].
  eexists _, _. split; [reflexivity|]. split; [intros; lia|]. intros _ _. split; [reflexivity|]. split; [intros; lia|].
  intros _. exists m2. split; [reflexivity|]. intros i Hi. rewrite Hm2. replace ((p <=? p + i) && (p + i <? p + old_size)) with true by lia. f_equal. lia.
Qed.
