(** Property theorems C01-C07 (memory routines and allocators). *)
From Coq Require Import ZArith List Bool Lia.
From Verif Require Import Common CommonProofs MemModel AllocModel MemSpec MemProofs MemFindProofs AllocProofs MemPropProofs.
Import ListNotations.
Open Scope Z_scope.

(** *** C01 *)
(** Any history in which, between FREE_ALLs, each requested alignment divides the previous one. *)
Theorem c01_arena_descending_alignment_partial :
  forall start size lim ops m m' ar live,
    0 < start -> 0 <= size -> start + size + lim <= 2 ^ 64 ->
    descending start lim None ops ->
    arena_run (m, arena_init_from_memory start size, []) ops = Ok (m', ar, live) ->
    arena_ok start size live.
Proof. exact p01_desc. Qed.
Print Assumptions c01_arena_descending_alignment_partial.

(** The most common use: every request has the same alignment, any sizes, any FREE_ALLs. *)
Theorem c01_arena_uniform_alignment_partial :
  forall start size a ops m m' ar live,
    0 < start -> 0 <= size -> is_power_of_two a = true -> (a | start) -> start + size + a <= 2 ^ 64 ->
    (forall o, In o ops -> o = AFreeAll \/ exists s, 0 <= s /\ o = AAlloc s a) ->
    arena_run (m, arena_init_from_memory start size, []) ops = Ok (m', ar, live) ->
    arena_ok start size live.
Proof. exact p01_uniform. Qed.
Print Assumptions c01_arena_uniform_alignment_partial.

(** A block that is handed out is zeroed, nothing else changes, and the request fails (FATAL)
    exactly when the rounded size does not fit. *)
Theorem c01_arena_alloc_effect :
  forall m start size used sz a,
    0 < start -> 0 <= used <= size -> 0 <= sz -> is_power_of_two a = true ->
    start + size + a <= 2 ^ 64 -> (a | start + used) ->
    let ar := {| ar_start := start; ar_size := size; ar_used := used |} in
    exists tot, least_multiple_ge sz a tot /\
    if used + tot <=? size then
      exists m', arena_alloc m ar sz a =
                 Ok (m', {| ar_start := start; ar_size := size; ar_used := used + tot |}, start + used) /\
                 filled m m' (start + used) 0 sz
    else arena_alloc m ar sz a = Fatal.
Proof. exact p01_effect. Qed.
Print Assumptions c01_arena_alloc_effect.

Example c01_hypotheses_met : exists m' ar live,
  arena_run (fun _ => 7, arena_init_from_memory 4096 256, [])
    [AAlloc 16 16; AAlloc 5 16; AFreeAll; AAlloc 33 16; AAlloc 0 4; AAlloc 3 4; AAlloc 9 1] = Ok (m', ar, live) /\
  length live = 4%nat /\ descending 4096 16 None
    [AAlloc 16 16; AAlloc 5 16; AFreeAll; AAlloc 33 16; AAlloc 0 4; AAlloc 3 4; AAlloc 9 1].
Proof. exact e01. Qed.

(** With mixed alignments the padding inserted by align_forward is not accounted for: two live blocks
    overlap, and a block can extend past the end of the arena. *)
Theorem c01_arena_mixed_alignment_refuted :
  exists start size ops m' ar live,
    arena_run (fun _ => 0, arena_init_from_memory start size, []) ops = Ok (m', ar, live) /\
    (forall s a, In (AAlloc s a) ops -> 0 <= s /\ is_power_of_two a = true /\ (a | start)) /\
    exists b1 b2, live = [b1; b2; (start, 4, 4)] /\ ~ disjoint b1 b2.
Proof. exact p01_refuted. Qed.
Print Assumptions c01_arena_mixed_alignment_refuted.

Theorem c01_arena_out_of_bounds_refuted :
  exists start size ops m' ar p s a live,
    arena_run (fun _ => 0, arena_init_from_memory start size, []) ops = Ok (m', ar, (p, s, a) :: live) /\
    (forall s a, In (AAlloc s a) ops -> 0 <= s /\ is_power_of_two a = true /\ (a | start)) /\
    p + s > start + size.
Proof. exact p01_oob. Qed.
Print Assumptions c01_arena_out_of_bounds_refuted.

(** *** C02 *)
Theorem c02_pool_owned_blocks :
  forall start num bsize balign m0 ops m p live,
    pool_geometry start num bsize balign ->
    pool_run (pool_start start num bsize balign m0) ops = Ok (m, p, live) ->
    NoDup live /\
    (forall b, In b live -> is_pool_block start num bsize balign b) /\
    (forall b, In b live -> start <= b /\ b + bsize <= start + num * (bsize + balign)) /\
    (forall b1 b2, In b1 live -> In b2 live -> b1 <> b2 -> b1 + bsize <= b2 \/ b2 + bsize <= b1).
Proof. exact p02_owned. Qed.
Print Assumptions c02_pool_owned_blocks.

Theorem c02_pool_alloc :
  forall start num bsize balign m0 ops m p live,
    pool_geometry start num bsize balign ->
    pool_run (pool_start start num bsize balign m0) ops = Ok (m, p, live) ->
    (Z.of_nat (length live) = num /\ pool_alloc m p bsize balign = AssertFail) \/
    (Z.of_nat (length live) < num /\ exists m' p' b,
       pool_alloc m p bsize balign = Ok (m', p', b) /\ is_pool_block start num bsize balign b /\
       ~ In b live /\ filled m m' b 0 bsize).
Proof. exact p02_alloc. Qed.
Print Assumptions c02_pool_alloc.

(** Freeing an owned block leaves all other owned blocks' bytes unchanged and the next
    allocation returns precisely the freed block. *)
Theorem c02_pool_free_then_alloc :
  forall start num bsize balign m0 ops m p live b m1 p1,
    pool_geometry start num bsize balign ->
    pool_run (pool_start start num bsize balign m0) ops = Ok (m, p, live) ->
    In b live -> pool_free_block m p b = (m1, p1) ->
    (forall c i, In c live -> c <> b -> 0 <= i < bsize -> m1 (c + i) = m (c + i)) /\
    exists m2 p2, pool_alloc m1 p1 bsize balign = Ok (m2, p2, b).
Proof. exact p02_free. Qed.
Print Assumptions c02_pool_free_then_alloc.

(** After FREE_ALL or pool_clear, [num] allocations in a row succeed and give every block once. *)
Theorem c02_pool_clear_gives_all :
  forall start num bsize balign m0 ops m p live o,
    pool_geometry start num bsize balign ->
    pool_run (pool_start start num bsize balign m0) ops = Ok (m, p, live) ->
    o = PFreeAll \/ o = PClear ->
    exists st', pool_step (m, p, live) o = Ok st' /\
    exists m' p' live', pool_run st' (repeat (PAlloc bsize balign) (Z.to_nat num)) = Ok (m', p', live') /\
      NoDup live' /\ forall b, In b live' <-> is_pool_block start num bsize balign b.
Proof. exact p02_clear. Qed.
Print Assumptions c02_pool_clear_gives_all.

Example c02_hypotheses_met :
  pool_geometry 4096 3 32 16 /\
  exists m p, pool_run (pool_start 4096 3 32 16 (fun _ => 9))
    [PAlloc 32 16; PAlloc 32 16; PWrite 4096 7 255; PFree 4096; PAlloc 32 16; PAlloc 32 16] =
    Ok (m, p, [4192; 4096; 4144]).
Proof. exact e02. Qed.

(** *** C03 *)
Theorem c03_is_power_of_two : forall x, is_power_of_two x = true <-> exists k, 0 <= k /\ x = 2 ^ k.
Proof. exact is_pow2_spec. Qed.
Print Assumptions c03_is_power_of_two.

Theorem c03_align_forward : forall p k, 0 <= p -> 0 <= k -> p + 2 ^ k - 1 < 2 ^ 64 ->
  exists q, align_forward p (2 ^ k) = Some q /\ least_multiple_ge p (2 ^ k) q.
Proof. exact p03_align. Qed.
Print Assumptions c03_align_forward.

(** For every value, negative ones included; since the result is < v + a it stays in s64 range
    whenever v + a does. *)
Theorem c03_align_forward_s64 : forall v a, 0 < a -> least_multiple_ge v a (align_forward_s64 v a).
Proof. exact p03_s64. Qed.
Print Assumptions c03_align_forward_s64.

Example c03_hypotheses_met : align_forward 4097 16 = Some 4112 /\ align_forward_s64 33 16 = 48 /\ align_forward_s64 (-20) 16 = -16 /\ is_power_of_two 48 = false.
Proof. vm_compute. auto. Qed.

(** *** C04 *)
Theorem c04_mem_set : forall m dst c n, dst <> 0 -> 0 <= c < 256 -> 0 <= n ->
  exists m', mem_set m dst c n = Some m' /\ filled m m' dst c n.
Proof. exact p04. Qed.
Print Assumptions c04_mem_set.
Theorem c04_mem_set_null : forall m c n, mem_set m 0 c n = Some m.
Proof. exact p04_null. Qed.
Print Assumptions c04_mem_set_null.

Example c04_hypotheses_met : exists m', mem_set (fun x => x mod 256) 1003 170 77 = Some m' /\
  m' 1003 = 170 /\ m' 1079 = 170 /\ m' 1080 = 1080 mod 256 /\ m' 1002 = 1002 mod 256.
Proof. eexists. split; [reflexivity|]. vm_compute. auto. Qed.

(** *** C05 *)
Theorem c05_mem_move : forall m dst src n, byte_mem m -> 0 <= n -> dst <> 0 ->
  exists m', mem_move m dst src n = Some m' /\ moved_bytes m m' dst src n.
Proof. exact p05. Qed.
Print Assumptions c05_mem_move.

Example c05_hypotheses_met : byte_mem (fun x => x mod 256) /\
  exists m', mem_move (fun x => x mod 256) 1003 995 50 = Some m' /\ m' 1003 = 995 mod 256 /\ m' 1052 = 1044 mod 256.
Proof. exact e05. Qed.

(** *** C06 *)
Theorem c06_mem_find : forall m data c n, byte_mem m -> 0 <= c < 256 -> 0 <= n ->
  exists r, mem_find m data c n = Some r /\ first_occ m data c n r.
Proof. exact mem_find_correct. Qed.
Print Assumptions c06_mem_find.

Theorem c06_c_str_len_capped : forall m s n, byte_mem m -> 0 <= n ->
  exists k, c_str_len_capped m s n = Some k /\ 0 <= k <= n /\
    (forall i, 0 <= i < k -> m (s + i) <> 0) /\ (k < n -> m (s + k) = 0).
Proof. exact c_str_len_capped_correct. Qed.
Print Assumptions c06_c_str_len_capped.

Example c06_hypotheses_met : mem_find (fun x => x mod 256) 1003 130 500 = Some (Some 1154) /\
  mem_find (fun x => x mod 200) 1003 250 500 = Some None.
Proof. vm_compute. auto. Qed.

(** *** C07 *)
Theorem c07_default_resize : forall al fr m old old_size new_size a,
  byte_mem m -> old <> 0 -> 0 <= old_size ->
  (* assumption on the allocator: it returns NULL, or a block apart from the old one, changing only that block *)
  (forall n, let '(m1, p) := al m n a in
     byte_mem m1 /\ (p = 0 \/ ((p + n <= old \/ old + old_size <= p) /\
       forall x, ~ (p <= x < p + n) -> m1 x = m x))) ->
  (* assumption on free: it changes at most the freed block *)
  (forall mm x, ~ (old <= x < old + old_size) -> fr mm old x = mm x) ->
  exists m' p, default_resize_align al fr m old old_size new_size a = Some (m', p) /\
    (new_size = 0 -> p = 0) /\
    (0 < new_size <= old_size -> p = old /\ m' = m) /\
    (old_size < new_size -> p <> 0 -> forall i, 0 <= i < old_size -> m' (p + i) = m (old + i)) /\
    (old_size < new_size -> p <> 0 ->
       forall x, ~ (p <= x < p + new_size) -> ~ (old <= x < old + old_size) -> m' x = m x).
Proof. exact resize_correct. Qed.
Print Assumptions c07_default_resize.

(** Ownership: the old block is freed exactly when a new one took its contents (or the new size is 0),
    after the copy; when the allocator fails, nothing is freed. *)
Theorem c07_resize_frees_old_once : forall al fr m old old_size new_size a,
  byte_mem m -> old <> 0 -> 0 <= old_size -> byte_mem (fst (al m new_size a)) ->
  exists m' p, default_resize_align al fr m old old_size new_size a = Some (m', p) /\
    (new_size = 0 -> p = 0 /\ m' = fr m old) /\
    (old_size < new_size -> new_size <> 0 -> p = snd (al m new_size a) /\
       (p = 0 -> m' = fst (al m new_size a)) /\
       (p <> 0 -> exists m2, m' = fr m2 old /\ forall i, 0 <= i < old_size -> m2 (p + i) = fst (al m new_size a) (old + i))).
Proof. exact p07_frees. Qed.
Print Assumptions c07_resize_frees_old_once.

(** the allocator hypothesis is met by a bump allocator far above the old block, which zeroes *)
Example c07_hypotheses_met :
  let al := fun (m : mem) n (_ : Z) => (fun x => if (9000 <=? x) && (x <? 9000 + n) then 0 else m x, 9000) in
  let fr := fun (m : mem) (_ : Z) => m in
  exists m', default_resize_align al fr (fun x => x mod 256) 1000 20 64 16 = Some (m', 9000) /\ m' 9019 = 1019 mod 256
  /\ (forall n, let '(m1, p) := al (fun x => x mod 256) n 16 in
     byte_mem m1 /\ (p = 0 \/ ((p + n <= 1000 \/ 1000 + 20 <= p) /\
       forall x, ~ (p <= x < p + n) -> m1 x = x mod 256))).
Proof. exact e07. Qed.
