From Coq Require Import String ZArith Znumtheory List Bool Lia ZifyBool ZifyNat.
From Verif Require Import Common CommonProofs MemModel MemSpec MemPropProofs AllocModel Text ArrayModel ArrayProofs HashtableModel HashtableSpec HashtableProofs HashtablePropProofs
  HashModel HashProofs StrOpsModel StrOpsSpec StrOpsProofs StrOpsProofs2 StrModel StrSpec StrProofs StrProofs2 InternModel InternSpec.
Import ListNotations.
Open Scope Z_scope.

Lemma fop_snoc {A} (R : A -> A -> Prop) l x : ForallOrdPairs R (l ++ [x]) <-> ForallOrdPairs R l /\ Forall (fun a => R a x) l.
Proof.
  induction l as [|a l IH]; cbn [app].
  - split; intros; [split; constructor|]. constructor; constructor.
  - split.
    + intros H. inversion H; subst. apply IH in H3 as [H4 H5]. apply Forall_app in H2 as [H6 H7]. inversion H7; subst. split; constructor; auto.
    + intros [H1 H2]. inversion H1; subst. inversion H2; subst. constructor; [apply Forall_app; auto|]. apply IH. auto.
Qed.
Lemma back_snoc {A} (l : list A) x : back (l ++ [x]) = Some x.
Proof. unfold back. rewrite app_length. cbn [length]. replace (length l + 1 - 1)%nat with (length l) by lia. rewrite nth_error_app2, Nat.sub_diag by lia. auto. Qed.
Lemma set_back_snoc {A} (l : list A) x y : set_back (l ++ [x]) y = l ++ [y].
Proof. unfold set_back. rewrite app_length. cbn [length]. replace (length l + 1 - 1)%nat with (length l) by lia. rewrite firstn_app, firstn_all, Nat.sub_diag. cbn [firstn]. rewrite app_nil_r. auto. Qed.

Definition aok (a : arena) : Prop :=
  0 < ar_start a /\ (16 | ar_start a) /\ (16 | ar_used a) /\ 0 <= ar_used a <= ar_size a /\ ar_start a + ar_size a + 16 <= 2 ^ 60.
Definition apart_arenas (a b : arena) : Prop := forall x, in_arena a x -> in_arena b x -> False.
Definition arenas_ok (l : list arena) : Prop := l <> [] /\ Forall aok l /\ ForallOrdPairs apart_arenas l.

(** what storing text [t] at builder address [s] does *)
Definition stored (m m1 : mem) (l l1 : list arena) (s : Z) (t : list Z) : Prop :=
  byte_mem m1 /\ arenas_ok l1 /\ is_builder m1 s t (zlen t) /\ terminated m1 s t /\
  (forall a x, In a l -> in_used a x -> m1 x = m x) /\
  (exists a1, In a1 l1 /\ forall x, s - 32 <= x <= s + zlen t -> in_used a1 x) /\
  (forall a x, In a l -> in_used a x -> ~ (s - 32 <= x <= s + zlen t)) /\
  (forall a, In a l -> exists a1, In a1 l1 /\ ar_start a1 = ar_start a /\ ar_size a1 = ar_size a /\ ar_used a <= ar_used a1).

Lemma alloc_in_last m pre last p t : byte_mem m -> arenas_ok (pre ++ [last]) -> 0 < p -> zlen t < 2 ^ 31 - 48 -> load_bytes m p (length t) = t ->
  (forall x, p <= x < p + zlen t -> ~ in_free last x) ->
  match bind (arena_alloc m last (to_s32 (SB_HEADER + zlen t + 1)) DEFAULT_ALIGNMENT) (fun '(m1, last', a) =>
        bind (of_run (strbuilder_make_length (fun _ _ => (m1, a)) m1 p (zlen t))) (fun '(m2, s) => Ok (m2, last', s))) with
  | Ok (m1, last', s) => stored m m1 (pre ++ [last]) (pre ++ [last']) s t
  | Fatal => forall q, (16 | q) -> zlen t + 33 <= q -> ar_size last - ar_used last < q
  | AssertFail => False
  end.
Proof.
  intros Bm (NE & FA & DI) Hp Hl Ht Hs. pose proof (zlen_nonneg t). apply Forall_app in FA as [FP FL]. inversion FL as [|? ? AL _]; subst.
  destruct AL as (A1 & A2 & A3 & A4 & A5). rewrite to_s32_id by (unfold SB_HEADER; lia). unfold DEFAULT_ALIGNMENT.
  destruct last as [st sz us]. cbn [ar_start ar_size ar_used] in *.
  destruct (p01_effect m st sz us (SB_HEADER + zlen t + 1) 16) as (tot & LM & HT); auto; try (unfold SB_HEADER; lia); try lia.
  { apply Z.divide_add_r; auto. }
  assert (TB : zlen t + 33 <= tot <= zlen t + 48 /\ (16 | tot)).
  { destruct LM as (D & L1 & L2). unfold SB_HEADER in L1, L2. split; [|auto]. split; [lia|].
    assert (M := Z.mod_pos_bound (zlen t + 33) 16 ltac:(lia)). assert (D2 := Z.div_mod (zlen t + 33) 16 ltac:(lia)).
    specialize (L2 (16 * ((zlen t + 33 + 15) / 16)) ltac:(exists ((zlen t + 33 + 15) / 16); lia)).
    assert (M2 := Z.mod_pos_bound (zlen t + 33 + 15) 16 ltac:(lia)). assert (D3 := Z.div_mod (zlen t + 33 + 15) 16 ltac:(lia)). lia. }
  destruct (us + tot <=? sz) eqn:E.
  - destruct HT as (m1 & -> & F1 & F2). cbn [bind]. unfold SB_HEADER in F1, F2.
    destruct (make_length_core m1 p t (fun _ _ => (m1, st + us)) m1 (st + us)) as (m2 & -> & B & T & FR); auto; try (unfold SB_HEADER; lia); try lia.
    + intros x. destruct (Z_lt_dec x (st + us)); [rewrite F2 by lia; apply Bm|]. destruct (Z_lt_dec x (st + us + (32 + zlen t + 1))); [rewrite F1 by lia; lia|rewrite F2 by lia; apply Bm].
    + etransitivity; [|exact Ht]. apply load_bytes_ext. intros x Hx. apply F2. specialize (Hs x ltac:(unfold zlen; lia)). unfold in_free in Hs. cbn in Hs. lia.
    + intros x Hx. specialize (Hs x Hx). unfold in_free in Hs. cbn in Hs. unfold SB_HEADER. lia.
    + cbn [of_run bind]. apply fop_snoc in DI as [DP DL]. rewrite Forall_forall in DL.
      split; [apply B|]. split.
      { split; [destruct pre; discriminate|]. split.
        - apply Forall_app. split; auto. constructor; auto. unfold aok; cbn. split; auto. split; auto. split; [apply Z.divide_add_r; tauto|]. lia.
        - apply fop_snoc. split; auto. rewrite Forall_forall. intros a Ha x H1 H2. apply (DL a Ha x H1 H2). }
      split; auto. split; auto. split; [|split; [|split]].
      * intros a x Ha Hx. assert (X : ~ (st + us <= x < st + us + (32 + zlen t + 1))).
        { intros Hx2. apply in_app_iff in Ha as [Ha|[<-|[]]]; [|unfold in_used in Hx; cbn in Hx; lia].
          rewrite Forall_forall in FP. destruct (FP a Ha) as (_ & _ & _ & U & _). apply (DL a Ha x); [unfold in_used in Hx; unfold in_arena; lia|unfold in_arena; cbn; lia]. }
        rewrite FR, F2 by lia. auto.
      * eexists. split; [apply in_app_iff; right; left; reflexivity|]. intros x Hx. unfold in_used. cbn. lia.
      * intros a x Ha Hx Hx2. apply in_app_iff in Ha as [Ha|[<-|[]]]; [|unfold in_used in Hx; cbn in Hx; lia].
        rewrite Forall_forall in FP. destruct (FP a Ha) as (_ & _ & _ & U & _). apply (DL a Ha x); [unfold in_used in Hx; unfold in_arena; lia|unfold in_arena; cbn; lia].
      * intros a Ha. apply in_app_iff in Ha as [Ha|[<-|[]]]; [exists a; split; [apply in_app_iff; auto|lia]|].
        eexists. split; [apply in_app_iff; right; left; reflexivity|]. cbn. lia.
  - rewrite HT. cbn. intros q Q1 Q2. destruct LM as (_ & _ & L2). unfold SB_HEADER in L2. specialize (L2 q Q1 ltac:(lia)). lia.
Qed.

Lemma stored_weaken m m0 m1 l l0 l1 s t : stored m m1 l l1 s t ->
  (forall a x, In a l0 -> in_used a x -> m x = m0 x) -> (forall a, In a l0 -> In a l) -> stored m0 m1 l0 l1 s t.
Proof.
  intros (B & A & IB & T & F & E & D & G) HM HI. split; auto. split; auto. split; auto. split; auto. split; [|split; [auto|split; [eauto|eauto]]].
  intros a x Ha Hx. rewrite (F a x (HI a Ha) Hx). apply (HM a x Ha Hx).
Qed.

Lemma make_str_ok bk m cx p t : byte_mem m -> arenas_ok (cx_arenas cx) -> load_bytes m p (length t) = t -> 0 <= cx_per_arena cx ->
  source_readable cx p (zlen t) -> backing_ok m cx p (zlen t) bk ->
  match make_str_in_arena bk m cx p (zlen t) with
  | Ok (m1, cx1, s) => exists l1, cx1 = set_arenas cx l1 /\ stored m m1 (cx_arenas cx) l1 s t
  | Fatal => cx_per_arena cx < zlen t + 48 \/ ~ (16 | cx_per_arena cx) \/ exists a, In a (cx_arenas cx) /\ ar_size a <> cx_per_arena cx
  | AssertFail => False
  end.
Proof.
  intros Bm AO Ht Hper (S1 & S2 & S3) BK. unfold make_str_in_arena, get_cached_str_allocator.
  destruct (exists_last (proj1 AO)) as (pre & last & EL). assert (IL : In last (cx_arenas cx)) by (rewrite EL; apply in_app_iff; right; left; auto).
  rewrite EL, back_snoc. cbn [bind]. assert (AL : aok last) by (destruct AO as (_ & F & _); rewrite Forall_forall in F; auto).
  destruct (ar_used last + (zlen t + 32 + 8) >? ar_size last) eqn:E.
  - unfold backing_ok in BK. destruct (bk m (cx_per_arena cx)) as [m1 a] eqn:EB. destruct BK as (B1 & K1 & K2 & K3 & K4 & K5). cbn [bind cx_arenas set_arenas]. rewrite back_snoc.
    set (fresh := arena_init_from_memory a (cx_per_arena cx)). destruct AO as (NE & FA & DI).
    assert (AO2 : arenas_ok ((pre ++ [last]) ++ [fresh])).
    { split; [destruct pre; discriminate|]. rewrite <- EL. split.
      - apply Forall_app. split; auto. constructor; auto. unfold aok, fresh; cbn. split; auto. split; auto. split; [exists 0; auto|]. lia.
      - apply fop_snoc. split; auto. rewrite Forall_forall. intros b Hb x H1 H2. apply (K5 b x Hb H1). exact H2. }
    assert (L1 : load_bytes m1 p (length t) = t).
    { etransitivity; [|exact Ht]. apply load_bytes_ext. intros x Hx. apply K4. unfold zlen. lia. }
    assert (FRE : forall x, p <= x < p + zlen t -> ~ in_free fresh x).
    { intros x Hx. destruct (K4 x Hx) as [_ N]. unfold in_free, fresh. cbn. lia. }
    pose proof (alloc_in_last m1 (pre ++ [last]) fresh p t B1 AO2 S1 ltac:(lia) L1 FRE) as H.
    destruct (arena_alloc m1 fresh (to_s32 (SB_HEADER + zlen t + 1)) DEFAULT_ALIGNMENT) as [[[m2 last'] a2]| |] eqn:EA; cbn [bind] in *; try contradiction.
    + destruct (strbuilder_make_length _ m2 p (zlen t)) as [[m3 s]| |] eqn:EM; cbn [of_run bind] in *; try contradiction.
      exists ((pre ++ [last]) ++ [last']). rewrite set_back_snoc. split; [reflexivity|]. rewrite <- EL in *. eapply stored_weaken; [exact H| |].
      * intros b x Hb Hx. apply (K5 b x Hb). rewrite Forall_forall in FA. destruct (FA b Hb) as (_ & _ & _ & U & _). unfold in_used in Hx. unfold in_arena. lia.
      * intros b Hb. apply in_app_iff. auto.
    + left. unfold fresh in H. cbn in H. specialize (H (16 * ((zlen t + 48) / 16)) ltac:(exists ((zlen t + 48) / 16); lia)).
      assert (M2 := Z.mod_pos_bound (zlen t + 48) 16 ltac:(lia)). assert (D3 := Z.div_mod (zlen t + 48) 16 ltac:(lia)). lia.
  - cbn [bind]. rewrite EL, back_snoc.
    pose proof (alloc_in_last m pre last p t Bm ltac:(rewrite <- EL; auto) S1 ltac:(lia) Ht (fun x Hx => S3 last x IL Hx)) as H.
    destruct (arena_alloc m last (to_s32 (SB_HEADER + zlen t + 1)) DEFAULT_ALIGNMENT) as [[[m2 last'] a2]| |] eqn:EA; cbn [bind] in *; try contradiction.
    + destruct (strbuilder_make_length _ m2 p (zlen t)) as [[m3 s]| |] eqn:EM; cbn [of_run bind] in *; try contradiction.
      exists (pre ++ [last']). rewrite set_back_snoc. split; auto.
    + right. destruct (Znumtheory.Zdivide_dec 16 (cx_per_arena cx)) as [D|]; [right|auto]. exists last. split; [rewrite <- EL; auto|]. intros ES.
      destruct AL as (_ & _ & (k & A3) & A4 & _). destruct D as (q & D). specialize (H (ar_size last - ar_used last) ltac:(exists (q - k); lia)). lia.
Qed.

(** ** the invariant of histories *)
Local Notation denotes := HashtablePropProofs.denotes.
Definition blocks_ok (m : mem) (arenas : list arena) (blks : list (Z * list Z)) : Prop :=
  Forall (fun '(s, t) => load_bytes m s (length t) = t /\ m (s + zlen t) = 0 /\
            exists a, In a arenas /\ forall x, s - 32 <= x <= s + zlen t -> in_used a x) blks /\
  ForallOrdPairs (fun '(s1, t1) '(s2, t2) => forall x, s1 - 32 <= x <= s1 + zlen t1 -> s2 - 32 <= x <= s2 + zlen t2 -> False) blks.
(** [r] is the stored string of some block whose text has the same crc32 (same text, if long) *)
Definition result_ok (max : Z) (blks : list (Z * list Z)) (texts : list (list Z)) (t : list Z) (r : Z * Z) : Prop :=
  exists t0, In (fst r, t0) blks /\ snd r = zlen t0 /\ (if zlen t <=? max then crc32 t0 = crc32 t /\ zlen t0 <= max /\ In t0 texts else t0 = t).
Definition Inv (m : mem) (cx : ctx) (log : list event) : Prop :=
  byte_mem m /\ arenas_ok (cx_arenas cx) /\ 0 <= cx_per_arena cx /\
  exists blks f g, blocks_ok m (cx_arenas cx) blks /\ denotes (cx_cache cx) f /\ denotes (cx_macros cx) g /\
    (forall k r, f k = Some r -> exists t0, In (fst r, t0) blks /\ snd r = zlen t0 /\ crc32 t0 = k /\ zlen t0 <= cx_max_cache cx /\ In t0 (map event_text log)) /\
    (forall t r, In (EvCache t r) log -> result_ok (cx_max_cache cx) blks (map event_text log) t r /\ (zlen t <= cx_max_cache cx -> f (crc32 t) = Some r)) /\
    (forall k, match g k, last_macro (fun t => crc32 t =? k) log with
       | Some mc, Some (t, ty, fl) => mc_type mc = ty /\ mc_flags mc = fl /\ result_ok (cx_max_cache cx) blks (map event_text log) t (mc_name mc)
       | None, None => True | _, _ => False end).

Lemma crc32_range l : Forall (fun b => 0 <= b < 256) l -> 0 <= crc32 l < 2 ^ 64.
Proof.
  intros HF. assert (X : forall a b, 0 <= a < 2 ^ 32 -> 0 <= b < 2 ^ 32 -> 0 <= Z.lxor a b < 2 ^ 32).
  { intros a b Ha Hb. assert (0 <= Z.lxor a b) by (apply Z.lxor_nonneg; lia). split; auto. apply lt_of_bits; auto. intros k Hk. rewrite Z.lxor_spec, !testbit_small by auto. auto. }
  assert (T : forall n, 0 <= nth n crc32_table 0 < 2 ^ 32).
  { intros n. assert (C : forallb (fun v => (0 <=? v) && (v <? 2 ^ 32)) crc32_table = true) by (vm_compute; reflexivity). rewrite forallb_forall in C.
    destruct (nth_in_or_default n crc32_table 0) as [H|E]; [specialize (C _ H); lia|rewrite E; lia]. }
  assert (G : forall l r, 0 <= r < 2 ^ 32 -> 0 <= fold_left (crc_step crc32_table) l r < 2 ^ 32).
  { clear l HF. induction l as [|c l IH]; intros r Hr; cbn [fold_left]; auto. apply IH. unfold crc_step. apply X; auto.
    rewrite Z.shiftr_div_pow2 by lia. split; [apply Z.div_pos; lia|apply Z.div_lt_upper_bound; lia]. }
  unfold crc32. specialize (X (fold_left (crc_step crc32_table) l 0xffffffff) 0xffffffff (G l 0xffffffff ltac:(lia)) ltac:(lia)). lia.
Qed.

Lemma result_ok_mono max blks blks' ts ts' t r : result_ok max blks ts t r -> (forall b, In b blks -> In b blks') -> (forall x, In x ts -> In x ts') -> result_ok max blks' ts' t r.
Proof. intros (t0 & H1 & H2 & H3) HI HJ. exists t0. split; auto. split; auto. destruct (zlen t <=? max); intuition. Qed.

Lemma last_macro_snoc f log e : last_macro f (log ++ [e]) =
  match e with EvMacro t ty fl => if f t then Some (t, ty, fl) else last_macro f log | _ => last_macro f log end.
Proof.
  induction log as [|x log IH]; cbn [app last_macro].
  - destruct e as [t r|t ty fl]; auto.
  - rewrite IH. destruct e as [t r|t ty fl]; auto. destruct (f t); auto.
Qed.

(** effect of one cache_str on a state satisfying the block/cache part of the invariant *)
Definition CInv (m : mem) (cx : ctx) (texts : list (list Z)) (blks : list (Z * list Z)) (f : Z -> option (Z * Z)) : Prop :=
  byte_mem m /\ arenas_ok (cx_arenas cx) /\ 0 <= cx_per_arena cx /\ blocks_ok m (cx_arenas cx) blks /\ denotes (cx_cache cx) f /\
  (forall k r, f k = Some r -> exists t0, In (fst r, t0) blks /\ snd r = zlen t0 /\ crc32 t0 = k /\ zlen t0 <= cx_max_cache cx /\ In t0 texts).

Lemma cinv_texts m cx ts ts' blks f : CInv m cx ts blks f -> (forall x, In x ts -> In x ts') -> CInv m cx ts' blks f.
Proof. intros (H1 & H2 & H3 & H4 & H5 & H6) HI. repeat (split; auto). intros k r E. destruct (H6 k r E) as (t0 & A & B & C & D & F). exists t0; auto 6. Qed.

Lemma stored_blocks m m1 l l1 s t blks : stored m m1 l l1 s t -> blocks_ok m l blks -> blocks_ok m1 l1 (blks ++ [(s, t)]).
Proof.
  intros (B & A & IB & T & F & E & D & G) (F1 & P1). split.
  - apply Forall_app. split.
    + rewrite Forall_forall in *. intros [s0 t0] Hi. destruct (F1 _ Hi) as (L & Z0 & a & Ha & U). split; [|split].
      * etransitivity; [|exact L]. apply load_bytes_ext. intros x Hx. apply (F a); auto. apply U. unfold zlen. lia.
      * rewrite <- Z0. apply (F a); auto. apply U. pose proof (zlen_nonneg t0). lia.
      * destruct (G a Ha) as (a1 & H1 & H2 & H3 & H4). exists a1. split; auto. intros x Hx. specialize (U x Hx). unfold in_used in *. lia.
    + constructor; auto. destruct IB as (_ & _ & _ & _ & _ & _ & IB). split; auto.
  - apply fop_snoc. split; auto. rewrite Forall_forall in *. intros [s0 t0] Hi x H1 H2. destruct (F1 _ Hi) as (_ & _ & a & Ha & U). apply (D a x Ha (U x H1) H2).
Qed.

Lemma cache_str_ok bk m cx p t texts blks f : CInv m cx texts blks f -> load_bytes m p (length t) = t ->
  source_readable cx p (zlen t) -> backing_ok m cx p (zlen t) bk -> In t texts ->
  match cache_str bk m cx p (zlen t) with
  | Ok (m1, cx1, r) => exists blks1 f1, CInv m1 cx1 texts blks1 f1 /\ cx_macros cx1 = cx_macros cx /\ cx_max_cache cx1 = cx_max_cache cx /\ cx_per_arena cx1 = cx_per_arena cx /\
      (forall b, In b blks -> In b blks1) /\ (forall k v, f k = Some v -> f1 k = Some v) /\
      result_ok (cx_max_cache cx) blks1 texts t r /\ (zlen t <= cx_max_cache cx -> f1 (crc32 t) = Some r) /\
      (forall a x, In a (cx_arenas cx) -> in_used a x -> m1 x = m x) /\
      (forall a, In a (cx_arenas cx) -> exists a1, In a1 (cx_arenas cx1) /\ ar_start a1 = ar_start a /\ ar_size a1 = ar_size a)
  | Fatal => cx_per_arena cx < zlen t + 48 \/ ~ (16 | cx_per_arena cx) \/ exists a, In a (cx_arenas cx) /\ ar_size a <> cx_per_arena cx
  | AssertFail => False
  end.
Proof.
  intros (Bm & AO & PP & BO & DN & FK) Ht SR BK IT. unfold cache_str. pose proof (make_str_ok bk m cx p t Bm AO Ht PP SR BK) as MS.
  destruct (zlen t >? cx_max_cache cx) eqn:EM.
  - destruct (make_str_in_arena bk m cx p (zlen t)) as [[[m1 cx1] s]| |]; cbn [bind]; auto. destruct MS as (l1 & -> & ST). pose proof (stored_blocks _ _ _ _ _ _ _ ST BO) as BO1.
    destruct ST as (B & A & IB & T & F & E & D & G). exists (blks ++ [(s, t)]), f.
    assert (EL : sb_length m1 s = zlen t) by (unfold sb_length; apply IB). rewrite EL.
    split; [|split; [|split; [|split; [|split; [|split; [|split; [|split; [|split]]]]]]]]; auto.
    + split; auto. split; auto. split; auto. split; auto. split; auto. intros k r Hk. destruct (FK k r Hk) as (t0 & H1 & H2). exists t0. split; auto. apply in_app_iff. auto.
    + intros b Hb. apply in_app_iff. auto.
    + exists t. cbn [fst snd]. split; [apply in_app_iff; right; left; auto|]. split; auto. replace (zlen t <=? cx_max_cache cx) with false by lia. auto.
    + intros H. lia.
    + intros a Ha. destruct (G a Ha) as (a1 & H1 & H2 & H3 & H4). exists a1. auto.
  - replace (Z.to_nat (zlen t)) with (length t) by (unfold zlen; lia). rewrite Ht. destruct DN as [WF DN].
    assert (EG : ht_get (cx_cache cx) (crc32 t) = Some (f (crc32 t))).
    { rewrite ht_get_spec by auto. rewrite lookup_kv. fold (kv (cx_cache cx)). rewrite DN. auto. }
    rewrite EG. cbn [of_option bind]. destruct (f (crc32 t)) as [r|] eqn:EF.
    + exists blks, f. destruct (FK _ _ EF) as (t0 & H1 & H2 & H3 & H4 & H5).
      split; [|split; [|split; [|split; [|split; [|split; [|split; [|split; [|split]]]]]]]]; auto.
      * split; auto. split; auto. split; auto. split; auto. split; auto. split; auto.
      * exists t0. split; auto. split; auto. destruct (zlen t <=? cx_max_cache cx) eqn:E2; [auto|lia].
      * intros a Ha. exists a. auto.
    + destruct (make_str_in_arena bk m cx p (zlen t)) as [[[m1 cx1] s]| |]; cbn [bind]; auto. destruct MS as (l1 & -> & ST). pose proof (stored_blocks _ _ _ _ _ _ _ ST BO) as BO1.
      destruct ST as (B & A & IB & T & F & E & D & G).
      assert (EL : sb_length m1 s = zlen t) by (unfold sb_length; apply IB). rewrite EL. cbn [cx_cache set_arenas].
      assert (KR : 0 <= crc32 t < 2 ^ 64). { apply crc32_range. rewrite <- Ht. apply load_bytes_bytes. auto. }
      destruct (step_denotes (0, 0) (cx_cache cx) f (HSet (crc32 t) (s, zlen t)) (conj WF DN) KR) as (t' & ES & DN' & _). cbn [ht_step] in ES. rewrite ES. cbn [of_option bind].
      exists (blks ++ [(s, t)]), (map_step f (HSet (crc32 t) (s, zlen t))). cbn [map_step] in *.
      split; [|split; [|split; [|split; [|split; [|split; [|split; [|split; [|split]]]]]]]]; auto.
      * split; auto. split; auto. split; auto. split; auto. split; auto. intros k r Hk. destruct (k =? crc32 t) eqn:EK.
        -- injection Hk as <-. exists t. cbn [fst snd]. split; [apply in_app_iff; right; left; auto|]. split; auto. split; [lia|]. split; [cbn; lia|auto].
        -- destruct (FK k r Hk) as (t0 & H1 & H2). exists t0. split; auto. apply in_app_iff. auto.
      * intros b Hb. apply in_app_iff. auto.
      * intros k v Hk. destruct (k =? crc32 t) eqn:EK; auto. replace k with (crc32 t) in Hk by lia. congruence.
      * exists t. cbn [fst snd]. split; [apply in_app_iff; right; left; auto|]. split; auto. replace (zlen t <=? cx_max_cache cx) with true by lia. split; auto. split; auto. lia.
      * rewrite Z.eqb_refl. auto.
      * intros a Ha. destruct (G a Ha) as (a1 & H1 & H2 & H3 & H4). exists a1. auto.
Qed.
