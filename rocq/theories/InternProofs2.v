From Coq Require Import String ZArith Znumtheory List Bool Lia ZifyBool ZifyNat.
From Verif Require Import Common CommonProofs MemModel MemSpec MemPropProofs AllocModel Text ArrayModel ArrayProofs HashtableModel HashtableSpec HashtableProofs HashtablePropProofs
  HashModel HashProofs StrOpsModel StrOpsSpec StrOpsProofs StrOpsProofs2 StrModel StrSpec StrProofs StrProofs2 InternModel InternSpec InternProofs.
Import ListNotations.
Open Scope Z_scope.
Local Notation denotes := HashtablePropProofs.denotes.

Lemma inv_env m cx log m1 : Inv m cx log -> byte_mem m1 -> (forall a x, In a (cx_arenas cx) -> in_used a x -> m1 x = m x) -> Inv m1 cx log.
Proof.
  intros (B & A & P & blks & f & g & (B1 & B2) & REST) Bm F. split; auto. split; auto. split; auto. exists blks, f, g. split; [|exact REST]. split; auto.
  rewrite Forall_forall in *. intros [s t] Hi. destruct (B1 _ Hi) as (L & Z0 & a & Ha & U). split; [|split; eauto].
  - etransitivity; [|exact L]. apply load_bytes_ext. intros x Hx. apply (F a); auto. apply U. unfold zlen. lia.
  - rewrite <- Z0. apply (F a); auto. apply U. pose proof (zlen_nonneg t). lia.
Qed.

(** what a step must establish about the new log entry *)
Lemma load_len m p l : 0 <= l -> zlen (load_bytes m p (Z.to_nat l)) = l.
Proof. intros. unfold zlen. rewrite load_bytes_len. lia. Qed.

Lemma inv_step bk m cx log o m1 cx1 r : Inv m cx log ->
  source_readable cx (fst (op_source o)) (snd (op_source o)) -> backing_ok m cx (fst (op_source o)) (snd (op_source o)) bk ->
  cs_step bk m cx o = Ok (m1, cx1, r) ->
  Inv m1 cx1 (log ++ [event_of (load_bytes m (fst (op_source o)) (Z.to_nat (snd (op_source o)))) o r]) /\ cx_max_cache cx1 = cx_max_cache cx.
Proof.
  intros (B & A & P & blks & f & g & BO & DC & DM & FK & LG & MG) SR BK ES.
  set (p := fst (op_source o)) in *. set (l := snd (op_source o)) in *. set (t := load_bytes m p (Z.to_nat l)).
  assert (LT : zlen t = l) by (apply load_len; destruct SR; lia).
  set (ev := event_of t o r). set (texts := map event_text (log ++ [ev])).
  assert (ET : event_text ev = t) by (unfold ev, event_of; destruct o, r; auto).
  assert (IT : In t texts) by (unfold texts; rewrite map_app; apply in_app_iff; right; left; auto).
  assert (SUB : forall x, In x (map event_text log) -> In x texts) by (intros x Hx; unfold texts; rewrite map_app; apply in_app_iff; auto).
  assert (CI : CInv m cx texts blks f). { apply (cinv_texts m cx (map event_text log)); [split; auto; split; auto; split; auto|auto]. }
  rewrite <- LT in SR, BK. assert (HT : load_bytes m p (length t) = t) by (unfold t; rewrite load_bytes_len; auto).
  pose proof (cache_str_ok bk m cx p t texts blks f CI HT SR BK IT) as CS. rewrite LT in CS.
  (* the part of the new invariant shared by all operations *)
  assert (LOGS : forall max blks1 (f1 : Z -> option (Z * Z)), max = cx_max_cache cx -> (forall b, In b blks -> In b blks1) -> (forall k v, f k = Some v -> f1 k = Some v) ->
     forall t' r', In (EvCache t' r') log -> result_ok max blks1 texts t' r' /\ (zlen t' <= max -> f1 (crc32 t') = Some r')).
  { intros max blks1 f1 -> H1 H2 t' r' Hi. destruct (LG t' r' Hi) as [R1 R2]. split; [eapply result_ok_mono; eauto|auto]. }
  destruct o as [p0 l0|p0 l0 ty fl|p0 l0 ty fl]; cbn [op_source fst snd] in p, l; cbn [cs_step] in ES; subst p l.
  - destruct (cache_str bk m cx p0 l0) as [[[m2 cx2] r2]| |]; cbn [bind] in ES; try discriminate. injection ES as <- <- <-.
    destruct CS as (blks1 & f1 & (B1 & A1 & P1 & BO1 & DC1 & FK1) & EM & EX & EP & S1 & S2 & RO & SH & FR & AR). split; [|auto].
    split; auto. split; auto. split; auto. exists blks1, f1, g. split; auto. split; auto. split; [rewrite EM; auto|]. split; auto. split.
    + intros t' r' Hi. apply in_app_iff in Hi as [Hi|[Hi|[]]]; [apply LOGS; auto|]. assert (EE : t' = t /\ r' = r2) by (unfold ev, event_of in Hi; split; congruence). destruct EE as [-> ->]. rewrite EX. split; [exact RO|rewrite LT; exact SH].
    + intros k. specialize (MG k). unfold ev. cbn [event_of]. rewrite last_macro_snoc. destruct (g k) as [mc|], (last_macro _ log) as [[[t' ty] fl]|]; auto.
      destruct MG as (M1 & M2 & M3). split; auto. split; auto. rewrite EX. eapply result_ok_mono; eauto.
  - unfold register_macro in ES. destruct ((p0 =? 0) || (l0 <=? 0)); [discriminate|].
    destruct (cache_str bk m cx p0 l0) as [[[m2 cx2] r2]| |]; cbn [bind] in ES; try discriminate.
    destruct CS as (blks1 & f1 & (B1 & A1 & P1 & BO1 & DC1 & FK1) & EM & EX & EP & S1 & S2 & RO & SH & FR & AR). fold t in ES.
    assert (KR : 0 <= crc32 t < 2 ^ 64) by (apply crc32_range; apply load_bytes_bytes; auto).
    rewrite EM in ES. set (mc := {| mc_name := r2; mc_type := ty; mc_flags := fl |}) in *.
    destruct (step_denotes no_macro (cx_macros cx) g (HSet (crc32 t) mc) DM KR) as (tm & EH & DM' & _). cbn [ht_step] in EH. rewrite EH in ES. cbn [of_option bind] in ES.
    injection ES as <- <- <-. cbn [cx_max_cache set_macros]. split; [|auto].
    split; auto. split; auto. split; auto. exists blks1, f1, (map_step g (HSet (crc32 t) mc)). split; auto. split; auto. split; auto. split; auto. split.
    + intros t' r' Hi. apply in_app_iff in Hi as [Hi|[Hi|[]]]; [apply LOGS; auto|]. discriminate Hi.
    + intros k. specialize (MG k). unfold ev. cbn [event_of map_step cx_max_cache set_macros]. rewrite last_macro_snoc. rewrite (Z.eqb_sym (crc32 t) k). destruct (k =? crc32 t) eqn:EK.
      * unfold mc. cbn. split; auto. split; auto. rewrite EX. auto.
      * destruct (g k) as [mc0|], (last_macro _ log) as [[[t' ty'] fl']|]; auto. destruct MG as (M1 & M2 & M3). split; auto. split; auto. rewrite EX. eapply result_ok_mono; eauto.
  - unfold register_macros_step in ES. destruct ((p0 =? 0) || (l0 <=? 0)); [discriminate|].
    destruct (cache_str bk m cx p0 l0) as [[[m2 cx2] r2]| |]; cbn [bind] in ES; try discriminate.
    destruct CS as (blks1 & f1 & (B1 & A1 & P1 & BO1 & DC1 & FK1) & EM & EX & EP & S1 & S2 & RO & SH & FR & AR).
    assert (KEY : crc32 (load_bytes m2 (fst r2) (Z.to_nat (snd r2))) = crc32 t).
    { destruct RO as (t0 & R1 & R2 & R3). destruct BO1 as [BF _]. rewrite Forall_forall in BF. destruct (BF _ R1) as (L0 & _). rewrite R2. unfold zlen. rewrite Nat2Z.id, L0.
      destruct (zlen t <=? cx_max_cache cx); [tauto|congruence]. }
    rewrite KEY in ES. clear KEY.
    assert (KR : 0 <= crc32 t < 2 ^ 64) by (apply crc32_range; apply load_bytes_bytes; auto).
    rewrite EM in ES. set (mc := {| mc_name := r2; mc_type := ty; mc_flags := fl |}) in *.
    destruct (step_denotes no_macro (cx_macros cx) g (HSet (crc32 t) mc) DM KR) as (tm & EH & DM' & _). cbn [ht_step] in EH. rewrite EH in ES. cbn [of_option bind] in ES.
    injection ES as <- <- <-. cbn [cx_max_cache set_macros]. split; [|auto].
    split; auto. split; auto. split; auto. exists blks1, f1, (map_step g (HSet (crc32 t) mc)). split; auto. split; auto. split; auto. split; auto. split.
    + intros t' r' Hi. apply in_app_iff in Hi as [Hi|[Hi|[]]]; [apply LOGS; auto|]. discriminate Hi.
    + intros k. specialize (MG k). unfold ev. cbn [event_of map_step cx_max_cache set_macros]. rewrite last_macro_snoc. rewrite (Z.eqb_sym (crc32 t) k). destruct (k =? crc32 t) eqn:EK.
      * unfold mc. cbn. split; auto. split; auto. rewrite EX. auto.
      * destruct (g k) as [mc0|], (last_macro _ log) as [[[t' ty'] fl']|]; auto. destruct MG as (M1 & M2 & M3). split; auto. split; auto. rewrite EX. eapply result_ok_mono; eauto.
Qed.

Lemma inv_init m start per max : byte_mem m -> 0 < start -> (16 | start) -> 0 <= per -> start + per + 16 <= 2 ^ 60 -> Inv m (ctx_init start per max) [].
Proof.
  intros B S1 S2 S3 S4. split; auto. split.
  - split; [discriminate|]. split; [constructor; [|constructor]|constructor; [constructor|constructor]]. unfold aok. cbn. split; auto. split; auto. split; [exists 0; auto|]. lia.
  - split; auto. exists [], (fun _ => None), (fun _ => None). split; [split; constructor|]. split; [apply init_denotes; lia|]. split; [apply init_denotes; lia|].
    split; [discriminate|]. split; [intros t r []|]. intros k. cbn. auto.
Qed.
Lemma history_inv m0 start per max m cx log : byte_mem m0 -> 0 < start -> (16 | start) -> 0 <= per -> start + per + 16 <= 2 ^ 60 ->
  cs_history m0 (ctx_init start per max) m cx log -> Inv m cx log /\ cx_max_cache cx = max.
Proof.
  intros B S1 S2 S3 S4 H. induction H as [|m cx log m1 H [I E] Bm F|m cx log bk o m1 cx1 r H [I E] SR BK ES].
  - split; [apply inv_init; auto|auto].
  - split; auto. eapply inv_env; eauto.
  - destruct (inv_step bk m cx log o m1 cx1 r I SR BK ES) as [I2 E2]. split; auto. congruence.
Qed.

(** ** the properties *)

Lemma p15_any m0 start per max m cx log t p l : start_ok m0 start per -> cs_history m0 (ctx_init start per max) m cx log -> In (EvCache t (p, l)) log ->
  exists t0, load_bytes m p (length t0) = t0 /\ l = zlen t0 /\ m (p + l) = 0 /\
    (zlen t > max -> t0 = t) /\ (zlen t <= max -> crc32 t0 = crc32 t /\ zlen t0 <= max /\ In t0 (map event_text log)).
Proof.
  intros (B & S1 & S2 & S3 & S4) H Hi. destruct (history_inv _ _ _ _ _ _ _ B S1 S2 S3 S4 H) as [I E].
  destruct I as (_ & _ & _ & blks & f & g & (BF & _) & _ & _ & _ & LG & _). destruct (LG _ _ Hi) as [(t0 & R1 & R2 & R3) _]. rewrite E in R3. cbn [fst snd] in *.
  rewrite Forall_forall in BF. destruct (BF _ R1) as (L0 & Z0 & _). exists t0. split; auto. split; auto. split; [rewrite R2; auto|]. destruct (zlen t <=? max) eqn:EL; split; try lia; auto.
Qed.
Lemma p15_text m0 start per max m cx log t p l : start_ok m0 start per -> cs_history m0 (ctx_init start per max) m cx log ->
  collision_free max (map event_text log) -> In (EvCache t (p, l)) log -> load_bytes m p (length t) = t /\ l = zlen t /\ m (p + l) = 0.
Proof.
  intros SO H CF Hi. destruct (p15_any _ _ _ _ _ _ _ _ _ _ SO H Hi) as (t0 & H1 & H2 & H3 & H4 & H5).
  assert (t0 = t); [|subst; auto]. destruct (Z_le_gt_dec (zlen t) max) as [HL|HL]; [|auto]. destruct (H5 HL) as (C & L & IN).
  apply CF; auto. apply (in_map event_text) in Hi. auto.
Qed.
Lemma p15_same m0 start per max m cx log t r1 r2 : start_ok m0 start per -> cs_history m0 (ctx_init start per max) m cx log ->
  In (EvCache t r1) log -> In (EvCache t r2) log -> zlen t <= max -> r1 = r2.
Proof.
  intros (B & S1 & S2 & S3 & S4) H H1 H2 HL. destruct (history_inv _ _ _ _ _ _ _ B S1 S2 S3 S4 H) as [I E].
  destruct I as (_ & _ & _ & blks & f & g & _ & _ & _ & _ & LG & _). rewrite <- E in HL. destruct (LG _ _ H1) as [_ A1]. destruct (LG _ _ H2) as [_ A2]. specialize (A1 HL). specialize (A2 HL). congruence.
Qed.
Lemma fop_in {A} (R : A -> A -> Prop) l a b : ForallOrdPairs R l -> In a l -> In b l -> a = b \/ R a b \/ R b a.
Proof. intros H Ha Hb. exact (ForallOrdPairs_In H a b Ha Hb). Qed.
Lemma p16_blocks m0 start per max m cx log t1 r1 t2 r2 : start_ok m0 start per -> cs_history m0 (ctx_init start per max) m cx log ->
  In (EvCache t1 r1) log -> In (EvCache t2 r2) log ->
  (exists a, In a (cx_arenas cx) /\ ar_used a <= ar_size a /\ forall x, str_block r1 x -> in_used a x) /\
  (r1 = r2 \/ forall x, str_block r1 x -> str_block r2 x -> False).
Proof.
  intros (B & S1 & S2 & S3 & S4) H H1 H2. destruct (history_inv _ _ _ _ _ _ _ B S1 S2 S3 S4 H) as [I E].
  destruct I as (_ & (_ & AF & _) & _ & blks & f & g & (BF & BD) & _ & _ & _ & LG & _).
  destruct (LG _ _ H1) as [(u1 & A1 & A2 & _) _]. destruct (LG _ _ H2) as [(u2 & C1 & C2 & _) _]. rewrite Forall_forall in BF, AF. split.
  - destruct (BF _ A1) as (_ & _ & a & Ha & U). exists a. split; auto. split; [apply AF; auto|]. intros x Hx. apply U. unfold str_block in Hx. lia.
  - destruct (fop_in _ _ _ _ BD A1 C1) as [EQ|[D|D]].
    + left. injection EQ as E1 E2. destruct r1, r2; cbn in *. congruence.
    + right. intros x X1 X2. unfold str_block in *. apply (D x); lia.
    + right. intros x X1 X2. unfold str_block in *. apply (D x); lia.
Qed.
(** sizes of arenas never change *)
Definition sizes_ok (cx : ctx) (per : Z) : Prop := cx_per_arena cx = per /\ Forall (fun a => ar_size a = per) (cx_arenas cx).
Lemma make_str_sizes bk m cx per p l m1 cx1 s : sizes_ok cx per -> make_str_in_arena bk m cx p l = Ok (m1, cx1, s) -> sizes_ok cx1 per.
Proof.
  intros [S1 S2]. unfold make_str_in_arena. destruct (get_cached_str_allocator bk m cx l) as [[m2 cx2]| |] eqn:EG; cbn [bind]; try discriminate.
  assert (SO : sizes_ok cx2 per).
  { unfold get_cached_str_allocator in EG. destruct (back (cx_arenas cx)) as [last|]; [|discriminate]. destruct (_ >? _).
    - destruct (bk m (cx_per_arena cx)) as [m3 a]. injection EG as <- <-. split; auto. cbn. apply Forall_app. split; auto.
    - injection EG as <- <-. split; auto. }
  clear EG. destruct SO as [S3 S4]. destruct (back (cx_arenas cx2)) as [last|] eqn:EB; [|discriminate].
  destruct (arena_alloc m2 last _ _) as [[[m3 last'] a]| |] eqn:EA; cbn [bind]; try discriminate.
  destruct (of_run _) as [[m4 s4]| |]; cbn [bind]; try discriminate. intros E. injection E as <- <- <-. split; auto. cbn.
  assert (EL : ar_size last' = ar_size last).
  { unfold arena_alloc in EA. destruct (_ >? _); [discriminate|]. destruct (align_forward _ _); [|discriminate]. destruct (zero_size _ _ _); [|discriminate]. injection EA as <- <- <-. auto. }
  apply nth_error_In in EB. rewrite Forall_forall in S4. unfold set_back. apply Forall_app. split.
  - apply Forall_forall. intros x Hx. apply S4. rewrite <- (firstn_skipn (length (cx_arenas cx2) - 1)). apply in_app_iff. auto.
  - constructor; auto. rewrite EL. auto.
Qed.
Lemma cache_str_sizes bk m cx per p l m1 cx1 r : sizes_ok cx per -> cache_str bk m cx p l = Ok (m1, cx1, r) -> sizes_ok cx1 per.
Proof.
  intros SO. unfold cache_str. destruct (_ >? _).
  - destruct (make_str_in_arena bk m cx p l) as [[[m2 cx2] s]| |] eqn:E; cbn [bind]; try discriminate. intros H. injection H as <- <- <-. eapply make_str_sizes; eauto.
  - destruct (of_option (ht_get _ _)) as [[r0|]| |]; cbn [bind]; try discriminate.
    + intros H. injection H as <- <- <-. auto.
    + destruct (make_str_in_arena bk m cx p l) as [[[m2 cx2] s]| |] eqn:E; cbn [bind]; try discriminate. destruct (of_option _) as [t| |]; cbn [bind]; try discriminate.
      intros H. injection H as <- <- <-. destruct (make_str_sizes _ _ _ _ _ _ _ _ _ SO E). split; auto.
Qed.
Lemma step_sizes bk m cx per o m1 cx1 r : sizes_ok cx per -> cs_step bk m cx o = Ok (m1, cx1, r) -> sizes_ok cx1 per.
Proof.
  intros SO. destruct o as [p l|p l ty fl|p l ty fl]; cbn [cs_step]; [|unfold register_macro|unfold register_macros_step]; try (destruct (_ || _); [discriminate|]);
  destruct (cache_str bk m cx p l) as [[[m2 cx2] s]| |] eqn:E; cbn [bind]; try discriminate; pose proof (cache_str_sizes _ _ _ _ _ _ _ _ _ SO E) as [H1 H2];
  try (destruct (of_option _) as [t| |]; cbn [bind]; try discriminate); intros H; injection H as <- <- <-; split; auto.
Qed.
Lemma history_sizes m0 start per max m cx log : cs_history m0 (ctx_init start per max) m cx log -> sizes_ok cx per.
Proof.
  intros H. induction H as [|m cx log m1 H I Bm F|m cx log bk o m1 cx1 r H I SR BK ES]; auto.
  - split; auto. constructor; auto.
  - eapply step_sizes; eauto.
Qed.
(** a call never fails when arenas have a multiple of 16 bytes and room for the string *)
Lemma p16_total m0 start per max m cx log bk p l : start_ok m0 start per -> (16 | per) -> l + 48 <= per ->
  cs_history m0 (ctx_init start per max) m cx log -> source_readable cx p l -> backing_ok m cx p l bk ->
  exists m1 cx1 r, cache_str bk m cx p l = Ok (m1, cx1, r) /\ (forall a x, In a (cx_arenas cx) -> in_used a x -> m1 x = m x).
Proof.
  intros (B & S1 & S2 & S3 & S4) D HL H SR BK. destruct (history_inv _ _ _ _ _ _ _ B S1 S2 S3 S4 H) as [I E]. destruct (history_sizes _ _ _ _ _ _ _ H) as [Z1 Z2].
  destruct I as (Bm & A & P & blks & f & g & BO & DC & DM & FK & _). set (t := load_bytes m p (Z.to_nat l)). assert (LT : zlen t = l) by (apply load_len; destruct SR; lia).
  assert (CI : CInv m cx (t :: map event_text log) blks f). { apply (cinv_texts m cx (map event_text log)); [split; auto; split; auto; split; auto|]. intros; right; auto. }
  rewrite <- LT in SR, BK. pose proof (cache_str_ok bk m cx p t _ blks f CI ltac:(unfold t; rewrite load_bytes_len; auto) SR BK ltac:(left; auto)) as CS. rewrite LT in CS.
  destruct (cache_str bk m cx p l) as [[[m1 cx1] r]| |].
  - destruct CS as (blks1 & f1 & _ & _ & _ & _ & _ & _ & _ & _ & FR & _). exists m1, cx1, r. auto.
  - exfalso. rewrite Z1 in CS. destruct CS as [C|[C|(a & Ha & C)]]; [lia|auto|]. rewrite Forall_forall in Z2. apply C. auto.
  - contradiction.
Qed.
Lemma p42 m0 start per max m cx log p l : start_ok m0 start per -> cs_history m0 (ctx_init start per max) m cx log ->
  let t := load_bytes m p (Z.to_nat l) in
  match lookup_macro m cx p l, last_macro (fun u => crc32 u =? crc32 t) log with
  | Ok (Some mc), Some (u, ty, fl) => mc_type mc = ty /\ mc_flags mc = fl /\
      exists t0, load_bytes m (fst (mc_name mc)) (length t0) = t0 /\ snd (mc_name mc) = zlen t0 /\ (zlen u > max -> t0 = u) /\ (zlen u <= max -> crc32 t0 = crc32 u /\ zlen t0 <= max /\ In t0 (map event_text log))
  | Ok None, None => True
  | _, _ => False
  end.
Proof.
  intros (B & S1 & S2 & S3 & S4) H t. destruct (history_inv _ _ _ _ _ _ _ B S1 S2 S3 S4 H) as [I E].
  destruct I as (Bm & A & P & blks & f & g & (BF & _) & DC & (WM & DM) & FK & _ & MG). specialize (MG (crc32 t)). unfold lookup_macro. fold t.
  rewrite ht_get_spec by auto. rewrite lookup_kv. fold (kv (cx_macros cx)). rewrite DM. cbn [of_option].
  destruct (g (crc32 t)) as [mc|], (last_macro _ log) as [[[u ty] fl]|]; auto. destruct MG as (M1 & M2 & (t0 & R1 & R2 & R3)). split; auto. split; auto.
  rewrite Forall_forall in BF. destruct (BF _ R1) as (L0 & _). exists t0. split; auto. split; auto. rewrite E in R3. destruct (zlen u <=? max) eqn:EL; split; try lia; auto.
Qed.
Lemma last_macro_in f log u ty fl : last_macro f log = Some (u, ty, fl) -> In (EvMacro u ty fl) log /\ f u = true.
Proof.
  induction log as [|e log IH]; cbn [last_macro]; [discriminate|]. destruct (last_macro f log) as [x|] eqn:E.
  - intros H. injection H as ->. destruct (IH eq_refl). split; auto. right; auto.
  - destruct e as [t r|t ty' fl']; [discriminate|]. destruct (f t) eqn:F; [|discriminate]. intros H. injection H as -> -> ->. split; auto. left; auto.
Qed.
Lemma last_macro_ext f g log : (forall t ty fl, In (EvMacro t ty fl) log -> f t = g t) -> last_macro f log = last_macro g log.
Proof.
  induction log as [|e log IH]; intros H; cbn [last_macro]; auto. rewrite IH by (intros; eapply H; right; eauto). destruct (last_macro g log); auto.
  destruct e as [t r|t ty fl]; auto. rewrite (H t ty fl) by (left; auto). auto.
Qed.
Definition same_text (a b : list Z) : bool := if list_eq_dec Z.eq_dec a b then true else false.
Lemma p42_exact m0 start per max m cx log p l : start_ok m0 start per -> cs_history m0 (ctx_init start per max) m cx log ->
  let t := load_bytes m p (Z.to_nat l) in
  (forall t1 t2, In t1 (t :: map event_text log) -> In t2 (t :: map event_text log) -> crc32 t1 = crc32 t2 -> t1 = t2) ->
  match lookup_macro m cx p l, last_macro (same_text t) log with
  | Ok (Some mc), Some (u, ty, fl) => u = t /\ mc_type mc = ty /\ mc_flags mc = fl /\ load_bytes m (fst (mc_name mc)) (length t) = t /\ snd (mc_name mc) = zlen t
  | Ok None, None => True
  | _, _ => False
  end.
Proof.
  intros SO H t CF. pose proof (p42 m0 start per max m cx log p l SO H) as X. cbv zeta in X. fold t in X.
  rewrite (last_macro_ext (fun u => crc32 u =? crc32 t) (same_text t)) in X.
  - destruct (lookup_macro m cx p l) as [[mc|]| |], (last_macro (same_text t) log) as [[[u ty] fl]|] eqn:EL; auto.
    apply last_macro_in in EL as [EI ES]. unfold same_text in ES. destruct (list_eq_dec Z.eq_dec t u) as [<-|]; [|discriminate].
    destruct X as (X1 & X2 & t0 & X3 & X4 & X5 & X6). split; auto. split; auto. split; auto. assert (t0 = t); [|subst t0; auto].
    destruct (Z_le_gt_dec (zlen t) max) as [HL|HL]; [|auto]. destruct (X6 HL) as (C & _ & IN). apply CF; auto; [right|left]; auto.
  - intros u ty fl Hi. unfold same_text. destruct (list_eq_dec Z.eq_dec t u) as [->|N]; [apply Z.eqb_refl|]. apply Z.eqb_neq. intros C. apply N. symmetry. apply CF; auto; [right|left; auto].
    apply (in_map event_text) in Hi. auto.
Qed.
