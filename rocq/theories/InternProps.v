(** Properties C15, C16 (string interning) and C42 (macro registry). *)
From Coq Require Import String ZArith List Bool Lia.
From Verif Require Import Common MemModel AllocModel Text ArrayModel ArrayProofs HashtableModel HashModel StrOpsSpec StrModel StrSpec InternModel InternSpec InternProofs InternProofs2.
Import ListNotations.
Open Scope Z_scope.

(** A context set up by init: [start_ok] says the first string arena's address is 16-aligned, positive and
    in range.  Histories: any calls of cache_str, register_macro, register_macros with any texts (readable
    and not inside the arenas' unused memory), any other writes elsewhere in between. *)

(** *** C15 *)
(** After any history every string ever returned still reads as the text it was made from, with its exact
    length and a terminator — provided no two texts of the history collide in CRC-32. *)
Theorem c15_text_kept_partial : forall m0 start per max m cx log t p l, start_ok m0 start per ->
  cs_history m0 (ctx_init start per max) m cx log -> collision_free max (map event_text log) ->
  In (EvCache t (p, l)) log -> load_bytes m p (length t) = t /\ l = zlen t /\ m (p + l) = 0.
Proof. exact p15_text. Qed.
(** Without that proviso: the string reads as some text of the history with the same CRC-32; texts longer
    than Max_StrCacheLength are never shared and always right. *)
Theorem c15_text_up_to_crc : forall m0 start per max m cx log t p l, start_ok m0 start per ->
  cs_history m0 (ctx_init start per max) m cx log -> In (EvCache t (p, l)) log ->
  exists t0, load_bytes m p (length t0) = t0 /\ l = zlen t0 /\ m (p + l) = 0 /\
    (zlen t > max -> t0 = t) /\ (zlen t <= max -> crc32 t0 = crc32 t /\ zlen t0 <= max /\ In t0 (map event_text log)).
Proof. exact p15_any. Qed.
(** The same (short) text always yields the same cached string. *)
Theorem c15_same_text_same_string : forall m0 start per max m cx log t r1 r2, start_ok m0 start per ->
  cs_history m0 (ctx_init start per max) m cx log ->
  In (EvCache t r1) log -> In (EvCache t r2) log -> zlen t <= max -> r1 = r2.
Proof. exact p15_same. Qed.

Definition two_texts (a b : string) : mem := store_bytes (store_bytes (fun _ => 0) 100 (txt a)) 200 (txt b).
Definition some_bk (m : mem) (n : Z) : mem * Z := (m, 2 ^ 30).
(** Strings are identified by their CRC-32 alone: caching "buckeroo" after "plumless" returns "plumless". *)
Theorem c15_collision_refuted :
  let m := two_texts "plumless" "buckeroo" in
  match cache_str some_bk m (ctx_init 4096 1048576 524288) 100 8 with
  | Ok (m1, cx1, r1) =>
    match cache_str some_bk m1 cx1 200 8 with
    | Ok (m2, cx2, (p, l)) => r1 = (p, l) /\ load_bytes m2 p (Z.to_nat l) = txt "plumless" /\ load_bytes m2 200 8 = txt "buckeroo"
    | _ => False end
  | _ => False end.
Proof. vm_compute. auto. Qed.
Print Assumptions c15_text_kept_partial. Print Assumptions c15_text_up_to_crc. Print Assumptions c15_same_text_same_string. Print Assumptions c15_collision_refuted.

(** *** C16 *)
(** Every interned string's memory (header, text, terminator) lies in the handed-out part of one of the
    context's arenas, inside the arena, and different strings never share a byte. *)
Theorem c16_in_bounds_and_disjoint : forall m0 start per max m cx log t1 r1 t2 r2, start_ok m0 start per ->
  cs_history m0 (ctx_init start per max) m cx log -> In (EvCache t1 r1) log -> In (EvCache t2 r2) log ->
  (exists a, In a (cx_arenas cx) /\ ar_used a <= ar_size a /\ forall x, str_block r1 x -> in_used a x) /\
  (r1 = r2 \/ forall x, str_block r1 x -> str_block r2 x -> False).
Proof. exact p16_blocks. Qed.
(** With SizePer_StringArena a multiple of 16, every string that fits an arena at all is accepted, and
    caching it changes no byte of any string already stored. *)
Theorem c16_accepts_what_fits : forall m0 start per max m cx log bk p l, start_ok m0 start per -> (16 | per) -> l + 48 <= per ->
  cs_history m0 (ctx_init start per max) m cx log -> source_readable cx p l -> backing_ok m cx p l bk ->
  exists m1 cx1 r, cache_str bk m cx p l = Ok (m1, cx1, r) /\ (forall a x, In a (cx_arenas cx) -> in_used a x -> m1 x = m x).
Proof. exact p16_total. Qed.
(** Otherwise the space check (len + 40) is weaker than what the arena takes (33 + len rounded up to 16):
    the process aborts although a fresh arena would have had room. *)
Theorem c16_unaligned_arena_size_refuted :
  let m := two_texts "abcdefgh" "i" in
  match cache_str some_bk m (ctx_init 4096 90 1000) 100 8 with
  | Ok (m1, cx1, r1) => cache_str some_bk m1 cx1 200 1 = Fatal /\
      match cache_str some_bk m (ctx_init 4096 90 1000) 200 1 with Ok _ => True | _ => False end
  | _ => False end.
Proof. vm_compute. auto. Qed.
Print Assumptions c16_in_bounds_and_disjoint. Print Assumptions c16_accepts_what_fits. Print Assumptions c16_unaligned_arena_size_refuted.

(** *** C42 *)
(** lookup_macro returns the type and flags of the last registration under that name, with that name, and
    nothing if there was none (no CRC-32 collision among the texts of the history and the looked-up name). *)
Theorem c42_last_registration_partial : forall m0 start per max m cx log p l, start_ok m0 start per ->
  cs_history m0 (ctx_init start per max) m cx log ->
  let t := load_bytes m p (Z.to_nat l) in
  (forall t1 t2, In t1 (t :: map event_text log) -> In t2 (t :: map event_text log) -> crc32 t1 = crc32 t2 -> t1 = t2) ->
  match lookup_macro m cx p l, last_macro (same_text t) log with
  | Ok (Some mc), Some (u, ty, fl) => u = t /\ mc_type mc = ty /\ mc_flags mc = fl /\ load_bytes m (fst (mc_name mc)) (length t) = t /\ snd (mc_name mc) = zlen t
  | Ok None, None => True
  | _, _ => False
  end.
Proof. exact p42_exact. Qed.
(** Without the proviso: the last registration whose name has the same CRC-32. *)
Theorem c42_last_registration_up_to_crc : forall m0 start per max m cx log p l, start_ok m0 start per ->
  cs_history m0 (ctx_init start per max) m cx log ->
  let t := load_bytes m p (Z.to_nat l) in
  match lookup_macro m cx p l, last_macro (fun u => crc32 u =? crc32 t) log with
  | Ok (Some mc), Some (u, ty, fl) => mc_type mc = ty /\ mc_flags mc = fl /\
      exists t0, load_bytes m (fst (mc_name mc)) (length t0) = t0 /\ snd (mc_name mc) = zlen t0 /\ (zlen u > max -> t0 = u) /\ (zlen u <= max -> crc32 t0 = crc32 u /\ zlen t0 <= max /\ In t0 (map event_text log))
  | Ok None, None => True
  | _, _ => False
  end.
Proof. exact p42. Qed.
(** An unregistered name that collides with a registered one is reported as a macro. *)
Theorem c42_collision_refuted :
  let m := two_texts "plumless" "buckeroo" in
  match register_macro some_bk m (ctx_init 4096 1048576 524288) 100 8 3 1 with
  | Ok (m1, cx1) => match lookup_macro m1 cx1 200 8 with Ok (Some mc) => mc_type mc = 3 /\ load_bytes m1 (fst (mc_name mc)) 8 = txt "plumless" | _ => False end
  | _ => False end.
Proof. vm_compute. auto. Qed.
Print Assumptions c42_last_registration_partial. Print Assumptions c42_last_registration_up_to_crc. Print Assumptions c42_collision_refuted.

(** The hypotheses are met: cache "foo", register the macro "bar", register it again, cache "foo" again. *)
Definition demo_mem : mem := two_texts "foo" "bar".
Definition demo_ops : list cs_op := [OCache 100 3; ORegister 200 3 1 0; ORegister 200 3 2 1; OCache 100 3].
Fixpoint demo_run (m : mem) (cx : ctx) (ops : list cs_op) (log : list event) : option (mem * ctx * list event) :=
  match ops with
  | [] => Some (m, cx, log)
  | o :: r => match cs_step some_bk m cx o with
              | Ok (m1, cx1, res) => demo_run m1 cx1 r (log ++ [event_of (load_bytes m (fst (op_source o)) (Z.to_nat (snd (op_source o)))) o res])
              | _ => None end
  end.
Example c15_nontrivial :
  start_ok demo_mem 4096 1024 /\
  match demo_run demo_mem (ctx_init 4096 1024 512) demo_ops [] with
  | Some (m, cx, log) => log = [EvCache (txt "foo") (4128, 3); EvMacro (txt "bar") 1 0; EvMacro (txt "bar") 2 1; EvCache (txt "foo") (4128, 3)] /\
      last_macro (same_text (txt "bar")) log = Some (txt "bar", 2, 1)
  | None => False end.
Proof.
  split; [|vm_compute; auto]. split; [|split; [lia|split; [exists 256; lia|split; lia]]].
  unfold demo_mem, two_texts. apply store_bytes_byte; [vm_compute; repeat constructor; discriminate|]. apply store_bytes_byte; [vm_compute; repeat constructor; discriminate|].
  intros x. lia.
Qed.
Lemma demo_step_ok : match cs_step some_bk demo_mem (ctx_init 4096 1024 512) (OCache 100 3) with Ok _ => True | _ => False end.
Proof. vm_compute. exact I. Qed.
Lemma demo_source : source_readable (ctx_init 4096 1024 512) 100 3.
Proof. split; [lia|]. split; [lia|]. intros a x [<-|[]] Hx. unfold in_free. cbn [ar_start ar_used ar_size ctx_init arena_init_from_memory]. lia. Qed.
Lemma demo_backing : backing_ok demo_mem (ctx_init 4096 1024 512) 100 3 some_bk.
Proof.
  destruct c15_nontrivial as [[Hb _] _]. unfold backing_ok, some_bk. cbn [cx_per_arena ctx_init].
  split; [exact Hb|]. split; [lia|]. split; [exists 67108864; lia|]. split; [lia|]. split.
  - intros x Hx. split; [reflexivity|lia].
  - intros a x [<-|[]] Hx. split; [reflexivity|]. unfold in_arena in Hx. cbn [ar_start ar_size arena_init_from_memory] in Hx. lia.
Qed.
(** ... and such a history is one of [cs_history]. *)
Example c15_history_reachable : exists m cx r,
  cs_history demo_mem (ctx_init 4096 1024 512) m cx [EvCache (load_bytes demo_mem 100 3) r].
Proof.
  pose proof demo_step_ok as G. destruct (cs_step some_bk demo_mem (ctx_init 4096 1024 512) (OCache 100 3)) as [[[m1 cx1] r]| |] eqn:E; [|destruct G|destruct G].
  destruct r as [r|].
  - exists m1, cx1, r. exact (CS_op _ _ _ _ [] some_bk (OCache 100 3) m1 cx1 (Some r) (CS_start _ _) demo_source demo_backing E).
  - exfalso. clear G. cbn [cs_step] in E. destruct (cache_str some_bk demo_mem (ctx_init 4096 1024 512) 100 3) as [[[? ?] ?]| |]; discriminate E.
Qed.
