(** Properties C24 (make_code) and C45 (reset). *)
From Coq Require Import String ZArith List Bool Lia.
From Verif Require Import Common MemModel AllocModel ArrayModel HashtableModel HashModel Text StrOpsModel StrOpsSpec StrModel StrSpec InternModel InternSpec InternProofs2 MakeCodeModel MakeCodeSpec MakeCodeProofs MakeCodePropProofs.
Import ListNotations.
Open Scope Z_scope.

(** *** C24.  Histories from init: any number of make_code calls (growing the pools as needed), client
    writes to its own nodes and outside the pools, resets. *)
(** make_code always succeeds (given memory) and returns an all-zero node overlapping no node made since
    the last reset, all of which keep their bytes. *)
Theorem c24_make_code_fresh_zeroed : forall m0 start num m pools codes bk, pools_start_ok start num ->
  code_history m0 start num m pools codes -> pool_backing_ok m pools num bk ->
  exists m1 pools1 c, make_code bk m pools num = Ok (m1, pools1, c) /\
    (forall x, in_node c x -> m1 x = 0) /\
    (forall c' x, In c' codes -> in_node c' x -> ~ in_node c x /\ m1 x = m x).
Proof. exact p24_make. Qed.
(** After any history all nodes are distinct, non-null, non-overlapping and inside a pool of the context. *)
Theorem c24_codes_distinct : forall m0 start num m pools codes, pools_start_ok start num ->
  code_history m0 start num m pools codes ->
  NoDup codes /\
  (forall c1 c2 x, In c1 codes -> In c2 codes -> in_node c1 x -> in_node c2 x -> c1 = c2) /\
  (forall c, In c codes -> c <> 0 /\ exists p, In p pools /\ forall x, in_node c x -> in_pool p x).
Proof. exact p24_distinct. Qed.
Print Assumptions c24_make_code_fresh_zeroed. Print Assumptions c24_codes_distinct.

(** *** C45 *)
(** Nodes made after a reset are distinct from each other and zeroed (the part of C45 that holds): a
    reset is a step of [code_history] that forgets the earlier nodes, so C24 applies. *)
Theorem c45_fresh_after_reset_partial : forall m0 start num m pools codes cx m1 pools1 cx1 bk, pools_start_ok start num ->
  code_history m0 start num m pools codes -> reset m pools cx = (m1, pools1, cx1) -> pool_backing_ok m1 pools1 num bk ->
  exists m2 pools2 c, make_code bk m1 pools1 num = Ok (m2, pools2, c) /\ forall x, in_node c x -> m2 x = 0.
Proof.
  intros m0 start num m pools codes cx m1 pools1 cx1 bk Hs H HR Hbk.
  destruct (p24_make m0 start num m1 pools1 [] bk Hs (CH_reset _ _ _ _ _ _ _ _ _ _ H HR) Hbk) as (m2 & p2 & c & E & Z & _). eauto.
Qed.
(** reset keeps no node usable: the first word (content pointer / inline comment) of every node, library
    constants included, is overwritten by a free-list link: the next block's address or null. *)
Theorem c45_nodes_overwritten_refuted : forall m0 start num m pools codes cx m1 pools1 cx1 c, pools_start_ok start num ->
  code_history m0 start num m pools codes -> reset m pools cx = (m1, pools1, cx1) -> In c codes ->
  load64 m1 c = 0 \/ load64 m1 c = c + 144.
Proof. exact p45_overwritten. Qed.
(** With a single pool (the usual case) the first node made after a reset is the very node of the first
    library constant (Code_Global, the first node made by init), which is thereby zeroed. *)
Theorem c45_constant_reused_refuted : forall m0 start num m p codes bk0 bk cx m1 pools1 cx1, pools_start_ok start num ->
  code_history m0 start num m [p] codes -> reset m [p] cx = (m1, pools1, cx1) ->
  (let '(mi, pi) := pool_init m0 start num 128 in exists m2 pools2, make_code bk0 mi [pi] num = Ok (m2, pools2, start)) /\
  (exists m2 pools2, make_code bk m1 pools1 num = Ok (m2, pools2, start)).
Proof. exact p45_first_reused. Qed.
(** All macros, also those init registered (enum_underlying), are gone after a reset. *)
Theorem c45_macros_lost_refuted : forall m0 start per max m cx log pools m1 pools1 cx1 p l, start_ok m0 start per ->
  cs_history m0 (ctx_init start per max) m cx log -> reset m pools cx = (m1, pools1, cx1) ->
  lookup_macro m1 cx1 p l = Ok None.
Proof. exact p45_macros. Qed.
Definition reset_mem : mem := store_bytes (store_bytes (fun _ => 0) 100 (txt "int")) 200 (txt "foo").
Definition no_backing (m : mem) (n : Z) : mem * Z := (m, 2 ^ 30).
(** The text of a constant's name is overwritten by the first string cached after the reset. *)
Theorem c45_constant_name_overwritten_refuted :
  match cache_str no_backing reset_mem (ctx_init 4096 1048576 524288) 100 3 with
  | Ok (m1, cx1, (p, l)) =>
    let '(m2, _, cx2) := reset m1 [] cx1 in
    match cache_str no_backing m2 cx2 200 3 with
    | Ok (m3, _, _) => load_bytes m1 p (Z.to_nat l) = txt "int" /\ load_bytes m3 p (Z.to_nat l) = txt "foo"
    | _ => False end
  | _ => False end.
Proof. vm_compute. auto. Qed.
Print Assumptions c45_fresh_after_reset_partial. Print Assumptions c45_nodes_overwritten_refuted. Print Assumptions c45_constant_reused_refuted.
Print Assumptions c45_macros_lost_refuted. Print Assumptions c45_constant_name_overwritten_refuted.

(** The hypotheses are met: a context with 2-node pools makes three nodes (the third in a second pool),
    resets, and the next node comes from the second pool. *)
Definition demo_bk (m : mem) (n : Z) : mem * Z := (m, 8192).
Example c24_nontrivial : pools_start_ok 4096 2 /\
  let '(m, p) := pool_init (fun x => x mod 7) 4096 2 128 in
  match make_code demo_bk m [p] 2 with
  | Ok (m1, ps1, c1) => match make_code demo_bk m1 ps1 2 with
    | Ok (m2, ps2, c2) => match make_code demo_bk m2 ps2 2 with
      | Ok (m3, ps3, c3) => (c1, c2, c3) = (4096, 4240, 8192) /\ length ps3 = 2%nat /\
         (let '(m4, ps4, _) := reset m3 ps3 (ctx_init 65536 64 10) in match make_code demo_bk m4 ps4 2 with Ok (_, _, c4) => c4 = 8192 | _ => False end)
      | _ => False end
    | _ => False end
  | _ => False end.
Proof. split; [unfold pools_start_ok; lia|]. vm_compute. auto. Qed.
Example c24_history_reachable : exists m p c, code_history (fun _ => 0) 4096 2 m [p] [c].
Proof.
  destruct (pool_init (fun _ => 0) 4096 2 128) as [mi pi] eqn:EI.
  assert (Hs : pools_start_ok 4096 2) by (unfold pools_start_ok; lia).
  pose proof (CH_init (fun _ => 0) 4096 2 mi pi EI) as H0.
  assert (Hb : pool_backing_ok mi [pi] 2 demo_bk).
  { unfold pool_backing_ok, demo_bk. split; [lia|]. split; [lia|]. intros p x [<-|[]] Hx. split; auto.
    unfold pool_init, pool_init_align in EI. injection EI as _ E. subst pi. unfold in_pool in Hx. cbn [pl_start pl_num] in Hx. lia. }
  destruct (p45_reused (fun _ => 0) 4096 2 mi pi [] demo_bk demo_bk (ctx_init 65536 64 10) mi [] (ctx_init 65536 64 10) Hs) as [G _].
  rewrite EI in G. destruct G as (m2 & ps2 & E).
  assert (length ps2 = 1%nat).
  { unfold make_code in E. change (back [pi]) with (Some pi) in E. cbv iota beta in E. unfold pool_init, pool_init_align in EI. injection EI as _ E2.
    assert (Ef : pl_free pi =? 0 = false) by (subst pi; reflexivity). rewrite Ef in E.
    destruct (pool_alloc mi pi AST_SIZE DEFAULT_ALIGNMENT) as [[[? ?] ?]| |]; cbn [bind] in E; try discriminate.
    destruct (mem_set m z 0 AST_SIZE); cbn [of_option bind] in E; try discriminate. injection E as _ <- _. reflexivity. }
  destruct ps2 as [|q [|? ?]]; try discriminate. exists m2, q, 4096. exact (CH_make _ _ _ _ _ _ _ _ _ _ H0 Hb E).
Qed.
