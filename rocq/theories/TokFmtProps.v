(** C36: token substitution (token_fmt). *)
From Coq Require Import String ZArith List Bool Lia.
From Verif Require Import Common Text ArrayModel HashModel HashtableModel HashtableSpec StrOpsSpec StrOpsProps TokFmtModel TokFmtSpec TokFmtProofs.
Import ListNotations.
Open Scope Z_scope.

(** For every template and token list: if the result fits the buffer and no token name collides under
    crc32 with a different name of the template, the call returns the length of the substituted text, the
    buffer starts with exactly that text, nothing beyond it is written, and the token map is empty again
    (so tokens of one call are not seen by the next). *)
Theorem c36_token_fmt_partial : forall fuel m t0 ops buf size toks fmt T out,
  byte_mem m -> Forall ht_op_wf ops -> ht_run (Z * Z) (0, 0) (ht_init (Z * Z)) ops = Some t0 -> (forall k, map_run (fun _ => None) ops k = None) ->
  Forall (tok_ok m buf size) toks -> cstr m fmt T -> disjoint fmt (zlen T + 1) buf size ->
  (forall t name, In t toks -> occurs name T -> crc32 (t_name t) = crc32 name -> t_name t = name) ->
  substituted (binding (map tok_pair toks)) T out -> zlen out <= size ->
  (length T < fuel)%nat -> (length out <= fuel)%nat -> Forall (fun t => (length (t_name t) <= fuel)%nat) toks ->
  exists m1 t1, token_fmt_va fuel m t0 buf size (map tok_arg toks) fmt = Done (m1, t1, zlen out) /\
    load_bytes m1 buf (length out) = out /\ same_outside m m1 buf (zlen out) /\
    exists ops', Forall ht_op_wf ops' /\ ht_run (Z * Z) (0, 0) (ht_init (Z * Z)) ops' = Some t1 /\ (forall k, map_run (fun _ => None) ops' k = None).
Proof. exact p36. Qed.
(** Without the collision hypothesis the same holds with names identified by their crc32. *)
Theorem c36_token_fmt_up_to_crc : forall fuel m t0 ops buf size toks fmt T out,
  byte_mem m -> Forall ht_op_wf ops -> ht_run (Z * Z) (0, 0) (ht_init (Z * Z)) ops = Some t0 -> (forall k, map_run (fun _ => None) ops k = None) ->
  Forall (tok_ok m buf size) toks -> cstr m fmt T -> disjoint fmt (zlen T + 1) buf size ->
  substituted (binding_crc (map tok_pair toks)) T out -> zlen out <= size ->
  (length T < fuel)%nat -> (length out <= fuel)%nat -> Forall (fun t => (length (t_name t) <= fuel)%nat) toks ->
  exists m1 t1, token_fmt_va fuel m t0 buf size (map tok_arg toks) fmt = Done (m1, t1, zlen out) /\
    load_bytes m1 buf (length out) = out /\ same_outside m m1 buf (zlen out) /\
    exists ops', Forall ht_op_wf ops' /\ ht_run (Z * Z) (0, 0) (ht_init (Z * Z)) ops' = Some t1 /\ (forall k, map_run (fun _ => None) ops' k = None).
Proof. exact p36_crc. Qed.
(** The substituted text exists for every template in which each '<' is followed by a '>', and is unique. *)
Theorem c36_result_exists : forall lookup T, (forall a b, T = a ++ 60 :: b -> In 62 b) -> exists out, substituted lookup T out.
Proof. exact (fun lookup T => sub_total lookup (S (length T)) T (Nat.lt_succ_diag_r _)). Qed.
Theorem c36_result_unique : forall lookup T out1 out2, substituted lookup T out1 -> substituted lookup T out2 -> out1 = out2.
Proof. exact (fun l T o1 o2 H1 H2 => sub_functional l T o1 H1 o2 H2). Qed.
Print Assumptions c36_token_fmt_partial. Print Assumptions c36_token_fmt_up_to_crc. Print Assumptions c36_result_exists. Print Assumptions c36_result_unique.

(** *** what fails *)
(** A '<' that is never closed makes the scan run off the end of the template. *)
Theorem c36_unterminated_refuted : forall fuel m t0 buf size fmt p r, byte_mem m -> cstr m fmt (p ++ 60 :: r) -> ~ In 60 p -> ~ In 62 r -> zlen p <= size ->
  disjoint fmt (zlen (p ++ 60 :: r) + 1) buf size -> zlen (p ++ 60 :: r) <= Z.of_nat fuel ->
  token_fmt_va fuel m t0 buf size [] fmt = Undefined.
Proof. exact p36_unterminated. Qed.
(** Text that does not fit makes the call loop forever. *)
Theorem c36_full_buffer_hangs_refuted : forall m t0 buf size fmt p c r, byte_mem m -> cstr m fmt (p ++ c :: r) -> ~ In 60 (p ++ [c]) -> zlen p = size ->
  disjoint fmt (zlen (p ++ c :: r) + 1) buf size -> forall fuel, token_fmt_va fuel m t0 buf size [] fmt = NoFuel.
Proof. exact p36_hang. Qed.
(** A value is copied without looking at the buffer size. *)
Theorem c36_value_overflow_refuted :
  let m := store_bytes (store_bytes (text_at 1000 (txt "<n>")) 2000 (txt "n")) 3000 (txt "hello") in
  match token_fmt_va 100 m (ht_init (Z * Z)) 5000 2 [(2000, (3000, 5))] 1000 with
  | Done (m1, _, len) => len = 5 /\ load_bytes m1 5000 5 = txt "hello" | _ => False end.
Proof. vm_compute. auto. Qed.
(** Two names with the same crc32 are not told apart: <buckeroo> is replaced by the value of plumless. *)
Theorem c36_collision_refuted :
  crc32 (txt "plumless") = crc32 (txt "buckeroo") /\
  let m := store_bytes (store_bytes (text_at 1000 (txt "<buckeroo>")) 2000 (txt "plumless")) 3000 (txt "x") in
  match token_fmt_va 100 m (ht_init (Z * Z)) 5000 64 [(2000, (3000, 1))] 1000 with
  | Done (m1, _, len) => len = 1 /\ load_bytes m1 5000 1 = txt "x" | _ => False end.
Proof. vm_compute. auto. Qed.
Print Assumptions c36_unterminated_refuted. Print Assumptions c36_full_buffer_hangs_refuted. Print Assumptions c36_value_overflow_refuted. Print Assumptions c36_collision_refuted.

(** *** the hypotheses are met: "a<n> <u>" with n = "xy" *)
Definition demo_tok := {| t_ptr := 2000; t_name := txt "n"; v_ptr := 3000; v_text := txt "xy" |}.
Definition demo_mem := store_bytes (store_bytes (text_at 1000 (txt "a<n> <u>")) 2000 (txt "n")) 3000 (txt "xy").
Example c36_hypotheses_met :
  tok_ok demo_mem 5000 64 demo_tok /\ cstr demo_mem 1000 (txt "a<n> <u>") /\ disjoint 1000 (zlen (txt "a<n> <u>") + 1) 5000 64 /\
  substituted (binding [tok_pair demo_tok]) (txt "a<n> <u>") (txt "axy <u>") /\ ht_run (Z * Z) (0, 0) (ht_init (Z * Z)) [] = Some (ht_init (Z * Z)).
Proof.
  assert (C : forall t, forallb (fun b => (1 <=? b) && (b <? 256)) t = true -> Forall (fun b => 1 <= b < 256) t).
  { intros t H. rewrite forallb_forall in H. apply Forall_forall. intros b Hb. apply H in Hb. lia. }
  split; [|split; [|split; [|split]]]; auto.
  - split; [discriminate|]. split; [split; [vm_compute; reflexivity|split; [apply (C (txt "n")); reflexivity|vm_compute; reflexivity]]|].
    split; [vm_compute; reflexivity|]. intros x. change (zlen (v_text demo_tok)) with 2. change (v_ptr demo_tok) with 3000. lia.
  - split; [vm_compute; reflexivity|split; [apply (C (txt "a<n> <u>")); reflexivity|vm_compute; reflexivity]].
  - intros x. change (zlen (txt "a<n> <u>")) with 8. lia.
  - apply (sub_text _ 97); [lia|]. apply (sub_token _ (txt "n") (txt "xy") (txt " <u>") (txt " <u>")); [vm_compute; intros [|[]]; discriminate|vm_compute; reflexivity|].
    apply (sub_text _ 32); [lia|]. apply (sub_unknown _ (txt "u") [] (txt "u>")); [vm_compute; intros [|[]]; discriminate|vm_compute; reflexivity|].
    apply (sub_text _ 117); [lia|]. apply (sub_text _ 62); [lia|]. constructor.
Qed.
