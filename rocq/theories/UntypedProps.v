(** C58: code made from text or from a format carries the text it was given. *)
From Coq Require Import String ZArith List Bool Lia.
From Verif Require Import Common Text ArrayModel HashModel HashtableModel HashtableSpec StrOpsSpec StrOpsProps AstModel AstSpec UpfrontModel UpfrontSpec FmtModel TokFmtModel TokFmtSpec TokFmtProps UntypedModel UntypedProofs.
Import ListNotations.
Close Scope string_scope.
Open Scope Z_scope.

(** Any text that is not empty becomes a new untyped node with exactly that name and content, and nothing else changes. *)
Theorem c58_untyped_str : forall e h content, world e h -> content <> [] ->
  creates h (untyped_str e h content) (set_content content (node_of CT_Untyped content)).
Proof. exact untyped_str_ok. Qed.
Print Assumptions c58_untyped_str.
Theorem c58_untyped_str_empty : forall e h, world e h -> rejects e h (untyped_str e h []).
Proof. intros e h W. exists h. split; [reflexivity|]. split; [lia|auto]. Qed.
Print Assumptions c58_untyped_str_empty.

(** code_fmt: the content of the new node is the template with its tokens substituted.
    (partial: the tokens' texts must not lie in the buffer shared by all calls, see below; the conditions of C36) *)
Theorem c58_code_fmt_partial : forall e fuel m t0 ops buf toks fmt T out h,
  world e h -> byte_mem m -> Forall ht_op_wf ops -> ht_run (Z * Z) (0, 0) (ht_init (Z * Z)) ops = Some t0 -> (forall k, map_run (fun _ => None) ops k = None) ->
  Forall (fun t => tok_ok m buf GEN_PRINTF_MAXLEN t /\ disjoint (t_ptr t) (zlen (t_name t) + 1) buf GEN_PRINTF_MAXLEN) toks ->
  cstr m fmt T -> disjoint fmt (zlen T + 1) buf GEN_PRINTF_MAXLEN ->
  (forall t name, In t toks -> occurs name T -> crc32 (t_name t) = crc32 name -> t_name t = name) ->
  substituted (binding (map tok_pair toks)) T out -> out <> [] -> zlen out <= GEN_PRINTF_MAXLEN ->
  (length T < fuel)%nat -> (length out <= fuel)%nat -> Forall (fun t => (length (t_name t) <= fuel)%nat) toks ->
  exists m1 t1 r, code_fmt e fuel m t0 buf (map tok_arg toks) fmt h = Done (m1, t1, r) /\ creates h (Done r) (set_content out (node_of CT_Untyped out)).
Proof. exact code_fmt_ok. Qed.
Print Assumptions c58_code_fmt_partial.

(** The result of a token_fmt given as a value to another token_fmt is lost: the buffer is shared and cleared first. *)
Definition nested_mem := store_bytes (store_bytes (store_bytes (text_at 1000 (txt "int <a>;")) 2000 (txt "a")) 3000 (txt "xy")) 1100 (txt "<a>z").
Definition nested : option (list Z * list Z) :=
  match token_fmt_impl 100 nested_mem (ht_init (Z * Z)) 5000 [(2000, (3000, 2))] 1100 with
  | Done (m, t, s) =>
    match token_fmt_impl 100 m t 5000 [(2000, s)] 1000 with
    | Done (m', _, s') => Some (load_bytes m 5000 (Z.to_nat (snd s)), load_bytes m' 5000 (Z.to_nat (snd s')))
    | _ => None
    end
  | _ => None
  end.
Theorem c58_nested_fmt_refuted : exists garbage, nested = Some (txt "xyz", txt "int " ++ garbage ++ txt ";") /\ garbage <> txt "xyz".
Proof. exists (txt "int"). split; [vm_compute; reflexivity|discriminate]. Qed.
Print Assumptions c58_nested_fmt_refuted.

(** untyped_fmt and untyped_token_fmt never return code: for every format and all arguments, if the call returns, it
    returns the invalid code. *)
Theorem c58_untyped_fmt_refuted : forall e fuel m num buf fmt args h m' h' c, untyped_fmt e fuel m num buf fmt args h = Done (m', (h', c)) -> c = e_invalid e.
Proof. exact untyped_fmt_invalid. Qed.
Print Assumptions c58_untyped_fmt_refuted.
Theorem c58_untyped_token_fmt_refuted : forall e fuel m t n buf fmt pairs next h m' t' h' c, untyped_token_fmt e fuel m t n buf fmt pairs next h = Done (m', t', (h', c)) -> c = e_invalid e.
Proof. exact untyped_token_fmt_invalid. Qed.
Print Assumptions c58_untyped_token_fmt_refuted.

(** witnesses: the calls do return, "%d" with 7 for example *)
Definition e1 : env := {| e_invalid := 1; e_void := 2; e_int := 3; e_bool := 4 |}.
Definition h1 : heap := {| h_node := fun _ => zero_node; h_top := 5 |}.
Example c58_hypotheses_met : world e1 h1 /\
  (exists m h', untyped_fmt e1 100 (text_at 1000 (txt "x = %d")) 9000 5000 1000 [AInt 7] h1 = Done (m, (h', 1)) /\ load_bytes m 5000 5 = txt "x = 7") /\
  tok_ok demo_mem 5000 GEN_PRINTF_MAXLEN demo_tok /\ disjoint (t_ptr demo_tok) (zlen (t_name demo_tok) + 1) 5000 GEN_PRINTF_MAXLEN /\
  disjoint 1000 (zlen (txt "a<n> <u>") + 1) 5000 GEN_PRINTF_MAXLEN.
Proof.
  destruct c36_hypotheses_met as ((T1 & T2 & T3 & _) & _).
  split; [unfold world, valid; cbn; lia|]. split; [eexists _, _; split; [reflexivity|]; vm_compute; reflexivity|].
  split; [split; [auto|split; [auto|split; [auto|]]]|split]; intros x; unfold GEN_PRINTF_MAXLEN.
  - change (zlen (v_text demo_tok)) with 2. change (v_ptr demo_tok) with 3000. lia.
  - change (zlen (t_name demo_tok)) with 1. change (t_ptr demo_tok) with 2000. lia.
  - change (zlen (txt "a<n> <u>")) with 8. lia.
Qed.
