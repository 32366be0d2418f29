(** C59: the file a builder writes holds the printed code, texts and padding, in order and nothing else. *)
From Coq Require Import String ZArith List Bool Lia ZifyBool ZifyNat.
From Verif Require Import Common Text ArrayModel StrOpsSpec StrOpsProps AstModel AstSpec SerModel SerSpec FmtModel FmtSpec FmtProps UntypedModel BuilderModel BuilderSpec BuilderProofs.
Import ListNotations.
Close Scope string_scope.
Open Scope Z_scope.

(** Any sequence of calls, if the file opens and the one write takes everything: the file is the concatenation of what
    the calls should add ([adds], BuilderSpec.v), and no failure is logged.
    (partial: one padding line only, codes of C41 and formats of C37; see below) *)
Theorem c59_file_partial : forall h k ops ts, Forall2 (adds h k) ops ts ->
  exists k1, forall fuel, (k1 <= fuel)%nat -> builder_run fuel h true ops (Z.of_nat (length (concat ts))) = Done (concat ts, true).
Proof.
  intros h k ops ts F. destruct (run_adds h k ops ts F) as (k1 & K). exists k1. intros fuel LE. rewrite K by exact LE. unfold file_write.
  replace (Z.of_nat (length (concat ts)) <? 0) with false by lia. rewrite Nat2Z.id, firstn_all. reflexivity.
Qed.
Print Assumptions c59_file_partial.
(** A crash or a full disk during the write: the file is a prefix of that text, never anything else. *)
Theorem c59_prefix_partial : forall h k ops ts, Forall2 (adds h k) ops ts ->
  exists k1, forall fuel took, (k1 <= fuel)%nat -> exists file ok rest, builder_run fuel h true ops took = Done (file, ok) /\ file ++ rest = concat ts.
Proof.
  intros h k ops ts F. destruct (run_adds h k ops ts F) as (k1 & K). exists k1. intros fuel took LE. rewrite K by exact LE. unfold file_write.
  destruct (took <? 0); [exists [], false, (concat ts); auto|]. eexists _, true, (skipn (Z.to_nat took) (concat ts)). split; [reflexivity|]. apply firstn_skipn.
Qed.
Print Assumptions c59_prefix_partial.
(** But a write that takes only a part counts as a success: text is lost and no failure is logged. *)
Theorem c59_short_write_refuted : forall h k ops ts, Forall2 (adds h k) ops ts -> concat ts <> [] ->
  exists k1, forall fuel, (k1 <= fuel)%nat -> exists file, builder_run fuel h true ops 0 = Done (file, true) /\ file <> concat ts.
Proof. intros h k ops ts F NE. destruct (run_adds h k ops ts F) as (k1 & K). exists k1. intros fuel LE. exists []. rewrite K by exact LE. split; [reflexivity|]. congruence. Qed.
Print Assumptions c59_short_write_refuted.
(** padding adds one line, whatever number is asked for *)
Theorem c59_pad_lines_refuted : forall fuel h num, builder_run fuel h true [BPad num] 9 = Done ([10], true).
Proof. reflexivity. Qed.
Print Assumptions c59_pad_lines_refuted.
(** if the file cannot be opened, the builder returned must not be used: every call is undefined *)
Theorem c59_open_failed_refuted : forall fuel h took o r, builder_run fuel h false (o :: r) took = Undefined /\ builder_run fuel h false [] took = Undefined.
Proof. auto. Qed.
Print Assumptions c59_open_failed_refuted.
(** a formatted text of 131070 bytes or more is not refused: its length becomes negative *)
Theorem c59_long_fmt_refuted : forall h fuel m num buf fmt segs last out,
  byte_mem m -> num <> 0 -> (forall x, buf <= x < buf + (GEN_PRINTF_MAXLEN - 1) -> ~ (num <= x < num + 130)) ->
  literal last -> Forall (fun s => literal (fst s) /\ arg_ok m buf (GEN_PRINTF_MAXLEN - 1) num (snd s)) segs -> unambiguous segs last ->
  cstr m fmt (format_text segs last) -> apart fmt (zlen (format_text segs last) + 1) buf (GEN_PRINTF_MAXLEN - 1) num ->
  renders segs last out -> zlen out + 1 = GEN_PRINTF_MAXLEN - 1 ->
  (66 <= fuel)%nat -> (length segs < fuel)%nat -> (length out <= fuel)%nat ->
  forall took, builder_run fuel h true [BFmt m num buf fmt (format_args segs)] took = Undefined.
Proof.
  intros h fuel m num buf fmt segs last out B N1 N2 L F U C AP R Z1 F1 F2 F3 took. unfold builder_run, builder_open, builder_steps, builder_step, builder_print_fmt_va.
  destruct (c37_format_partial m num buf (GEN_PRINTF_MAXLEN - 1) fmt segs last out fuel B N1 N2 ltac:(unfold GEN_PRINTF_MAXLEN; lia) L F U C AP R ltac:(lia) F1 F2 F3) as (m1 & -> & _).
  replace (zlen out + 1 =? GEN_PRINTF_MAXLEN - 1) with true by lia. reflexivity.
Qed.
Print Assumptions c59_long_fmt_refuted.

(** witnesses: an untyped code, a blank line, a formatted text *)
Definition one_code : heap := {| h_node := fun _ => set_content (txt "int x;") (AstModel.set_type CT_Untyped zero_node); h_top := 2 |}.
Definition some_ops := [BPrint 1; BPad 1; BFmt demo_m 900000 5000 1000 (format_args demo_segs)].
Example c59_hypotheses_met : Forall2 (adds one_code 66) some_ops [txt "int x;"; [10]; txt "f(-5,xy)%"] /\
  builder_run 100 one_code true some_ops 100 = Done (txt "int x;" ++ [10] ++ txt "f(-5,xy)%", true).
Proof.
  destruct c37_hypotheses_met as (H1 & H2 & H3 & H4 & H5). split; [|vm_compute; reflexivity].
  constructor; [|constructor; [constructor|constructor; [|constructor]]].
  - apply (a_print one_code 66 1 (Raw (txt "int x;"))); [|vm_compute; reflexivity]. left. split; [|reflexivity]. split; [unfold valid; cbn; lia|left; reflexivity].
  - apply (a_fmt one_code 66 demo_m 900000 5000 1000 demo_segs []); try exact H2; try exact H3; try exact H5; try (unfold GEN_PRINTF_MAXLEN; cbn; lia).
    + apply ArrayProofs.store_bytes_byte; [|apply ArrayProofs.store_bytes_byte; [|intros y; lia]]; repeat constructor; vm_compute; discriminate.
    + split; [constructor|intros []].
    + inversion H1 as [|? ? A1 H1']; subst. inversion H1' as [|? ? A2 H1'']; subst. inversion H1'' as [|? ? A3 _]; subst.
      constructor; [exact A1|]. constructor; [|constructor; [exact A3|constructor]]. destruct A2 as (A & B). split; auto. cbn [snd arg_ok] in *. destruct B as (B1 & B2 & B3 & _). split; auto. split; auto. split; auto.
      intros x. change (zlen (txt "xy")) with 2. unfold GEN_PRINTF_MAXLEN. lia.
    + intros x. change (zlen (format_text demo_segs [])) with 10. unfold GEN_PRINTF_MAXLEN. lia.
Qed.
