(** What a call to a builder should add to its file. *)
From Coq Require Import ZArith List Bool.
From Verif Require Import Common Text ArrayModel StrOpsSpec AstModel SerSpec FmtModel FmtSpec UntypedModel BuilderModel.
Import ListNotations.
Open Scope Z_scope.

Inductive adds (h : heap) (fuel : nat) : builder_op -> list Z -> Prop :=
| a_print c t : holds h c t -> Z.of_nat (length (render t)) < 131070 -> adds h fuel (BPrint c) (render t)
| a_fmt m num buf fmt segs last out : (* a format for which C37 gives [out] *)
    byte_mem m -> num <> 0 -> (forall x, buf <= x < buf + (GEN_PRINTF_MAXLEN - 1) -> ~ (num <= x < num + 130)) ->
    literal last -> Forall (fun s => literal (fst s) /\ arg_ok m buf (GEN_PRINTF_MAXLEN - 1) num (snd s)) segs -> unambiguous segs last ->
    cstr m fmt (format_text segs last) -> apart fmt (zlen (format_text segs last) + 1) buf (GEN_PRINTF_MAXLEN - 1) num ->
    renders segs last out -> zlen out + 1 < GEN_PRINTF_MAXLEN - 1 ->
    (66 <= fuel)%nat -> (length segs < fuel)%nat -> (length out <= fuel)%nat ->
    adds h fuel (BFmt m num buf fmt (format_args segs)) out
| a_pad : adds h fuel (BPad 1) [10].
