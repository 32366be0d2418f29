(** C44: scan_file drops exactly the intellisense header. *)
From Coq Require Import String ZArith List Bool Lia.
From Verif Require Import Common Text StrOpsSpec ScanModel ScanSpec ScanProofs.
Import ListNotations.
Close Scope string_scope. Open Scope Z_scope.

Local Notation NL := ([10] : list Z).

(** A file made of text without '#' and complete directive lines [ps]%string, then an INTELLISENSE_DIRECTIVES block, then
    [rest]: the result is [rest].
    The newline of the #endif line may be LF or CR LF.  After a lone LF one more LF, if [rest] has one, is dropped too;
    [after_nl] says so. *)
Theorem c44_block_dropped_partial n ps bs1 bs2 x1 nl1 inn bs3 x3 nl3 rest :
  let block := open_line bs1 bs2 x1 nl1 ++ inners_text inn ++ end_line bs3 x3 nl3 in
  let t := pieces_text ps ++ block ++ rest in
  file_ok t n -> Forall plain_piece ps -> open_ok bs1 bs2 x1 nl1 -> inners_ok inn (end_line bs3 x3 nl3 ++ rest) -> end_ok bs3 x3 nl3 ->
  scan_file t n = Done (Some (after_nl nl3 rest)).
Proof. exact (p44_dropped n ps bs1 bs2 x1 nl1 inn bs3 x3 nl3 rest). Qed.
Print Assumptions c44_block_dropped_partial.

(** No block: the file's text, unchanged. *)
Theorem c44_no_block_unchanged n ps : Forall plain_piece ps -> file_ok (pieces_text ps) n ->
  scan_file (pieces_text ps) n = Done (Some (pieces_text ps)).
Proof. exact (p44_unchanged n ps). Qed.
Print Assumptions c44_no_block_unchanged.

(** A block that is never closed: unchanged as well. *)
Theorem c44_unclosed_block_unchanged n ps bs1 bs2 x1 nl1 inn :
  let t := pieces_text ps ++ open_line bs1 bs2 x1 nl1 ++ inners_text inn in
  file_ok t n -> Forall plain_piece ps -> open_ok bs1 bs2 x1 nl1 -> inners_ok inn [] -> scan_file t n = Done (Some t).
Proof. exact (p44_unclosed n ps bs1 bs2 x1 nl1 inn). Qed.
Print Assumptions c44_unclosed_block_unchanged.

(** Refuted: a file whose last line is a directive without a newline (before any block) makes the scanner read past
    the end of its buffer, whatever the directive. *)
Theorem c44_last_directive_without_newline_refuted n ps bs body : let t := pieces_text ps ++ [35] ++ bs ++ body in
  file_ok t n -> Forall plain_piece ps -> Forall line_blank bs -> body_ok body -> ~ opens_block body ->
  (forall w, Forall line_blank w -> body <> txt "ifdef" ++ w) ->
  scan_file t n = Undefined.
Proof. exact (p44_no_newline n ps bs body). Qed.
Print Assumptions c44_last_directive_without_newline_refuted.

(** Refuted: so does a block whose #endif is the end of the file. *)
Theorem c44_endif_without_newline_refuted n ps bs1 bs2 x1 nl1 inn bs x :
  let t := pieces_text ps ++ open_line bs1 bs2 x1 nl1 ++ inners_text inn ++ [35] ++ bs ++ txt "endif" ++ x in
  file_ok t n -> Forall plain_piece ps -> open_ok bs1 bs2 x1 nl1 -> inners_ok inn ([35] ++ bs ++ txt "endif" ++ x) -> Forall line_blank bs -> on_line x ->
  scan_file t n = Undefined.
Proof. exact (p44_end_no_newline n ps bs1 bs2 x1 nl1 inn bs x). Qed.
Print Assumptions c44_endif_without_newline_refuted.

Definition one_nl (s : string) : list Z := (txt s ++ NL)%list.
Definition lines (l : list string) : list Z := flat_map one_nl l.
Definition OPEN : string := "#ifdef INTELLISENSE_DIRECTIVES".

(** Refuted: a conditional inside the block ends it; its own #endif is taken for the block's. *)
Theorem c44_nested_conditional_refuted :
  exists t, t = lines [OPEN; "#if 1"; "#endif"; "#include <a>"; "#endif"; "int x;"]%string /\
            scan_file t 1000 = Done (Some (lines ["#include <a>"; "#endif"; "int x;"]%string)).
Proof. eexists. split; [reflexivity|]. vm_compute. reflexivity. Qed.
Print Assumptions c44_nested_conditional_refuted.

(** Refuted: a blank line behind the #endif disappears. *)
Theorem c44_blank_line_swallowed_refuted :
  exists t, t = lines [OPEN; "#endif"; ""; "int x;"]%string /\ scan_file t 1000 = Done (Some (lines ["int x;"]%string)).
Proof. eexists. split; [reflexivity|]. vm_compute. reflexivity. Qed.
Print Assumptions c44_blank_line_swallowed_refuted.

(** Refuted: any macro whose name merely begins with INTELLISENSE_DIRECTIVES, or an #endif-like word, counts. *)
Theorem c44_prefix_counts_refuted :
  exists t, t = lines ["#ifdef INTELLISENSE_DIRECTIVES_OLD"; "int a;"; "#endifx"; "int x;"]%string /\ scan_file t 1000 = Done (Some (lines ["int x;"]%string)).
Proof. eexists. split; [reflexivity|]. vm_compute. reflexivity. Qed.
Print Assumptions c44_prefix_counts_refuted.

(** Refuted: a null directive in front of the block hides it: nothing is dropped. *)
Theorem c44_null_directive_hides_block_refuted :
  exists t, t = lines ["#"; OPEN; "#endif"; "int x;"]%string /\ scan_file t 1000 = Done (Some t).
Proof. eexists. split; [reflexivity|]. vm_compute. reflexivity. Qed.
Print Assumptions c44_null_directive_hides_block_refuted.

(** ** the hypotheses are met *)
Lemma bytes_dec t : forallb (fun b => (0 <=? b) && (b <? 256)) t = true -> Forall (fun b => 0 <= b < 256) t.
Proof. intros H. apply Forall_forall. intros x I. rewrite forallb_forall in H. specialize (H x I). lia. Qed.

Example c44_hypotheses_met :
  let ps := [Words (lines ["// header"]%string); Line [32] (txt "pragma once") NL; Words NL] in
  let inn := [IWords [9]; IHash [9] 105; IWords (lines ["nclude <a>"; "int y;"]%string)] in
  let t := (pieces_text ps ++ (open_line [] [32] [] NL ++ inners_text inn ++ end_line [] [] NL) ++ lines ["int x;"]%string)%list in
  Forall plain_piece ps /\ open_ok [] [32] [] NL /\ inners_ok inn (end_line [] [] NL ++ lines ["int x;"]%string) /\ end_ok [] [] NL /\ file_ok t 1000 /\
  scan_file t 1000 = Done (Some (lines ["int x;"]%string)).
Proof.
  cbv zeta. split; [|split; [|split; [|split; [|split]]]].
  - apply Forall_cons; [cbn; lia|]. apply Forall_cons; [|apply Forall_cons; [cbn; lia|apply Forall_nil]].
    split; [repeat constructor|]. split; [split; [discriminate|]; split; [split; cbn; lia|cbn; lia]|]. split; [left; reflexivity|].
    split; [intros (bs & x & _ & H); discriminate|]. split; [discriminate|intros w _ H; discriminate].
  - repeat constructor; cbn; auto; tauto.
  - cbn [inners_ok]. split; [cbn; lia|]. split; [repeat constructor; cbn; lia|]. split; [cbn; lia|]. split; [intros (v & E); discriminate|]. split; [cbn; lia|exact I].
  - repeat constructor; cbn; auto; tauto.
  - split; [apply bytes_dec; vm_compute; reflexivity|]. split; [discriminate|]. split; [vm_compute; reflexivity|]. vm_compute. lia.
  - vm_compute. reflexivity.
Qed.
Example c44_no_newline_met :
  let bs := [] in let body := txt "endif" in
  Forall line_blank bs /\ body_ok body /\ ~ opens_block body /\ (forall w, Forall line_blank w -> body <> txt "ifdef" ++ w) /\
  file_ok (pieces_text [Words (lines ["int x;"]%string)] ++ [35] ++ bs ++ body) 100.
Proof.
  cbv zeta. split; [constructor|]. split; [split; [discriminate|]; split; [split; cbn; lia|cbn; lia]|].
  split; [intros (bs & x & _ & E); discriminate|]. split; [intros w _ E; discriminate|].
  split; [apply bytes_dec; vm_compute; reflexivity|]. split; [discriminate|]. split; [vm_compute; reflexivity|]. vm_compute. lia.
Qed.
