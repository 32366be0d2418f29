(** The file builder: auxiliary/builder.cpp and the file_write path of filesystem.hpp/.cpp (POSIX).
    The buffer is its text: the StrBuilder appends are C17 and are taken to find memory. The operating system is what
    it answers: whether the file could be opened, and for one write how many bytes it took (negative: an error). *)
From Coq Require Import ZArith List Bool.
From Verif Require Import Common Text ArrayModel AstModel SerModel FmtModel UntypedModel.
Import ListNotations.
Open Scope Z_scope.

(** what happens to a builder *)
Inductive builder_op :=
| BPrint (c : Z)                                                     (* builder_print *)
| BFmt (m : mem) (num buf fmt : Z) (args : list arg)                 (* builder_print_fmt: the memory it runs in, its buffers, format, arguments *)
| BPad (num : Z).                                                    (* builder_pad_lines *)

(** builder.cpp:7-24 [builder_open]: without a file the buffer is never made (the struct is returned uninitialised) *)
Definition builder_open (opened : bool) : option (list Z) := if opened then Some [] else None.

(** builder.cpp:26-29 [builder_pad_lines]: [num] is not used *)
Definition builder_pad_lines (buffer : list Z) (num : Z) : list Z := buffer ++ [10].

(** builder.cpp:31-37 [builder_print] *)
Definition builder_print (fuel : nat) (h : heap) (buffer : list Z) (code : Z) : run (list Z) :=
  rbind (code_to_strbuilder fuel h code) (fun str => Done (buffer ++ str)).

(** builder.cpp:39-47 [builder_print_fmt_va]: the buffer's last byte is kept, the count returned includes the terminator *)
Definition builder_print_fmt_va (fuel : nat) (buffer : list Z) (m : mem) (num buf fmt : Z) (args : list arg) : run (list Z) :=
  rbind (c_str_fmt_va fuel m num buf (GEN_PRINTF_MAXLEN - 1) fmt args) (fun '(m, n) =>
  rbind (str_at m (buf, n - 1)) (fun str => Done (buffer ++ str))).

(** one call; without a buffer every call reads uninitialised memory *)
Definition builder_step (fuel : nat) (h : heap) (b : option (list Z)) (o : builder_op) : run (option (list Z)) :=
  match b with
  | None => Undefined
  | Some buffer =>
    match o with
    | BPrint c => rbind (builder_print fuel h buffer c) (fun t => Done (Some t))
    | BFmt m num buf fmt args => rbind (builder_print_fmt_va fuel buffer m num buf fmt args) (fun t => Done (Some t))
    | BPad num => Done (Some (builder_pad_lines buffer num))
    end
  end.

(** filesystem.hpp:360-384, filesystem.cpp:212-232 [file_write] at the end of a file holding [file]: write(2) takes [took]
    of the bytes; anything but an error counts as success *)
Definition file_write (file buffer : list Z) (took : Z) : list Z * bool :=
  if took <? 0 then (file, false) else (file ++ firstn (Z.to_nat took) buffer, true).

(** builder.cpp:49-59 [builder_write]: the file's content and whether a failure is logged; Generated is logged in any case *)
Definition builder_write (b : option (list Z)) (took : Z) : run (list Z * bool) :=
  match b with None => Undefined | Some buffer => Done (file_write [] buffer took) end.

Fixpoint builder_steps (fuel : nat) (h : heap) (b : option (list Z)) (ops : list builder_op) : run (option (list Z)) :=
  match ops with [] => Done b | o :: r => rbind (builder_step fuel h b o) (fun b => builder_steps fuel h b r) end.
(** open, any calls, write *)
Definition builder_run (fuel : nat) (h : heap) (opened : bool) (ops : list builder_op) (took : Z) : run (list Z * bool) :=
  rbind (builder_steps fuel h (builder_open opened) ops) (fun b => builder_write b took).
