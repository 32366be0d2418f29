(** base/components/interface.upfront.cpp:431-474 [def_comment], on byte memory.
    The formatting of each line runs the formatter model of FmtModel.v on memory.  Simplified: the
    StrBuilder that collects the text is the list of its bytes (its own behaviour is the subject of
    C17) and so is the interned result (C15); allocation of the node is in UpfrontModel.v. *)
From Coq Require Import String ZArith List Bool.
From Verif Require Import Common Text ArrayModel StrOpsModel StrModel FmtModel.
Import ListNotations.
Open Scope Z_scope.

(** printing.hpp:11 *)
Definition PRINTF_MAXLEN := 128 * 1024.

(** strings.hpp:374-385 [strbuilder_append_fmt]: [buf] is the address of its local buffer (zeroed on
    entry), [num] that of the formatter's own local arrays.  Appending a negative number of bytes is
    a copy of almost 2^64 bytes. *)
Definition zeroed (m : mem) (a n : Z) : mem := fun x => if (a <=? x) && (x <? a + n) then 0 else m x.
Definition append_fmt (fuel : nat) (m : mem) (num buf fmt : Z) (args : list arg) (acc : list Z) : run (mem * list Z) :=
  rbind (c_str_fmt_va fuel (zeroed m buf PRINTF_MAXLEN) num buf (PRINTF_MAXLEN - 1) fmt args) (fun '(m, r) =>
  let res := r - 1 in
  if res <? 0 then Undefined else Done (m, acc ++ load_bytes m buf (Z.to_nat res))).

(** interface.upfront.cpp:446-452: the length of the line at [scanner] *)
Definition line_length (fuel : nat) (m : mem) (scanner last : Z) : option Z :=
  match while fuel (fun '(next, length) => negb (next =? last) && negb (m (scanner + length) =? 10))
                   (fun '(next, length) => (scanner + length, length + 1)) (scanner, 0) with
  | Some (_, length) => Some (length + 1)
  | None => None
  end.

(** interface.upfront.cpp:444-458: the do-while loop.  [length] is an s32. *)
Fixpoint comment_loop (n fuel : nat) (m : mem) (num buf fmt scanner last : Z) (acc : list Z) : run (list Z) :=
  match n with
  | O => NoFuel
  | S n =>
    rbind (of_opt (line_length fuel m scanner last)) (fun length =>
    if length >=? 2 ^ 31 then Undefined else
    rbind (append_fmt fuel m num buf fmt [AInt length; APtr scanner] acc) (fun '(m, acc) =>
    let scanner := scanner + length in
    if scanner <=? last then comment_loop n fuel m num buf fmt scanner last acc else Done acc))
  end.

(** interface.upfront.cpp:431-474; [None] is InvalidCode, [Some text] a comment code with that Name and
    Content. [fmt] is the address of the literal "//%.*s". *)
Definition def_comment (fuel : nat) (m : mem) (num buf fmt ptr len : Z) : run (option (list Z)) :=
  if (len <=? 0) || (ptr =? 0) then Done None else
  rbind (comment_loop fuel fuel m num buf fmt ptr (ptr + len) []) (fun acc =>
  Done (Some (if last acc 0 =? 10 then acc else acc ++ [10]))).
