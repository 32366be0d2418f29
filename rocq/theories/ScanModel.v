(** Model of gencpp's file scanner: base/auxiliary/scanner.cpp.
    The file system is not modelled: [t] is the file's content.  The buffer is the [fsize]-byte content followed
    by one NUL (strbuilder_make_reserve zeroes capacity + 1 bytes, C17); reading beyond it is [Undefined].
    The returned Code is [untyped_str] of the text computed here (C32); [None] is the GEN_FATAL exit. *)
From Coq Require Import String ZArith List Bool.
From Verif Require Import Common Text StrOpsModel.
Import ListNotations.
Open Scope Z_scope.

Definition IFDEF : list Z := txt "ifdef".                        (* scanner.cpp:34 *)
Definition ENDIF : list Z := txt "endif".                        (* scanner.cpp:35 *)
Definition INTELLISENSE : list Z := txt "INTELLISENSE_DIRECTIVES".   (* scanner.cpp:36 *)

Section Scan.
Variable t : list Z.
Definition fsize : Z := Z.of_nat (length t).

(** reading the buffer; [sc] is the offset of [scanner] from its start *)
Definition rd (sc : Z) : run Z :=
  if (0 <=? sc) && (sc <? fsize) then Done (nth (Z.to_nat sc) t 0)
  else if sc =? fsize then Done 0 else Undefined.

(** while ( left && char_is_space( current ) ) move_fwd(); *)
Fixpoint skip_spaces (n : nat) (sc left : Z) : run (Z * Z) :=
  if left =? 0 then Done (sc, left) else
  rbind (rd sc) (fun c =>
  if char_is_space c then match n with O => NoFuel | S n' => skip_spaces n' (sc + 1) (left - 1) end
  else Done (sc, left)).

(** c_str_compare_len( scanner, lit, len ) == 0 for a literal without NULs (string_ops.hpp:134-145) *)
Fixpoint matches (lit : list Z) (sc : Z) : run bool :=
  match lit with
  | [] => Done true
  | c :: l => rbind (rd sc) (fun x => if x =? c then matches l (sc + 1) else Done false)
  end.
(** left && compare *)
Definition left_and_matches (lit : list Z) (sc left : Z) : run bool :=
  if left =? 0 then Done false else matches lit sc.

(** scanner.cpp:69-74, 85-90: skip to the end of the line *)
Fixpoint to_eol (n : nat) (sc left : Z) : run (Z * Z) :=
  if left =? 0 then Done (sc, left) else
  rbind (rd sc) (fun c =>
  if (c =? 13) || (c =? 10) then Done (sc, left)
  else match n with O => NoFuel | S n' => to_eol n' (sc + 1) (left - 1) end).
Definition skip_line (n : nat) (sc left : Z) : run (Z * Z) :=
  rbind (to_eol n sc left) (fun '(sc, left) =>
  let sc := sc + 1 in let left := left - 1 in
  if left =? 0 then Done (sc, left) else
  rbind (rd sc) (fun c => if c =? 10 then Done (sc + 1, left - 1) else Done (sc, left))).

(** scanner.cpp:52-67 *)
Definition start_directive (n : nat) (sc left : Z) : run (Z * Z * bool) :=
  rbind (left_and_matches IFDEF sc left) (fun r =>
  if negb r then Done (sc, left, false) else
  rbind (skip_spaces n (sc + Z.of_nat (length IFDEF)) (left - Z.of_nat (length IFDEF))) (fun '(sc, left) =>
  rbind (left_and_matches INTELLISENSE sc left) (fun r =>
  if r then Done (sc + Z.of_nat (length INTELLISENSE), left - Z.of_nat (length INTELLISENSE), true)
  else Done (sc, left, false)))).

(** scanner.cpp:92-103: mem_move( str, scanner, left ); Length = left.  A negative count is undefined. *)
Definition take_rest (sc left : Z) : run (list Z) :=
  if left <? 0 then Undefined else Done (firstn (Z.to_nat left) (skipn (Z.to_nat sc) t)).

(** scanner.cpp:41-110: the loop; the result is the content of the builder at the end *)
Fixpoint scan (k n : nat) (found : bool) (sc left : Z) : run (list Z) :=
  if left =? 0 then Done t else
  rbind (rd sc) (fun c =>
  if c =? 35 then
    rbind (skip_spaces n (sc + 1) (left - 1)) (fun '(sc, left) =>
    if negb found then
      rbind (start_directive n sc left) (fun '(sc, left, found) =>
      rbind (skip_line n sc left) (fun '(sc, left) =>
      match k with O => NoFuel | S k' => scan k' n found sc left end))
    else
      rbind (left_and_matches ENDIF sc left) (fun r =>
      if r then
        rbind (skip_line n (sc + Z.of_nat (length ENDIF)) (left - Z.of_nat (length ENDIF))) (fun '(sc, left) => take_rest sc left)
      else match k with O => NoFuel | S k' => scan k' n found (sc + 1) (left - 1) end))
  else match k with O => NoFuel | S k' => scan k' n found (sc + 1) (left - 1) end).

(** scanner.cpp:7-115 [scan_file]: the text handed to untyped_str; left is an s32 *)
Definition scan_file (n : nat) : run (option (list Z)) :=
  if fsize <=? 0 then Done None else rbind (scan n n false 0 (to_s32 fsize)) (fun r => Done (Some r)).
End Scan.
