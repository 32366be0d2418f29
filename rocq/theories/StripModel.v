(** parser_strip_formatting: base/components/parser.cpp:249-487, which every text that is taken from the source as a
    whole goes through (type names, attributes, default values, #define bodies).
    The text is the list of its bytes; reading outside of it is [Undefined].  The scanner is an index; [tokleft]
    is kept by the code in step with it (it is negative once the scanner has passed the end).  The string builder
    is the list of its bytes (C17).  The text is shorter than 2^31 bytes. *)
From Coq Require Import String ZArith List Bool.
From Verif Require Import Common Text StrOpsModel LexModel.
Import ListNotations.
Close Scope string_scope.
Open Scope Z_scope.

Section Strip.
Variable raw : list Z.
Variable preserve_newlines : bool.
Variable fuel : nat.

Definition char_at (i : Z) : run Z :=
  if 0 <=? i then match nth_error raw (Z.to_nat i) with Some b => Done b | None => Undefined end else Undefined.
Definition tokleft (p : Z) : Z := zlen raw - p.
(** cut_ptr, cut_length: the bytes from [cut] up to [p]; they must be in the text *)
Definition pending (cut p : Z) : run (list Z) :=
  if (0 <=? cut) && (cut <=? p) && (p <=? zlen raw) then Done (slice raw cut (p - cut)) else Undefined.

(** * strbuilder_back( content ): of an empty string it is the byte before its text, which is the most
    significant byte of the Length in the header (dependencies/strings.hpp:161-165, 419-422): zero *)
Definition back (content : list Z) : Z := last content 0.

(** parser.cpp:289-299: to the closing quote of a string literal *)
Fixpoint string_end (n : nat) (p : Z) : run Z :=
  if tokleft p =? 0 then Done p else
  rbind (char_at p) (fun c => rbind (char_at (p - 1)) (fun d =>
  if negb (c =? 34) || (d =? 92) then
    match n with
    | O => NoFuel
    | S n => if (c =? 92) && (tokleft p >? 1) then string_end n (p + 2) else string_end n (p + 1)
    end
  else Done p)).
(** parser.cpp:314-320: to the closing quote of a character literal *)
Fixpoint char_end (n : nat) (p : Z) : run Z :=
  if tokleft p =? 0 then Done p else
  rbind (char_at p) (fun c => rbind (char_at (p - 1)) (fun d =>
  if negb (c =? 39) || (d =? 92) then match n with O => NoFuel | S n => char_end n (p + 1) end else Done p)).
(** parser.cpp:333-334: to the end of a block comment *)
Fixpoint block_end (n : nat) (p : Z) : run Z :=
  if tokleft p >? 1 then
    rbind (char_at p) (fun a => rbind (char_at (p + 1)) (fun b =>
    if (a =? 42) && (b =? 47) then Done p else match n with O => NoFuel | S n => block_end n (p + 1) end))
  else Done p.
(** parser.cpp:352-353: to the end of the line *)
Fixpoint line_end (n : nat) (p : Z) : run Z :=
  if tokleft p =? 0 then Done p else
  rbind (char_at p) (fun c => if c =? 10 then Done p else match n with O => NoFuel | S n => line_end n (p + 1) end).
(** parser.cpp:463-467: over white space *)
Fixpoint space_end (n : nat) (p : Z) : run Z :=
  if tokleft p =? 0 then Done p else
  rbind (char_at p) (fun c => if char_is_space c then match n with O => NoFuel | S n => space_end n (p + 1) end else Done p).

Definition closing (p : Z) : Z := if tokleft p =? 0 then p else p + 1.   (* if ( tokleft ) move_fwd(); *)
(** replace white space by one space *)
Definition spaced (content : list Z) : list Z := if back content =? 32 then content else content ++ [32].
(** if ( pos > last_cut ) append the pending text *)
Definition flush (content : list Z) (cut p : Z) : run (list Z) :=
  if p >? cut then rbind (pending cut p) (fun t => Done (content ++ t)) else Done content.

(** the second character, where there is one *)
Definition second (p : Z) : run Z := if tokleft p >? 1 then char_at (p + 1) else Done (-1).

(** parser.cpp:281-475: the loop; [p] is the scanner, [cut] last_cut *)
Fixpoint strip_loop (n : nat) (p cut : Z) (content : list Z) (must_keep_newline : bool) : run (list Z) :=
  if tokleft p =? 0 then
    (* parser.cpp:477-479 *)
    if cut <? zlen raw then rbind (pending cut (zlen raw)) (fun t => Done (content ++ t)) else Done content
  else
  match n with
  | O => NoFuel
  | S n =>
    (* append the text up to [q], and go on from there *)
    let keep_to (q : Z) (must : bool) := rbind (pending cut q) (fun t => strip_loop n q q (content ++ t) must) in
    (* replace the [k] characters at the scanner by a space *)
    let replace (k : Z) := rbind (flush content cut p) (fun content => strip_loop n (p + k) (p + k) (spaced content) must_keep_newline) in
    rbind (char_at p) (fun c =>
    rbind (second p) (fun d =>
    if c =? 34 then rbind (string_end fuel (p + 1)) (fun q => keep_to (closing q) must_keep_newline)        (* parser.cpp:284-307 *)
    else if c =? 39 then rbind (char_end fuel (p + 1)) (fun q => keep_to (closing q) must_keep_newline)     (* parser.cpp:310-328 *)
    else if (c =? 47) && (d =? 42) then rbind (block_end fuel p) (fun q => keep_to (q + 2) must_keep_newline)  (* parser.cpp:331-342 *)
    else if (c =? 47) && (d =? 47) then rbind (line_end fuel (p + 2)) (fun q => keep_to (closing q) true)   (* parser.cpp:345-361 *)
    else if c =? 9 then replace 1                                                                           (* parser.cpp:364-375 *)
    else if (c =? 13) && (d =? 10) then                                                                     (* parser.cpp:377-402 *)
      if must_keep_newline || preserve_newlines then keep_to (p + 2) false else replace 2
    else if c =? 10 then                                                                                    (* parser.cpp:404-428 *)
      if must_keep_newline || preserve_newlines then keep_to (p + 1) false else replace 1
    else if c =? 92 then                                                                                    (* parser.cpp:431-455 *)
      rbind (pending cut p) (fun t =>
      let content := content ++ t in
      rbind (if d =? 10 then Done 2
             else if (tokleft p >? 2) && (d =? 13) then rbind (char_at (p + 2)) (fun e => Done (if e =? 10 then 3 else 1))
             else Done 1) (fun amount_to_skip =>
      let q := if (amount_to_skip >? 1) && (p =? cut) then p + amount_to_skip else p + 1 in
      strip_loop n q q content must_keep_newline))
    else if (tokleft p >? 1) && char_is_space c && char_is_space d then                                     (* parser.cpp:458-474 *)
      rbind (pending cut p) (fun t =>
      rbind (space_end fuel (p + 1)) (fun q =>
      let content := content ++ t in
      strip_loop n q q (spaced content) must_keep_newline))
    else strip_loop n (p + 1) cut content must_keep_newline))
  end.

(** parser.cpp:255-487 *)
Definition strip_formatting : run (list Z) :=
  match raw with
  | [] => Done []
  | c :: _ => if c =? 32 then strip_loop fuel 1 1 [] false else strip_loop fuel 0 0 [] false
  end.
End Strip.
