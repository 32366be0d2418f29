(** Model of gencpp's CSV reader and writer: base/dependencies/parsing.cpp.
    Strings are addresses into byte memory, as in the code: the reader cuts the caller's text buffer up in
    place.  An [ADT_Node] of type string is an [item] (pointer, [name_style]); a column (array node) is its
    name pointer (0 = NULL) and its items.  Simplified: gencpp's [Array] of nodes is a list (append and
    remove-first are C08; allocation does not fail), the [parent] pointers of nodes are not modelled
    (they are never read here), and an analysis build (name styles kept) is assumed. *)
From Coq Require Import String ZArith List Bool.
From Verif Require Import Common Text ArrayModel MemModel StrOpsModel.
Import ListNotations.
Open Scope Z_scope.

(** parsing.hpp:394-400 [CSV_Error] *)
Definition CSV_NONE := 0.
Definition CSV_UNEXPECTED_END := 2.
Definition CSV_MISMATCHED_ROWS := 3.

(** parsing.hpp:36-41 [name_style]: [true] is EADT_NAME_STYLE_DOUBLE_QUOTE, [false] NO_QUOTES *)
Record item := Item { it_str : Z; it_quoted : bool }.
Record column := Column { col_name : Z; col_items : list item }.

(** parsing.cpp:853-864: look for the closing quote, stepping over doubled quotes; the result is the
    closing quote or the terminating NUL *)
Fixpoint find_close (n fuel : nat) (m : mem) (e : Z) : run Z :=
  rbind (of_opt (c_str_skip fuel m e 34)) (fun e =>
  if negb (m e =? 0) && (m (e + 1) =? 34) then
    if m (e + 2) =? 0 then Done (e + 2) else
    match n with O => NoFuel | S n' => find_close n' fuel m (e + 2) end
  else Done e).

(** parsing.cpp:878-889: replace doubled quotes by single ones (do ... while) *)
Fixpoint unescape (n fuel : nat) (m : mem) (e : Z) : run mem :=
  rbind (if (m e =? 34) && (m (e + 1) =? 34) then
           rbind (of_opt (c_str_len fuel m e)) (fun len => of_opt (mem_move m e (e + 1) len))
         else Done m) (fun m =>
  if m (e + 1) =? 0 then Done m else
  match n with O => NoFuel | S n' => unescape n' fuel m (e + 1) end).

(** what reading one cell yields: memory, the node, [currentChar], [delimiter] *)
Inductive cell_out := CellErr (e : Z) | CellOk (m : mem) (it : item) (cur delimiter : Z).

(** parsing.cpp:842-890 *)
Definition quoted_cell (fuel : nat) (m : mem) (cur : Z) : run cell_out :=
  let begin_ := cur + 1 in
  rbind (find_close fuel fuel m begin_) (fun end_ =>
  if m end_ =? 0 then Done (CellErr CSV_UNEXPECTED_END) else
  let m := store8 m end_ 0 in
  rbind (of_opt (c_str_trim fuel m (end_ + 1) true)) (fun cur =>
  let delimiter := m cur in
  rbind (unescape fuel fuel m begin_) (fun m =>
  Done (CellOk m (Item begin_ true) cur delimiter)))).

(** parsing.cpp:934-942: [Some true] is [skip_number] *)
Fixpoint hex_loop (n : nat) (m : mem) (p : Z) : option bool :=
  if negb (char_is_hex_digit (m p)) then Some true
  else if m p =? 0 then Some false
  else match n with O => None | S n' => hex_loop n' m (p + 1) end.

(** parsing.cpp:926-947: [skip_number] *)
Definition skip_number (fuel : nat) (m : mem) (begin_ : Z) : option bool :=
  match c_str_len fuel m begin_ with
  | None => None
  | Some len => if (len >? 2) && (m begin_ =? 48) && ((m (begin_ + 1) =? 120) || (m (begin_ + 1) =? 88))
                then hex_loop fuel m (begin_ + 2) else Some true
  end.

(** parsing.cpp:896-952.  The call of adt_c_str_to_number is not modelled ([Undefined]); it is unreachable. *)
Definition plain_cell (fuel : nat) (m : mem) (cur delim : Z) : run cell_out :=
  rbind (of_opt (while fuel (fun e => negb (m e =? 0) && negb (m e =? delim) && negb (m e =? 10)) (fun e => e + 1) (cur + 1))) (fun end_ =>
  rbind (if negb (m end_ =? 0) then
           rbind (of_opt (c_str_trim fuel m end_ true)) (fun cur' =>
           rbind (of_opt (while fuel (fun e => char_is_space (m (e - 1))) (fun e => e - 1) end_)) (fun e =>
           Done (store8 m e 0, cur', m cur')))
         else Done (m, end_, 0)) (fun '(m, cur', delimiter) =>
  rbind (of_opt (skip_number fuel m cur)) (fun skip =>
  if skip then Done (CellOk m (Item cur false) cur' delimiter) else Undefined))).

(** [array_append(nodes[i].nodes, it)]; [None]: no column [i] *)
Fixpoint append_to (i : nat) (it : item) (cols : list column) : option (list column) :=
  match i, cols with
  | _, [] => None
  | O, c :: r => Some (Column (col_name c) (col_items c ++ [it]) :: r)
  | S i, c :: r => option_map (cons c) (append_to i it r)
  end.

(** local variables of the loop: memory, [currentChar], the columns, [columnIndex], [totalColumnIndex] *)
Record csv_st := St { s_mem : mem; s_cur : Z; s_cols : list column; s_col : Z; s_tot : Z }.
Inductive csv_out := Next (s : csv_st) | Stop (s : csv_st) | Fail (e : Z) (s : csv_st).

(** parsing.cpp:954-992: append the cell, then act on the delimiter *)
Definition place_cell (m : mem) (it : item) (cur delimiter delim : Z) (s : csv_st) : run csv_out :=
  let cols := if s_col s >=? Z.of_nat (length (s_cols s)) then s_cols s ++ [Column 0 []] else s_cols s in
  match append_to (Z.to_nat (s_col s)) it cols with
  | None => Undefined
  | Some cols =>
    if delimiter =? delim then Done (Next (St m (cur + 1) cols (s_col s + 1) (s_tot s)))
    else if (delimiter =? 10) || (delimiter =? 0) then
      let cur' := if negb (delimiter =? 0) then cur + 1 else cur in
      if s_tot s <? s_col s then Done (Next (St m cur' cols 0 (s_col s)))
      else if negb (s_tot s =? s_col s) then Done (Fail CSV_MISMATCHED_ROWS (St m cur cols (s_col s) (s_tot s)))
      else Done (Next (St m cur' cols 0 (s_tot s)))
    else Done (Next (St m cur cols (s_col s) (s_tot s)))
  end.

(** parsing.cpp:826-992: one iteration of the loop body *)
Definition csv_step (fuel : nat) (empty delim : Z) (s : csv_st) : run csv_out :=
  let m := s_mem s in
  rbind (of_opt (c_str_trim fuel m (s_cur s) false)) (fun cur =>
  if m cur =? 0 then Done (Stop (St m cur (s_cols s) (s_col s) (s_tot s))) else
  rbind (if m cur =? 34 then quoted_cell fuel m cur
         else if m cur =? delim then Done (CellOk m (Item empty false) cur (m cur))
         else plain_cell fuel m cur delim) (fun c =>
  match c with
  | CellErr e => Done (Fail e (St m cur (s_cols s) (s_col s) (s_tot s)))
  | CellOk m it cur delimiter => place_cell m it cur delimiter delim s
  end)).

(** parsing.cpp:824-993: do ... while ( *currentChar ); the first component is the error code *)
Fixpoint csv_loop (n fuel : nat) (empty delim : Z) (s : csv_st) : run (Z * csv_st) :=
  rbind (csv_step fuel empty delim s) (fun o =>
  match o with
  | Stop s => Done (CSV_NONE, s)
  | Fail e s => Done (e, s)
  | Next s => if s_mem s (s_cur s) =? 0 then Done (CSV_NONE, s) else
              match n with O => NoFuel | S n' => csv_loop n' fuel empty delim s end
  end).

(** parsing.cpp:1003-1012: the first item of every column becomes its name *)
Fixpoint take_header (cols : list column) : run (list column) :=
  match cols with
  | [] => Done []
  | c :: r => match col_items c with
              | [] => Undefined
              | h :: t => rbind (take_header r) (fun r => Done (Column (it_str h) t :: r))
              end
  end.

(** parsing.cpp:810-1006 [csv_parse_delimiter]: error code, memory, and the columns of [root].
    [empty] is the address of the empty string literal. *)
Definition csv_parse_delimiter (fuel : nat) (m : mem) (text empty : Z) (has_header : bool) (delim : Z) : run (Z * mem * list column) :=
  rbind (csv_loop fuel fuel empty delim (St m text [] 0 0)) (fun '(e, s) =>
  if negb (e =? CSV_NONE) then Done (e, s_mem s, s_cols s)
  else if Z.of_nat (length (s_cols s)) =? 0 then Done (CSV_UNEXPECTED_END, s_mem s, s_cols s)
  else if has_header then rbind (take_header (s_cols s)) (fun cols => Done (CSV_NONE, s_mem s, cols))
  else Done (CSV_NONE, s_mem s, s_cols s)).

(** parsing.hpp:416-419 [csv_parse] *)
Definition csv_parse (fuel : nat) (m : mem) (text empty : Z) (has_header : bool) :=
  csv_parse_delimiter fuel m text empty has_header 44.

(** ** writing.  The file is the list of bytes written; "%s", "%c" and "%.*s" print as in C37
    (pieces shorter than GEN_PRINTF_MAXLEN). *)

(** "%s" *)
Definition put_s (fuel : nat) (m : mem) (s : Z) (out : list Z) : run (list Z) :=
  rbind (of_opt (c_str_len fuel m s)) (fun n => Done (out ++ load_bytes m s (Z.to_nat n))).

(** parsing.cpp:735-764 [adt_print_string], called with a double quote both as the set of characters to escape (the C string
    at [chars]) and as the escape symbol; [p] is non-null *)
Fixpoint print_escaped (n fuel : nat) (m : mem) (chars p : Z) (out : list Z) : run (list Z) :=
  let b := p in
  rbind (of_opt (c_str_skip_any fuel m p chars)) (fun p =>
  let out := out ++ load_bytes m b (Z.to_nat (p - b)) in
  rbind (of_opt (char_first_occurence fuel m chars (m p))) (fun occ =>
  let hit := negb (m p =? 0) && match occ with Some _ => true | None => false end in
  let out := if hit then out ++ [34; m p] else out in
  let p := if hit then p + 1 else p in
  if m p =? 0 then Done out else
  match n with O => NoFuel | S n' => print_escaped n' fuel m chars p out end)).

(** parsing.cpp:1013-1051 [_csv_write_record] for string nodes (the only ones csv_parse makes) *)
Definition write_record (fuel : nat) (m : mem) (chars : Z) (it : item) (out : list Z) : run (list Z) :=
  if it_quoted it then
    rbind (if it_str it =? 0 then Done (out ++ [34]) else print_escaped fuel fuel m chars (it_str it) (out ++ [34]))
      (fun out => Done (out ++ [34]))
  else put_s fuel m (it_str it) out.

(** parsing.cpp:1053-1059 [_csv_write_header]: the column's own name style, which adt_make_branch left zeroed
    (EADT_NAME_STYLE_DOUBLE_QUOTE) *)
Definition write_header (fuel : nat) (m : mem) (chars : Z) (c : column) (out : list Z) : run (list Z) :=
  write_record fuel m chars (Item (col_name c) true) out.

(** parsing.cpp:1076-1084, 1089-1097: one line; [get c] is what is written for column [c] *)
Fixpoint write_line (wr : column -> list Z -> run (list Z)) (delim : Z) (cols : list column) (out : list Z) : run (list Z) :=
  match cols with
  | [] => Done (out ++ [10])
  | c :: r => rbind (wr c out) (fun out =>
              write_line wr delim r (match r with [] => out | _ => out ++ [delim] end))
  end.
(** node [r] of a column; reading past the end of the array is undefined *)
Definition write_cell (fuel : nat) (m : mem) (chars : Z) (r : nat) (c : column) (out : list Z) : run (list Z) :=
  match nth_error (col_items c) r with Some it => write_record fuel m chars it out | None => Undefined end.
(** parsing.cpp:1087-1098: rows [r], [r+1], ... [r+n-1] *)
Fixpoint write_rows (fuel : nat) (m : mem) (chars delim : Z) (cols : list column) (n r : nat) (out : list Z) : run (list Z) :=
  match n with
  | O => Done out
  | S n => rbind (write_line (write_cell fuel m chars r) delim cols out) (write_rows fuel m chars delim cols n (S r))
  end.
(** parsing.cpp:1061-1099 [csv_write_delimiter] *)
Definition csv_write_delimiter (fuel : nat) (m : mem) (chars delim : Z) (cols : list column) : run (list Z) :=
  match cols with
  | [] => Done []
  | c0 :: _ =>
    let rows := length (col_items c0) in
    match rows with
    | O => Done []
    | _ => rbind (if col_name c0 =? 0 then Done [] else write_line (write_header fuel m chars) delim cols [])
             (write_rows fuel m chars delim cols rows 0)
    end
  end.
