(** What a table written as CSV text is, without reference to the reader. *)
From Coq Require Import String ZArith List Bool.
From Verif Require Import Common Text StrOpsSpec CsvModel.
Import ListNotations.
Open Scope Z_scope.

(** ** one cell: nothing, bare text, or text between double quotes *)
Inductive cell := Empty | Plain (t : list Z) | Quoted (t : list Z).
Definition content (c : cell) : list Z := match c with Empty => [] | Plain t | Quoted t => t end.
Definition is_quoted (c : cell) : bool := match c with Quoted _ => true | _ => false end.

(** inside quotes every double quote is written twice *)
Definition doubled (t : list Z) : list Z := flat_map (fun c => if c =? 34 then [34; 34] else [c]) t.
Definition cell_body (c : cell) : list Z :=
  match c with Empty => [] | Plain t => t | Quoted t => [34] ++ doubled t ++ [34] end.

Definition nonempty_bytes (t : list Z) : Prop := t <> [] /\ Forall (fun b => 1 <= b < 256) t.
(** bare text: no delimiter, no newline, no blank at either end, no opening quote *)
Definition cell_ok (d : Z) (c : cell) : Prop :=
  match c with
  | Empty => True
  | Plain t => nonempty_bytes t /\ Forall (fun b => b <> d /\ b <> 10) t /\
               ~ In (hd 0 t) (34 :: BLANKS) /\ ~ In (last t 0) BLANKS
  | Quoted t => nonempty_bytes t
  end.
Definition delim_ok (d : Z) : Prop := 1 <= d < 256 /\ ~ In d (34 :: BLANKS).

(** ** a cell with blanks around it: any blanks before, blanks other than newline after *)
Record field := Field { before : list Z; the : cell; after : list Z }.
Definition field_text (f : field) : list Z := before f ++ cell_body (the f) ++ after f.
Definition field_ok (d : Z) (f : field) : Prop :=
  cell_ok d (the f) /\ Forall (fun b => In b BLANKS) (before f) /\ Forall (fun b => In b BLANKS /\ b <> 10) (after f) /\
  (the f = Empty -> after f = []).

(** ** lines and tables *)
Fixpoint row_text (d : Z) (r : list field) : list Z :=
  match r with
  | [] => []
  | [f] => field_text f
  | f :: r => field_text f ++ [d] ++ row_text d r
  end.
Definition row_ok (d : Z) (r : list field) : Prop :=
  Forall (field_ok d) r /\ the (last r (Field [] Empty [])) <> Empty.
Definition lines_text (d : Z) (rows : list (list field)) : list Z := flat_map (fun r => row_text d r ++ [10]) rows.

(** [rows], each on its own line; the last line ends with [ending]: a newline and any blanks, or nothing *)
Definition table_text (d : Z) (rows : list (list field)) (final : list field) (ending : list Z) : list Z :=
  lines_text d rows ++ row_text d final ++ ending.
Definition ending_ok (final : list field) (ending : list Z) : Prop :=
  (ending = [] /\ after (last final (Field [] Empty [])) = []) \/ (exists bs, ending = 10 :: bs /\ Forall (fun b => In b BLANKS) bs).

(** column [i] of a table *)
Definition column_cells (rows : list (list field)) (i : nat) : list cell :=
  map (fun r => the (nth i r (Field [] Empty []))) rows.

Definition noF := Field [] Empty [].
(** a cell with no blanks around it *)
Definition bare (c : cell) : field := Field [] c [].

(** the well-formed tables: every line has [k] cells *)
Definition rows_ok (d : Z) (k : nat) (rows : list (list field)) : Prop := Forall (fun r => row_ok d r /\ length r = k) rows.
(** the same for cells written without blanks; [fuel] bounds the lengths *)
Definition cells_ok (d : Z) (k fuel : nat) (rows : list (list cell)) : Prop :=
  Forall (fun r => length r = k /\ Forall (cell_ok d) r /\ last r Empty <> Empty /\ Forall (fun c => (length (content c) < fuel)%nat) r) rows.

(** ** the situation before a call of csv_parse: the text [T] is a C string at [text], the literal ""
    lies elsewhere, and the step budget is at least the length of the text *)
Definition start (d : Z) (m : mem) (text empty : Z) (T : list Z) (fuel : nat) : Prop :=
  delim_ok d /\ byte_mem m /\ 0 < text /\ cstr m text T /\ m empty = 0 /\ ~ (text <= empty <= text + zlen T) /\ (length T <= fuel)%nat.

(** ** what the caller finds in the nodes: the node's string, read in memory [m], is the cell's content, and the
    node is marked quoted exactly when the cell was *)
Definition shows (m : mem) (it : item) (c : cell) : Prop := cstr m (it_str it) (content c) /\ it_quoted it = is_quoted c.
Definition shows_nz (m : mem) (it : item) (c : cell) : Prop := shows m it c /\ 0 < it_str it.
(** column [i] holds, top to bottom, cell [i] of every row *)
Definition columns_show (m : mem) (cols : list column) (rows : list (list field)) (k : nat) : Prop :=
  Forall2 (fun col i => Forall2 (shows m) (col_items col) (column_cells rows i)) cols (seq 0 k).
Definition stored (m : mem) (cols : list column) (rows : list (list cell)) (k : nat) : Prop :=
  Forall2 (fun col i => Forall2 (shows_nz m) (col_items col) (map (fun r => nth i r Empty) rows)) cols (seq 0 k).
Definition cells_shown (m : mem) (cols : list column) (rows : list (list cell)) (k : nat) : Prop :=
  Forall2 (fun col i => Forall2 (shows m) (col_items col) (map (fun r => nth i r Empty) rows)) cols (seq 0 k).
