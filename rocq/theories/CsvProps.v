(** C43: CSV parsing recovers the written cells. *)
From Coq Require Import String ZArith List Bool Lia ZifyBool.
From Verif Require Import Common Text ArrayModel StrOpsModel StrOpsSpec StrOpsProps CsvModel CsvSpec CsvProofs CsvProofs3.
Import ListNotations.
Close Scope string_scope. Open Scope Z_scope.

(** Any table of [k >= 1] columns whose cells are written bare or quoted, with blanks around them, is read
    back without error: [k] unnamed columns, and column [i] holds exactly the cells of column [i], in order.
    Only the text buffer itself is modified.  (Partial: the last cell of a line must not be empty, quoted cells
    must not be empty, the delimiter must not be blank; see the refutations below for each.) *)
Theorem c43_parse_partial : forall d m text empty k rows final ending fuel, (0 < k)%nat -> rows_ok d k (rows ++ [final]) -> ending_ok final ending ->
  start d m text empty (table_text d rows final ending) fuel ->
  exists m' cols, csv_parse_delimiter fuel m text empty false d = Done (CSV_NONE, m', cols) /\
    Forall (fun c => col_name c = 0) cols /\ columns_show m' cols (rows ++ [final]) k /\
    forall x, ~ (text <= x <= text + zlen (table_text d rows final ending)) -> m' x = m x.
Proof. exact p43_parse. Qed.
Print Assumptions c43_parse_partial.

(** With a header line the first line names the columns and the rest are the cells. *)
Theorem c43_header_partial : forall d m text empty k h rows final ending fuel, (0 < k)%nat -> rows_ok d k (h :: rows ++ [final]) -> ending_ok final ending ->
  start d m text empty (table_text d (h :: rows) final ending) fuel ->
  exists m' cols, csv_parse_delimiter fuel m text empty true d = Done (CSV_NONE, m', cols) /\
    Forall2 (fun col i => cstr m' (col_name col) (content (the (nth i h noF)))) cols (seq 0 k) /\
    columns_show m' cols (rows ++ [final]) k /\
    forall x, ~ (text <= x <= text + zlen (table_text d (h :: rows) final ending)) -> m' x = m x.
Proof. exact p43_header. Qed.
Print Assumptions c43_header_partial.
Theorem c43_header_only : forall d m text empty k h ending fuel, (0 < k)%nat -> rows_ok d k [h] -> ending_ok h ending ->
  start d m text empty (table_text d [] h ending) fuel ->
  exists m' cols, csv_parse_delimiter fuel m text empty true d = Done (CSV_NONE, m', cols) /\
    Forall2 (fun col i => cstr m' (col_name col) (content (the (nth i h noF))) /\ col_items col = []) cols (seq 0 k).
Proof. exact p43_header_only. Qed.
Print Assumptions c43_header_only.

(** A line shorter than the lines before it is rejected, whatever follows. *)
Theorem c43_short_line_rejected : forall d m text empty hh k rows r R fuel, (0 < k)%nat -> rows <> [] -> rows_ok d k rows -> row_ok d r -> r <> [] -> (length r < k)%nat ->
  (R = [] /\ after (last r noF) = []) \/ (exists R', R = 10 :: R') ->
  start d m text empty (lines_text d rows ++ row_text d r ++ R) fuel ->
  exists m' cols, csv_parse_delimiter fuel m text empty hh d = Done (CSV_MISMATCHED_ROWS, m', cols).
Proof. exact p43_short. Qed.
Print Assumptions c43_short_line_rejected.

(** A quoted cell that is never closed is rejected. *)
Theorem c43_unterminated_rejected : forall d m text empty hh k rows fs bs t fuel, (0 < k)%nat -> rows_ok d k rows -> Forall (field_ok d) fs -> Forall (fun b => In b BLANKS) bs ->
  start d m text empty (lines_text d rows ++ flat_map (fun f => field_text f ++ [d]) fs ++ bs ++ [34] ++ doubled t) fuel ->
  exists m' cols, csv_parse_delimiter fuel m text empty hh d = Done (CSV_UNEXPECTED_END, m', cols).
Proof. exact p43_unterminated. Qed.
Print Assumptions c43_unterminated_rejected.

(** An empty or blank text is rejected and yields no column. *)
Theorem c43_blank_rejected : forall d m text empty hh bs fuel, Forall (fun b => In b BLANKS) bs -> start d m text empty bs fuel ->
  exists m', csv_parse_delimiter fuel m text empty hh d = Done (CSV_UNEXPECTED_END, m', []).
Proof. exact p43_blank. Qed.
Print Assumptions c43_blank_rejected.

(** Cells are never turned into numbers: the test for hexadecimal numerals always ends in "skip". *)
Theorem c43_never_a_number : forall fuel m p b, skip_number fuel m p = Some b -> b = true.
Proof. exact skip_number_skips. Qed.
Print Assumptions c43_never_a_number.

(** Writing columns of string cells yields one line per row, cells joined by the delimiter, quoted cells
    quoted with their quotes doubled, preceded by a line of quoted column names if the columns are named. *)
Theorem c43_write : forall d m chars fuel cols k rows, (0 < fuel)%nat -> (0 < k)%nat -> rows <> [] -> chars <> 0 -> cstr m chars [34] -> stored m cols rows k ->
  Forall (fun c => col_name c = 0) cols -> Forall (fun r => length r = k /\ Forall (fun c => (length (content c) < fuel)%nat) r) rows ->
  csv_write_delimiter fuel m chars d cols = Done (lines_text d (map (map bare) rows)).
Proof. exact p43_write. Qed.
Print Assumptions c43_write.
Theorem c43_write_header : forall d m chars fuel cols k names rows, (0 < fuel)%nat -> (0 < k)%nat -> rows <> [] -> chars <> 0 -> cstr m chars [34] -> stored m cols rows k ->
  length names = k -> Forall (fun t => (length t < fuel)%nat) names ->
  Forall2 (fun c i => cstr m (col_name c) (nth i names []) /\ 0 < col_name c) cols (seq 0 k) -> Forall (fun r => length r = k /\ Forall (fun c => (length (content c) < fuel)%nat) r) rows ->
  csv_write_delimiter fuel m chars d cols = Done (lines_text d (map (map bare) (map Quoted names :: rows))).
Proof. exact p43_write_header. Qed.
Print Assumptions c43_write_header.

(** Reading back what was written gives the same cells (and names). *)
Theorem c43_roundtrip_partial : forall d m chars fuel cols k rows, (0 < fuel)%nat -> (0 < k)%nat -> rows <> [] -> chars <> 0 -> cstr m chars [34] -> stored m cols rows k ->
  Forall (fun c => col_name c = 0) cols -> cells_ok d k fuel rows ->
  exists T, csv_write_delimiter fuel m chars d cols = Done T /\
    forall m2 text empty fuel2, start d m2 text empty T fuel2 ->
    exists m' cols', csv_parse_delimiter fuel2 m2 text empty false d = Done (CSV_NONE, m', cols') /\ Forall (fun c => col_name c = 0) cols' /\ cells_shown m' cols' rows k.
Proof. exact p43_roundtrip. Qed.
Print Assumptions c43_roundtrip_partial.
Theorem c43_roundtrip_header_partial : forall d m chars fuel cols k names rows, (0 < fuel)%nat -> (0 < k)%nat -> rows <> [] -> chars <> 0 -> cstr m chars [34] -> stored m cols rows k ->
  length names = k -> Forall (fun t => nonempty_bytes t /\ (length t < fuel)%nat) names ->
  Forall2 (fun c i => cstr m (col_name c) (nth i names []) /\ 0 < col_name c) cols (seq 0 k) -> cells_ok d k fuel rows ->
  exists T, csv_write_delimiter fuel m chars d cols = Done T /\
    forall m2 text empty fuel2, start d m2 text empty T fuel2 ->
    exists m' cols', csv_parse_delimiter fuel2 m2 text empty true d = Done (CSV_NONE, m', cols') /\
      Forall2 (fun c i => cstr m' (col_name c) (nth i names [])) cols' (seq 0 k) /\ cells_shown m' cols' rows k.
Proof. exact p43_roundtrip_header. Qed.
Print Assumptions c43_roundtrip_header_partial.

(** ** what goes wrong outside those tables: error code and cells, column by column *)
Definition NL : string := String (Ascii.ascii_of_nat 10) EmptyString.
Definition Q : string := String (Ascii.ascii_of_nat 34) EmptyString.
Definition T : string := String (Ascii.ascii_of_nat 9) EmptyString.
Open Scope string_scope. Open Scope Z_scope.
Definition seen (d : Z) (t : string) : option (Z * list (list (list Z))) :=
  match csv_parse_delimiter 200 (text_at 1000 (txt t)) 1000 1 false d with
  | Done (e, m, cols) => Some (e, map (fun c => map (fun it => until_nul (load_bytes m (it_str it) 60)) (col_items c)) cols)
  | _ => None
  end.
Definition cells (l : list (list string)) := map (map txt) l.
Definition reads (d : Z) (t : string) (e : Z) (l : list (list string)) : Prop := seen d t = Some (e, cells l).

(** An empty last cell swallows the line break: the table ((a, ""), (b, c)) is read as one line of three cells. *)
Theorem c43_empty_last_cell_refuted : reads 44 ("a," ++ NL ++ "b,c" ++ NL) CSV_NONE [["a"]; ["b"]; ["c"]].
Proof. vm_compute. reflexivity. Qed.
(** A trailing empty cell at the end of the text is lost. *)
Theorem c43_trailing_cell_lost_refuted : reads 44 ("a,b" ++ NL ++ "c,") CSV_NONE [["a"; "c"]; ["b"]].
Proof. vm_compute. reflexivity. Qed.
(** A line longer than the ones before it is accepted: ragged tables are not always rejected. *)
Theorem c43_long_line_accepted_refuted : reads 44 ("a" ++ NL ++ "b,c" ++ NL) CSV_NONE [["a"; "b"]; ["c"]].
Proof. vm_compute. reflexivity. Qed.
(** Blank lines are skipped, so a one-column table loses its empty cells. *)
Theorem c43_blank_line_lost_refuted : reads 44 ("a" ++ NL ++ NL ++ "b" ++ NL) CSV_NONE [["a"; "b"]].
Proof. vm_compute. reflexivity. Qed.
(** Unescaping an empty quoted cell runs on into the text behind it: with two empty quoted cells the second
    one loses a quote and the table is rejected. *)
Theorem c43_empty_quoted_refuted : reads 44 (Q ++ Q ++ "," ++ Q ++ Q ++ NL) CSV_UNEXPECTED_END [[""]].
Proof. vm_compute. reflexivity. Qed.
(** Tab-separated text is never split: blanks are skipped before the delimiter is looked at. *)
Theorem c43_tab_delimiter_refuted : reads 9 ("a" ++ T ++ "b" ++ NL) CSV_NONE [["a"; "b"]].
Proof. vm_compute. reflexivity. Qed.
(** Text after a closing quote becomes another cell of the same column. *)
Theorem c43_text_after_quote_refuted : reads 44 (Q ++ "a" ++ Q ++ "b,c" ++ NL) CSV_NONE [["a"; "b"]; ["c"]].
Proof. vm_compute. reflexivity. Qed.
(** A bare last cell at the end of the text keeps its trailing blanks; followed by a newline it does not. *)
Theorem c43_trailing_blanks_refuted : reads 44 "a,b  " CSV_NONE [["a"]; ["b  "]] /\ reads 44 ("a,b  " ++ NL) CSV_NONE [["a"]; ["b"]].
Proof. split; vm_compute; reflexivity. Qed.
Print Assumptions c43_empty_last_cell_refuted. Print Assumptions c43_trailing_cell_lost_refuted. Print Assumptions c43_long_line_accepted_refuted.
Print Assumptions c43_blank_line_lost_refuted. Print Assumptions c43_empty_quoted_refuted. Print Assumptions c43_tab_delimiter_refuted.
Print Assumptions c43_text_after_quote_refuted. Print Assumptions c43_trailing_blanks_refuted.

(** ** the hypotheses are met: two lines of three cells, one quoted with quotes, delimiter and newline inside *)
Definition q_text : list Z := txt ("x" ++ Q ++ "y," ++ NL ++ Q ++ Q).
Definition demo_rows : list (list field) :=
  [[Field (txt " ") (Plain (txt "ab c")) (txt " "); Field [] Empty []; Field [] (Quoted q_text) (txt " ")]].
Definition demo_final : list field := [Field [] Empty []; Field (txt " ") (Quoted (txt "z")) []; Field [] (Plain (txt "0x1f")) []].
Definition demo_text := table_text 44 demo_rows demo_final [10; 32].
Example c43_hypotheses_met : rows_ok 44 3 (demo_rows ++ [demo_final]) /\ ending_ok demo_final [10; 32] /\
  start 44 (text_at 1000 demo_text) 1000 1 demo_text 200 /\
  match csv_parse_delimiter 200 (text_at 1000 demo_text) 1000 1 true 44 with
  | Done (e, m, [c1; c2; c3]) => e = CSV_NONE /\ until_nul (load_bytes m (col_name c3) 60) = q_text /\ map it_quoted (col_items c2) = [true]
  | _ => False
  end.
Proof.
  split; [|split; [|split]].
  - assert (B : forall l, forallb (fun b => (1 <=? b) && (b <? 256)) l = true -> Forall (fun b => 1 <= b < 256) l).
    { intros l H. apply Forall_forall. intros x Hx. rewrite forallb_forall in H. apply H in Hx. lia. }
    assert (B2 : forall l, forallb (fun b => negb (b =? 44) && negb (b =? 10)) l = true -> Forall (fun b => b <> 44 /\ b <> 10) l).
    { intros l H. apply Forall_forall. intros x Hx. rewrite forallb_forall in H. apply H in Hx. lia. }
    assert (C1 : cell_ok 44 (Plain (txt "ab c"))).
    { split; [split; [discriminate|apply B; reflexivity]|]. split; [apply B2; reflexivity|]. split; cbn; lia. }
    assert (C2 : cell_ok 44 (Plain (txt "0x1f"))).
    { split; [split; [discriminate|apply B; reflexivity]|]. split; [apply B2; reflexivity|]. split; cbn; lia. }
    assert (C3 : cell_ok 44 (Quoted q_text)) by (split; [discriminate|apply B; reflexivity]).
    assert (C4 : cell_ok 44 (Quoted (txt "z"))) by (split; [discriminate|apply B; reflexivity]).
    assert (S1 : Forall (fun b => In b BLANKS) (txt " ")) by (vm_compute; repeat constructor; try discriminate; auto).
    assert (S2 : Forall (fun b => In b BLANKS /\ b <> 10) (txt " ")) by (vm_compute; repeat constructor; try discriminate; auto).
    assert (N : forall d, cell_ok d Empty) by exact (fun _ => I).
    unfold demo_rows, demo_final, rows_ok, row_ok, field_ok.
    repeat (first [apply Forall_cons | apply Forall_nil | split]); cbn [the before after last app]; auto; try discriminate; try reflexivity; try (cbn; lia).
  - right. exists [32]. split; auto. repeat constructor.
  - unfold start, delim_ok. split; [split; [lia|cbn; lia]|]. split; [|split; [lia|split; [|split; [reflexivity|split]]]].
    + apply ArrayProofs.store_bytes_byte; [vm_compute; repeat constructor; discriminate | intros x; lia].
    + split; [vm_compute; reflexivity|]. split; [|vm_compute; reflexivity]. vm_compute. repeat constructor; discriminate.
    + vm_compute. intros [H _]. apply H. reflexivity.
    + vm_compute. lia.
  - vm_compute. auto.
Qed.
