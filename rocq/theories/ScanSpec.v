(** Files as sequences of preprocessor lines and other text. *)
From Coq Require Import String ZArith List Bool.
From Verif Require Import Common Text StrOpsSpec.
Import ListNotations.
Open Scope Z_scope.

(** blanks within a line: space, tab, vertical tab, form feed *)
Definition line_blank (b : Z) : Prop := In b [32; 9; 11; 12].
Definition is_nl (nl : list Z) : Prop := nl = [10] \/ nl = [13; 10].
Definition on_line (u : list Z) : Prop := ~ In 10 u /\ ~ In 13 u.
Definition begins (w u : list Z) : Prop := exists v, u = w ++ v.

(** the rest of a directive line opens an intellisense block: ifdef INTELLISENSE_DIRECTIVES... *)
Definition opens_block (body : list Z) : Prop :=
  exists bs x, Forall line_blank bs /\ body = txt "ifdef" ++ bs ++ txt "INTELLISENSE_DIRECTIVES" ++ x.

(** a directive line after its '#': blanks, then a body that starts with a non-blank *)
Definition body_ok (body : list Z) : Prop := body <> [] /\ on_line body /\ ~ In (hd 0 body) BLANKS.

(** ** before the block: text without '#', and complete directive lines that do not open the block *)
Inductive piece := Words (u : list Z) | Line (bs body nl : list Z).
Definition piece_text (p : piece) : list Z :=
  match p with Words u => u | Line bs body nl => [35] ++ bs ++ body ++ nl end.
Definition plain_piece (p : piece) : Prop :=
  match p with
  | Words u => ~ In 35 u
  | Line bs body nl => Forall line_blank bs /\ body_ok body /\ is_nl nl /\ ~ opens_block body /\
                       (body <> txt "ifdef" /\ forall w, Forall line_blank w -> body <> txt "ifdef" ++ w)
  end.
Definition pieces_text (ps : list piece) : list Z := flat_map piece_text ps.

(** ** inside the block: text without '#', and '#'s (each with blanks and the character [c] behind it) that do not
    begin an #endif *)
Inductive inner := IWords (u : list Z) | IHash (bs : list Z) (c : Z).
Definition inner_text (p : inner) : list Z := match p with IWords u => u | IHash bs c => [35] ++ bs ++ [c] end.
Definition inners_text (ps : list inner) : list Z := flat_map inner_text ps.
Fixpoint inners_ok (ps : list inner) (tail : list Z) : Prop :=
  match ps with
  | [] => True
  | IWords u :: r => ~ In 35 u /\ inners_ok r tail
  | IHash bs c :: r => Forall (fun b => In b BLANKS) bs /\ ~ In c (35 :: BLANKS) /\
                       ~ begins (txt "endif") (c :: inners_text r ++ tail) /\ inners_ok r tail
  end.

(** the opening line and the closing line *)
Definition open_line (bs1 bs2 x nl : list Z) : list Z :=
  [35] ++ bs1 ++ txt "ifdef" ++ bs2 ++ txt "INTELLISENSE_DIRECTIVES" ++ x ++ nl.
Definition open_ok (bs1 bs2 x nl : list Z) : Prop :=
  Forall line_blank bs1 /\ Forall line_blank bs2 /\ on_line x /\ is_nl nl.
Definition end_line (bs x nl : list Z) : list Z := [35] ++ bs ++ txt "endif" ++ x ++ nl.
Definition end_ok (bs x nl : list Z) : Prop := Forall line_blank bs /\ on_line x /\ is_nl nl.

(** what is left after a line that ends with the newline [nl]: after a lone newline one more newline is swallowed *)
Definition after_nl (nl s : list Z) : list Z := match nl, s with [_], c :: s' => if c =? 10 then s' else s | _, _ => s end.
(** a non-empty file of bytes whose size fits an s32; [n] bounds the loops *)
Definition file_ok (t : list Z) (n : nat) : Prop := Forall (fun b => 0 <= b < 256) t /\ t <> [] /\ zlen t < 2 ^ 31 /\ (length t <= n)%nat.
