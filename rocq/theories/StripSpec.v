(** What C51 speaks about: words, visible characters, and the pieces of a text. *)
From Coq Require Import String ZArith List Bool.
From Verif Require Import Common Text StrOpsModel LexModel LexSpec.
Import ListNotations.
Close Scope string_scope.
Open Scope Z_scope.

Definition is_spacep (c : Z) : bool := existsb (Z.eqb c) (txt " " ++ [9; 10; 11; 12; 13]).
(** the words of a text: its maximal runs of characters that are not white space; [w] is the word that is open *)
Fixpoint words_from (w : list Z) (l : list Z) : list (list Z) :=
  match l with
  | [] => if w then [] else [w]
  | c :: r => if is_spacep c then (if w then [] else [w]) ++ words_from [] r else words_from (w ++ [c]) r
  end.
Definition words (l : list Z) : list (list Z) := words_from [] l.
(** the characters other than white space and backslashes *)
Definition visible (l : list Z) : list Z := filter (fun c => negb (is_spacep c) && negb (c =? 92)) l.

(** every block comment is closed *)
Definition closed (l : list Z) : Prop := forall a b, l = a ++ txt "/*" ++ b -> exists x y, b = x ++ txt "*/" ++ y.

(** the pieces of a text of C or C++ *)
Inductive piece := Code (l : list Z) | Literal (quote : Z) (body : list Z) | Block (body : list Z) | Line (body : list Z).
Definition piece_text (p : piece) : list Z :=
  match p with
  | Code l => l
  | Literal q b => [q] ++ b ++ [q]
  | Block b => txt "/*" ++ b ++ txt "*/"
  | Line b => txt "//" ++ b ++ [10]
  end.
(** the characters of a literal in quotes [q]: any but the quote and the backslash, or escapes *)
Inductive literal_body (q : Z) : list Z -> Prop :=
| body_end : literal_body q []
| body_char : forall c r, c <> q -> c <> 92 -> literal_body q r -> literal_body q (c :: r)
| body_escape : forall c r, literal_body q r -> literal_body q (92 :: c :: r).
Definition piece_ok (p : piece) : Prop :=
  match p with
  | Code l => l <> [] /\ Forall (fun c => ~ In c [34; 39; 47; 92]) l
  | Literal q b => (q = 34 \/ q = 39) /\ literal_body q b /\ last b 0 <> 92
  | Block b => forall x y, [42] ++ b <> x ++ txt "*/" ++ y
  | Line b => ~ In 10 b
  end.
Definition is_code (p : piece) : Prop := match p with Code _ => True | _ => False end.
(** what [p] becomes *)
Definition becomes (p : piece) (o : list Z) : Prop :=
  match p with Code l => words o = words l | _ => o = piece_text p end.
(** code pieces are maximal: no two of them are neighbours *)
Definition separated (ps : list piece) := forall a x y b, ps = a ++ x :: y :: b -> ~ (is_code x /\ is_code y).
