(** What the C string helpers are supposed to compute, on mathematical byte strings. *)
From Coq Require Import String ZArith List Bool.
From Verif Require Import Common Text ArrayModel.
Import ListNotations.
Open Scope Z_scope.

Definition zlen {A} (l : list A) : Z := Z.of_nat (length l).

(** the NUL-terminated string at [s] is [t] *)
Definition cstr (m : mem) (s : Z) (t : list Z) : Prop :=
  load_bytes m s (length t) = t /\ Forall (fun b => 1 <= b < 256) t /\ m (s + zlen t) = 0.

(** [m'] agrees with [m] outside [a, a+n) *)
Definition same_outside (m m' : mem) (a n : Z) : Prop := forall x, ~ (a <= x < a + n) -> m' x = m x.

(** ** ASCII classes *)
Definition UPPER := txt "ABCDEFGHIJKLMNOPQRSTUVWXYZ".
Definition LOWER := txt "abcdefghijklmnopqrstuvwxyz".
Definition DIGITS := txt "0123456789".
Definition HEX_LOWER := txt "0123456789abcdef".
Definition HEX_UPPER := txt "0123456789ABCDEF".
Definition BLANKS := [32; 9; 10; 11; 12; 13].        (* space \t \n \v \f \r *)

(** ** strings *)
Inductive lex_lt : list Z -> list Z -> Prop :=
| lex_nil b r : lex_lt [] (b :: r)
| lex_head a b r r' : a < b -> lex_lt (a :: r) (b :: r')
| lex_tail a r r' : lex_lt r r' -> lex_lt (a :: r) (a :: r').

(** bytes before the first NUL *)
Fixpoint until_nul (l : list Z) : list Z :=
  match l with [] => [] | b :: r => if b =? 0 then [] else b :: until_nul r end.

(** number of leading elements satisfying [f] *)
Fixpoint run_length (f : Z -> bool) (l : list Z) : Z :=
  match l with [] => 0 | b :: r => if f b then 1 + run_length f r else 0 end.

(** ** numerals: [t] is the canonical base-[b] numeral of [v] >= 0 *)
Definition digit_char (d : Z) : Z :=
  if d <? 10 then 48 + d                       (* 0-9 *)
  else if d <? 36 then 65 + (d - 10)           (* A-Z *)
  else if d <? 62 then 97 + (d - 36)           (* a-z *)
  else if d =? 62 then 64 else 36.             (* @ $ *)
Definition digits_value (b : Z) (ds : list Z) : Z := fold_left (fun a d => a * b + d) ds 0.
Definition numeral (b v : Z) (t : list Z) : Prop :=
  exists ds, t = map digit_char ds /\ Forall (fun d => 0 <= d < b) ds /\ digits_value b ds = v /\
             ds <> [] /\ (hd 0 ds = 0 -> ds = [0]).
Definition signed_numeral (b v : Z) (t : list Z) : Prop :=
  if v <? 0 then exists t', t = 45 :: t' /\ numeral b (- v) t' else numeral b v t.

(** ** integer literals *)
(** [c] denotes the digit [d] in base [base] (10 or less: 0-9; 16: either case) *)
Definition denotes (base c d : Z) : Prop :=
  0 <= d < base /\ (base <= 10 /\ c = nth (Z.to_nat d) DIGITS 0 \/ base = 16 /\ (c = nth (Z.to_nat d) HEX_LOWER 0 \/ c = nth (Z.to_nat d) HEX_UPPER 0)).
(** optional sign, optional 0x in base 16, digits, then a char that is not a digit *)
Definition literal_text (base : Z) (neg hexp : bool) (cs : list Z) : list Z :=
  (if neg then [45] else []) ++ (if hexp && (base =? 16) then [48; 120] else []) ++ cs.
