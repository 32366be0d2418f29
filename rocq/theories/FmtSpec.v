(** What a format string means: literal text interleaved with conversions. *)
From Coq Require Import String ZArith List Bool.
From Verif Require Import Common Text ArrayModel StrOpsModel StrModel StrOpsSpec FmtModel.
Import ListNotations.
Open Scope Z_scope.

(** a conversion together with the argument supplied for it *)
Inductive conv :=
| Percent                             (* %%               *)
| Char (c : Z)                        (* %c   an int      *)
| CString (p : Z) (t : list Z)        (* %s   char* at p  *)
| Prefix (p : Z) (t : list Z)         (* %.*s the first (length t) chars at p *)
| Slice (p : Z) (t : list Z)          (* %S   Str         *)
| Builder (p : Z) (t : list Z)        (* %SB  StrBuilder  *)
| Int (v : Z)                         (* %d   int         *)
| Unsigned (v : Z)                    (* %u   unsigned    *)
| Long (v : Z)                        (* %ld  long        *)
| ULong (v : Z).                      (* %lu  unsigned long *)

Definition conv_text (c : conv) : list Z :=
  match c with
  | Percent => txt "%%" | Char _ => txt "%c" | CString _ _ => txt "%s" | Prefix _ _ => txt "%.*s" | Slice _ _ => txt "%S"
  | Builder _ _ => txt "%SB" | Int _ => txt "%d" | Unsigned _ => txt "%u" | Long _ => txt "%ld" | ULong _ => txt "%lu"
  end.
Definition conv_args (c : conv) : list arg :=
  match c with
  | Percent => [] | Char c => [AInt c] | CString p _ => [APtr p] | Prefix p t => [AInt (zlen t); APtr p]
  | Slice p t => [ASlice p (zlen t)] | Builder p _ => [APtr p] | Int v => [AInt v] | Unsigned v => [AInt v]
  | Long v => [ALong v] | ULong v => [ALong v]
  end.
(** the text a conversion should produce *)
Definition shows (c : conv) (t : list Z) : Prop :=
  match c with
  | Percent => t = txt "%" | Char c => t = [c]
  | CString _ s => t = s | Prefix _ s => t = s | Slice _ s => t = s | Builder _ s => t = s
  | Int v => signed_numeral 10 v t | Unsigned v => numeral 10 v t | Long v => signed_numeral 10 v t | ULong v => numeral 10 v t
  end.

(** a format: (literal, conversion) pairs, then a last literal *)
Fixpoint format_text (segs : list (list Z * conv)) (last : list Z) : list Z :=
  match segs with [] => last | (lit, c) :: r => lit ++ conv_text c ++ format_text r last end.
Fixpoint format_args (segs : list (list Z * conv)) : list arg :=
  match segs with [] => [] | (_, c) :: r => conv_args c ++ format_args r end.
Inductive renders : list (list Z * conv) -> list Z -> list Z -> Prop :=
| renders_last last : renders [] last last
| renders_seg lit c t r last out : shows c t -> renders r last out -> renders ((lit, c) :: r) last (lit ++ t ++ out).

Definition chars (t : list Z) : Prop := Forall (fun b => 1 <= b < 256) t.   (* no NUL *)
Definition literal (t : list Z) : Prop := chars t /\ ~ In 37 t.              (* no NUL, no '%' *)
(** "%S" must not be followed by a literal 'B': that is how "%SB" is spelled *)
Fixpoint unambiguous (segs : list (list Z * conv)) (last : list Z) : Prop :=
  match segs with
  | [] => True
  | (_, c) :: r => (match c with Slice _ _ => hd 0 (format_text r last) <> 66 | _ => True end) /\ unambiguous r last
  end.

(** [a, a+n) does not meet the output buffer nor the callee's local array *)
Definition apart (a n text size num : Z) : Prop :=
  forall x, a <= x < a + n -> ~ (text <= x < text + size) /\ ~ (num <= x < num + 130).
(** the argument is a valid value of its type, lies in memory, and does not overlap the output *)
Definition arg_ok (m : mem) (text size num : Z) (c : conv) : Prop :=
  match c with
  | Percent => True
  | Char c => 1 <= c < 256
  | CString p t => p <> 0 /\ cstr m p t /\ apart p (zlen t + 1) text size num
  | Prefix p t | Slice p t => p <> 0 /\ load_bytes m p (length t) = t /\ chars t /\ apart p (zlen t + 1) text size num
  | Builder p t => p <> 0 /\ load_bytes m p (length t) = t /\ chars t /\ sb_length m p = zlen t /\
                   apart (p - 8) (zlen t + 9) text size num
  | Int v => - 2 ^ 31 <= v < 2 ^ 31
  | Unsigned v => 0 <= v < 2 ^ 32
  | Long v => - 2 ^ 63 < v < 2 ^ 63
  | ULong v => 0 <= v < 2 ^ 64
  end.
