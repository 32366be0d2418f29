(** What C38-C40 speak about, in terms of the source text: positions, lines and columns, token order,
    what may lie between tokens, and the kind of an identifier. *)
From Coq Require Import String ZArith List Bool.
From Verif Require Import Common HashModel Text StrOpsModel EnumModel EnumSpec LexModel.
Import ListNotations.
Close Scope string_scope.
Open Scope Z_scope.

(** byte [i] of the text, and its terminating NUL *)
Definition byte_at (src : list Z) (i : Z) : Z := nth (Z.to_nat i) src 0.
(** bytes i .. j-1 *)
Definition between (src : list Z) (i j : Z) (P : Z -> Prop) := forall k, i <= k < j -> P (byte_at src k).
Definition spacep (c : Z) := In c (txt " " ++ [9; 10; 11; 12; 13]).
Definition word_char (c : Z) := 97 <= c <= 122 \/ 65 <= c <= 90 \/ 48 <= c <= 57 \/ c = 95.
Definition digit (c : Z) := 48 <= c <= 57.

(** position [p] is on line [line], column [col] (both from 1): [line - 1] newlines precede it, and
    [col - 1] bytes since the last of them *)
Definition at_line_col (src : list Z) (p line col : Z) : Prop :=
  exists before current, firstn (Z.to_nat p) src = before ++ current /\
    (before = [] \/ exists b, before = b ++ [10]) /\ ~ In 10 current /\
    line = 1 + Z.of_nat (count_occ Z.eq_dec before 10) /\ col = 1 + zlen current.

Definition t_end (k : token) := t_start k + t_len k.

(** a directive that is not supported is given as the token '#' and a token for the whole directive,
    starting at the same '#' *)
Definition whole_directive (a b : token) :=
  t_type a = Tok_Preprocess_Hash /\ t_type b = Tok_Preprocess_Unsupported /\ t_start b = t_start a /\ t_len a = 1 /\ 1 <= t_len b.
(** tokens follow each other in the text without overlap *)
Definition in_order (toks : list token) :=
  forall a x y b, toks = a ++ x :: y :: b -> t_end x <= t_start y \/ whole_directive x y.
Definition in_source (src : list Z) (k : token) := 0 <= t_start k /\ 0 <= t_len k /\ t_end k <= zlen src.

(** the characters that begin a token *)
Definition lexable (c : Z) := word_char c \/ In c (txt "#.&:{}[]()',*;?=+%^~!<>|-/" ++ [34]).

(** what becomes of the byte at [i]: it is in a token, or it is white space, the closing quote of a string
    literal, the second dot of "..", a backslash between the parameters of a #define, the byte after a
    carriage return that ends a line, or part of a word beginning with a character that begins no token *)
Definition accounted (src : list Z) (toks : list token) (i : Z) : Prop :=
  (exists k, In k toks /\ t_start k <= i < t_end k) \/
  spacep (byte_at src i) \/
  (byte_at src i = 34 /\ exists k, In k toks /\ t_type k = Tok_String /\ t_end k = i) \/
  (byte_at src i = 46 /\ exists k, In k toks /\ t_type k = Tok_Access_MemberSymbol /\ t_end k = i) \/
  (byte_at src i = 92 /\ exists k, In k toks /\ t_type k = Tok_Paren_Open /\ t_flags k = TF_Preprocess /\ t_end k <= i) \/
  (1 <= i /\ byte_at src (i - 1) = 13) \/
  (exists q, 0 <= q <= i /\ ~ lexable (byte_at src q) /\ between src q (i + 1) (fun c => ~ spacep c)).

(** the texts on which the lexer runs past the end of the content *)
Definition no_sub (b pat : list Z) := forall x y, b <> x ++ pat ++ y.
Definition runs_off (src : list Z) : Prop :=
  (* a carriage return at the very end *)
  (exists a, src = a ++ [13]) \/
  (* a block comment that is not closed *)
  (exists a b, src = a ++ txt "/*" ++ b /\ no_sub b (txt "*/")) \/
  (* #define with nothing after it *)
  (exists a w1 w w2, src = a ++ txt "#" ++ w1 ++ w ++ w2 /\ Forall spacep w1 /\ Forall spacep w2 /\ crc32 w = crc32 (txt "define")) \/
  (* #include with an unclosed file name *)
  (exists a w1 w w2 q b, src = a ++ txt "#" ++ w1 ++ w ++ w2 ++ [q] ++ b /\ Forall spacep w1 /\ Forall spacep w2 /\
     crc32 w = crc32 (txt "include") /\ (q = 34 \/ q = 60) /\ ~ In 34 b /\ ~ In 62 b).

(** the line and column of a token are those of a position before it with nothing but white space and '#' in
    between *)
Definition positioned (src : list Z) (k : token) :=
  exists p, 0 <= p <= t_start k /\ at_line_col src p (t_line k) (t_col k) /\
    between src p (t_start k) (fun c => spacep c \/ c = 35) /\ (has_bit (t_flags k) TF_Preprocess = true -> p = t_start k).

(** the text of a token *)
Definition text_of (src : list Z) (k : token) := slice src (t_start k) (t_len k).

(** the macro table after the tokens [toks]: the name in a #define is registered, as a functional macro iff
    a '(' follows it, unless the name is registered already *)
Definition defined_name (k : token) : bool := (t_type k =? Tok_Identifier) && (t_flags k =? TF_Preprocess).
Definition learn (src : list Z) (ms : macros) (k : token) : macros :=
  if defined_name k then
    match lookup_macro ms (text_of src k) with
    | Some _ => ms
    | None => register_macro ms (text_of src k) (Macro 0 (if byte_at src (t_end k) =? 40 then MF_Functional else 0))
    end
  else ms.
Definition table (src : list Z) (ms : macros) (toks : list token) : macros := fold_left (learn src) toks ms.

(** a token of ordinary text: not part of a directive *)
Definition ordinary (before : list token) (k : token) :=
  has_bit (t_flags k) TF_Preprocess = false /\
  forall b h, before = b ++ [h] -> ~ (t_type h = Tok_Preprocess_Hash /\ t_flags h = TF_Preprocess).
Definition word_first (c : Z) := word_char c /\ ~ digit c.

(** [p] is not inside a run of identifier characters, except right after a number or a swallowed byte *)
Definition edge (src : list Z) (toks : list token) (p : Z) :=
  p = 0 \/ ~ word_char (byte_at src (p - 1)) \/ ~ word_char (byte_at src p) \/
  (exists k, In k toks /\ t_type k = Tok_Number /\ t_end k = p) \/ (2 <= p /\ byte_at src (p - 2) = 13).

(** the kind of an identifier [text] followed by the bytes from [q] on, under macro table [ms] *)
Definition followed_by_quote (src : list Z) (q : Z) :=
  exists r, q <= r /\ between src q r spacep /\ byte_at src r = 34.
Definition kind (src : list Z) (ms : macros) (text : list Z) (q : Z) (k : Z) : Prop :=
  (* a keyword *)
  (forall t s, In (t, s) token_spelling -> text = txt s -> s <> "extern"%string -> k = t) /\
  (* extern: a linkage block iff a string follows *)
  (text = txt "extern" -> (followed_by_quote src q /\ k = Tok_Decl_Extern_Linkage) \/ (~ followed_by_quote src q /\ k = Tok_Spec_Extern)) /\
  (* anything else that has no keyword's hash: a macro when used as it was defined, or an identifier *)
  ((forall kw, In kw toktype_table -> crc32 kw <> crc32 text) ->
   match lookup_macro ms text with
   | Some m => if Bool.eqb (has_bit (mac_flags m) MF_Functional) (byte_at src q =? 40) then k = macrotype_to_toktype (mac_type m) else k = Tok_Identifier
   | None => k = Tok_Identifier
   end).

(** an identifier-like token [k]: a run of identifier characters that is maximal to the right, and to the
    left up to [edge]; its kind is right for the macro table [ms] *)
Definition word_token (src : list Z) (ms : macros) (before : list token) (k : token) : Prop :=
  1 <= t_len k /\ between src (t_start k) (t_end k) word_char /\ ~ word_char (byte_at src (t_end k)) /\
  edge src before (t_start k) /\ kind src ms (text_of src k) (t_end k) (t_type k).
