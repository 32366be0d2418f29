(** The lexer: base/components/lexer.cpp.
    The content is the list of its bytes, followed in memory by a NUL terminator (index [zlen src]); any
    access beyond it is [Undefined].  The scanner pointer is an index, [left] is kept by the code in step
    with it.  Content is shorter than 2^31 bytes ([left] is an s32).  The growing token array is a list
    (C08), the macro table a list of (name hash, type, flags) with the latest registration first (the hash
    table is C11-C13, register/lookup C42).  Log output is dropped; GEN_BUILD_DEBUG only affects logging. *)
From Coq Require Import String ZArith List Bool.
From Verif Require Import Common HashModel Text ArrayModel StrOpsModel EnumModel.
Import ListNotations.
Open Scope Z_scope.

Definition zlen {A} (l : list A) : Z := Z.of_nat (length l).

(** parser_types.hpp:10-29 *)
Definition TF_Null := 0.
Definition TF_Operator := 2 ^ 0.
Definition TF_Assign := 2 ^ 1.
Definition TF_Identifier := 2 ^ 2.
Definition TF_Preprocess := 2 ^ 3.
Definition TF_Preprocess_Cond := 2 ^ 4.
Definition TF_Attribute := 2 ^ 5.
Definition TF_AccessOperator := 2 ^ 6.
Definition TF_AccessSpecifier := 2 ^ 7.
Definition TF_Specifier := 2 ^ 8.
Definition TF_EndDefinition := 2 ^ 9.
Definition TF_Literal := 2 ^ 11.
Definition TF_Macro_Functional := 2 ^ 12.

(** parser_types.hpp:31-38 [Token]; Text is the slice [t_start, t_start + t_len) of the content *)
Record token := Tok { t_start : Z; t_len : Z; t_type : Z; t_line : Z; t_col : Z; t_flags : Z }.
Definition set_text (p l : Z) (t : token) := Tok p l (t_type t) (t_line t) (t_col t) (t_flags t).
Definition set_len (l : Z) (t : token) := Tok (t_start t) l (t_type t) (t_line t) (t_col t) (t_flags t).
Definition set_type (k : Z) (t : token) := Tok (t_start t) (t_len t) k (t_line t) (t_col t) (t_flags t).
Definition set_flags (f : Z) (t : token) := Tok (t_start t) (t_len t) (t_type t) (t_line t) (t_col t) f.
Definition or_flags (f : Z) (t : token) := set_flags (Z.lor (t_flags t) f) t.

(** parser_types.hpp:186-235: macro flags and registered macros *)
Definition MF_Functional := 2 ^ 0.
Definition MF_Allow_As_Attribute := 2 ^ 3.
Definition MF_Allow_As_Specifier := 2 ^ 5.
Record macro := Macro { mac_type : Z; mac_flags : Z }.
Definition macros := list (Z * macro).
Definition has_bit (flags f : Z) : bool := negb (Z.land flags f =? 0).
(** interface.cpp [lookup_macro], [register_macro]: see C42 *)
Fixpoint lookup_macro (ms : macros) (name : list Z) : option macro :=
  match ms with [] => None | (k, m) :: r => if k =? crc32 name then Some m else lookup_macro r name end.
Definition register_macro (ms : macros) (name : list Z) (m : macro) : macros := (crc32 name, m) :: ms.
(** parser_types.hpp:138-147 *)
Definition macrotype_to_toktype (k : Z) : Z :=
  if k =? 1 then Tok_Preprocess_Macro_Stmt else if k =? 0 then Tok_Preprocess_Macro_Expr
  else if k =? 2 then Tok_Preprocess_Macro_Typename else Tok_Invalid.

(** parser_types.hpp:101-110 [LexContext] and the context's token array and macro table *)
Record lx := Lx { l_pos : Z; l_line : Z; l_col : Z; l_tok : token; l_toks : list token; l_macros : macros }.
Definition with_tok (f : token -> token) (s : lx) := Lx (l_pos s) (l_line s) (l_col s) (f (l_tok s)) (l_toks s) (l_macros s).
(** array_append( _ctx->Lexer_Tokens, tok ) *)
Definition append (k : token) (s : lx) := Lx (l_pos s) (l_line s) (l_col s) (l_tok s) (l_toks s ++ [k]) (l_macros s).
Definition append_tok (s : lx) := append (l_tok s) s.
Definition with_macros (ms : macros) (s : lx) := Lx (l_pos s) (l_line s) (l_col s) (l_tok s) (l_toks s) ms.

Inductive flow := Lex_Continue | Lex_ReturnNull.

Section Lexer.
Variable src : list Z.
Variable fuel : nat.

Definition at_ (i : Z) : run Z :=
  if (0 <=? i) && (i <=? zlen src) then Done (nth (Z.to_nat i) src 0) else Undefined.
Definition left (s : lx) : Z := zlen src - l_pos s.
(** *ctx->scanner *)
Definition cur (s : lx) : run Z := at_ (l_pos s).
(** the slice [p, p+l) of the content *)
Definition slice (p l : Z) : list Z := firstn (Z.to_nat l) (skipn (Z.to_nat p) src).

(** lexer.cpp:78-90 *)
Definition move_forward (s : lx) : run lx :=
  rbind (cur s) (fun c =>
  Done (if c =? 10 then Lx (l_pos s + 1) (l_line s + 1) 1 (l_tok s) (l_toks s) (l_macros s)
        else Lx (l_pos s + 1) (l_line s) (l_col s + 1) (l_tok s) (l_toks s) (l_macros s))).
(** move_forward(); token.Text.Len++; *)
Definition take (s : lx) : run lx := rbind (move_forward s) (fun s => Done (with_tok (fun k => set_len (t_len k + 1) k) s)).
(** if ( *scanner == c ) s := f s *)
Definition if_cur (c : Z) (f : lx -> run lx) (s : lx) : run lx :=
  rbind (cur s) (fun x => if x =? c then f s else Done s).
(** if ( left ) move_forward(); *)
Definition move_if_left (s : lx) : run lx := if left s =? 0 then Done s else move_forward s.

(** while ( left && p( *scanner ) ) body; *)
Fixpoint while_left (n : nat) (p : Z -> bool) (body : lx -> run lx) (s : lx) : run lx :=
  if left s =? 0 then Done s else
  rbind (cur s) (fun c =>
  if p c then match n with O => NoFuel | S n => rbind (body s) (while_left n p body) end else Done s).

(** lexer.cpp:93-98 *)
Definition skip_whitespace (s : lx) : run lx := while_left fuel char_is_space move_forward s.
(** lexer.cpp:101-113 *)
Definition end_line (s : lx) : run lx :=
  rbind (while_left fuel (fun c => c =? 32) move_forward s) (fun s =>
  if left s =? 0 then Done s else
  rbind (cur s) (fun c =>
  if c =? 13 then rbind (move_forward s) move_forward
  else if c =? 10 then move_forward s else Done s)).

Definition is_word_char (c : Z) : bool := char_is_alphanumeric c || (c =? 95).
Definition is_word_start (c : Z) : bool := char_is_alpha c || (c =? 95).

(** a local Token that grows while the scanner moves (the [name], [parameter] tokens): the loop
    while ( left && p( *scanner ) ) { move_forward(); tok.Text.Len++; } *)
Fixpoint grow_while (n : nat) (p : Z -> bool) (s : lx) (len : Z) : run (lx * Z) :=
  if left s =? 0 then Done (s, len) else
  rbind (cur s) (fun c =>
  if p c then match n with O => NoFuel | S n => rbind (move_forward s) (fun s => grow_while n p s (len + 1)) end else Done (s, len)).

(** lexer.cpp:174-178: while ( *scanner == '\\' ) { move_forward(); skip_whitespace(); } *)
Fixpoint skip_backslashes (n : nat) (s : lx) : run lx :=
  rbind (cur s) (fun c =>
  if c =? 92 then match n with O => NoFuel | S n => rbind (move_forward s) (fun s => rbind (skip_whitespace s) (skip_backslashes n)) end
  else Done s).

(** lexer.cpp:159-236: the loop over the parameters of a #define; ends before the ')' *)
Fixpoint define_params (n : nat) (s : lx) : run (lx * flow) :=
  if left s =? 0 then Done (s, Lex_Continue) else
  rbind (cur s) (fun c =>
  if c =? 41 then Done (s, Lex_Continue) else
  match n with
  | O => NoFuel
  | S n =>
    rbind (skip_whitespace s) (fun s =>
    rbind (cur s) (fun c =>
    (* lexer.cpp:163-189 "..." *)
    if (left s >? 3) && (if list_eq_dec Z.eq_dec (slice (l_pos s) 3) (txt "...") then true else false) then
      let parameter := Tok (l_pos s) 3 Tok_Preprocess_Define_Param (l_line s) (l_col s) TF_Preprocess in
      rbind (move_forward s) (fun s => rbind (move_forward s) (fun s => rbind (move_forward s) (fun s =>
      rbind (skip_whitespace (append parameter s)) (fun s =>
      rbind (skip_backslashes fuel s) (fun s =>
      rbind (cur s) (fun c =>
      Done (s, if c =? 41 then Lex_Continue else Lex_ReturnNull)))))))
    (* lexer.cpp:190-194 *)
    else if c =? 92 then
      rbind (move_forward s) (fun s => rbind (skip_whitespace s) (define_params n))
    (* lexer.cpp:195-208 *)
    else if is_word_start c then
      let parameter len := Tok (l_pos s) len Tok_Preprocess_Define_Param (l_line s) (l_col s) TF_Preprocess in
      rbind (move_forward s) (fun s =>
      rbind (grow_while fuel is_word_char s 1) (fun '(s, len) =>
      rbind (skip_whitespace (append (parameter len) s)) (fun s =>
      (* lexer.cpp:219-236 *)
      rbind (cur s) (fun c =>
      if c =? 41 then Done (s, Lex_Continue)
      else if negb (c =? 44) then Done (s, Lex_ReturnNull)
      else
        rbind (move_forward (append (Tok (l_pos s) 1 Tok_Comma (l_line s) (l_col s) TF_Preprocess) s)) (define_params n)))))
    else Done (s, Lex_ReturnNull)))
  end).

(** lexer.cpp:116-264 [lex_preprocessor_define] *)
Definition lex_preprocessor_define (s : lx) : run (lx * flow) :=
  let p := l_pos s in let line := l_line s in let col := l_col s in
  rbind (move_forward s) (fun s =>
  rbind (grow_while fuel is_word_char s 1) (fun '(s, len) =>
  let name := slice p len in
  let registered := lookup_macro (l_macros s) name in
  let s := append (Tok p len Tok_Identifier line col TF_Preprocess) s in
  rbind
    (if left s =? 0 then Done (s, 0, Lex_Continue) else
     rbind (cur s) (fun c =>
     if c =? 40 then
       let flags := match registered with
                    | Some m => if has_bit (mac_flags m) MF_Functional then MF_Functional else 0
                    | None => MF_Functional end in
       rbind (move_forward (append (Tok (l_pos s) 1 Tok_Paren_Open (l_line s) (l_col s) TF_Preprocess) s)) (fun s =>
       rbind (define_params fuel s) (fun '(s, r) =>
       match r with
       | Lex_ReturnNull => Done (s, flags, Lex_ReturnNull)
       | Lex_Continue =>
         rbind (cur s) (fun c =>
         if negb (c =? 41) then Done (s, flags, Lex_ReturnNull) else
         rbind (move_forward (append (Tok (l_pos s) 1 Tok_Paren_Close (l_line s) (l_col s) TF_Preprocess) s)) (fun s =>
         Done (s, flags, Lex_Continue)))
       end))
     else Done (s, 0, Lex_Continue)))
    (fun '(s, flags, r) =>
     match r with
     | Lex_ReturnNull => Done (s, Lex_ReturnNull)
     | Lex_Continue =>
       Done (match registered with
             | None => with_macros (register_macro (l_macros s) name (Macro 0 flags)) s
             | Some _ => s end, Lex_Continue)
     end))).

(** lexer.cpp:288-338: the rest of an unsupported directive *)
Fixpoint unsupported (n : nat) (within_string within_char : bool) (s : lx) : run lx :=
  if left s =? 0 then Done s else
  match n with
  | O => NoFuel
  | S n =>
    rbind (cur s) (fun c =>
    let within_string := if (c =? 34) && negb within_char then negb within_string else within_string in
    let within_char := if (c =? 39) && negb within_string then negb within_char else within_char in
    if (c =? 92) && negb within_string && negb within_char then
      rbind (take s) (fun s =>
      rbind (if_cur 13 take s) (fun s =>
      rbind (cur s) (fun c =>
      if c =? 10 then rbind (take s) (unsupported n within_string within_char) else Done s)))
    else
      rbind (if_cur 13 take s) (fun s =>
      rbind (cur s) (fun c =>
      if c =? 10 then take s else rbind (take s) (unsupported n within_string within_char))))
  end.

(** lexer.cpp:415-478: the content of a directive, [len] its length *)
Fixpoint content (n : nat) (within_string within_char : bool) (s : lx) (len : Z) : run (lx * Z * flow) :=
  if left s =? 0 then Done (s, len, Lex_Continue) else
  match n with
  | O => NoFuel
  | S n =>
    rbind (cur s) (fun c =>
    let within_string := if (c =? 34) && negb within_char then negb within_string else within_string in
    let within_char := if (c =? 39) && negb within_string then negb within_char else within_char in
    if (c =? 92) && negb within_string && negb within_char then
      rbind (move_forward s) (fun s =>
      rbind (cur s) (fun c =>
      rbind (if c =? 13 then rbind (move_forward s) (fun s => Done (s, len + 2)) else Done (s, len + 1)) (fun '(s, len) =>
      rbind (cur s) (fun c =>
      if c =? 10 then rbind (move_forward s) (fun s => content n within_string within_char s (len + 1))
      else Done (s, len, Lex_ReturnNull)))))
    else if c =? 13 then Done (s, len, Lex_Continue)
    else if c =? 10 then Done (s, len, Lex_Continue)
    else rbind (move_forward s) (fun s => content n within_string within_char s (len + 1)))
  end.

(** lexer.cpp:267-479 [lex_preprocessor_directive] *)
Definition lex_preprocessor_directive (s : lx) : run (lx * flow) :=
  let hash := l_pos s in
  let s := append (Tok hash 1 Tok_Preprocess_Hash (l_line s) (l_col s) TF_Preprocess) s in
  rbind (move_forward s) (fun s =>
  rbind (skip_whitespace s) (fun s =>
  let s := with_tok (set_text (l_pos s) (t_len (l_tok s))) s in
  rbind (while_left fuel (fun c => negb (char_is_space c)) take s) (fun s =>
  let type := str_to_toktype (slice (t_start (l_tok s)) (t_len (l_tok s))) in
  let s := with_tok (set_type type) s in
  if negb ((type >=? Tok_Preprocess_Define) && (type <=? Tok_Preprocess_Pragma)) then
    let s := with_tok (set_type Tok_Preprocess_Unsupported) s in
    rbind (unsupported fuel false false s) (fun s =>
    let s := with_tok (fun k => set_text hash (t_len k + t_start k - hash) k) s in
    Done (append_tok s, Lex_Continue))
  else if (type =? Tok_Preprocess_Else) || (type =? Tok_Preprocess_EndIf) then
    let s := append_tok (with_tok (or_flags TF_Preprocess_Cond) s) in
    rbind (end_line s) (fun s => Done (s, Lex_Continue))
  else
    let s := if (type >=? Tok_Preprocess_If) && (type <=? Tok_Preprocess_ElIf) then with_tok (or_flags TF_Preprocess_Cond) s else s in
    rbind (skip_whitespace (append_tok s)) (fun s =>
    rbind (if type =? Tok_Preprocess_Define then lex_preprocessor_define s else Done (s, Lex_Continue)) (fun '(s, r) =>
    match r with
    | Lex_ReturnNull => Done (s, Lex_ReturnNull)
    | Lex_Continue =>
      let p := l_pos s in let line := l_line s in let col := l_col s in
      if type =? Tok_Preprocess_Include then
        rbind (cur s) (fun c =>
        if negb (c =? 34) && negb (c =? 60) then Done (s, Lex_ReturnNull) else
        rbind (move_forward s) (fun s =>
        rbind (grow_while fuel (fun c => negb (c =? 34) && negb (c =? 62)) s 1) (fun '(s, len) =>
        rbind (move_forward s) (fun s =>
        rbind (cur s) (fun c =>
        (* lexer.cpp:399-412; scanner[1] is only read after a '\r' *)
        rbind (if c =? 13 then
                 rbind (at_ (l_pos s + 1)) (fun d => if d =? 10 then rbind (move_forward s) move_forward else Done s)
               else if c =? 10 then move_forward s else Done s) (fun s =>
        Done (append (Tok p (len + 1) Tok_String line col TF_Preprocess) s, Lex_Continue)))))))
      else
        rbind (content fuel false false s 0) (fun '(s, len, r) =>
        match r with
        | Lex_ReturnNull => Done (s, Lex_ReturnNull)
        | Lex_Continue => Done (append (Tok p len Tok_Preprocess_Content line col TF_Preprocess) s, Lex_Continue)
        end)
    end))))).

(** lexer.cpp:482-565 [lex_found_token] *)
Definition lex_found_token (s : lx) : run lx :=
  if negb (t_type (l_tok s) =? Tok_Invalid) then Done (append_tok s) else
  let text := slice (t_start (l_tok s)) (t_len (l_tok s)) in
  let type := str_to_toktype text in
  let s := if (type =? Tok_Preprocess_Define) || (type =? Tok_Preprocess_Include) then with_tok (or_flags TF_Identifier) s else s in
  let s := if (type <=? Tok_Access_Public) && (type >=? Tok_Access_Private) then with_tok (or_flags TF_AccessSpecifier) s else s in
  let s := if type >? Tok___Attributes_Start then with_tok (or_flags TF_Attribute) s else s in
  if type =? Tok_Decl_Extern_Linkage then
    rbind (skip_whitespace s) (fun s =>
    rbind (cur s) (fun c =>
    Done (append_tok (if negb (c =? 34) then with_tok (fun k => set_type Tok_Spec_Extern (or_flags TF_Specifier k)) s
                      else with_tok (set_type type) s))))
  else if ((type <=? Tok_Star) && (type >=? Tok_Spec_Alignas)) || (type =? Tok_Ampersand) || (type =? Tok_Ampersand_DBL) then
    Done (append_tok (with_tok (fun k => or_flags TF_Specifier (set_type type k)) s))
  else if negb (type =? Tok_Invalid) then Done (append_tok (with_tok (set_type type) s))
  else
    rbind (if left s =? 0 then Done false else rbind (cur s) (fun c => Done (c =? 40))) (fun has_args =>
    Done (append_tok
      match lookup_macro (l_macros s) text with
      | Some m =>
        let functional := has_bit (mac_flags m) MF_Functional in
        if Bool.eqb has_args functional then
          let s := with_tok (set_type (macrotype_to_toktype (mac_type m))) s in
          let s := if has_args then with_tok (or_flags TF_Macro_Functional) s else s in
          let s := if has_bit (mac_flags m) MF_Allow_As_Attribute then with_tok (or_flags TF_Attribute) s else s in
          if has_bit (mac_flags m) MF_Allow_As_Specifier then with_tok (or_flags TF_Specifier) s else s
        else with_tok (set_type Tok_Identifier) s
      | None => with_tok (set_type Tok_Identifier) s
      end)).

(** the new, empty token at the scanner: lexer.cpp:604-607, 648-651, 1272-1273 *)
Definition fresh_token (s : lx) : lx := with_tok (fun _ => Tok (l_pos s) 0 Tok_Invalid (l_line s) (l_col s) TF_Null) s.
(** lexer.cpp:647-665 and 1270-1287: the newline token after a directive or a macro *)
Definition newline_after (s : lx) : run lx :=
  let s := fresh_token s in
  rbind (if_cur 13 (fun s => rbind (move_forward s) (fun s => Done (with_tok (set_len 1) s))) s) (fun s =>
  if_cur 10 (fun s =>
    rbind (move_forward (with_tok (fun k => set_len (t_len k + 1) (set_type Tok_NewLine k)) s)) (fun s => Done (append_tok s))) s).

(** c.token.Text = { c.scanner, 1 }; c.token.Type = type; c.token.Flags = flags; *)
Definition begin (type flags : Z) (s : lx) : lx := with_tok (fun k => set_flags flags (set_type type (set_text (l_pos s) 1 k))) s.

(** lexer.cpp:1026-1032 and 1071-1077: a repeated operator character, at most three *)
Fixpoint repeats (n : nat) (s : lx) : run lx :=
  if left s =? 0 then Done s else
  rbind (cur s) (fun c => rbind (at_ (l_pos s - 1)) (fun d =>
  if (c =? d) && (t_len (l_tok s) <? 3) then
    match n with O => NoFuel | S n =>
      rbind (move_if_left (with_tok (fun k => set_len (t_len k + 1) k) s)) (repeats n) end
  else Done s)).

(** lexer.cpp:1132-1142: the rest of a block comment *)
Fixpoint block_comment (n : nat) (s : lx) : run lx :=
  rbind (cur s) (fun a => rbind (at_ (l_pos s + 1)) (fun b =>
  if (left s =? 0) || ((a =? 42) && (b =? 47)) then Done s else
  match n with O => NoFuel | S n => rbind (take s) (block_comment n) end)).

(** lexer.cpp:910-932: the rest of a string literal *)
Fixpoint string_rest (n : nat) (s : lx) : run lx :=
  if left s =? 0 then Done s else
  rbind (cur s) (fun c =>
  if c =? 34 then move_forward s else
  match n with
  | O => NoFuel
  | S n =>
    if c =? 92 then rbind (take s) (fun s => rbind (if left s =? 0 then Done s else take s) (string_rest n))
    else rbind (take s) (string_rest n)
  end).

(** how a scanned piece goes on: to FoundToken, or to the next iteration ([continue]) *)
Inductive next := Found | Next.

(** lexer.cpp:637-1165: the switch on the current character, other than '#'; [None] for a character
    that has no case *)
Definition lex_symbol (c : Z) (s : lx) : option (run (lx * next)) :=
  let found (r : run lx) := Some (rbind r (fun s => Done (s, Found))) in
  let one type flags := found (move_if_left (begin type flags s)) in
  if c =? 46 then                                                                 (* . *)
    found (
      rbind (move_if_left (begin Tok_Access_MemberSymbol TF_AccessOperator s)) (fun s =>
      if_cur 46 (fun s =>
        rbind (move_forward s) (fun s =>
        if_cur 46 (fun s =>
          move_forward (with_tok (fun k => set_flags TF_Null (set_type Tok_Varadic_Argument (set_len 3 k))) s)) s)) s))
  else if c =? 38 then                                                            (* & *)
    found (
      rbind (move_if_left (begin Tok_Ampersand (Z.lor TF_Operator TF_Specifier) s)) (fun s =>
      if_cur 38 (fun s => move_if_left (with_tok (fun k => set_type Tok_Ampersand_DBL (set_len 2 k)) s)) s))
  else if c =? 58 then                                                            (* : *)
    found (
      rbind (move_if_left (begin Tok_Assign_Classifer TF_Null s)) (fun s =>
      if_cur 58 (fun s => rbind (take s) (fun s => Done (with_tok (set_type Tok_Access_StaticSymbol) s))) s))
  else if c =? 123 then one Tok_BraceCurly_Open TF_Null                           (* { *)
  else if c =? 125 then found (rbind (move_if_left (begin Tok_BraceCurly_Close TF_EndDefinition s)) end_line)   (* } *)
  else if c =? 91 then                                                            (* [ *)
    found (
      let s := begin Tok_BraceSquare_Open TF_Null s in
      if left s =? 0 then Done s else
      rbind (move_forward s) (fun s =>
      if_cur 93 (fun s => move_forward (with_tok (fun k => set_type Tok_Operator (set_len 2 k)) s)) s))
  else if c =? 93 then one Tok_BraceSquare_Close TF_Null                          (* ] *)
  else if c =? 40 then one Tok_Paren_Open TF_Null                                 (* ( *)
  else if c =? 41 then one Tok_Paren_Close TF_Null                                (* ) *)
  else if c =? 39 then                                                            (* ' *)
    found (
      rbind (move_forward (begin Tok_Char TF_Literal s)) (fun s =>
      rbind (if left s =? 0 then Done s else if_cur 92 (fun s => rbind (take s) (if_cur 39 take)) s) (fun s =>
      rbind (while_left fuel (fun c => negb (c =? 39)) take s) (fun s =>
      if left s =? 0 then Done s else take s))))
  else if c =? 44 then one Tok_Comma TF_Operator                                  (* , *)
  else if c =? 42 then                                                            (* * *)
    found (
      rbind (move_if_left (begin Tok_Star (Z.lor TF_Specifier TF_Operator) s)) (fun s =>
      if_cur 61 (fun s => move_if_left (with_tok (fun k => or_flags TF_Assign (set_len (t_len k + 1) k)) s)) s))
  else if c =? 59 then found (rbind (move_if_left (begin Tok_Statement_End TF_EndDefinition s)) end_line)       (* ; *)
  else if c =? 34 then found (rbind (move_forward (begin Tok_String TF_Literal s)) (string_rest fuel))          (* string *)
  else if c =? 63 then one Tok_Operator TF_Operator                               (* ? *)
  else if c =? 61 then                                                            (* = *)
    found (
      rbind (move_if_left (begin Tok_Operator (Z.lor TF_Operator TF_Assign) s)) (fun s =>
      if_cur 61 (fun s => move_if_left (with_tok (fun k => set_flags TF_Operator (set_len (t_len k + 1) k)) s)) s))
  else if existsb (Z.eqb c) (txt "+%^~!<>|") then                                 (* + % ^ ~ ! < > | *)
    found (
      rbind (move_if_left (begin Tok_Operator TF_Operator s)) (fun s =>
      rbind (cur s) (fun c =>
      if c =? 61 then move_if_left (with_tok (fun k => or_flags TF_Assign (set_len (t_len k + 1) k)) s)
      else repeats fuel s)))
  else if c =? 45 then                                                            (* - *)
    found (
      let s := begin Tok_Operator TF_Operator s in
      if left s =? 0 then Done s else
      rbind (move_forward s) (fun s =>
      rbind (cur s) (fun c =>
      if c =? 62 then
        rbind (take (with_tok (or_flags TF_AccessOperator) s)) (if_cur 42 take)
      else if c =? 61 then move_if_left (with_tok (fun k => or_flags TF_Assign (set_len (t_len k + 1) k)) s)
      else repeats fuel s)))
  else if c =? 47 then Some                                                       (* / *)
    (rbind (move_forward (begin Tok_Operator TF_Operator s)) (fun s =>
     if left s =? 0 then Done (s, Found) else
     rbind (cur s) (fun c =>
     if c =? 61 then rbind (take s) (fun s => Done (with_tok (set_flags TF_Assign) s, Found))
     else if c =? 47 then
       rbind (move_forward (with_tok (fun k => set_flags TF_Null (set_len 2 (set_type Tok_Comment k))) s)) (fun s =>
       rbind (while_left fuel (fun c => negb (c =? 10) && negb (c =? 13)) take s) (fun s =>
       rbind (if_cur 13 take s) (fun s =>
       rbind (if_cur 10 take s) (fun s => Done (append_tok s, Next)))))
     else if c =? 42 then
       rbind (move_forward (with_tok (fun k => set_flags TF_Null (set_len 2 (set_type Tok_Comment k))) s)) (fun s =>
       rbind (block_comment fuel s) (fun s =>
       rbind (take s) (fun s => rbind (take s) (fun s =>
       rbind (if_cur 13 take s) (fun s =>
       rbind (if_cur 10 take s) (fun s => Done (append_tok s, Next)))))))
     else Done (s, Found))))
  else None.

(** lexer.cpp:1180-1243: a number, scanner at its first digit *)
Definition lex_number (s : lx) : run lx :=
  rbind (move_forward (begin Tok_Number TF_Literal s)) (fun s =>
  let digits := while_left fuel char_is_digit take in
  let sees (l : list Z) (s : lx) := if left s =? 0 then Done false else rbind (cur s) (fun c => Done (existsb (Z.eqb c) l)) in
  rbind (sees (txt "xXbBoO") s) (fun prefixed =>
  if prefixed then rbind (take s) (while_left fuel char_is_hex_digit take)
  else
    rbind (digits s) (fun s =>
    rbind (sees (txt ".") s) (fun dot =>
    if dot then
      rbind (take s) (fun s =>
      rbind (digits s) (fun s =>
      rbind (sees (txt "lLuUfFiIzZ") s) (fun suffix =>
      if suffix then
        rbind (cur s) (fun prev =>
        rbind (take s) (fun s =>
        rbind (sees (txt "lL") s) (fun l =>
        if l && ((prev =? 108) || (prev =? 76)) then take s else Done s)))
      else Done s)))
    else Done s)))).

(** lexer.cpp:1167-1264: what follows the switch *)
Definition lex_word (c : Z) (s : lx) : run lx :=
  if is_word_start c then
    rbind (move_forward (with_tok (set_text (l_pos s) 1) s)) (while_left fuel is_word_char take)
  else if char_is_digit c then lex_number s
  else while_left fuel (fun c => negb (char_is_space c)) move_forward s.

(** lexer.cpp:1266-1288 *)
Definition found_token (s : lx) : run lx :=
  rbind (lex_found_token s) (fun s =>
  let last_type := t_type (last (l_toks s) (Tok 0 0 0 0 0 0)) in
  if (last_type =? Tok_Preprocess_Macro_Stmt) || (last_type =? Tok_Preprocess_Macro_Expr) then newline_after s else Done s).

(** lexer.cpp:595-1289: one iteration of the loop *)
Inductive iteration := Goes (s : lx) | Stops (s : lx) | Fails.
Definition lex_iteration (s : lx) : run iteration :=
  let s := fresh_token s in
  (* lexer.cpp:612-629 *)
  rbind (if l_col s =? 1 then
           rbind (if_cur 13 (fun s => rbind (move_forward s) (fun s => Done (with_tok (set_len 1) s))) s) (fun s =>
           rbind (cur s) (fun c =>
           if c =? 10 then
             rbind (move_forward s) (fun s => Done (append_tok (with_tok (fun k => set_len (t_len k + 1) (set_type Tok_NewLine k)) s), true))
           else Done (s, false)))
         else Done (s, false)) (fun '(s, newline) =>
  if newline then Done (Goes s) else
  let s := with_tok (set_len 0) s in
  rbind (skip_whitespace s) (fun s =>
  if left s <=? 0 then Done (Stops s) else
  rbind (cur s) (fun c =>
  if c =? 35 then
    rbind (lex_preprocessor_directive s) (fun '(s, r) =>
    match r with
    | Lex_ReturnNull => Done Fails
    | Lex_Continue => rbind (newline_after s) (fun s => Done (Goes s))
    end)
  else
    match lex_symbol c s with
    | Some r => rbind r (fun '(s, n) => match n with Next => Done (Goes s) | Found => rbind (found_token s) (fun s => Done (Goes s)) end)
    | None => rbind (lex_word c s) (fun s => rbind (found_token s) (fun s => Done (Goes s)))
    end))).

(** lexer.cpp:595-1289: the loop *)
Fixpoint lex_loop (n : nat) (s : lx) : run (option lx) :=
  if left s =? 0 then Done (Some s) else
  match n with
  | O => NoFuel
  | S n =>
    rbind (lex_iteration s) (fun r =>
    match r with Goes s => lex_loop n s | Stops s => Done (Some s) | Fails => Done None end)
  end.

(** lexer.cpp:570-1299 [lex]: the token array ([None]: the empty TokArray returned on failure) and the
    macro table afterwards (on failure the table is not reported here; the code keeps the macros registered
    before the failure) *)
Definition lex (ms : macros) : run (option (list token * macros)) :=
  rbind (skip_whitespace (Lx 0 1 1 (Tok 0 0 0 0 0 0) [] ms)) (fun s =>
  if left s <=? 0 then Done None else
  rbind (lex_loop fuel s) (fun r =>
  match r with
  | None => Done None
  | Some s => match l_toks s with [] => Done None | ts => Done (Some (ts, l_macros s)) end
  end)).
End Lexer.
