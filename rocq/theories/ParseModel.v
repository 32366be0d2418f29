(** Model of the parsing of names, types, attributes, array sizes, using, typedef, variable and enum declarations:
    base/components/parser.cpp and the entry points in base/components/interface.parsing.cpp.

    The token array is [toks] followed by [beyond]: the array lives in a buffer that is reused from parse to parse
    (lexer.cpp:1293-1321, interface.cpp), so that behind the tokens of the text there are the ones of earlier
    texts.  The code reads them in places; reading behind [beyond] is [Undefined].  A token is the slice of the
    source it was made from; a token in [beyond] is given the same way.

    Simplified: the message texts built for a failure are not kept ([report] models what building them reads);
    cached strings are the texts themselves (C15, C16).  [unmodelled] stands for calls that are not in the model. *)
From Coq Require Import String ZArith List Bool.
From Verif Require Import Common Text HashModel StrOpsModel EnumModel LexModel NavModel StripModel AstModel UpfrontModel.
Import ListNotations.
Close Scope string_scope.
Open Scope Z_scope.

(** the token index, the open scopes (start index, procedure), the nodes *)
Record pst := Pst { p_idx : Z; p_scopes : list (Z * string); p_heap : heap }.
Definition at_idx (i : Z) (s : pst) : pst := Pst i (p_scopes s) (p_heap s).
Definition with_heap (h : heap) (s : pst) : pst := Pst (p_idx s) (p_scopes s) h.

Definition M (A : Type) := pst -> run (A * pst).
Definition ret {A} (a : A) : M A := fun s => Done (a, s).
Definition bind {A B} (m : M A) (k : A -> M B) : M B := fun s => rbind (m s) (fun '(a, s) => k a s).
Declare Scope parse_scope.
Delimit Scope parse_scope with parse.
Notation "x <- m ;; k" := (bind m (fun x => k)) (at level 61, m at next level, right associativity) : parse_scope.
Notation "m ;;; k" := (bind m (fun _ => k)) (at level 61, right associativity) : parse_scope.
Open Scope parse_scope.
Definition undefined {A} : M A := fun _ => Undefined.
(** a call that is not modelled: no statement is made about it *)
Definition unmodelled {A} : M A := fun _ => NoFuel.
Definition get_left (num : Z) : M Z := fun s => Done (num - p_idx s, s).
(** a step on the nodes *)
Definition on_heap (f : heap -> run (heap * Z)) : M Z := fun s => rbind (f (p_heap s)) (fun '(h, c) => Done (c, with_heap h s)).
Definition edit (f : heap -> run heap) : M unit := fun s => rbind (f (p_heap s)) (fun h => Done (tt, with_heap h s)).

Section Parse.
Variable src : list Z.
Variable toks beyond : list token.
Variable ms : macros.
Variable e : env.
Variable fuel : nat.

Definition num : Z := zlen toks.
Definition tok_at (i : Z) : run token :=
  if 0 <=? i then match nth_error (toks ++ beyond) (Z.to_nat i) with Some k => Done k | None => Undefined end else Undefined.
Definition text_of (k : token) : list Z := slice src (t_start k) (t_len k).
(** k.Text.Ptr[i] *)
Definition char_of (k : token) (i : Z) : Z := nth (Z.to_nat (t_start k + i)) src 0.
(** the source text from the start of [a] to the end of [b] *)
Definition end_of (b : token) : Z := t_start b + t_len b.

Fixpoint skip_formatting (n : nat) (i : Z) : run Z :=
  rbind (tok_at i) (fun k =>
  if is_formatting (t_type k) then match n with O => Undefined | S n => skip_formatting n (i + 1) end else Done i).
(** lexer.cpp:22-30 lex_current( lex_skip_formatting ), the macro currtok (parser.cpp:160); moves the index *)
Definition currtok : M token := fun s =>
  rbind (skip_formatting (length toks + length beyond) (p_idx s)) (fun i => rbind (tok_at i) (fun k => Done (k, at_idx i s))).
(** currtok_noskip (parser.cpp:159) *)
Definition currtok_noskip : M token := fun s => rbind (tok_at (p_idx s)) (fun k => Done (k, s)).
(** prevtok (parser.cpp:162, lexer.cpp:45-56) *)
Definition prevtok : M token := fun s => rbind (tok_at (p_idx s - 1)) (fun k => Done (k, s)).
Definition left : M Z := get_left num.

(** parser.cpp:184-187; parser.cpp:24-30 *)
Definition push_scope (proc : string) : M unit := fun s => Done (tt, Pst (p_idx s) ((p_idx s, proc) :: p_scopes s) (p_heap s)).
Definition parser_pop : M unit := fun s => match p_scopes s with [] => Undefined | _ :: r => Done (tt, Pst (p_idx s) r (p_heap s)) end.
(** parser.cpp:32-79 parser_to_strbuilder, for what it reads (see NavModel.report) *)
Definition report : M unit := fun s =>
  match p_scopes s with
  | [] => Undefined
  | (start, _) :: _ =>
  rbind (tok_at start) (fun scope_start =>
  rbind (if p_idx s >=? num then rbind (tok_at (num - 1)) (fun k => Done (k, s)) else currtok s) (fun '(last_valid, s) =>
  let dist := t_start last_valid - t_start scope_start + 2 in
  if t_start last_valid + dist <=? zlen src + 1 then Done (tt, s) else Undefined))
  end.
(** log_failure( ... parser_to_strbuilder(_ctx->parser) ); parser_pop; return InvalidCode; *)
Definition fail : M Z := report ;;; parser_pop ;;; ret (e_invalid e).

(** parser.cpp:81-121 lex__eat; the value is not used by the code below *)
Definition eat (type : Z) : M bool := fun s =>
  if num - p_idx s =? 0 then (report ;;; ret false) s else
  rbind (tok_at (p_idx s)) (fun at_i =>
  let s1 :=
    if ((t_type at_i =? Tok_NewLine) && negb (type =? Tok_NewLine)) || ((t_type at_i =? Tok_Comment) && negb (type =? Tok_Comment))
    then at_idx (p_idx s + 1) s else s in
  let not_accepted :=
    if negb (t_type at_i =? type) then
      let accept_as_identifier :=
        match lookup_macro ms (text_of at_i) with Some m => bitfield_is_set (mac_flags m) MF_Allow_As_Identifier | None => false end in
      negb ((type =? Tok_Identifier) && accept_as_identifier)
    else false in
  if not_accepted then (_ <- currtok ;; report ;;; ret false) s1 else Done (true, at_idx (p_idx s1 + 1) s1)).
(** parser.cpp:181-182 *)
Definition check (type : Z) : M bool := l <- left ;; if l =? 0 then ret false else (k <- currtok ;; ret (t_type k =? type)).
Definition check_noskip (type : Z) : M bool := l <- left ;; if l =? 0 then ret false else (k <- currtok_noskip ;; ret (t_type k =? type)).

(** parser_types.hpp:48-85 *)
Definition tok_is_specifier (k : token) : bool := bitfield_is_set (t_flags k) TF_Specifier.
Definition tok_is_attribute (k : token) : bool := bitfield_is_set (t_flags k) TF_Attribute.

(** while ( left && p(currtok) ) eat( currtok.Type ); *)
Fixpoint eat_while (n : nat) (p : token -> bool) : M unit :=
  l <- left ;; if l =? 0 then ret tt else
  k <- currtok ;; if negb (p k) then ret tt else
  match n with O => unmodelled | S n => eat (t_type k) ;;; eat_while n p end.
(** the same with the nesting level of the code, while ( left && on( level ) && go( level, currtok ) ): [step] changes
    the level for each token eaten *)
Fixpoint eat_nested (n : nat) (on : Z -> bool) (go : Z -> token -> bool) (step : Z -> token -> Z) (level : Z) : M Z :=
  l <- left ;; if (l =? 0) || negb (on level) then ret level else
  k <- currtok ;; if negb (go level k) then ret level else
  match n with O => unmodelled | S n => eat (t_type k) ;;; eat_nested n on go step (step level k) end.
Definition any_level (level : Z) : bool := true.

(** parser.cpp:573-682 *)
Fixpoint attributes_loop (n : nat) (start : token) (len : Z) : M Z :=
  l <- left ;; if l =? 0 then ret len else
  k <- currtok ;; if negb (tok_is_attribute k) then ret len else
  match n with O => unmodelled | S n =>
    let close_at t := eat_while fuel (fun k => negb (t_type k =? t)) in
    (if t_type k =? Tok_Attribute_Open then eat Tok_Attribute_Open ;;; close_at Tok_Attribute_Close ;;; eat Tok_Attribute_Close
     else if t_type k =? Tok_Decl_GNU_Attribute then
       eat Tok_Decl_GNU_Attribute ;;; eat Tok_Paren_Open ;;; eat Tok_Paren_Open ;;; close_at Tok_Paren_Close ;;; eat Tok_Paren_Close ;;; eat Tok_Paren_Close
     else if t_type k =? Tok_Decl_MSVC_Attribute then
       eat Tok_Decl_MSVC_Attribute ;;; eat Tok_Paren_Open ;;; close_at Tok_Paren_Close ;;; eat Tok_Paren_Close
     else
       eat (t_type k) ;;; b <- check Tok_Paren_Open ;;
       if b then
         eat Tok_Paren_Open ;;;
         eat_nested fuel any_level (fun level k => negb (t_type k =? Tok_Paren_Close) && (level =? 0))
           (fun level k => if t_type k =? Tok_Paren_Open then level + 1 else if t_type k =? Tok_Paren_Close then level - 1 else level) 0 ;;;
         eat Tok_Paren_Close
       else ret true) ;;;
    p <- prevtok ;; attributes_loop n start (end_of p - t_start start)
  end.
Definition parse_attributes : M Z :=
  push_scope "parse_attributes" ;;;
  start <- currtok ;; len <- attributes_loop fuel start 0 ;;
  if len >? 0 then
    parser_pop ;;;
    (fun s => rbind (strip_formatting (slice src (t_start start) len) false fuel) (fun name =>
     on_heap (fun h => Done (make h (fun n => set_content name (set_name name (set_type CT_PlatformAttributes n))))) s))
  else parser_pop ;;; ret 0.

(** parser.cpp:3218-3250: the name's slice, extended over the arguments.  Ptr[1] of a one-character operator is the
    character behind it. *)
Definition parse_template_args (name : token) : M token :=
  k <- currtok ;;
  if (t_type k =? Tok_Operator) && (char_of k 0 =? 60) && (t_len k =? 1) then
    eat Tok_Operator ;;;
    level <- eat_nested fuel (fun level => level >=? 0) (fun level k => negb (char_of k 0 =? 62) || (level >? 0))
      (fun level k =>
         let level := if char_of k 0 =? 60 then level + 1 else level in
         let level := if char_of k 0 =? 62 then level - 1 else level in
         if (t_type k =? Tok_Operator) && (char_of k 1 =? 62) then level - 1 else level) 0 ;;
    (if level =? 0 then eat Tok_Operator else ret true) ;;;
    p <- prevtok ;; ret (set_len (end_of p - t_start name) name)
  else ret name.

(** parser.cpp:2042-2121; [None] is the invalid token; possible_member_function is null *)
Fixpoint identifier_loop (n : nat) (name : token) : M (option token) :=
  b <- check Tok_Access_StaticSymbol ;;
  if negb b then parser_pop ;;; ret (Some name) else
  match n with O => unmodelled | S n =>
    eat Tok_Access_StaticSymbol ;;;
    l <- left ;;
    if l =? 0 then report ;;; parser_pop ;;; ret None else
    k <- currtok ;;
    if (t_type k =? Tok_Operator) && (char_of k 0 =? 126) then
      (fun s => match p_scopes s with
       | _ :: (_, proc) :: _ =>
           if String.eqb proc "parser_parse_destructor" then
             (p <- prevtok ;; parser_pop ;;; ret (Some (set_len (end_of p - t_start name) name))) s
           else (report ;;; parser_pop ;;; ret None) s
       | _ => Undefined    (* Scope->Prev is null *)
       end)
    else if (t_type k =? Tok_Operator) && (char_of k 0 =? 42) && (t_len k =? 1) then report ;;; parser_pop ;;; ret None
    else if negb (t_type k =? Tok_Identifier) then report ;;; parser_pop ;;; ret None
    else
      let name := set_len (end_of k - t_start name) name in
      eat Tok_Identifier ;;; name <- parse_template_args name ;; identifier_loop n name
  end.
Definition parse_identifier : M (option token) :=
  push_scope "parse_identifier" ;;;
  name <- currtok ;;
  let accept := match lookup_macro ms (text_of name) with Some m => bitfield_is_set (mac_flags m) MF_Allow_As_Identifier | None => false end in
  b <- check Tok_Identifier ;;
  (if b || accept then eat Tok_Identifier else ret true) ;;;
  name <- parse_template_args name ;; identifier_loop fuel name.

(** parser.cpp:493-571 *)
Fixpoint parse_array_decl (n : nat) : M Z :=
  match n with O => unmodelled | S n =>
  push_scope "parse_array_decl" ;;;
  op <- check Tok_Operator ;;
  empty <- (if op then k <- currtok ;; ret ((char_of k 0 =? 91) && (char_of k 1 =? 93)) else ret false) ;;
  if empty then
    a <- on_heap (fun h => untyped_str e h (txt " ")) ;; eat Tok_Operator ;;; parser_pop ;;; ret a
  else
  open_ <- check Tok_BraceSquare_Open ;;
  if negb open_ then parser_pop ;;; ret 0 else
  eat Tok_BraceSquare_Open ;;;
  l <- left ;; if l =? 0 then fail else
  untyped_tok <- currtok ;;
  if t_type untyped_tok =? Tok_BraceSquare_Close then fail else
  eat_while fuel (fun k => negb (t_type k =? Tok_BraceSquare_Close)) ;;;
  p <- prevtok ;;
  array_expr <- on_heap (fun h => untyped_str e h (slice src (t_start untyped_tok) (end_of p - t_start untyped_tok))) ;;
  l <- left ;; if l =? 0 then fail else
  k <- currtok ;;
  if negb (t_type k =? Tok_BraceSquare_Close) then fail else
  eat Tok_BraceSquare_Close ;;;
  more <- check Tok_BraceSquare_Open ;;
  (if more then next <- parse_array_decl n ;; edit (fun h => put h array_expr (set_next next)) else ret tt) ;;;
  parser_pop ;;; ret array_expr
  end.

(** parser.cpp:1137-1151 *)
Definition parse_comment : M Z :=
  push_scope "parse_comment" ;;;
  k <- currtok_noskip ;;
  c <- on_heap (fun h => Done (make h (fun n => set_content (text_of k) (set_type CT_Comment n)))) ;;
  eat Tok_Comment ;;; parser_pop ;;; ret c.

(** the specifier loops: specs_found has room for 16 *)
Fixpoint specs_loop (n : nat) (allowed : Z -> bool) (stop : Z -> bool) (found : list Z) : M (option (list Z)) :=
  l <- left ;; if l =? 0 then ret (Some found) else
  k <- currtok ;; if negb (tok_is_specifier k) then ret (Some found) else
  let spec := str_to_specifier (text_of k) in
  if negb (allowed spec) then ret None else
  if stop spec then ret (Some found) else
  if zlen found >=? 16 then undefined else
  match n with O => unmodelled | S n => eat (t_type k) ;;; specs_loop n allowed stop (found ++ [spec]) end.
(** parser_case_macros.cpp:91-110 *)
Definition variable_specifier (s : Z) : bool :=
  existsb (Z.eqb s) [Spec_Const; Spec_Constexpr; Spec_Constinit; Spec_External_Linkage; Spec_Global; Spec_Inline; Spec_Local_Persist;
                     Spec_Mutable; Spec_Restrict; Spec_Static; Spec_Thread_Local; Spec_Volatile].
Definition typename_suffix (s : Z) : bool := existsb (Z.eqb s) [Spec_Const; Spec_Ptr; Spec_Restrict; Spec_Ref; Spec_RValue].

(** gen ast_types.hpp: the NumEntries word of a typename node holds IsParamPack and TypeTag (see SerModel) *)
Definition tag_of (t : Z) : Z := if t =? Tok_Decl_Class then 1 else if t =? Tok_Decl_Enum then 2 else if t =? Tok_Decl_Struct then 3 else 4.
(** name.Text, of the invalid token: the empty text *)
Definition name_text (o : option token) : list Z := match o with Some k => text_of k | None => [] end.
(** tok_is_valid (parser_types.hpp:48-50); a valid token has a pointer *)
Definition tok_is_valid (o : option token) : bool := match o with Some k => negb (t_len k =? 0) && negb (t_type k =? Tok_Invalid) | None => false end.
Definition native_type (k : token) : bool := (t_type k >=? Tok_Type_Unsigned) && (t_type k <=? Tok_Type_MS_W64).
Definition is_tag (t : Z) : bool := (t =? Tok_Decl_Class) || (t =? Tok_Decl_Enum) || (t =? Tok_Decl_Struct) || (t =? Tok_Decl_Union).
(** if ( NumSpecifiers ) ... = def_specifiers_arr( NumSpecifiers, specs_found ) *)
Definition specifiers_of (found : list Z) : M Z := match found with [] => ret 0 | _ => on_heap (fun h => def_specifiers e h found) end.

(** parser.cpp:4664-5120 with from_template false; [want_fn]: typedef_is_function is not null.
    The unused copy of the token before the first one (line 4669) is left out; a typename that is a macro and the
    signature of a function are not modelled. *)
Definition parse_type (want_fn : bool) : M Z :=
  push_scope "parser_parse_type" ;;;
  attributes <- parse_attributes ;;
  prefix <- specs_loop fuel (fun s => s =? Spec_Const) (fun _ => false) [] ;;
  match prefix with None => fail | Some prefix =>
  l <- left ;; if l =? 0 then fail else
  k <- currtok ;;
  named <-
    (if is_tag (t_type k) then
       eat (t_type k) ;;; name <- parse_identifier ;; ret (Some (name_text name, tag_of (t_type k)))
     else if native_type k then
       eat (t_type k) ;;; eat_while fuel native_type ;;; p <- prevtok ;; ret (Some (text_of (set_len (end_of p - t_start k) k), 0))
     else if t_type k =? Tok_Type_Typename then
       eat Tok_Type_Typename ;;; name <- parse_identifier ;; ret (if tok_is_valid name then Some (name_text name, 0) else None)
     else if t_type k =? Tok_Preprocess_Macro_Typename then unmodelled
     else name <- parse_identifier ;; ret (if tok_is_valid name then Some (name_text name, 0) else None)) ;;
  match named with None => fail | Some (name, tag) =>
  specs <- specs_loop fuel typename_suffix (fun _ => false) prefix ;;
  match specs with None => fail | Some specs =>
  scan <- currtok_noskip ;;
  signature <- (if want_fn && (t_type scan =? Tok_Identifier) then (fun s => rbind (tok_at (p_idx s + 1)) (fun k => Done (t_type k =? Tok_Paren_Open, s)))
                else ret (t_type scan =? Tok_Paren_Open)) ;;
  if signature then unmodelled else
  pack <- check Tok_Varadic_Argument ;;
  (if pack then eat Tok_Varadic_Argument else ret true) ;;;
  result <- on_heap (fun h => Done (make h (set_type CT_Typename))) ;;
  edit (fun h => rbind (strip_formatting name false fuel) (fun stripped => put h result (set_name stripped))) ;;;
  (if attributes =? 0 then ret tt else edit (fun h => put h result (set_attrs attributes))) ;;;
  specifiers <- specifiers_of specs ;;
  (if specifiers =? 0 then ret tt else edit (fun h => put h result (set_specs specifiers))) ;;;
  edit (fun h => put h result (set_num ((if pack then 1 else 0) + tag * 2 ^ 16))) ;;;
  parser_pop ;;; ret result
  end end end.

(** ModuleFlag mflags; if ( check(Tok_Module_Export) ) ... *)
Definition export_flag : M Z := b <- check Tok_Module_Export ;; if b then eat Tok_Module_Export ;;; ret ModuleFlag_Export else ret 0.
(** Token stmt_end = currtok; eat( Tok_Statement_End ); and the comment on the same line *)
Definition end_statement : M Z :=
  stmt_end <- currtok ;; eat Tok_Statement_End ;;;
  k <- currtok_noskip ;;
  if (t_type k =? Tok_Comment) && (t_line k =? t_line stmt_end) then parse_comment else ret 0.

(** parser.cpp:5492-5590 *)
Definition parse_using : M Z :=
  push_scope "parser_parse_using" ;;;
  mflags <- export_flag ;;
  eat Tok_Decl_Using ;;;
  k <- currtok ;;
  let is_namespace := t_type k =? Tok_Decl_Namespace in
  (if is_namespace then eat Tok_Decl_Namespace else ret true) ;;;
  name <- currtok ;; eat Tok_Identifier ;;;
  parts <-
    (if is_namespace then ret (0, 0, 0) else
     attributes <- parse_attributes ;;
     k <- currtok ;;
     if bitfield_is_set (t_flags k) TF_Assign then
       attributes <- parse_attributes ;; eat Tok_Operator ;;;
       type <- parse_type false ;; array_expr <- parse_array_decl fuel ;; ret (attributes, type, array_expr)
     else ret (attributes, 0, 0)) ;;
  let '(attributes, type, array_expr) := parts in
  inline_cmt <- end_statement ;;
  result <- on_heap (fun h => Done (make h (fun n => AstModel.set_flags mflags (set_name (text_of name) n)))) ;;
  (if is_namespace then edit (fun h => put h result (set_type CT_Using_Namespace)) else
   edit (fun h => put h result (set_type CT_Using)) ;;;
   (if type =? 0 then ret tt else edit (fun h => put h result (set_ret type))) ;;;
   (if array_expr =? 0 then ret tt else edit (fun h => put h type (set_body array_expr))) ;;;
   (if attributes =? 0 then ret tt else edit (fun h => put h result (set_attrs attributes))) ;;;
   (if inline_cmt =? 0 then ret tt else edit (fun h => put h result (set_inline inline_cmt)))) ;;;
  parser_pop ;;; ret result.

(** parser.cpp:5122-5346; an underlying type that is a macro or begins with class, struct, union or enum is not
    modelled *)
Definition parse_typedef : M Z :=
  push_scope "parser_parse_typedef" ;;;
  mflags <- export_flag ;;
  eat Tok_Decl_Typedef ;;;
  l <- left ;;
  k <- currtok ;;
  if (negb (l =? 0) && ((t_type k =? Tok_Preprocess_Macro_Typename) || (t_type k =? Tok_Preprocess_Macro_Stmt))) || is_tag (t_type k) then unmodelled else
  type <- parse_type true ;;
  b <- check Tok_Identifier ;;
  if negb b then fail else
  name <- currtok ;; eat Tok_Identifier ;;;
  array_expr <- parse_array_decl fuel ;;
  inline_cmt <- end_statement ;;
  result <- on_heap (fun h => Done (make h (fun n => AstModel.set_flags mflags (set_type CT_Typedef n)))) ;;
  edit (fun h => put h result (set_name (text_of name))) ;;;
  (if type =? 0 then ret tt else edit (fun h => put h result (set_ret type)) ;;; edit (fun h => put h type (set_parent result))) ;;;
  edit (fun h => rbind (get h type) (fun t =>
    if ct_eqb (n_type t) CT_Typename && negb (array_expr =? 0) then
      rbind (get h array_expr) (fun a => if ct_eqb (n_type a) CT_Invalid then Done h else put h type (set_body array_expr))
    else Done h)) ;;;
  (if inline_cmt =? 0 then ret tt else edit (fun h => put h result (set_inline inline_cmt))) ;;;
  parser_pop ;;; ret result.

(** parser.cpp:1336-1374; the length of the first token is kept when nothing is left *)
Definition parse_assignment_expression : M Z :=
  eat Tok_Operator ;;;
  expr_tok <- currtok ;;
  if t_type expr_tok =? Tok_Statement_End then fail else
  eat_nested fuel any_level (fun level k => negb (t_type k =? Tok_Statement_End) && (negb (t_type k =? Tok_Comma) || (level >? 0)))
    (fun level k =>
       let level := if t_type k =? Tok_BraceCurly_Open then level + 1 else level in
       let level := if t_type k =? Tok_BraceCurly_Close then level - 1 else level in
       if t_type k =? Tok_Paren_Open then level + 1 else if t_type k =? Tok_Paren_Close then level - 1 else level) 0 ;;;
  l <- left ;;
  expr_tok <- (if l =? 0 then ret expr_tok else k <- currtok ;; ret (set_len (end_of k - t_start expr_tok - 1) expr_tok)) ;;
  on_heap (fun h => untyped_str e h (text_of expr_tok)).

(** the loop over a bracketed text, the opening bracket eaten *)
Definition to_closing (open_ close : Z) : M Z :=
  eat_nested fuel any_level (fun level k => negb (t_type k =? close) || (level >? 0))
    (fun level k => if t_type k =? open_ then level + 1 else if (t_type k =? close) && (level >? 0) then level - 1 else level) 0.

(** parser.cpp:3267-3347: the value, whether it is in parentheses, and the bit field ([None]: InvalidCode is returned) *)
Definition initializer : M (Z * bool * option Z) :=
  k <- currtok ;;
  expr <- (if bitfield_is_set (t_flags k) TF_Assign then parse_assignment_expression else ret 0) ;;
  k <- currtok ;;
  expr <- (if t_type k =? Tok_BraceCurly_Open then
             eat Tok_BraceCurly_Open ;;; to_closing Tok_BraceCurly_Open Tok_BraceCurly_Close ;;; eat Tok_BraceCurly_Close ;;;
             p <- prevtok ;; on_heap (fun h => untyped_str e h (slice src (t_start k) (end_of p - t_start k)))
           else ret expr) ;;
  k <- currtok ;;
  let parenthesized := t_type k =? Tok_Paren_Open in
  expr <- (if parenthesized then
             eat Tok_Paren_Open ;;; expr_token <- currtok ;;
             to_closing Tok_Paren_Open Tok_Paren_Close ;;;
             p <- prevtok ;;
             expr <- on_heap (fun h => untyped_str e h (slice src (t_start expr_token) (end_of p - t_start expr_token))) ;;
             eat Tok_Paren_Close ;;; ret expr
           else ret expr) ;;
  k <- currtok ;;
  if t_type k =? Tok_Assign_Classifer then
    eat Tok_Assign_Classifer ;;; expr_tok <- currtok ;;
    if t_type expr_tok =? Tok_Statement_End then report ;;; parser_pop ;;; ret (expr, parenthesized, None) else
    eat_while fuel (fun k => negb (t_type k =? Tok_Statement_End)) ;;;
    p <- prevtok ;;
    b <- on_heap (fun h => untyped_str e h (slice src (t_start expr_tok) (end_of p - t_start expr_tok))) ;; ret (expr, parenthesized, Some b)
  else ret (expr, parenthesized, Some 0).

(** parser.cpp:3252-3408; [declaration_list] is the call of parse_variable_declaration_list *)
Definition after_name (declaration_list : M Z) (mflags attributes specifiers type : Z) (name : list Z) : M Z :=
  push_scope "parse_variable_after_name" ;;;
  array_expr <- parse_array_decl fuel ;;
  value <- initializer ;;
  let '(expr, parenthesized, bitfield) := value in
  match bitfield with None => ret (e_invalid e) | Some bitfield_expr =>
  tail <- (if type =? 0 then ret (0, 0) else
           k <- currtok ;;
           next_var <- (if t_type k =? Tok_Comma then declaration_list else ret 0) ;;
           stmt_end <- currtok ;; eat Tok_Statement_End ;;;
           l <- left ;;
           if l =? 0 then ret (next_var, 0) else
           k <- currtok_noskip ;;
           if (t_type k =? Tok_Comment) && (t_line k =? t_line stmt_end) then c <- parse_comment ;; ret (next_var, c) else ret (next_var, 0)) ;;
  let '(next_var, inline_cmt) := tail in
  result <- on_heap (fun h => Done (make h (fun n =>
    set_inline inline_cmt (set_body expr (set_specs specifiers (set_attrs attributes (set_params bitfield_expr (set_ret type
      (AstModel.set_flags mflags (set_name name (set_type CT_Variable n))))))))))) ;;
  (if array_expr =? 0 then ret tt else edit (fun h => put h type (set_body array_expr))) ;;;
  (if next_var =? 0 then ret tt else edit (fun h => put h result (set_suffix next_var)) ;;; edit (fun h => put h next_var (set_parent result))) ;;;
  edit (fun h => put h result (set_num (if parenthesized then 1 else 0))) ;;;
  parser_pop ;;; ret result
  end.

(** parser.cpp:3414-3487.  The specifiers of a further variable: a [const] reads the specifiers so far (which are
    null when it is the first), and is added twice behind one that is not a pointer; another one is not eaten. *)
Fixpoint further_specs (n : nat) (specifiers : Z) : M Z :=
  l <- left ;; if l =? 0 then ret specifiers else
  k <- currtok ;; if negb (tok_is_specifier k) then ret specifiers else
  match n with O => unmodelled | S n =>
  let spec := str_to_specifier (text_of k) in
  let add sp :=
    (if sp =? 0 then on_heap (fun h => def_specifier h spec) else edit (fun h => append_spec h sp spec) ;;; ret sp) in
  if spec =? Spec_Const then
    twice <- (fun s => rbind (get (p_heap s) specifiers) (fun n =>
                if n_num n =? 0 then Done (false, s) else rbind (arr_at n (n_num n - 1)) (fun last => Done (negb (last =? Spec_Ptr), s)))) ;;
    (if twice then report ;;; edit (fun h => append_spec h specifiers spec) else ret tt) ;;;
    sp <- add specifiers ;; eat (t_type k) ;;; further_specs n sp
  else if (spec =? Spec_Ptr) || (spec =? Spec_Ref) || (spec =? Spec_RValue) then sp <- add specifiers ;; eat (t_type k) ;;; further_specs n sp
  else report ;;; further_specs n specifiers
  end.
Fixpoint declaration_loop (n : nat) (result last_var : Z) : M Z :=
  b <- check Tok_Comma ;; if negb b then ret result else
  match n with O => unmodelled | S n =>
  eat Tok_Comma ;;;
  specifiers <- further_specs fuel 0 ;;
  name <- currtok ;; eat Tok_Identifier ;;;
  var <- after_name (ret 0) 0 0 specifiers 0 (text_of name) ;;
  if result =? 0 then declaration_loop n var var else
  edit (fun h => put h last_var (set_suffix var)) ;;; edit (fun h => put h var (set_parent var)) ;;; declaration_loop n result var
  end.
Definition parse_variable_declaration_list : M Z :=
  push_scope "parse_variable_declaration_list" ;;; r <- declaration_loop fuel 0 0 ;; parser_pop ;;; ret r.
Definition parse_variable_after_name := after_name parse_variable_declaration_list.

(** parser.cpp:5592-5656; a failed type leaves the scope open *)
Definition parse_variable : M Z :=
  push_scope "parser_parse_variable" ;;;
  mflags <- export_flag ;;
  attributes <- parse_attributes ;;
  specs <- specs_loop fuel variable_specifier (fun s => s =? Spec_Const) [] ;;
  match specs with None => fail | Some specs =>
  specifiers <- specifiers_of specs ;;
  type <- parse_type false ;;
  if type =? e_invalid e then ret (e_invalid e) else
  name <- parse_identifier ;;
  result <- parse_variable_after_name mflags attributes specifiers type (name_text name) ;;
  parser_pop ;;; ret result
  end.

(** parser.cpp:3787-4029: an entry of the body.  Preprocessor lines are not modelled. *)
Fixpoint enum_value (n : nat) : M unit :=
  k <- currtok ;; if (t_type k =? Tok_Comma) || (t_type k =? Tok_BraceCurly_Close) then ret tt else
  match n with O => unmodelled | S n => eat (t_type k) ;;; enum_value n end.
Definition enum_entry : M Z :=
  entry <- currtok ;; eat Tok_Identifier ;;;
  k <- currtok ;;
  (if (t_type k =? Tok_Operator) && (char_of k 0 =? 61) then eat Tok_Operator ;;; enum_value fuel else ret tt) ;;;
  k <- currtok ;;
  if t_type k =? Tok_Preprocess_Macro_Expr then unmodelled else
  (if t_type k =? Tok_Comma then eat Tok_Comma else ret true) ;;;
  p <- prevtok ;; on_heap (fun h => untyped_str e h (slice src (t_start entry) (end_of p - t_start entry))).
Definition preprocess_kind (t : Z) : bool := (t >=? Tok_Preprocess_Define) && (t <=? Tok_Preprocess_Unsupported).
(** [None]: InvalidCode is returned from the loop *)
Fixpoint enum_entries (n : nat) (body : Z) : M (option unit) :=
  l <- left ;; if l =? 0 then ret (Some tt) else
  k <- currtok_noskip ;; if t_type k =? Tok_BraceCurly_Close then ret (Some tt) else
  match n with O => unmodelled | S n =>
  (if t_type k =? Tok_Preprocess_Hash then eat Tok_Preprocess_Hash else ret true) ;;;
  k <- currtok_noskip ;;
  member <- (if t_type k =? Tok_NewLine then m <- on_heap (fun h => untyped_str e h (text_of k)) ;; eat Tok_NewLine ;;; ret m
             else if t_type k =? Tok_Comment then parse_comment
             else if preprocess_kind (t_type k) then unmodelled
             else enum_entry) ;;
  if member =? e_invalid e then report ;;; parser_pop ;;; ret None else
  edit (fun h => body_append fuel h body member) ;;; enum_entries n body
  end.
(** the same with [inplace_def] false *)
Definition parse_enum : M Z :=
  push_scope "parser_parse_enum" ;;;
  eat Tok_Decl_Enum ;;;
  k <- currtok ;;
  let is_class := t_type k =? Tok_Decl_Class in
  (if is_class then eat Tok_Decl_Class else ret true) ;;;
  attributes <- parse_attributes ;;
  b <- check Tok_Identifier ;;
  name <- (if b then k <- currtok ;; eat Tok_Identifier ;;; ret (text_of k) else ret []) ;;
  k <- currtok ;;
  type <- (if t_type k =? Tok_Assign_Classifer then eat Tok_Assign_Classifer ;;; parse_type false
           else if t_type k =? Tok_Preprocess_Macro_Expr then unmodelled else ret 0) ;;
  if type =? e_invalid e then fail else
  k <- currtok ;;
  body <- (if t_type k =? Tok_BraceCurly_Open then
             body <- on_heap (fun h => Done (make h (set_type CT_Enum_Body))) ;;
             eat Tok_BraceCurly_Open ;;;
             r <- enum_entries fuel body ;;
             match r with None => ret None | Some _ => eat Tok_BraceCurly_Close ;;; ret (Some body) end
           else ret (Some 0)) ;;
  match body with None => ret (e_invalid e) | Some body =>
  inline_cmt <- end_statement ;;
  result <- on_heap (fun h => Done (make h (fun n => n))) ;;
  (if body =? 0 then edit (fun h => put h result (set_type (if is_class then CT_Enum_Class_Fwd else CT_Enum_Fwd)))
   else edit (fun h => put h result (fun n => set_body body (set_type (if is_class then CT_Enum_Class else CT_Enum) n)))) ;;;
  edit (fun h => put h result (set_name name)) ;;;
  (if attributes =? 0 then ret tt else edit (fun h => put h result (set_attrs attributes))) ;;;
  edit (fun h => put h result (fun n => set_ret type (set_params 0 n))) ;;;
  (if inline_cmt =? 0 then ret tt else edit (fun h => put h result (set_inline inline_cmt))) ;;;
  parser_pop ;;; ret result
  end.
End Parse.

(** interface.parsing.cpp:116-129, 257-279, 293-315 and parser.cpp:141-158: parse_enum, parse_type, parse_typedef,
    parse_using, parse_variable.  With an empty text the check pops a scope that is not there.  [beyond]: the
    tokens behind the new ones in the token buffer. *)
Definition parse_text (p : list Z -> list token -> list token -> macros -> env -> nat -> M Z)
    (text : list Z) (beyond : list token) (ms : macros) (e : env) (fuel : nat) (h : heap) : run (heap * Z) :=
  match text with [] => Undefined | _ =>
  rbind (lex text fuel ms) (fun r =>
  match r with
  | None => Done (h, e_invalid e)
  | Some (toks, ms) => rbind (p text toks beyond ms e fuel (Pst 0 [] h)) (fun '(c, s) => Done (p_heap s, c))
  end)
  end.
