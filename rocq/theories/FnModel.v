(** Model of the parsing of parameter lists and functions: base/components/parser.cpp and parse_function of
    base/components/interface.parsing.cpp.  It continues ParseModel.v and uses its conventions; [varadic] is the node
    param_varadic made by init() (interface.cpp:138-142), which is global: its Parent is not null.

    Simplified: macros in parameter lists and behind a signature (parse_simple_preprocess) are not modelled. *)
From Coq Require Import String ZArith List Bool.
From Verif Require Import Common Text HashModel StrOpsModel EnumModel LexModel NavModel StripModel AstModel UpfrontModel ParseModel.
Import ListNotations.
Close Scope string_scope.
Open Scope Z_scope.
Open Scope parse_scope.

Section Fn.
Variable src : list Z.
Variable toks beyond : list token.
Variable ms : macros.
Variable e : env.
Variable varadic : Z.
Variable fuel : nat.
Local Notation currtok := (currtok toks beyond).
Local Notation currtok_noskip := (currtok_noskip toks beyond).
Local Notation prevtok := (prevtok toks beyond).
Local Notation left := (left toks).
Local Notation report := (report src toks beyond).
Local Notation fail := (fail src toks beyond e).
Local Notation eat := (eat src toks beyond ms).
Local Notation check := (check toks beyond).
Local Notation check_noskip := (check_noskip toks beyond).
Local Notation parse_type := (parse_type src toks beyond ms e fuel).
Local Notation parse_attributes := (parse_attributes src toks beyond ms fuel).
Local Notation parse_identifier := (parse_identifier src toks beyond ms fuel).
Local Notation end_statement := (end_statement src toks beyond ms).
Local Notation export_flag := (export_flag src toks beyond ms).
Local Notation char_of := (char_of src).
Local Notation text_of := (text_of src).

(** parser.cpp:162-164 nexttok, lexer.cpp:58-69 lex_next: the token behind the current one; line ends in front of the
    current one are skipped, the index stays *)
Fixpoint skip_lines (n : nat) (i : Z) : run Z :=
  rbind (tok_at toks beyond i) (fun k =>
  if t_type k =? Tok_NewLine then match n with O => Undefined | S n => skip_lines n (i + 1) end else Done i).
Definition nexttok : M token := fun s =>
  rbind (skip_lines (length toks + length beyond) (p_idx s)) (fun i => rbind (tok_at toks beyond (i + 1)) (fun k => Done (k, s))).

(** parser.cpp:2828-2847, 2934-2956: the value behind [=]; [start] is its first token, [len] its length so far.  The
    loop does not look at what is left while a bracket is open. *)
Fixpoint value_loop (n : nat) (start : token) (len capture_level template_level : Z) : M Z :=
  l <- left ;;
  go <- (if negb (l =? 0) then
           k <- currtok ;;
           ret ((negb (t_type k =? Tok_Comma) && (template_level >=? 0) && negb (t_type k =? Tok_Paren_Close)) || (capture_level >? 0) || (template_level >? 0))
         else ret ((capture_level >? 0) || (template_level >? 0))) ;;
  if negb go then ret len else
  k <- currtok ;;
  match n with O => unmodelled | S n =>
  let template_level := if char_of k 0 =? 60 then template_level + 1 else template_level in
  let template_level := if char_of k 0 =? 62 then template_level - 1 else template_level in
  let template_level := if (t_type k =? Tok_Operator) && (char_of k 1 =? 62) then template_level - 1 else template_level in
  let capture_level := if t_type k =? Tok_Paren_Open then capture_level + 1 else capture_level in
  let capture_level := if t_type k =? Tok_Paren_Close then capture_level - 1 else capture_level in
  eat (t_type k) ;;; value_loop n start (end_of k - t_start start) capture_level template_level
  end.

(** parser.cpp:2785-2852, 2894-2959: type, name and value of a parameter ([None]: InvalidCode is returned, the scope
    popped).  [name0]: the name the variable holds before (the code clears it behind the type). *)
Definition parse_param (name0 : list Z) : M (option (Z * list Z * Z)) :=
  b <- check Tok_Preprocess_Macro_Expr ;; if b then unmodelled else
  k <- currtok ;;
  if t_type k =? Tok_Comma then ret (Some (0, name0, 0)) else
  type <- parse_type false ;;
  if type =? e_invalid e then parser_pop ;;; ret None else
  b <- check Tok_Identifier ;;
  k <- currtok ;;
  name <- (if b || bitfield_is_set (t_flags k) TF_Identifier then eat (t_type k) ;;; ret (text_of k) else ret []) ;;
  b <- check Tok_Preprocess_Macro_Expr ;; if b then unmodelled else
  k <- currtok ;;
  if bitfield_is_set (t_flags k) TF_Assign then
    eat Tok_Operator ;;;
    value_tok <- currtok ;;
    if t_type value_tok =? Tok_Comma then report ;;; parser_pop ;;; ret None else
    len <- value_loop fuel value_tok (t_len value_tok) 0 0 ;;
    value <- on_heap (fun h => rbind (strip_formatting (text_of (set_len len value_tok)) false fuel) (fun t => untyped_str e h t)) ;;
    ret (Some (type, name, value))
  else ret (Some (type, name, 0)).

(** parser.cpp:2854-2868, 2962-2976: the node of a parameter; the macro fields are null *)
Definition new_param (p : Z * list Z * Z) : M Z :=
  let '(type, name, value) := p in
  on_heap (fun h => Done (make h (fun n => set_body value (set_ret type (set_name name (set_type CT_Parameters n)))))).

(** parser.cpp:2870-2979 *)
Fixpoint params_loop (n : nat) (result : Z) (name : list Z) : M (option unit) :=
  b <- check Tok_Comma ;; if negb b then ret (Some tt) else
  match n with O => unmodelled | S n =>
  eat Tok_Comma ;;;
  b <- check Tok_Varadic_Argument ;;
  if b then eat Tok_Varadic_Argument ;;; edit (fun h => params_append h result varadic) ;;; params_loop n result name else
  p <- parse_param name ;;
  match p with
  | None => ret None
  | Some p => param <- new_param p ;; edit (fun h => params_append h result param) ;;; params_loop n result (snd (fst p))
  end
  end.

(** parser.cpp:2724-3000 with use_template_capture false *)
Definition parse_params : M Z :=
  push_scope "parse_params" ;;;
  eat Tok_Paren_Open ;;;
  b <- check Tok_Paren_Close ;;
  if b then eat Tok_Paren_Close ;;; parser_pop ;;; ret 0 else
  op <- check Tok_Operator ;;
  b <- (if op then k <- currtok ;; ret (char_of k 0 =? 62) else ret false) ;;
  if b then eat Tok_Operator ;;; parser_pop ;;; ret 0 else
  b <- check Tok_Varadic_Argument ;;
  if b then eat Tok_Varadic_Argument ;;; parser_pop ;;; ret varadic else
  p <- parse_param [] ;;
  match p with None => ret (e_invalid e) | Some p =>
  result <- new_param p ;;
  edit (fun h => put h result (fun n => set_num (n_num n + 1) n)) ;;;
  r <- params_loop fuel result (snd (fst p)) ;;
  match r with None => ret (e_invalid e) | Some _ => eat Tok_Paren_Close ;;; parser_pop ;;; ret result end
  end.

(** parser.cpp:1424-1446: the specifiers behind the parameters, added to those in front of the return type *)
Fixpoint suffix_specs (n : nat) (specifiers : Z) : M Z :=
  l <- left ;; if l =? 0 then ret specifiers else
  k <- currtok ;; if negb (tok_is_specifier k) then ret specifiers else
  match n with O => unmodelled | S n =>
  match lookup_macro ms (text_of k) with
  | Some _ => unmodelled
  | None =>
    let spec := str_to_specifier (text_of k) in
    sp <- (if specifiers =? 0 then on_heap (fun h => def_specifier h spec) else edit (fun h => append_spec h specifiers spec) ;;; ret specifiers) ;;
    eat (t_type k) ;;; suffix_specs n sp
  end
  end.

(** parser.cpp:1550-1592 *)
Fixpoint body_loop (n : nat) (level : Z) : M unit :=
  l <- left ;; if l =? 0 then ret tt else
  k <- currtok_noskip ;;
  if (t_type k =? Tok_BraceCurly_Close) && negb (level >? 0) then ret tt else
  match n with O => unmodelled | S n =>
  eat (t_type k) ;;;
  body_loop n (if t_type k =? Tok_BraceCurly_Open then level + 1 else if (t_type k =? Tok_BraceCurly_Close) && (level >? 0) then level - 1 else level)
  end.
Definition parse_function_body : M Z :=
  push_scope "parse_function_body" ;;;
  eat Tok_BraceCurly_Open ;;;
  result <- on_heap (fun h => Done (make h (set_type CT_Function_Body))) ;;
  start <- currtok_noskip ;;
  body_loop fuel 0 ;;;
  past <- prevtok ;;
  let len := end_of past - t_start start in
  (if len >? 0 then
     x <- on_heap (fun h => def_execution e h (Some (slice src (t_start start) len))) ;; edit (fun h => body_append fuel h result x)
   else ret tt) ;;;
  eat Tok_BraceCurly_Close ;;; parser_pop ;;; ret result.

(** strings.hpp:542-561 strbuilder_strip_space: all white space is taken out (the bytes it works on: StrModel.v) *)
Definition strip_space (t : list Z) : list Z := filter (fun c => negb (char_is_space c)) t.

(** parser.cpp:1457-1486: [= 0] or [= delete] *)
Definition pure_or_delete (specifiers : Z) : M Z :=
  eat Tok_Operator ;;;
  sp <- (if specifiers =? 0 then on_heap (fun h => Done (make h (set_type CT_Specifiers))) else ret specifiers) ;;
  k <- nexttok ;;
  (if list_eq_dec Z.eq_dec (text_of k) (txt "delete") then
     edit (fun h => append_spec h sp Spec_Delete) ;;; k <- currtok ;; eat (t_type k)
   else edit (fun h => append_spec h sp Spec_Pure) ;;; eat Tok_Number) ;;;
  ret sp.

(** parser.cpp:1408-1548.  The body is a Function_Body or invalid. *)
Definition parse_function_after_name (mflags attributes specifiers ret_type : Z) (name : list Z) : M Z :=
  push_scope "parse_function_after_name" ;;;
  params <- parse_params ;;
  specifiers <- suffix_specs fuel specifiers ;;
  brace <- check Tok_BraceCurly_Open ;;
  parts <-
    (if brace then body <- parse_function_body ;; ret (specifiers, body, 0) else
     op <- check Tok_Operator ;;
     pure <- (if op then k <- currtok ;; ret (char_of k 0 =? 61) else ret false) ;;
     specifiers <- (if pure then pure_or_delete specifiers else ret specifiers) ;;
     cmt <- end_statement ;; ret (specifiers, 0, cmt)) ;;
  let '(specifiers, body, inline_cmt) := parts in
  if brace && (body =? e_invalid e) then parser_pop ;;; ret (e_invalid e) else
  result <- on_heap (fun h => Done (make h (fun n => AstModel.set_flags mflags (set_name (strip_space name) n)))) ;;
  edit (fun h => put h result (fun n => if body =? 0 then set_type CT_Function_Fwd n else set_body body (set_type CT_Function n))) ;;;
  edit (fun h => put h result (fun n => set_inline inline_cmt (set_params params (set_ret ret_type (set_specs specifiers (set_attrs attributes n)))))) ;;;
  parser_pop ;;; ret result.

(** parser.cpp:4219-4242; parser_case_macros.cpp:58-67.  A [const] is not eaten: the loop does not end. *)
Definition function_specifier (s : Z) : bool :=
  existsb (Z.eqb s) [Spec_Const; Spec_Consteval; Spec_Constexpr; Spec_External_Linkage; Spec_Internal_Linkage; Spec_ForceInline; Spec_Inline;
                     Spec_NeverInline; Spec_Static].
Fixpoint fn_specs_loop (n : nat) (found : list Z) : M (option (list Z)) :=
  l <- left ;; if l =? 0 then ret (Some found) else
  k <- currtok ;; if negb (tok_is_specifier k) then ret (Some found) else
  let spec := str_to_specifier (text_of k) in
  if negb (function_specifier spec) then ret None else
  match n with O => unmodelled | S n =>
  if spec =? Spec_Const then fn_specs_loop n found else
  if zlen found >=? 16 then undefined else
  eat (t_type k) ;;; fn_specs_loop n (found ++ [spec])
  end.

(** parser.cpp:4197-4267 *)
Definition parse_function : M Z :=
  push_scope "parser_parse_function" ;;;
  mflags <- export_flag ;;
  attributes <- parse_attributes ;;
  specs <- fn_specs_loop fuel [] ;;
  match specs with None => fail | Some specs =>
  specifiers <- specifiers_of e specs ;;
  ret_type <- parse_type false ;;
  if ret_type =? e_invalid e then parser_pop ;;; ret (e_invalid e) else
  name <- parse_identifier ;;
  if negb (tok_is_valid name) then parser_pop ;;; ret (e_invalid e) else
  result <- parse_function_after_name mflags attributes specifiers ret_type (name_text src name) ;;
  parser_pop ;;; ret result
  end.
End Fn.
