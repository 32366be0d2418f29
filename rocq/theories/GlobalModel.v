(** Model of the parsing of global bodies and namespaces: parse_global_nspace and what it calls, base/components/parser.cpp,
    and parse_global_body, parse_namespace of base/components/interface.parsing.cpp.  It continues ParseModel.v and
    FnModel.v and uses their conventions.

    [g_newline], [g_else], [g_endif], [g_private], [g_protected], [g_public] are the nodes fmt_newline, preprocess_else,
    preprocess_endif, access_private, access_protected and access_public made by init() (interface.cpp:93-175), which are global: their Parent is not null.

    Simplified: unions, templates, friends, operators and operator casts, destructors outside their class, static_assert
    and macros are not modelled ([unmodelled]: no statement is made). *)
From Coq Require Import String ZArith List Bool.
From Verif Require Import Common Text HashModel StrOpsModel EnumModel LexModel NavModel StripModel AstModel UpfrontModel ParseModel FnModel.
Import ListNotations.
Close Scope string_scope.
Open Scope Z_scope.
Open Scope parse_scope.

Record globals := { g_newline : Z; g_else : Z; g_endif : Z; g_varadic : Z; g_private : Z; g_protected : Z; g_public : Z }.

Section Global.
Variable src : list Z.
Variable toks beyond : list token.
Variable ms : macros.
Variable e : env.
Variable gl : globals.
Variable fuel : nat.
Local Notation currtok := (currtok toks beyond).
Local Notation currtok_noskip := (currtok_noskip toks beyond).
Local Notation prevtok := (prevtok toks beyond).
Local Notation left := (left toks).
Local Notation report := (report src toks beyond).
Local Notation fail := (fail src toks beyond e).
Local Notation eat := (eat src toks beyond ms).
Local Notation check := (check toks beyond).
Local Notation tok_at := (tok_at toks beyond).
Local Notation num := (num toks).
Local Notation nexttok := (nexttok toks beyond).
Local Notation parse_type := (parse_type src toks beyond ms e fuel).
Local Notation parse_attributes := (parse_attributes src toks beyond ms fuel).
Local Notation parse_identifier := (parse_identifier src toks beyond ms fuel).
Local Notation parse_comment := (parse_comment src toks beyond ms).
Local Notation parse_params := (parse_params src toks beyond ms e (g_varadic gl) fuel).
Local Notation parse_function_body := (parse_function_body src toks beyond ms e fuel).
Local Notation char_of := (char_of src).
Local Notation text_of := (text_of src).

Definition index : M Z := fun s => Done (p_idx s, s).
(** _ctx->parser.Tokens.Arr[ i ] *)
Definition tok (i : Z) : M token := fun s => rbind (tok_at i) (fun k => Done (k, s)).

(** parser.cpp:1938-1958: the scan behind a [<].  The result is the index and the token the loop ends with. *)
Fixpoint template_scan (n : nat) (i : Z) (nav : token) (capture_level template_level : Z) : run (Z * token) :=
  if negb (i <? num) then Done (i, nav) else
  let template_level := if char_of nav 0 =? 60 then template_level + 1 else template_level in
  let template_level := if char_of nav 0 =? 62 then template_level - 1 else template_level in
  let template_level := if (t_type nav =? Tok_Operator) && (char_of nav 1 =? 62) then template_level - 1 else template_level in
  if (t_type nav =? Tok_Paren_Open) && (template_level =? 0) then Done (i, nav) else
  let capture_level := if t_type nav =? Tok_Paren_Open then capture_level + 1 else capture_level in
  let capture_level := if negb (template_level =? 0) && (t_type nav =? Tok_Paren_Close) then capture_level - 1 else capture_level in
  match n with O => NoFuel | S n => rbind (tok_at (i + 1)) (fun k => template_scan n (i + 1) k capture_level template_level) end.
(** parser.cpp:1930-1963: the index of the parenthesis that opens the parameters *)
Fixpoint paren_scan (n : nat) (i : Z) (nav : token) : run Z :=
  if negb (i <? num) then Done i else
  rbind (if char_of nav 0 =? 60 then template_scan n i nav 0 0 else Done (i, nav)) (fun '(i, nav) =>
  if t_type nav =? Tok_Paren_Open then Done i else
  match n with O => NoFuel | S n => rbind (tok_at (i + 1)) (fun k => paren_scan n (i + 1) k) end).
(** parser.cpp:1993-2017: to the left until an identifier outside brackets; the token found *)
Fixpoint left_scan (n : nat) (idx : Z) (i : Z) (tok_left : token) (capture_level template_level : Z) : run token :=
  if i =? idx then Done tok_left else
  let template_level := if char_of tok_left 0 =? 60 then template_level + 1 else template_level in
  let template_level := if char_of tok_left 0 =? 62 then template_level - 1 else template_level in
  let template_level := if (t_type tok_left =? Tok_Operator) && (char_of tok_left 1 =? 62) then template_level - 1 else template_level in
  let capture_level := if negb (template_level =? 0) && (t_type tok_left =? Tok_Paren_Open) then capture_level + 1 else capture_level in
  let capture_level := if negb (template_level =? 0) && (t_type tok_left =? Tok_Paren_Close) then capture_level - 1 else capture_level in
  if (capture_level =? 0) && (template_level =? 0) && (t_type tok_left =? Tok_Identifier) then Done tok_left else
  match n with O => NoFuel | S n => rbind (tok_at (i - 1)) (fun k => left_scan n idx (i - 1) k capture_level template_level) end.
(** parser.cpp:1913-2034 up to the call: whether a constructor (1) or a destructor (2) is seen.  The names are
    compared over the length of the right one. *)
Definition sees_constructor (idx : Z) : run Z :=
  rbind (tok_at idx) (fun nav =>
  rbind (paren_scan (S (length toks)) idx nav) (fun i =>
  rbind (tok_at (i - 1)) (fun right =>
  if negb (t_type right =? Tok_Identifier) then Done 0 else
  rbind (tok_at (i - 2)) (fun l1 =>
  let possible_destructor := (t_type l1 =? Tok_Operator) && (char_of l1 0 =? 126) in
  let i := if possible_destructor then i - 3 else i - 2 in
  rbind (tok_at i) (fun l2 =>
  if negb (t_type l2 =? Tok_Access_StaticSymbol) then Done 0 else
  rbind (tok_at (i - 1)) (fun l3 =>
  rbind (left_scan (S (length toks)) idx (i - 1) l3 0 0) (fun found =>
  let is_same := if list_eq_dec Z.eq_dec (text_of right) (slice src (t_start found) (t_len right)) then true else false in
  Done (if (t_type found =? Tok_Identifier) && is_same then (if possible_destructor then 2 else 1) else 0)))))))).

(** parser.cpp:3516-3524 *)
Fixpoint initializer_list (n : nat) (level : Z) : M unit :=
  l <- left ;; if l =? 0 then ret tt else
  k <- currtok ;; if (t_type k =? Tok_BraceCurly_Open) && negb (level >? 0) then ret tt else
  match n with O => unmodelled | S n =>
  eat (t_type k) ;;; initializer_list n (if t_type k =? Tok_Paren_Open then level + 1 else if t_type k =? Tok_Paren_Close then level - 1 else level)
  end.
(** parser.cpp:3497-3586 *)
Definition parse_constructor (specifiers : Z) : M Z :=
  push_scope "parser_parse_constructor" ;;;
  identifier <- parse_identifier ;;
  params <- parse_params ;;
  colon <- check Tok_Assign_Classifer ;;
  parts <-
    (if colon then
       eat Tok_Assign_Classifer ;;; k <- currtok ;; initializer_list fuel 0 ;;; p <- prevtok ;;
       l <- on_heap (fun h => untyped_str e h (slice src (t_start k) (end_of p - t_start k))) ;;
       body <- parse_function_body ;; ret (l, body, 0)
     else
       brace <- check Tok_BraceCurly_Open ;;
       if brace then body <- parse_function_body ;; ret (0, body, 0) else
       op <- check Tok_Operator ;;
       eq <- (if op then k <- currtok ;; ret (char_of k 0 =? 61) else ret false) ;;
       if eq then body <- parse_assignment_expression src toks beyond ms e fuel ;; ret (0, body, 0) else
       cmt <- end_statement src toks beyond ms ;; ret (0, 0, cmt)) ;;
  let '(inits, body, inline_cmt) := parts in
  result <- on_heap (fun h => Done (make h (fun n => set_specs specifiers (set_name (name_text src identifier) n)))) ;;
  (if params =? 0 then ret tt else edit (fun h => put h result (set_params params))) ;;;
  (if inits =? 0 then ret tt else edit (fun h => put h result (set_ret inits))) ;;;
  edit (fun h => rbind (if body =? 0 then Done false else rbind (get h body) (fun b => Done (ct_eqb (n_type b) CT_Function_Body))) (fun is_body =>
    if is_body then put h result (fun n => set_type CT_Constructor (set_body body n)) else put h result (set_type CT_Constructor_Fwd))) ;;;
  (if inline_cmt =? 0 then ret tt else edit (fun h => put h result (set_inline inline_cmt))) ;;;
  parser_pop ;;; ret result.

(** parser.cpp:1855-1877, 2571-2589: whether [operator] follows, behind a qualified name *)
Fixpoint operator_scan (n : nat) (i : Z) : run bool :=
  if negb (i <? num) then Done false else
  rbind (tok_at i) (fun k =>
  if t_type k =? Tok_Identifier then
    rbind (tok_at (i + 1)) (fun k2 =>
    if t_type k2 =? Tok_Access_StaticSymbol then match n with O => NoFuel | S n => operator_scan n (i + 2) end else Done false)
  else Done (t_type k =? Tok_Decl_Operator)).
Definition sees_operator : M bool := fun s => rbind (operator_scan (S (length toks)) (p_idx s)) (fun b => Done (b, s)).

(** parser.cpp:2530-2660; of parse_macro_as_definiton (parser.cpp:2662-2693) only the case that there is no macro *)
Definition parse_operator_function_or_variable (expects_function : bool) (attributes specifiers : Z) : M Z :=
  push_scope "parse_operator_function_or_variable" ;;;
  k <- currtok ;;
  if t_type k =? Tok_Preprocess_Macro_Stmt then unmodelled else
  type <- parse_type false ;;
  post_rt_attributes <- parse_attributes ;;
  attributes <-
    (if post_rt_attributes =? 0 then ret attributes
     else if attributes =? 0 then ret post_rt_attributes
     else edit (fun h => rbind (get h post_rt_attributes) (fun p => put h attributes (fun a => set_content (n_content a ++ txt " " ++ n_content p) a))) ;;; ret attributes) ;;
  if type =? e_invalid e then parser_pop ;;; ret (e_invalid e) else
  found_operator <- sees_operator ;;
  if found_operator then unmodelled else
  name <- parse_identifier ;;
  detected_capture <- check Tok_Paren_Open ;;
  i <- index ;;
  third <- tok (i + 2) ;;
  let detected_comma := t_type third =? Tok_Comma in
  unpaired <- (if detected_comma then k <- nexttok ;; ret (negb (t_type k =? Tok_Varadic_Argument)) else ret false) ;;
  unpaired <-
    (if unpaired then ret true else
     k <- nexttok ;;
     if negb (t_type k =? Tok_Preprocess_Macro_Expr) then ret false else
     match lookup_macro ms (text_of k) with
     | None => ret false
     | Some m => if bitfield_is_set (mac_flags m) MF_Functional then unmodelled else ret false
     end) ;;
  result <-
    (if detected_capture && negb unpaired then
       r <- parse_function_after_name src toks beyond ms e (g_varadic gl) fuel 0 attributes specifiers type (name_text src name) ;; ret (Some r)
     else if expects_function then report ;;; ret None
     else r <- parse_variable_after_name src toks beyond ms e fuel 0 attributes specifiers type (name_text src name) ;; ret (Some r)) ;;
  match result with
  | None => parser_pop ;;; ret (e_invalid e)
  | Some r => parser_pop ;;; ret r
  end.

(** parser.cpp:1375-1406; [cls] parses a class, struct or union *)
Definition parse_forward_or_definition (cls : Z -> M Z) (which : Z) : M Z :=
  if which =? Tok_Decl_Enum then parse_enum src toks beyond ms e fuel
  else if (which =? Tok_Decl_Class) || (which =? Tok_Decl_Struct) || (which =? Tok_Decl_Union) then cls which else unmodelled.
(** parser.cpp:1163-1183: the index of the [;] that ends the definition; had_paren is never set *)
Fixpoint definition_end (n : nat) (i level : Z) : run Z :=
  if negb (i <? num) then Done i else
  rbind (tok_at i) (fun k =>
  let level := if t_type k =? Tok_BraceCurly_Open then level + 1 else level in
  let level := if t_type k =? Tok_BraceCurly_Close then level - 1 else level in
  if (level =? 0) && (t_type k =? Tok_Statement_End) then Done i else
  match n with O => NoFuel | S n => definition_end n (i + 1) level end).
(** parser.cpp:1214-1219 *)
Fixpoint trailing_start (n : nat) (i : Z) : run Z :=
  rbind (tok_at i) (fun k =>
  if tok_is_specifier k && spec_is_trailing (str_to_specifier (text_of k)) then match n with O => NoFuel | S n => trailing_start n (i - 1) end else Done i).
(** parser.cpp:1153-1335 *)
Definition parse_complicated_definition (cls : Z -> M Z) (which : Z) : M Z :=
  push_scope "parse_complicated_definition" ;;;
  start <- index ;;
  idx <- (fun s => rbind (definition_end (length toks) start 0) (fun i => Done (i, s))) ;;
  let done (m : M Z) : M Z := r <- m ;; parser_pop ;;; ret r in
  let other := done (parse_operator_function_or_variable false 0 0) in
  if idx - 2 =? start then done (parse_forward_or_definition cls which) else
  k <- tok (idx - 1) ;;
  if tok_is_specifier k && spec_is_trailing (str_to_specifier (text_of k)) then
    j <- (fun s => rbind (trailing_start (length toks) (idx - 1)) (fun i => Done (i, s))) ;;
    k <- tok j ;;
    if t_type k =? Tok_Paren_Close then other else fail
  else if t_type k =? Tok_Identifier then
    k2 <- tok (idx - 2) ;;
    if t_type k2 =? Tok_BraceCurly_Close then unmodelled else
    with_id <- (if t_type k2 =? Tok_Identifier then k3 <- tok (idx - 3) ;; ret (t_type k3 =? which) else ret false) ;;
    if with_id then other else
    enum_fwd <- (if t_type k2 =? Tok_Assign_Classifer then
                   k5 <- tok (idx - 5) ;; k4 <- tok (idx - 4) ;;
                   ret (((t_type k5 =? which) && (t_type k4 =? Tok_Decl_Class)) || (t_type k4 =? which))
                 else ret false) ;;
    if enum_fwd then done (parse_enum src toks beyond ms e fuel) else
    if (t_type k2 =? Tok_Ampersand) || (t_type k2 =? Tok_Star) then other else fail
  else if (t_type k >=? Tok_Type_Unsigned) && (t_type k <=? Tok_Type_MS_W64) then
    k2 <- tok (idx - 2) ;;
    enum_fwd <- (if t_type k2 =? Tok_Assign_Classifer then
                   k5 <- tok (idx - 5) ;; k4 <- tok (idx - 4) ;;
                   ret (negb ((negb (t_type k5 =? which) && negb (t_type k4 =? Tok_Decl_Class)) && negb (t_type k4 =? which)))
                 else ret false) ;;
    if enum_fwd then done (parse_enum src toks beyond ms e fuel) else fail
  else if t_type k =? Tok_BraceCurly_Close then done (parse_forward_or_definition cls which)
  else if t_type k =? Tok_BraceSquare_Close then other
  else fail.

(** parser.cpp:2123-2147 parse_include, 2695-2721 parse_pragma, 3002-3035 parse_preprocess_cond (the conditionals follow
    each other in both enumerations), with the token their content is in *)
Definition directive (proc : string) (kind : codetype) (token content : Z) : M Z :=
  push_scope proc ;;;
  r <- on_heap (fun h => Done (make h (set_type kind))) ;;
  eat token ;;;
  b <- check content ;;
  if negb b then fail else
  k <- currtok ;;
  edit (fun h => put h r (set_content (text_of k))) ;;;
  eat content ;;; parser_pop ;;; ret r.
Definition parse_include : M Z := directive "parse_include" CT_Preprocess_Include Tok_Preprocess_Include Tok_String.
Definition parse_pragma : M Z := directive "parse_pragma" CT_Preprocess_Pragma Tok_Preprocess_Pragma Tok_Preprocess_Content.
Definition parse_preprocess_cond (t : Z) : M Z :=
  let kind := if t =? Tok_Preprocess_If then CT_Preprocess_If else if t =? Tok_Preprocess_IfDef then CT_Preprocess_IfDef
              else if t =? Tok_Preprocess_IfNotDef then CT_Preprocess_IfNotDef else CT_Preprocess_ElIf in
  directive "parse_preprocess_cond" kind t Tok_Preprocess_Content.
(** parser.cpp:3587-3672; macros with parameters are not modelled.  A name that is no macro: a null pointer is read *)
Definition parse_define : M Z :=
  push_scope "parser_parse_define" ;;;
  b <- check Tok_Preprocess_Hash ;;
  (if b then eat Tok_Preprocess_Hash else ret true) ;;;
  eat Tok_Preprocess_Define ;;;
  r <- on_heap (fun h => Done (make h (set_type CT_Preprocess_Define))) ;;
  b <- check Tok_Identifier ;;
  if negb b then fail else
  name <- currtok ;;
  edit (fun h => put h r (set_name (text_of name))) ;;;
  eat Tok_Identifier ;;;
  match lookup_macro ms (text_of name) with
  | None => undefined
  | Some m =>
  if bitfield_is_set (mac_flags m) MF_Functional then unmodelled else
  b <- check Tok_Preprocess_Content ;;
  if negb b then fail else
  k <- currtok ;;
  body <- (if t_len k =? 0 then on_heap (fun h => untyped_str e h [10])
           else on_heap (fun h => rbind (strip_formatting (text_of k) false fuel) (fun t => untyped_str e h t))) ;;
  edit (fun h => put h r (set_body body)) ;;;
  eat Tok_Preprocess_Content ;;; parser_pop ;;; ret r
  end.

(** ** classes and structs *)
(** parser_types.hpp:57-60, 42-45: the tokens and the access levels have the same numbers *)
Definition tok_is_access_specifier (k : token) : bool := bitfield_is_set (t_flags k) TF_AccessSpecifier.
(** parser.cpp:751-765; the array of interfaces has room for 4, and the arena it would grow in is out of scope *)
Fixpoint interfaces_loop (n : nat) (found : list Z) : M (list Z) :=
  comma <- check Tok_Comma ;; if negb comma then ret found else
  match n with O => unmodelled | S n =>
  eat Tok_Comma ;;;
  k <- currtok ;;
  (if tok_is_access_specifier k then eat (t_type k) else ret true) ;;;
  name <- parse_identifier ;;
  ty <- on_heap (fun h => def_type e h (Some (name_text src name)) 0 0 0 0) ;;
  if zlen found >=? 4 then undefined else interfaces_loop n (found ++ [ty])
  end.
(** parser.cpp:682-804; [body] parses the members of the class of that name *)
Definition parse_class_struct (body : option token -> M Z) (which : Z) : M Z :=
  export <- check Tok_Module_Export ;;
  (if export then eat Tok_Module_Export else ret true) ;;;
  eat which ;;;
  attributes <- parse_attributes ;;
  b <- check Tok_Identifier ;;
  name <- (if b then parse_identifier else ret None) ;;
  final <- check Tok_Spec_Final ;;
  specifiers <- (if final then sp <- on_heap (fun h => def_specifier h Spec_Final) ;; eat Tok_Spec_Final ;;; ret sp else ret 0) ;;
  colon <- check Tok_Assign_Classifer ;;
  parents <-
    (if colon then
       eat Tok_Assign_Classifer ;;;
       k <- currtok ;;
       (if tok_is_access_specifier k then eat (t_type k) else ret true) ;;;
       parent_tok <- parse_identifier ;;
       parent <- on_heap (fun h => def_type e h (Some (name_text src parent_tok)) 0 0 0 0) ;;
       interfaces <- interfaces_loop fuel [] ;;
       ret (if tok_is_access_specifier k then t_type k else AccessSpec_Default, parent, interfaces)
     else ret (AccessSpec_Default, 0, [])) ;;
  let '(access, parent, interfaces) := parents in
  brace <- check Tok_BraceCurly_Open ;;
  body <- (if brace then body name else ret 0) ;;
  inline_cmt <- end_statement src toks beyond ms ;;
  let opts := {| os_body := body; os_parent := parent; os_access := access; os_attrs := attributes; os_interfaces := interfaces; os_specs := specifiers;
                 os_mflags := if export then ModuleFlag_Export else 0 |} in
  let name_arg := match name with None => None | Some _ => Some (name_text src name) end in
  result <- on_heap (fun h => if which =? Tok_Decl_Class then def_class fuel e h name_arg opts else def_struct fuel e h name_arg opts) ;;
  (if inline_cmt =? 0 then ret tt else edit (fun h => put h result (set_inline inline_cmt))) ;;;
  ret result.

(** parser.cpp:3675-3786, inside a class *)
Definition parse_destructor (specifiers : Z) : M Z :=
  push_scope "parser_parse_destructor" ;;;
  virtual <- check Tok_Spec_Virtual ;;
  specifiers <-
    (if virtual then
       sp <- (if specifiers =? 0 then on_heap (fun h => def_specifier h Spec_Virtual) else edit (fun h => append_spec h specifiers Spec_Virtual) ;;; ret specifiers) ;;
       eat Tok_Spec_Virtual ;;; ret sp
     else ret specifiers) ;;
  l <- left ;;
  tilde <- (if l =? 0 then ret false else k <- currtok ;; ret (char_of k 0 =? 126)) ;;
  if negb tilde then fail else
  eat Tok_Operator ;;;
  identifier <- parse_identifier ;;
  eat Tok_Paren_Open ;;;
  eat Tok_Paren_Close ;;;
  op <- check Tok_Operator ;;
  eq <- (if op then k <- currtok ;; ret (char_of k 0 =? 61) else ret false) ;;
  assigned <-
    (if negb eq then ret (Some 0) else
     upcoming <- nexttok ;;
     l <- left ;;
     if negb (l =? 0) && (char_of upcoming 0 =? 48) then
       eat Tok_Operator ;;; eat Tok_Number ;;;
       (if specifiers =? 0 then ret tt else edit (fun h => append_spec h specifiers Spec_Pure)) ;;; ret (Some 0)
     else if negb (l =? 0) && (if list_eq_dec Z.eq_dec (slice src (t_start upcoming) 7) (txt "default") then true else false) then
       b <- parse_assignment_expression src toks beyond ms e fuel ;; ret (Some b)
     else report ;;; ret None) ;;
  match assigned with
  | None => parser_pop ;;; ret (e_invalid e)
  | Some body =>
  brace <- (if eq then ret false else check Tok_BraceCurly_Open) ;;
  parts <- (if brace then b <- parse_function_body ;; ret (b, 0) else cmt <- end_statement src toks beyond ms ;; ret (body, cmt)) ;;
  let '(body, inline_cmt) := parts in
  result <- on_heap (fun h => Done (make h (fun n => n))) ;;
  (if specifiers =? 0 then ret tt else edit (fun h => put h result (set_specs specifiers))) ;;;
  edit (fun h => rbind (if body =? 0 then Done false else rbind (get h body) (fun b => Done (ct_eqb (n_type b) CT_Function_Body))) (fun is_body =>
    if is_body then put h result (fun n => set_type CT_Destructor (set_body body n)) else put h result (set_type CT_Destructor_Fwd))) ;;;
  (if inline_cmt =? 0 then ret tt else edit (fun h => put h result (set_inline inline_cmt))) ;;;
  parser_pop ;;; ret result
  end.

(** parser_case_macros.cpp:3-26 *)
Definition class_specifier_token (t : Z) : bool :=
  existsb (Z.eqb t) [Tok_Spec_Consteval; Tok_Spec_Constexpr; Tok_Spec_Constinit; Tok_Spec_Explicit; Tok_Spec_ForceInline; Tok_Spec_Inline; Tok_Spec_Mutable;
                     Tok_Spec_NeverInline; Tok_Spec_Static; Tok_Spec_Volatile; Tok_Spec_Virtual].
Definition class_specifier (s : Z) : bool :=
  existsb (Z.eqb s) [Spec_Constexpr; Spec_Constinit; Spec_Explicit; Spec_Inline; Spec_ForceInline; Spec_Mutable; Spec_NeverInline; Spec_Static; Spec_Volatile;
                     Spec_Virtual; Spec_Consteval; Spec_Const].
Definition attribute_token (t : Z) : bool :=
  existsb (Z.eqb t) [Tok_Attribute_Open; Tok_Decl_GNU_Attribute; Tok_Decl_MSVC_Attribute; Tok_Attribute_GEN_API].
(** parser.cpp:1081-1091, 1833-1843 *)
Definition type_token (t : Z) : bool :=
  existsb (Z.eqb t) [Tok_Identifier; Tok_Preprocess_Macro_Typename; Tok_Spec_Const; Tok_Type_Long; Tok_Type_Short; Tok_Type_Signed; Tok_Type_Unsigned;
                     Tok_Type_bool; Tok_Type_char; Tok_Type_double; Tok_Type_int].
(** parser.cpp:1092-1107: the names are compared over the length of that of the class *)
Definition class_decl (name : option token) (expects_function : bool) (attributes specifiers : Z) : M Z :=
  next <- nexttok ;;
  ctor <- (match name with
           | Some nm => if (t_type next =? Tok_Paren_Open) && negb (t_len nm =? 0) then
                          k <- currtok ;;
                          ret ((t_type k =? Tok_Identifier) && if list_eq_dec Z.eq_dec (text_of nm) (slice src (t_start k) (t_len nm)) then true else false)
                        else ret false
           | None => ret false
           end) ;;
  if ctor then parse_constructor specifiers else parse_operator_function_or_variable expects_function attributes specifiers.
(** parser.cpp:1004-1079, falling through to the above; attributes behind specifiers and operator casts are not modelled *)
Definition class_specs (name : option token) (attributes : Z) : M (option Z) :=
  specs <- specs_loop src toks beyond ms fuel class_specifier (fun s => s =? Spec_Const) [] ;;
  match specs with
  | None => report ;;; parser_pop ;;; ret None
  | Some specs =>
  specifiers <- specifiers_of e specs ;;
  k <- currtok ;;
  if tok_is_attribute k then unmodelled else
  if (t_type k =? Tok_Operator) && (char_of k 0 =? 126) then c <- parse_destructor specifiers ;; ret (Some c) else
  if t_type k =? Tok_Decl_Operator then unmodelled else
  c <- class_decl name (existsb (Z.eqb Spec_Consteval) specs) attributes specifiers ;; ret (Some c)
  end.
(** parser.cpp:1110-1118: all up to the next closing brace becomes one text *)
Fixpoint unknown_loop (n : nat) (start : token) (len : Z) : M Z :=
  l <- left ;; if l =? 0 then ret len else
  k <- currtok ;; if t_type k =? Tok_BraceCurly_Close then ret len else
  match n with O => unmodelled | S n => eat (t_type k) ;;; unknown_loop n start (end_of k - t_start start) end.
Definition class_unknown : M Z :=
  k <- currtok ;;
  len <- unknown_loop fuel k (t_len k) ;;
  on_heap (fun h => untyped_str e h (slice src (t_start k) len)).
(** parser.cpp:822-1118: one member, after a [#]; [None]: InvalidCode is returned at once *)
Definition class_member (cls : Z -> M Z) (name : option token) (t : Z) : M (option Z) :=
  if t =? Tok_NewLine then eat Tok_NewLine ;;; ret (Some (g_newline gl))
  else if t =? Tok_Comment then c <- parse_comment ;; ret (Some c)
  else if t =? Tok_Access_Public then eat Tok_Access_Public ;;; eat Tok_Assign_Classifer ;;; ret (Some (g_public gl))
  else if t =? Tok_Access_Protected then eat Tok_Access_Protected ;;; eat Tok_Assign_Classifer ;;; ret (Some (g_protected gl))
  else if t =? Tok_Access_Private then eat Tok_Access_Private ;;; eat Tok_Assign_Classifer ;;; ret (Some (g_private gl))
  else if (t =? Tok_Decl_Class) || (t =? Tok_Decl_Enum) || (t =? Tok_Decl_Struct) || (t =? Tok_Decl_Union) then
    c <- parse_complicated_definition cls t ;; ret (Some c)
  else if (t =? Tok_Decl_Friend) || (t =? Tok_Decl_Operator) || (t =? Tok_Decl_Template) then unmodelled
  else if t =? Tok_Decl_Typedef then c <- parse_typedef src toks beyond ms e fuel ;; ret (Some c)
  else if t =? Tok_Decl_Using then c <- parse_using src toks beyond ms e fuel ;; ret (Some c)
  else if t =? Tok_Operator then c <- parse_destructor 0 ;; ret (Some c)
  else if t =? Tok_Preprocess_Define then c <- parse_define ;; ret (Some c)
  else if t =? Tok_Preprocess_Include then c <- parse_include ;; ret (Some c)
  else if (t >=? Tok_Preprocess_If) && (t <=? Tok_Preprocess_ElIf) then c <- parse_preprocess_cond t ;; ret (Some c)
  else if t =? Tok_Preprocess_Else then eat Tok_Preprocess_Else ;;; ret (Some (g_else gl))
  else if t =? Tok_Preprocess_EndIf then eat Tok_Preprocess_EndIf ;;; ret (Some (g_endif gl))
  else if t =? Tok_Preprocess_Pragma then c <- parse_pragma ;; ret (Some c)
  else if (t =? Tok_Preprocess_Macro_Stmt) || (t =? Tok_Preprocess_Unsupported) || (t =? Tok_StaticAssert) || (t =? Tok_Preprocess_Macro_Expr) then unmodelled
  else if attribute_token t then a <- parse_attributes ;; class_specs name a
  else if class_specifier_token t then class_specs name 0
  else if type_token t then c <- class_decl name false 0 0 ;; ret (Some c)
  else c <- class_unknown ;; ret (Some c).
(** parser.cpp:815-1135: the loop over the members, together with what follows it *)
Fixpoint class_loop (n : nat) (cls : Z -> M Z) (name : option token) (result : Z) : M Z :=
  let finish := eat Tok_BraceCurly_Close ;;; parser_pop ;;; ret result in
  l <- left ;; if l =? 0 then finish else
  k <- currtok_noskip ;; if t_type k =? Tok_BraceCurly_Close then finish else
  match n with O => unmodelled | S n =>
  (if t_type k =? Tok_Preprocess_Hash then eat Tok_Preprocess_Hash else ret true) ;;;
  k <- currtok_noskip ;;
  let t := t_type k in
  if t =? Tok_Statement_End then eat Tok_Statement_End ;;; class_loop n cls name result else
  member <- class_member cls name t ;;
  match member with
  | None => ret (e_invalid e)
  | Some member =>
    if member =? e_invalid e then report ;;; parser_pop ;;; ret (e_invalid e) else
    edit (fun h => body_append fuel h result member) ;;; class_loop n cls name result
  end
  end.
(** parser.cpp:806-1136 *)
Definition class_body (cls : Z -> M Z) (which : Z) (name : option token) : M Z :=
  push_scope "parse_class_struct_body" ;;;
  eat Tok_BraceCurly_Open ;;;
  r <- on_heap (fun h => Done (make h (set_type (if which =? Tok_Decl_Class then CT_Class_Body else CT_Struct_Body)))) ;;
  class_loop fuel cls name r.
(** ** unions *)
(** parser.cpp:5391-5461: a member of a union; everything else is read as a variable, and a failed member is kept *)
Definition union_member (cls : Z -> M Z) (t : Z) : M Z :=
  if t =? Tok_NewLine then eat Tok_NewLine ;;; ret (g_newline gl)
  else if t =? Tok_Comment then parse_comment
  else if (t =? Tok_Decl_Class) || (t =? Tok_Decl_Enum) || (t =? Tok_Decl_Struct) || (t =? Tok_Decl_Union) then parse_complicated_definition cls t
  else if t =? Tok_Preprocess_Define then parse_define
  else if (t >=? Tok_Preprocess_If) && (t <=? Tok_Preprocess_ElIf) then parse_preprocess_cond t
  else if t =? Tok_Preprocess_Else then eat Tok_Preprocess_Else ;;; ret (g_else gl)
  else if t =? Tok_Preprocess_EndIf then eat Tok_Preprocess_EndIf ;;; ret (g_endif gl)
  else if t =? Tok_Preprocess_Pragma then parse_pragma
  else if (t =? Tok_Preprocess_Macro_Stmt) || (t =? Tok_Preprocess_Unsupported) then unmodelled
  else parse_variable src toks beyond ms e fuel.
(** parser.cpp:5383-5466; the end of the tokens does not end the loop *)
Fixpoint union_loop (n : nat) (cls : Z -> M Z) (result : Z) : M unit :=
  b <- check_noskip toks beyond Tok_BraceCurly_Close ;; if b then ret tt else
  match n with O => unmodelled | S n =>
  k <- currtok_noskip ;;
  (if t_type k =? Tok_Preprocess_Hash then eat Tok_Preprocess_Hash else ret true) ;;;
  k <- currtok_noskip ;;
  member <- union_member cls (t_type k) ;;
  edit (fun h => body_append fuel h result member) ;;; union_loop n cls result
  end.
(** parser.cpp:5348-5490 parser_parse_union with [inplace_def] false *)
Definition parse_union_with (cls : Z -> M Z) : M Z :=
  push_scope "parser_parse_union" ;;;
  mflags <- export_flag src toks beyond ms ;;
  eat Tok_Decl_Union ;;;
  attributes <- parse_attributes ;;
  b <- check Tok_Identifier ;;
  name <- (if b then k <- currtok ;; eat Tok_Identifier ;;; ret (text_of k) else ret []) ;;
  eat Tok_BraceCurly_Open ;;;
  body <- on_heap (fun h => Done (make h (set_type CT_Union_Body))) ;;
  union_loop fuel cls body ;;;
  eat Tok_BraceCurly_Close ;;;
  eat Tok_Statement_End ;;;
  result <- on_heap (fun h => Done (make h (fun n => n))) ;;
  edit (fun h => put h result (fun n => set_attrs attributes (set_body body (set_name name (set_flags mflags (set_type CT_Union n)))))) ;;;
  parser_pop ;;; ret result.

(** parser.cpp:3488-3495, 4471-4478: parser_parse_class, parser_parse_struct, and parser.cpp:1395-1397; [n] is the depth to which classes may be nested *)
Fixpoint class_struct (n : nat) (which : Z) : M Z :=
  match n with O => unmodelled | S n =>
  if which =? Tok_Decl_Union then parse_union_with (class_struct n) else
  push_scope (if which =? Tok_Decl_Class then "parser_parse_class" else "parser_parse_struct") ;;;
  r <- parse_class_struct (class_body (class_struct n) which) which ;; parser_pop ;;; ret r
  end.

(** parser_case_macros.cpp:29-53 *)
Definition global_specifier_token (t : Z) : bool :=
  existsb (Z.eqb t) [Tok_Spec_Consteval; Tok_Spec_Constexpr; Tok_Spec_Constinit; Tok_Spec_Extern; Tok_Spec_ForceInline; Tok_Spec_Global; Tok_Spec_Inline;
                     Tok_Spec_Internal_Linkage; Tok_Spec_NeverInline; Tok_Spec_Static].
Definition global_specifier (s : Z) : bool :=
  existsb (Z.eqb s) [Spec_Constexpr; Spec_Constinit; Spec_ForceInline; Spec_Global; Spec_External_Linkage; Spec_Internal_Linkage; Spec_Inline; Spec_Mutable;
                     Spec_NeverInline; Spec_Static; Spec_Volatile; Spec_Consteval; Spec_Const].

(** parser.cpp:1844-1890 *)
Definition global_decl (expects_function : bool) (attributes specifiers : Z) : M Z :=
  idx <- index ;;
  c <- (fun s => rbind (sees_constructor idx) (fun c => Done (c, s))) ;;
  if c =? 1 then parse_constructor specifiers else
  if c =? 2 then unmodelled else
  op <- sees_operator ;;
  if op then unmodelled else
  parse_operator_function_or_variable expects_function attributes specifiers.
(** parser.cpp:1777-1832, falling through to the above; [None]: InvalidCode is returned from the loop *)
Definition global_specs (attributes : Z) : M (option Z) :=
  specs <- specs_loop src toks beyond ms fuel global_specifier (fun s => s =? Spec_Const) [] ;;
  match specs with
  | None => report ;;; parser_pop ;;; ret None
  | Some specs => specifiers <- specifiers_of e specs ;; r <- global_decl (existsb (Z.eqb Spec_Consteval) specs) attributes specifiers ;; ret (Some r)
  end.

(** parser.cpp:1648-1897: one member, after a [#]; [t] is the kind of its first token, [nested] parses the body of a namespace
    or an extern block.  [None]: InvalidCode is returned at once *)
Definition member (nested : codetype -> M Z) (which : codetype) (t : Z) : M (option Z) :=
  if t =? Tok_Comma then (k <- currtok ;; report ;;; parser_pop ;;; ret None)
  else if t =? Tok_NewLine then eat Tok_NewLine ;;; ret (Some (g_newline gl))
  else if t =? Tok_Comment then c <- parse_comment ;; ret (Some c)
  else if (t =? Tok_Decl_Class) || (t =? Tok_Decl_Enum) || (t =? Tok_Decl_Struct) || (t =? Tok_Decl_Union) then
    c <- parse_complicated_definition (class_struct fuel) t ;; ret (Some c)
  else if t =? Tok_Decl_Extern_Linkage then
    (* parser.cpp:4051-4080, 4040-4049; a body that failed to parse is not modelled *)
    (if ct_eqb which CT_Extern_Linkage_Body then report else ret tt) ;;;
    push_scope "parser_parse_extern_link" ;;;
    eat Tok_Decl_Extern_Linkage ;;;
    name <- currtok ;; eat Tok_String ;;;
    r <- on_heap (fun h => Done (make h (fun n => set_name (slice src (t_start name + 1) (t_len name - 1)) (set_type CT_Extern_Linkage n)))) ;;
    push_scope "parser_parse_extern_link_body" ;;;
    entry <- nested CT_Extern_Linkage_Body ;;
    parser_pop ;;;
    if entry =? e_invalid e then unmodelled else
    edit (fun h => put h r (set_body entry)) ;;; parser_pop ;;; ret (Some r)
  else if t =? Tok_Decl_Namespace then
    (* parser.cpp:4268-4296 *)
    push_scope "parser_parse_namespace" ;;;
    eat Tok_Decl_Namespace ;;;
    name <- parse_identifier ;;
    body <- nested CT_Namespace_Body ;;
    if body =? e_invalid e then parser_pop ;;; ret (Some (e_invalid e)) else
    r <- on_heap (fun h => Done (make h (fun n => set_body body (set_name (name_text src name) (set_type CT_Namespace n))))) ;;
    parser_pop ;;; ret (Some r)
  else if t =? Tok_Decl_Typedef then c <- parse_typedef src toks beyond ms e fuel ;; ret (Some c)
  else if t =? Tok_Decl_Using then c <- parse_using src toks beyond ms e fuel ;; ret (Some c)
  else if t =? Tok_Preprocess_Define then c <- parse_define ;; ret (Some c)
  else if t =? Tok_Preprocess_Include then c <- parse_include ;; ret (Some c)
  else if (t >=? Tok_Preprocess_If) && (t <=? Tok_Preprocess_ElIf) then c <- parse_preprocess_cond t ;; ret (Some c)
  else if t =? Tok_Preprocess_Else then eat Tok_Preprocess_Else ;;; ret (Some (g_else gl))
  else if t =? Tok_Preprocess_EndIf then eat Tok_Preprocess_EndIf ;;; ret (Some (g_endif gl))
  else if t =? Tok_Preprocess_Pragma then c <- parse_pragma ;; ret (Some c)
  else if t =? Tok_Module_Export then
    (* parser.cpp:4031-4038 *)
    (if ct_eqb which CT_Export_Body then report else ret tt) ;;;
    push_scope "parser_parse_export_body" ;;; c <- nested CT_Export_Body ;; parser_pop ;;; ret (Some c)
  else if t =? Tok_Module_Import then undefined (* the message lacks an argument *)
  else if attribute_token t then a <- parse_attributes ;; global_specs a
  else if global_specifier_token t then global_specs 0
  else if type_token t then c <- global_decl false 0 0 ;; ret (Some c)
  else if (t =? Tok_Decl_Template) || (t =? Tok_StaticAssert) || (t =? Tok_Preprocess_Macro_Stmt) || (t =? Tok_Preprocess_Macro_Expr) || (t =? Tok_Preprocess_Unsupported) then unmodelled
  else ret (Some (e_invalid e)).
(** parser.cpp:1593-1909: the loop over the members, together with what follows it *)
Fixpoint nspace_loop (n : nat) (which : codetype) (result : Z) : M Z :=
  let finish := (if ct_eqb which CT_Global_Body then ret true else eat Tok_BraceCurly_Close) ;;; parser_pop ;;; ret result in
  l <- left ;; if l =? 0 then finish else
  k <- currtok_noskip ;; if t_type k =? Tok_BraceCurly_Close then finish else
  match n with O => unmodelled | S n =>
  let nested (which : codetype) : M Z :=
    push_scope "parse_global_nspace" ;;;
    eat Tok_BraceCurly_Open ;;;
    r <- on_heap (fun h => Done (make h (set_type which))) ;;
    nspace_loop n which r in
  (if t_type k =? Tok_Preprocess_Hash then eat Tok_Preprocess_Hash else ret true) ;;;
  k <- currtok_noskip ;;
  let t := t_type k in
  if t =? Tok_Statement_End then eat Tok_Statement_End ;;; nspace_loop n which result else
  member <- member nested which t ;;
  match member with
  | None => ret (e_invalid e)
  | Some member =>
    if member =? e_invalid e then report ;;; parser_pop ;;; ret (e_invalid e) else
    edit (fun h => body_append fuel h result member) ;;; nspace_loop n which result
  end
  end.

(** interface.parsing.cpp:179-192 parse_global_body *)
Definition parse_global_body : M Z :=
  push_scope "parse_global_body" ;;;
  push_scope "parse_global_nspace" ;;;
  r <- on_heap (fun h => Done (make h (set_type CT_Global_Body))) ;;
  r <- nspace_loop fuel CT_Global_Body r ;;
  parser_pop ;;; ret r.
(** interface.parsing.cpp:194-204 parse_namespace, parser.cpp:4268-4296 *)
Definition parse_namespace : M Z :=
  push_scope "parser_parse_namespace" ;;;
  eat Tok_Decl_Namespace ;;;
  name <- parse_identifier ;;
  push_scope "parse_global_nspace" ;;;
  eat Tok_BraceCurly_Open ;;;
  r <- on_heap (fun h => Done (make h (set_type CT_Namespace_Body))) ;;
  body <- nspace_loop fuel CT_Namespace_Body r ;;
  if body =? e_invalid e then parser_pop ;;; ret (e_invalid e) else
  r <- on_heap (fun h => Done (make h (fun n => set_body body (set_name (name_text src name) (set_type CT_Namespace n))))) ;;
  parser_pop ;;; ret r.
(** interface.parsing.cpp:11-25, 230-244: parse_class, parse_struct *)
Definition parse_class : M Z := push_scope "parse_class" ;;; r <- parse_class_struct (class_body (class_struct fuel) Tok_Decl_Class) Tok_Decl_Class ;; parser_pop ;;; ret r.
Definition parse_struct : M Z := push_scope "parse_struct" ;;; r <- parse_class_struct (class_body (class_struct fuel) Tok_Decl_Struct) Tok_Decl_Struct ;; parser_pop ;;; ret r.
(** interface.parsing.cpp:281-291 parse_union *)
Definition parse_union : M Z := parse_union_with (class_struct fuel).
End Global.
