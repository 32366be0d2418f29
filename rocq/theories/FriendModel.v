(** Model of the parsing of friend declarations: parser_parse_friend, base/components/parser.cpp, which is the public
    parse_friend of base/components/interface.parsing.cpp:155-175.  It continues ParseModel.v and FnModel.v and uses
    their conventions.

    Simplified: operators behind the return type are not modelled ([unmodelled]: no statement is made). *)
From Coq Require Import String ZArith List Bool.
From Verif Require Import Common Text HashModel StrOpsModel EnumModel LexModel NavModel StripModel AstModel UpfrontModel ParseModel FnModel.
Import ListNotations.
Close Scope string_scope.
Open Scope Z_scope.
Open Scope parse_scope.

Section Friend.
Variable src : list Z.
Variable toks beyond : list token.
Variable ms : macros.
Variable e : env.
Variable varadic : Z.
Variable fuel : nat.
Local Notation currtok := (currtok toks beyond).
Local Notation left := (left toks).
Local Notation fail := (fail src toks beyond e).
Local Notation eat := (eat src toks beyond ms).
Local Notation parse_type := (parse_type src toks beyond ms e fuel).
Local Notation parse_identifier := (parse_identifier src toks beyond ms fuel).
Local Notation end_statement := (end_statement src toks beyond ms).
Local Notation text_of := (text_of src).

(** parser.cpp:4097-4127; parser_case_macros.cpp:52-55; the loop ends at a [const], which is left to the type *)
Definition friend_specifier (s : Z) : bool := existsb (Z.eqb s) [Spec_Const; Spec_Inline; Spec_ForceInline].

(** parser.cpp:4165: function && function->Type == CT_Function_Fwd *)
Definition is_declared (function : Z) : M bool := fun s =>
  Done (negb (function =? 0) && ct_eqb (n_type (h_node (p_heap s) function)) CT_Function_Fwd, s).

(** parser.cpp:4085-4195; lines 4164-4177 are [end_statement] again, behind the one of the function *)
Definition parse_friend : M Z :=
  push_scope "parser_parse_friend" ;;;
  eat Tok_Decl_Friend ;;;
  specs <- specs_loop src toks beyond ms fuel friend_specifier (fun s => s =? Spec_Const) [] ;;
  match specs with None => fail | Some specs =>
  specifiers <- specifiers_of e specs ;;
  type <- parse_type false ;;
  if type =? e_invalid e then parser_pop ;;; ret (e_invalid e) else
  k <- currtok ;;
  function <- (if t_type k =? Tok_Identifier then
                 name <- parse_identifier ;;
                 parse_function_after_name src toks beyond ms e varadic fuel 0 0 specifiers type (name_text src name)
               else ret 0) ;;
  k <- currtok ;;
  if t_type k =? Tok_Decl_Operator then unmodelled else
  fwd <- is_declared function ;;
  inline_cmt <- (if fwd then end_statement else ret 0) ;;
  result <- on_heap (fun h => Done (make h (set_type CT_Friend))) ;;
  edit (fun h => put h result (set_body (if function =? 0 then type else function))) ;;;
  edit (fun h => put h result (fun n => if inline_cmt =? 0 then n else set_inline inline_cmt n)) ;;;
  parser_pop ;;; ret result
  end.
End Friend.
