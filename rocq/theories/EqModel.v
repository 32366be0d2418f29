(** Structural equality and body validation of AST nodes (base/components/ast.cpp:606-1303,
    ast_case_macros.cpp). Logging (log_fmt, log_failure, code_debug_str) has no effect here. Strings are
    compared by content, as str_are_equal does (strings.hpp). [fuel] bounds recursion + loop rounds; when a
    call needs more, the result is [NoFuel]. *)
From Coq Require Import ZArith List Bool.
From Verif Require Import Common Text AstModel.
Import ListNotations.
Open Scope Z_scope.

Fixpoint bytes_eqb (a b : list Z) : bool :=
  match a, b with [], [] => true | x :: a, y :: b => (x =? y) && bytes_eqb a b | _, _ => false end.

(** one use of a check_member_* macro (ast.cpp:634-709): a compared value, a compared string, or a compared
    child. check_member_content only logs, so it is not listed; ValueType/ReturnType/... are the union
    members of [node] (see AstModel). *)
Inductive check := Val (f : node -> Z) | Str (f : node -> list Z) | Ast (f : node -> Z).

(** ast.cpp:711-1130: the checks of each case, in source order. The cases with their own code
    (CT_Parameters, CT_Parameters_Define, CT_Preprocess_Define, CT_Specifiers and the bodies) are in
    [is_equal_step]; a kind without a case gives [return true] at ast.cpp:1183. CT_Union_Fwd falls through
    into CT_Using (ast.cpp:1092-1108). *)
Definition checks (t : codetype) : list check :=
  match t with
  | CT_Class_Fwd | CT_Struct_Fwd => [Str n_name; Ast n_ret; Val n_num; Ast n_attrs]
  | CT_Class | CT_Struct => [Val n_flags; Str n_name; Ast n_ret; Val n_num; Ast n_attrs; Ast n_body]
  | CT_Constructor => [Ast n_ret; Ast n_params; Ast n_body]
  | CT_Constructor_Fwd => [Ast n_ret; Ast n_params]
  | CT_Destructor => [Ast n_specs; Ast n_body]
  | CT_Destructor_Fwd => [Ast n_specs]
  | CT_Enum | CT_Enum_Class => [Val n_flags; Str n_name; Ast n_attrs; Ast n_ret; Ast n_body; Ast n_params]
  | CT_Enum_Fwd | CT_Enum_Class_Fwd => [Val n_flags; Str n_name; Ast n_attrs; Ast n_ret; Ast n_params]
  | CT_Extern_Linkage => [Str n_name; Ast n_body]
  | CT_Friend => [Str n_name; Ast n_body]
  | CT_Function => [Val n_flags; Str n_name; Ast n_ret; Ast n_attrs; Ast n_specs; Ast n_params; Ast n_body]
  | CT_Function_Fwd => [Val n_flags; Str n_name; Ast n_ret; Ast n_attrs; Ast n_specs; Ast n_params]
  | CT_Module => [Val n_flags; Str n_name]
  | CT_Namespace => [Val n_flags; Str n_name; Ast n_body]
  | CT_Operator | CT_Operator_Member =>
      [Val n_flags; Str n_name; Ast n_ret; Ast n_attrs; Ast n_specs; Ast n_params; Ast n_body]
  | CT_Operator_Fwd | CT_Operator_Member_Fwd =>
      [Val n_flags; Str n_name; Ast n_ret; Ast n_attrs; Ast n_specs; Ast n_params]
  | CT_Operator_Cast => [Str n_name; Ast n_specs; Ast n_ret; Ast n_body]
  | CT_Operator_Cast_Fwd => [Str n_name; Ast n_specs; Ast n_ret]
  | CT_Template => [Val n_flags; Str n_name; Ast n_params; Ast n_body]
  | CT_Typedef => [Val n_num; Val n_flags; Str n_name; Ast n_specs; Ast n_ret]
  | CT_Typename => [Val n_num; Str n_name; Ast n_specs; Ast n_body]
  | CT_Union => [Val n_flags; Str n_name; Ast n_attrs; Ast n_body]
  | CT_Union_Fwd => [Val n_flags; Str n_name; Ast n_attrs; Val n_flags; Str n_name; Ast n_ret; Ast n_attrs]
  | CT_Using | CT_Using_Namespace => [Val n_flags; Str n_name; Ast n_ret; Ast n_attrs]
  | CT_Variable =>
      [Val n_flags; Str n_name; Ast n_ret; Ast n_params; Ast n_body; Ast n_attrs; Ast n_specs; Ast n_suffix]
  | _ => []
  end.

(** ast.cpp:676-709 check_member_ast: only looks when self's member is set *)
Definition check_ast (eq : Z -> Z -> run bool) (a b : Z) (k : run bool) : run bool :=
  if a =? 0 then k else if b =? 0 then Done false else do r <- eq a b; if r then k else Done false.
Definition check_val (a b : Z) (k : run bool) : run bool := if a =? b then k else Done false.
Definition check_str (a b : list Z) (k : run bool) : run bool := if bytes_eqb a b then k else Done false.
Fixpoint run_checks (eq : Z -> Z -> run bool) (s o : node) (cs : list check) (k : run bool) : run bool :=
  match cs with
  | [] => k
  | Val f :: r => check_val (f s) (f o) (run_checks eq s o r k)
  | Str f :: r => check_str (f s) (f o) (run_checks eq s o r k)
  | Ast f :: r => check_ast eq (f s) (f o) (run_checks eq s o r k)
  end.

(** ast.cpp:921-990: the loop over two parameter lists. The name test is the code's: equal names fail.
    code_is_equal(x, nullptr) is false. *)
Fixpoint params_loop (lf : nat) (eq : Z -> Z -> run bool) (h : heap) (curr other : Z) (k : run bool) : run bool :=
  match lf with O => NoFuel | S lf =>
    if curr =? 0 then k else
    if other =? 0 then Done false else
    do c <- get h curr; do o <- get h other;
    if bytes_eqb (n_name c) (n_name o) then Done false else
    do tv <- (if n_ret c =? 0 then Done true else eq (n_ret c) (n_ret o));
    if negb tv then Done false else
    do v <- (if n_body c =? 0 then Done true else eq (n_body c) (n_body o));
    if negb v then Done false else
    params_loop lf eq h (n_next c) (n_next o) k
  end.

(** ast.cpp:1136-1176: the loop over two bodies *)
Fixpoint body_loop (lf : nat) (eq : Z -> Z -> run bool) (h : heap) (curr other : Z) (k : run bool) : run bool :=
  match lf with O => NoFuel | S lf =>
    if curr =? 0 then k else
    if other =? 0 then Done false else
    do r <- eq curr other;
    if negb r then Done false else
    do c <- get h curr; do o <- get h other;
    body_loop lf eq h (n_next c) (n_next o) k
  end.

(** ast.cpp:1037-1042 *)
Fixpoint specs_loop (lf : nat) (s o : node) (idx : Z) : run bool :=
  match lf with
  | O => Done true
  | S lf => do a <- arr_at s idx; do b <- arr_at o idx;
              if a =? b then specs_loop lf s o (idx + 1) else Done false
  end.

(** the body of code_is_equal (ast.cpp:606-1184) with its recursive calls replaced by [eq] *)
Definition is_equal_step (lf : nat) (eq : Z -> Z -> run bool) (h : heap) (self other : Z) : run bool :=
  if other =? 0 then Done false else
  do s <- get h self; do o <- get h other;
  if negb (ct_eqb (n_type s) (n_type o)) then Done false else
  match n_type s with
  | CT_Parameters =>
      if n_num s >? 1 then params_loop lf eq h self other (check_val (n_num s) (n_num o) (Done true))
      else run_checks eq s o [Str n_name; Ast n_ret; Ast n_body; Ast n_body] (Done true)
  | CT_Parameters_Define => Done false
  | CT_Preprocess_Define =>
      (* check_member_content( Body->Content ) only logs but reads through both Body pointers *)
      check_str (n_name s) (n_name o) (do _ <- get h (n_body s); do _ <- get h (n_body o); Done true)
  | CT_Specifiers =>
      check_val (n_num s) (n_num o) (check_str (n_name s) (n_name o) (specs_loop (Z.to_nat (n_num s)) s o 0))
  | CT_Class_Body | CT_Enum_Body | CT_Export_Body | CT_Global_Body | CT_Namespace_Body | CT_Struct_Body
  | CT_Union_Body =>
      check_ast eq (n_front s) (n_front o) (check_ast eq (n_next s) (n_next o)
        (body_loop lf eq h (n_front s) (n_front o) (check_val (n_num s) (n_num o) (Done true))))
  | t => run_checks eq s o (checks t) (Done true)
  end.

(** ast.cpp:606-1184 [code_is_equal] *)
Fixpoint code_is_equal (fuel : nat) (h : heap) (self other : Z) : run bool :=
  match fuel with O => NoFuel | S fuel => is_equal_step (S fuel) (code_is_equal fuel h) h self other end.

(** ast_case_macros.cpp:1-80 *)
Definition class_unallowed (t : codetype) : bool :=
  match t with
  | CT_PlatformAttributes | CT_Class_Body | CT_Enum_Body | CT_Extern_Linkage | CT_Function_Body
  | CT_Function_Fwd | CT_Global_Body | CT_Namespace | CT_Namespace_Body | CT_Operator | CT_Operator_Fwd
  | CT_Parameters | CT_Specifiers | CT_Struct_Body | CT_Typename => true
  | _ => false
  end.
Definition function_unallowed (t : codetype) : bool :=
  match t with
  | CT_Access_Public | CT_Access_Protected | CT_Access_Private | CT_PlatformAttributes | CT_Class_Body
  | CT_Enum_Body | CT_Extern_Linkage | CT_Friend | CT_Function_Body | CT_Function_Fwd | CT_Global_Body
  | CT_Namespace | CT_Namespace_Body | CT_Operator | CT_Operator_Fwd | CT_Operator_Member
  | CT_Operator_Member_Fwd | CT_Parameters | CT_Specifiers | CT_Struct_Body | CT_Typename => true
  | _ => false
  end.
Definition global_unallowed (t : codetype) : bool :=
  match t with
  | CT_Access_Public | CT_Access_Protected | CT_Access_Private | CT_PlatformAttributes | CT_Class_Body
  | CT_Enum_Body | CT_Execution | CT_Friend | CT_Function_Body | CT_Namespace_Body | CT_Operator_Member
  | CT_Operator_Member_Fwd | CT_Parameters | CT_Specifiers | CT_Struct_Body | CT_Typename => true
  | _ => false
  end.
Definition namespace_unallowed (t : codetype) : bool :=
  match t with
  | CT_Access_Public | CT_Access_Protected | CT_Access_Private | CT_PlatformAttributes | CT_Class_Body
  | CT_Enum_Body | CT_Execution | CT_Friend | CT_Function_Body | CT_Namespace_Body | CT_Operator_Member
  | CT_Operator_Member_Fwd | CT_Parameters | CT_Specifiers | CT_Struct_Body | CT_Typename => true
  | _ => false
  end.
Definition not_untyped (t : codetype) : bool := negb (ct_eqb t CT_Untyped).

(** ast.cpp:1186-1303: the switch of [code_validate_body]; [None] is its default case *)
Definition validated_kind (t : codetype) : option (codetype -> bool) :=
  match t with
  | CT_Class_Body | CT_Struct_Body => Some class_unallowed
  | CT_Enum_Body | CT_Union_Body => Some not_untyped
  | CT_Export_Body | CT_Extern_Linkage | CT_Global_Body => Some global_unallowed
  | CT_Function_Body => Some function_unallowed
  | CT_Namespace_Body => Some namespace_unallowed
  | _ => None
  end.

(** for ( entry = begin; entry != end; next_CodeBody(body, entry) ): the value of next_CodeBody is dropped *)
Fixpoint validate_loop (fuel : nat) (bad : codetype -> bool) (h : heap) (body entry : Z) : run bool :=
  match fuel with O => NoFuel | S fuel =>
    do e <- end_body h body;
    if entry =? e then Done false else   (* break, then [return false] at ast.cpp:1302 *)
    do n <- get h entry;
    if bad (n_type n) then Done false else
    do _ <- next_body h body entry;
    validate_loop fuel bad h body entry
  end.
Definition code_validate_body (fuel : nat) (h : heap) (self : Z) : run bool :=
  do s <- get h self;
  match validated_kind (n_type s) with
  | None => Done false
  | Some bad => do e <- begin_body h self; validate_loop fuel bad h self e
  end.
