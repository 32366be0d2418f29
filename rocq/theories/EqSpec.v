(** What code_is_equal promises, in terms of the nodes compared. *)
From Coq Require Import ZArith List Bool.
From Verif Require Import Common Text AstModel AstSpec.
Import ListNotations.
Open Scope Z_scope.

(** bodies whose entries code_is_equal visits *)
Definition listed_body (t : codetype) : Prop :=
  In t [CT_Class_Body; CT_Enum_Body; CT_Export_Body; CT_Global_Body; CT_Namespace_Body; CT_Struct_Body; CT_Union_Body].

(** a body with exactly these entries, the last of which ends the Next chain *)
Definition body_of (h : heap) (b : Z) (l : list Z) : Prop := entries h b l /\ (l <> [] -> n_next (h_node h (last l 0)) = 0).

(** [b] is a node-for-node copy of the tree at [a] (of height at most [d]), and the tree holds no parameter
    list of more than one parameter, no #define parameter list, and every #define has a body. *)
Fixpoint plain_copy (d : nat) (h : heap) (a b : Z) : Prop :=
  match d with O => False | S d =>
    let s := h_node h a in let o := h_node h b in
    let both := fun x y => (x = 0 /\ y = 0) \/ plain_copy d h x y in
    valid h a /\ valid h b /\
    n_type s = n_type o /\ n_flags s = n_flags o /\ n_name s = n_name o /\ n_content s = n_content o /\
    n_num s = n_num o /\ n_arr s = n_arr o /\
    both (n_attrs s) (n_attrs o) /\ both (n_specs s) (n_specs o) /\ both (n_ret s) (n_ret o) /\
    both (n_params s) (n_params o) /\ both (n_body s) (n_body o) /\ both (n_suffix s) (n_suffix o) /\
    n_type s <> CT_Parameters_Define /\ (n_type s = CT_Parameters -> n_num s <= 1) /\
    (n_type s = CT_Preprocess_Define -> n_body s <> 0) /\
    (n_type s = CT_Specifiers -> specs_ok s) /\
    (listed_body (n_type s) -> exists la lb, body_of h a la /\ body_of h b lb /\ Forall2 (plain_copy d h) la lb)
  end.

(** kinds for which equal nodes carry the same name *)
Definition name_compared (t : codetype) : Prop :=
  In t [CT_Class_Fwd; CT_Struct_Fwd; CT_Class; CT_Struct; CT_Enum; CT_Enum_Class; CT_Enum_Fwd; CT_Enum_Class_Fwd;
        CT_Extern_Linkage; CT_Friend; CT_Function; CT_Function_Fwd; CT_Module; CT_Namespace; CT_Operator;
        CT_Operator_Member; CT_Operator_Fwd; CT_Operator_Member_Fwd; CT_Operator_Cast; CT_Operator_Cast_Fwd;
        CT_Preprocess_Define; CT_Specifiers; CT_Template; CT_Typedef; CT_Typename; CT_Union; CT_Union_Fwd;
        CT_Using; CT_Using_Namespace; CT_Variable].
(** kinds for which equal nodes carry the same module flags (export, import) *)
Definition flags_compared (t : codetype) : Prop :=
  In t [CT_Class; CT_Struct; CT_Enum; CT_Enum_Class; CT_Enum_Fwd; CT_Enum_Class_Fwd; CT_Function; CT_Function_Fwd;
        CT_Module; CT_Namespace; CT_Operator; CT_Operator_Member; CT_Operator_Fwd; CT_Operator_Member_Fwd;
        CT_Template; CT_Typedef; CT_Union; CT_Union_Fwd; CT_Using; CT_Using_Namespace; CT_Variable].
(** the parts of a declaration that equal nodes share *)
Definition parts_compared (t : codetype) : list (node -> Z) :=
  match t with
  | CT_Class | CT_Struct => [n_ret; n_attrs; n_body]
  | CT_Class_Fwd | CT_Struct_Fwd => [n_ret; n_attrs]
  | CT_Constructor => [n_ret; n_params; n_body]
  | CT_Constructor_Fwd => [n_ret; n_params]
  | CT_Destructor => [n_specs; n_body]
  | CT_Destructor_Fwd => [n_specs]
  | CT_Enum | CT_Enum_Class => [n_attrs; n_ret; n_params; n_body]
  | CT_Enum_Fwd | CT_Enum_Class_Fwd => [n_attrs; n_ret; n_params]
  | CT_Extern_Linkage | CT_Friend | CT_Namespace => [n_body]
  | CT_Function | CT_Operator | CT_Operator_Member => [n_ret; n_attrs; n_specs; n_params; n_body]
  | CT_Function_Fwd | CT_Operator_Fwd | CT_Operator_Member_Fwd => [n_ret; n_attrs; n_specs; n_params]
  | CT_Operator_Cast => [n_specs; n_ret; n_body]
  | CT_Operator_Cast_Fwd => [n_specs; n_ret]
  | CT_Template => [n_params; n_body]
  | CT_Typedef => [n_specs; n_ret]
  | CT_Typename => [n_specs; n_body]
  | CT_Union => [n_attrs; n_body]
  | CT_Union_Fwd | CT_Using | CT_Using_Namespace => [n_ret; n_attrs]
  | CT_Variable => [n_ret; n_params; n_body; n_attrs; n_specs; n_suffix]
  | _ => []
  end.

(** kinds that carry text (or entries) which code_is_equal never lets decide *)
Definition contents_ignored (t : codetype) : Prop :=
  In t [CT_Untyped; CT_Execution; CT_PlatformAttributes; CT_Comment; CT_Preprocess_If; CT_Preprocess_IfDef;
        CT_Preprocess_IfNotDef; CT_Preprocess_ElIf; CT_Preprocess_Include; CT_Preprocess_Pragma;
        CT_Function_Body; CT_Extern_Linkage_Body].

(** kinds of body code_validate_body is meant for, with the entry kinds each one must not contain
    (ast_case_macros.cpp; an enum or union body may only hold untyped code) *)
Definition body_forbids (t : codetype) : list codetype :=
  match t with
  | CT_Class_Body | CT_Struct_Body =>
      [CT_PlatformAttributes; CT_Class_Body; CT_Enum_Body; CT_Extern_Linkage; CT_Function_Body; CT_Function_Fwd;
       CT_Global_Body; CT_Namespace; CT_Namespace_Body; CT_Operator; CT_Operator_Fwd; CT_Parameters; CT_Specifiers;
       CT_Struct_Body; CT_Typename]
  | CT_Export_Body | CT_Global_Body | CT_Namespace_Body =>
      [CT_Access_Public; CT_Access_Protected; CT_Access_Private; CT_PlatformAttributes; CT_Class_Body; CT_Enum_Body;
       CT_Execution; CT_Friend; CT_Function_Body; CT_Namespace_Body; CT_Operator_Member; CT_Operator_Member_Fwd;
       CT_Parameters; CT_Specifiers; CT_Struct_Body; CT_Typename]
  | CT_Function_Body =>
      [CT_Access_Public; CT_Access_Protected; CT_Access_Private; CT_PlatformAttributes; CT_Class_Body; CT_Enum_Body;
       CT_Extern_Linkage; CT_Friend; CT_Function_Body; CT_Function_Fwd; CT_Global_Body; CT_Namespace;
       CT_Namespace_Body; CT_Operator; CT_Operator_Fwd; CT_Operator_Member; CT_Operator_Member_Fwd; CT_Parameters;
       CT_Specifiers; CT_Struct_Body; CT_Typename]
  | _ => []
  end.
Definition untyped_only (t : codetype) : Prop := t = CT_Enum_Body \/ t = CT_Union_Body.
Definition plain_body (t : codetype) : Prop :=
  In t [CT_Class_Body; CT_Struct_Body; CT_Export_Body; CT_Global_Body; CT_Namespace_Body; CT_Function_Body].
Definition allowed_in (body entry : codetype) : Prop :=
  (plain_body body /\ ~ In entry (body_forbids body)) \/ (untyped_only body /\ entry = CT_Untyped).
Definition forbidden_in (body entry : codetype) : Prop :=
  (plain_body body /\ In entry (body_forbids body)) \/ (untyped_only body /\ entry <> CT_Untyped).
