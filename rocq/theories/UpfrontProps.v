(** Property theorems C32-C34 (upfront constructors). *)
From Coq Require Import String ZArith List Bool Lia.
From Verif Require Import Common Text AstModel AstSpec EqModel EqSpec EnumModel EnumSpec UpfrontModel UpfrontSpec UpfrontProofs UpfrontProofs2 UpfrontProofs3 UpfrontProofs4.
Import ListNotations.
Close Scope string_scope.
Open Scope Z_scope.

(** *** C32: constructors accept exactly well-formed arguments *)
Theorem c32_attributes : forall e h, world e h -> forall s, accepts_iff e h (def_attributes e h s) (has_name s)
  (set_content (str_text s) (node_of CT_PlatformAttributes (str_text s))).
Proof. exact p32_attributes. Qed.
Print Assumptions c32_attributes.
Theorem c32_execution : forall e h, world e h -> forall s, accepts_iff e h (def_execution e h s) (has_name s) (set_content (str_text s) (node_of CT_Execution [])).
Proof. exact p32_execution. Qed.
Print Assumptions c32_execution.
Theorem c32_module : forall e h, world e h -> forall s fl, accepts_iff e h (def_module e h s fl) (has_name s) (set_flags fl (node_of CT_Module (str_text s))).
Proof. exact p32_module. Qed.
Print Assumptions c32_module.
Theorem c32_pragma : forall e h, world e h -> forall s, accepts_iff e h (def_pragma e h s) (has_name s) (set_content (str_text s) (node_of CT_Preprocess_Pragma [])).
Proof. exact p32_pragma. Qed.
Print Assumptions c32_pragma.
Theorem c32_using_namespace : forall e h, world e h -> forall s, accepts_iff e h (def_using_namespace e h s) (has_name s) (node_of CT_Using_Namespace (str_text s)).
Proof. exact p32_using_namespace. Qed.
Print Assumptions c32_using_namespace.
Theorem c32_preprocess_cond : forall e h, world e h -> forall c s, accepts_iff e h (def_preprocess_cond e h c s) (has_name s)
  (set_content (str_text s) (node_of (match c with PC_If => CT_Preprocess_If | PC_IfDef => CT_Preprocess_IfDef
     | PC_IfNotDef => CT_Preprocess_IfNotDef | PC_ElIf => CT_Preprocess_ElIf end) [])).
Proof. exact p32_cond. Qed.
Print Assumptions c32_preprocess_cond.
Theorem c32_include : forall e h, world e h -> forall s (foreign : bool), accepts_iff e h (def_include e h s foreign) (has_name s)
  (let t := if foreign then [60] ++ str_text s ++ [62] else [34] ++ str_text s ++ [34] in set_content t (node_of CT_Preprocess_Include t)).
Proof. exact p32_include. Qed.
Print Assumptions c32_include.
Theorem c32_constructor : forall e h, world e h -> forall params init body, ref h params -> ref h body ->
  accepts_iff e h (def_constructor e h params init body) (none_or h params [CT_Parameters] /\ none_or h body [CT_Function_Body; CT_Untyped])
    (with_body body CT_Constructor CT_Constructor_Fwd (set_ret init (set_params params zero_node))).
Proof. exact p32_constructor. Qed.
Print Assumptions c32_constructor.
Theorem c32_destructor : forall e h, world e h -> forall body specs, ref h body -> ref h specs ->
  accepts_iff e h (def_destructor e h body specs) (none_or h specs [CT_Specifiers] /\ none_or h body [CT_Function_Body; CT_Untyped])
    (with_body body CT_Destructor CT_Destructor_Fwd (set_specs specs zero_node)).
Proof. exact p32_destructor. Qed.
Print Assumptions c32_destructor.
Theorem c32_function : forall e h, world e h -> forall s p,
  ref h (of_params p) -> ref h (of_ret p) -> ref h (of_specs p) -> ref h (of_attrs p) -> ref h (of_body p) ->
  accepts_iff e h (def_function e h s p)
    (has_name s /\ none_or h (of_params p) [CT_Parameters] /\ none_or h (of_ret p) [CT_Typename] /\ none_or h (of_specs p) [CT_Specifiers] /\
     none_or h (of_attrs p) [CT_PlatformAttributes] /\ none_or h (of_body p) [CT_Function_Body; CT_Execution; CT_Untyped])
    (set_ret (if of_ret p =? 0 then e_void e else of_ret p) (set_params (of_params p) (set_specs (of_specs p) (set_attrs (of_attrs p)
      (set_flags (of_mflags p) (with_body (of_body p) CT_Function CT_Function_Fwd (set_name (str_text s) zero_node))))))).
Proof. exact p32_function. Qed.
Print Assumptions c32_function.
Theorem c32_extern_link : forall e h, world e h -> forall s body, ref h body ->
  accepts_iff e h (def_extern_link e h s body) (has_name s /\ is_a h body [CT_Extern_Linkage_Body; CT_Untyped])
    (set_body body (node_of CT_Extern_Linkage (str_text s))).
Proof. exact p32_extern_link. Qed.
Print Assumptions c32_extern_link.
Theorem c32_friend : forall e h, world e h -> forall d, ref h d ->
  accepts_iff e h (def_friend e h d)
    (is_a h d [CT_Class_Fwd; CT_Function_Fwd; CT_Operator_Fwd; CT_Struct_Fwd; CT_Class; CT_Function; CT_Operator; CT_Struct])
    (set_body d (node_of CT_Friend [])).
Proof. exact p32_friend. Qed.
Print Assumptions c32_friend.
Theorem c32_namespace : forall e h, world e h -> forall s body fl, ref h body ->
  accepts_iff e h (def_namespace e h s body fl) (has_name s /\ is_a h body [CT_Namespace_Body; CT_Untyped])
    (set_body body (set_flags fl (node_of CT_Namespace (str_text s)))).
Proof. exact p32_namespace. Qed.
Print Assumptions c32_namespace.
Theorem c32_param : forall e h, world e h -> forall ty s v, ref h ty -> ref h v ->
  accepts_iff e h (def_param e h ty s v) (has_name s /\ is_a h ty [CT_Typename] /\ none_or h v [CT_Untyped])
    (set_num 1 (set_body v (set_ret ty (node_of CT_Parameters (str_text s))))).
Proof. exact p32_param. Qed.
Print Assumptions c32_param.
Theorem c32_variable : forall e h, world e h -> forall ty s p, ref h ty -> ref h (ov_attrs p) -> ref h (ov_specs p) -> ref h (ov_value p) ->
  accepts_iff e h (def_variable e h ty s p)
    (has_name s /\ is_a h ty [CT_Typename] /\ none_or h (ov_attrs p) [CT_PlatformAttributes] /\ none_or h (ov_specs p) [CT_Specifiers] /\
     none_or h (ov_value p) [CT_Untyped])
    (set_ret ty (set_attrs (ov_attrs p) (set_specs (ov_specs p) (set_body (ov_value p) (set_flags (ov_mflags p) (node_of CT_Variable (str_text s))))))).
Proof. exact p32_variable. Qed.
Print Assumptions c32_variable.
Theorem c32_type : forall e h, world e h -> forall s arr attrs specs tag, ref h arr -> ref h attrs -> ref h specs ->
  accepts_iff e h (def_type e h s arr attrs specs tag)
    (has_name s /\ none_or h attrs [CT_PlatformAttributes] /\ none_or h specs [CT_Specifiers] /\ none_or h arr [CT_Untyped])
    (set_num (2 ^ 16 * tag) (set_body arr (set_specs specs (set_attrs attrs (node_of CT_Typename (str_text s)))))).
Proof. exact p32_type. Qed.
Print Assumptions c32_type.
Theorem c32_union : forall e h, world e h -> forall s body attrs fl, ref h body -> ref h attrs ->
  accepts_iff e h (def_union e h s body attrs fl) (is_a h body [CT_Union_Body] /\ none_or h attrs [CT_PlatformAttributes])
    (set_attrs attrs (set_body body (set_flags fl (node_of CT_Union (str_text s))))).
Proof. exact p32_union. Qed.
Print Assumptions c32_union.
Theorem c32_body : forall e h, world e h -> forall t, accepts_iff e h (def_body e h t)
  (In t [CT_Class_Body; CT_Enum_Body; CT_Export_Body; CT_Extern_Linkage; CT_Function_Body; CT_Global_Body; CT_Namespace_Body; CT_Struct_Body; CT_Union_Body])
  (node_of t []).
Proof. exact p32_body. Qed.
Print Assumptions c32_body.
Theorem c32_define : forall e h, world e h -> forall s params content, has_name s -> exists h' c b,
  def_define e h s params content = Done (h', c) /\ ~ valid h c /\ valid h' c /\ ~ valid h b /\ valid h' b /\ kept h h' /\
  h_node h' c = set_body b (set_params params (node_of CT_Preprocess_Define (str_text s))) /\
  (let t := str_text content ++ [10] in h_node h' b = set_content t (node_of CT_Untyped t)).
Proof. exact p32_define. Qed.
Print Assumptions c32_define.
Theorem c32_specifiers : forall e h, world e h -> forall ss, accepts_iff e h (def_specifiers e h ss) (0 < Z.of_nat (length ss) <= 14) (specs_list ss).
Proof. exact p32_specifiers. Qed.
Print Assumptions c32_specifiers.
Theorem c32_specifier : forall e h, world e h -> forall s, creates h (def_specifier h s) (specs_list [s]).
Proof. exact p32_specifier. Qed.
Print Assumptions c32_specifier.
(** class and struct, without and with interfaces *)
Theorem c32_struct : forall e h, world e h -> forall fuel s p, ref h (os_attrs p) -> ref h (os_parent p) -> ref h (os_body p) -> os_interfaces p = [] ->
  accepts_iff e h (def_struct fuel e h s p) (struct_accepts h [CT_Typename] [CT_Struct_Body] p)
    (struct_node (os_body p) (os_parent p) CT_Struct CT_Struct_Fwd s p).
Proof. exact p32_struct. Qed.
Print Assumptions c32_struct.
Theorem c32_class : forall e h, world e h -> forall fuel s p, ref h (os_attrs p) -> ref h (os_parent p) -> ref h (os_body p) -> os_interfaces p = [] ->
  adopts_iff e h (def_class fuel e h s p) (os_body p) (has_name s /\ struct_accepts h class_kinds [CT_Class_Body; CT_Untyped] p)
    (struct_node (os_body p) (os_parent p) CT_Class CT_Class_Fwd s p).
Proof. exact p32_class. Qed.
Print Assumptions c32_class.
Theorem c32_struct_interfaces_partial : forall e h, world e h -> forall fuel s p l, ref h (os_attrs p) -> ref h (os_body p) ->
  struct_accepts h [CT_Typename] [CT_Struct_Body] p -> os_parent p <> 0 ->
  chain_of h (os_parent p) l -> NoDup (l ++ os_interfaces p) -> (forall t, In t (os_interfaces p) -> valid h t /\ n_next (h_node h t) = 0) ->
  os_interfaces p <> [] -> (length (l ++ os_interfaces p) < fuel)%nat ->
  exists h' c, def_struct fuel e h s p = Done (h', c) /\ ~ valid h c /\ valid h' c /\
    h_node h' c = set_num 3 (struct_node (os_body p) (os_parent p) CT_Struct CT_Struct_Fwd s p) /\
    chain_of h' (os_parent p) (l ++ os_interfaces p) /\ (forall x, valid h x -> same_content (h_node h x) (h_node h' x)).
Proof. exact p32_struct_interfaces. Qed.
Print Assumptions c32_struct_interfaces_partial.
Theorem c32_class_interfaces_partial : forall e h, world e h -> forall fuel s p l, ref h (os_attrs p) -> ref h (os_body p) -> has_name s ->
  struct_accepts h class_kinds [CT_Class_Body; CT_Untyped] p -> os_parent p <> 0 ->
  chain_of h (os_parent p) l -> NoDup (l ++ os_interfaces p) -> (forall t, In t (os_interfaces p) -> valid h t /\ n_next (h_node h t) = 0) ->
  os_interfaces p <> [] -> (length (l ++ os_interfaces p) < fuel)%nat ->
  exists h' c, def_class fuel e h s p = Done (h', c) /\ ~ valid h c /\ valid h' c /\
    h_node h' c = set_num 3 (struct_node (os_body p) (os_parent p) CT_Class CT_Class_Fwd s p) /\
    chain_of h' (os_parent p) (l ++ os_interfaces p) /\ (forall x, valid h x -> same_content (h_node h x) (h_node h' x)).
Proof. exact p32_class_interfaces. Qed.
Print Assumptions c32_class_interfaces_partial.
(** interfaces without a base type are written through null *)
Theorem c32_struct_interfaces_without_parent_refuted : forall e h, world e h -> forall fuel s p, ref h (os_attrs p) -> ref h (os_body p) ->
  struct_accepts h [CT_Typename] [CT_Struct_Body] p -> os_parent p = 0 -> os_interfaces p <> [] -> (0 < fuel)%nat -> def_struct fuel e h s p = Undefined.
Proof. exact p32_struct_no_parent. Qed.
Print Assumptions c32_struct_interfaces_without_parent_refuted.
Theorem c32_class_interfaces_without_parent_refuted : forall e h, world e h -> forall fuel s p, ref h (os_attrs p) -> ref h (os_body p) -> has_name s ->
  struct_accepts h class_kinds [CT_Class_Body; CT_Untyped] p -> os_parent p = 0 -> os_interfaces p <> [] -> (0 < fuel)%nat -> def_class fuel e h s p = Undefined.
Proof. exact p32_class_no_parent. Qed.
Print Assumptions c32_class_interfaces_without_parent_refuted.
(** enum: a definition with neither underlying type nor macro - the plain "enum E { ... }" - is rejected *)
Theorem c32_enum_partial : forall e h, world e h -> forall s p, ref h (oe_type p) -> ref h (oe_attrs p) -> ref h (oe_body p) ->
  accepts_iff e h (def_enum e h s p)
    (has_name s /\ none_or h (oe_type p) [CT_Typename] /\ none_or h (oe_attrs p) [CT_PlatformAttributes] /\
     none_or h (oe_body p) [CT_Enum_Body; CT_Untyped] /\
     ~ (oe_body p <> 0 /\ oe_type p = 0 /\ oe_macro p = 0))
    (let n := set_attrs (oe_attrs p) (set_flags (oe_mflags p)
        (with_body (oe_body p) (if oe_class p then CT_Enum_Class else CT_Enum) (if oe_class p then CT_Enum_Class_Fwd else CT_Enum_Fwd) (set_name (str_text s) zero_node))) in
     if oe_type p =? 0 then set_params (oe_macro p) n else set_ret (oe_type p) n).
Proof. exact p32_enum. Qed.
Print Assumptions c32_enum_partial.
Theorem c32_plain_enum_refuted : forall e h, world e h -> forall s p, has_name s -> oe_type p = 0 -> oe_macro p = 0 -> oe_attrs p = 0 ->
  is_a h (oe_body p) [CT_Enum_Body] -> rejects e h (def_enum e h s p).
Proof.
  intros e h W s p N T M A [V K]. destruct (p32_enum e h W s p) as [[(_ & _ & _ & _ & X) _]|[_ R]]; try (now left); try (now right); auto.
  exfalso. apply X. unfold valid in V. lia.
Qed.
Print Assumptions c32_plain_enum_refuted.
(** typedef: the attributes given are dropped (the node carries none) *)
Theorem c32_typedef_partial : forall e h, world e h -> forall s ty attrs fl, ref h ty -> ref h attrs ->
  accepts_iff e h (def_typedef e h s ty attrs fl)
    (has_name s /\ is_a h ty [CT_Class; CT_Class_Fwd; CT_Enum; CT_Enum_Fwd; CT_Enum_Class; CT_Enum_Class_Fwd; CT_Function_Fwd;
                              CT_Struct; CT_Struct_Fwd; CT_Union; CT_Typename] /\ none_or h attrs [CT_PlatformAttributes])
    (set_ret ty (set_flags fl (node_of CT_Typedef (str_text s)))).
Proof. exact p32_typedef. Qed.
Print Assumptions c32_typedef_partial.
(** template: the kind of the declaration is not checked *)
Theorem c32_template_any_declaration_refuted : forall e h, world e h -> forall params d fl, ref h params -> ref h d ->
  accepts_iff e h (def_template e h params d fl) (d <> 0 /\ none_or h params [CT_Parameters])
    (set_body d (set_params params (set_flags fl (node_of CT_Template [])))).
Proof. exact p32_template. Qed.
Print Assumptions c32_template_any_declaration_refuted.
(** operator cast: an untyped body, which def_function takes, is rejected *)
Theorem c32_operator_cast : forall e h, world e h -> forall ty body specs, ref h ty -> ref h body ->
  accepts_iff e h (def_operator_cast e h ty body specs) (is_a h ty [CT_Typename] /\ none_or h body [CT_Function_Body; CT_Execution])
    (set_ret ty (set_specs specs (with_body body CT_Operator_Cast CT_Operator_Cast_Fwd zero_node))).
Proof. exact p32_operator_cast. Qed.
Print Assumptions c32_operator_cast.
(** using: any given type is rejected, only a null one is accepted *)
Theorem c32_using_refuted : forall e h, world e h -> forall s ty attrs fl,
  (ty <> 0 -> def_using e h s ty attrs fl = Done (h, e_invalid e)) /\
  (ref h attrs -> accepts_iff e h (def_using e h s 0 attrs fl) (has_name s /\ none_or h attrs [CT_PlatformAttributes])
    (set_attrs attrs (set_flags fl (node_of CT_Using (str_text s))))).
Proof. intros e h W s ty attrs fl. split; [apply p32_using_rejected|apply p32_using_null; auto]. Qed.
Print Assumptions c32_using_refuted.

(** a heap with the static codes 1-4 (4 is a bool Typename), a Typename 5, a class body 6, parameters 7 and 8,
    untyped code 9 and 10, a struct body 11, a function body 12 with the entry 13 *)
Definition demo_heap : heap := {| h_node := fun c =>
    if c =? 1 then node_of CT_Invalid [] else if c <? 6 then node_of CT_Typename [116] else if c =? 6 then node_of CT_Class_Body []
    else if c <? 9 then set_num 1 (set_ret 5 (node_of CT_Parameters [112])) else if c <? 11 then node_of CT_Untyped [120]
    else if c =? 11 then node_of CT_Struct_Body []
    else if c =? 12 then set_num 1 (set_front 13 (set_next 13 (node_of CT_Export_Body []))) else set_parent 12 (node_of CT_Variable [118]);
  h_top := 14 |}.
Definition demo_env : env := {| e_invalid := 1; e_void := 2; e_int := 3; e_bool := 4 |}.
Example c32_hypotheses_met : world demo_env demo_heap /\
  is_a demo_heap 6 [CT_Class_Body] /\ chain_of demo_heap 5 [5] /\
  match def_class 9 demo_env demo_heap (Some [65]) {| os_body := 6; os_parent := 5; os_access := 1; os_attrs := 0; os_interfaces := [3; 4]; os_specs := 0; os_mflags := 0 |} with
  | Done (h', c) => c = 14 /\ n_type (h_node h' c) = CT_Class /\ n_body (h_node h' c) = 6 /\ n_next (h_node h' 5) = 3 | _ => False end /\
  match def_function demo_env demo_heap (Some [102]) {| of_params := 7; of_ret := 5; of_body := 0; of_specs := 0; of_attrs := 0; of_mflags := 0 |} with
  | Done (h', c) => n_type (h_node h' c) = CT_Function_Fwd /\ n_params (h_node h' c) = 7 | _ => False end /\
  def_function demo_env demo_heap (Some [102]) {| of_params := 5; of_ret := 5; of_body := 0; of_specs := 0; of_attrs := 0; of_mflags := 0 |} = Done (demo_heap, 1).
Proof.
  split; [unfold world, valid; cbn; lia|]. split; [split; [unfold valid; cbn; lia|now left]|].
  split; [split; [discriminate|]; split; [reflexivity|]; split; [intros c [<-|[]]; unfold valid; cbn; lia|]; split; [constructor; [intros []|constructor]|]; cbn; auto|].
  split; [vm_compute; auto|]. split; [vm_compute; auto|reflexivity].
Qed.

(** *** C33: operator validation *)
(** binary arithmetic, bitwise, logical and comparison operators, assignment, complement *)
Theorem c33_classified_partial : forall e h, world e h -> forall fuel op rule ns p, op_rule op rule -> op_refs h p -> params_ok h (oo_params p) ->
  exists sp, In (op, sp) operator_spelling /\
  accepts_iff e h (def_operator fuel e h op ns p) (operator_parts_ok h p /\ rule (arity h (oo_params p)) <> Impossible)
    (operator_node op (txt sp) ns (rule (arity h (oo_params p))) p).
Proof. exact p33_ruled. Qed.
Print Assumptions c33_classified_partial.
(** logical not, which must return bool; [q] is the outcome of comparing the return type with bool (C30) *)
Theorem c33_logical_not : forall e h, world e h -> forall fuel ns p q, op_refs h p -> params_ok h (oo_params p) -> code_is_equal fuel h (oo_ret p) (e_bool e) = Done q ->
  accepts_iff e h (def_operator fuel e h Op_UnaryNot ns p)
    (operator_parts_ok h p /\ q = true /\ unary_rule (arity h (oo_params p)) <> Impossible)
    (operator_node Op_UnaryNot (txt "!") ns (unary_rule (arity h (oo_params p))) p).
Proof. exact p33_not. Qed.
Print Assumptions c33_logical_not.
(** compound assignment; [q] compares the first parameter's type with the return type *)
Theorem c33_compound_assignment : forall e h, world e h -> forall fuel op ns p q, In op compound_ops -> op_refs h p -> params_ok h (oo_params p) ->
  code_is_equal fuel h (n_ret (h_node h (oo_params p))) (oo_ret p) = Done q ->
  exists sp, In (op, sp) operator_spelling /\
  accepts_iff e h (def_operator fuel e h op ns p)
    (operator_parts_ok h p /\ (arity h (oo_params p) = 1 \/ arity h (oo_params p) = 2 /\ q = true))
    (operator_node op (txt sp) ns (binary_rule (arity h (oo_params p))) p).
Proof. exact p33_compound. Qed.
Print Assumptions c33_compound_assignment.
Theorem c33_invalid_operator : forall e h fuel ns p, op_refs h p -> rejects e h (def_operator fuel e h Op_Invalid ns p).
Proof. exact p33_invalid. Qed.
Print Assumptions c33_invalid_operator.
(** prefix increment/decrement as a member (no parameters) is classified as global *)
Theorem c33_increment_member_refuted : forall e h, world e h -> forall fuel op ns p, In op [Op_Increment; Op_Decrement] -> op_refs h p -> operator_parts_ok h p -> oo_params p = 0 ->
  exists sp, creates h (def_operator fuel e h op ns p) (operator_node op (txt sp) ns Global p).
Proof. exact p33_incdec_none. Qed.
Print Assumptions c33_increment_member_refuted.
(** global postfix increment/decrement (two parameters) is undefined behaviour *)
Theorem c33_increment_postfix_refuted : forall e h, world e h -> forall fuel op ns p l, In op [Op_Increment; Op_Decrement] -> op_refs h p -> operator_parts_ok h p ->
  plist h (oo_params p) l -> length l = 2%nat -> code_is_equal fuel h (n_ret (h_node h (oo_params p))) (oo_ret p) = Done true -> (0 < fuel)%nat ->
  def_operator fuel e h op ns p = Undefined.
Proof. exact p33_incdec_two. Qed.
Print Assumptions c33_increment_postfix_refuted.
(** global unary plus/minus "T operator-(T)" is rejected *)
Theorem c33_unary_plus_minus_refuted : forall e h, world e h -> forall fuel op ns p, In op [Op_Unary_Plus; Op_Unary_Minus] -> op_refs h p -> operator_parts_ok h p ->
  arity h (oo_params p) = 1 -> code_is_equal fuel h (n_ret (h_node h (oo_params p))) (oo_ret p) = Done true ->
  rejects e h (def_operator fuel e h op ns p).
Proof. exact p33_unary_pm. Qed.
Print Assumptions c33_unary_plus_minus_refuted.
(** a global dereference or address-of (one parameter) is classified as member *)
Theorem c33_dereference_global_refuted : forall e h, world e h -> forall fuel op ns p, In op [Op_Indirection; Op_AddressOf] -> op_refs h p -> operator_parts_ok h p ->
  arity h (oo_params p) = 1 -> exists sp, creates h (def_operator fuel e h op ns p) (operator_node op (txt sp) ns Member p).
Proof. exact p33_deref_one. Qed.
Print Assumptions c33_dereference_global_refuted.
(** subscript and call operators, which C++ only allows as members, are classified as global *)
Theorem c33_subscript_call_refuted : forall e h, world e h -> forall fuel op ns p, In op [Op_Subscript; Op_FunctionCall] -> op_refs h p -> operator_parts_ok h p ->
  oo_params p <> 0 -> exists sp, creates h (def_operator fuel e h op ns p) (operator_node op (txt sp) ns Global p).
Proof. exact p33_must_member. Qed.
Print Assumptions c33_subscript_call_refuted.
(** a missing return type is dereferenced *)
Theorem c33_null_return_type_refuted : forall e h fuel op ns p, op <> Op_Invalid ->
  none_or h (oo_attrs p) [CT_PlatformAttributes] -> none_or h (oo_specs p) [CT_Specifiers] -> oo_ret p = 0 -> def_operator fuel e h op ns p = Undefined.
Proof. exact p33_null_ret. Qed.
Print Assumptions c33_null_return_type_refuted.

Definition demo_op (params : Z) : opts_operator := {| oo_params := params; oo_ret := 5; oo_body := 0; oo_specs := 0; oo_attrs := 0; oo_mflags := 0 |}.
Example c33_hypotheses_met : op_rule Op_Add binary_rule /\ op_refs demo_heap (demo_op 7) /\ params_ok demo_heap 7 /\ operator_parts_ok demo_heap (demo_op 7) /\
  code_is_equal 5 demo_heap (n_ret (h_node demo_heap 7)) 5 = Done true /\
  match def_operator 9 demo_env demo_heap Op_Add [] (demo_op 7) with
  | Done (h', c) => n_type (h_node h' c) = CT_Operator_Member_Fwd /\ n_name (h_node h' c) = txt "operator +" | _ => False end.
Proof.
  split; [constructor; now left|]. split; [unfold op_refs, ref, valid; cbn; lia|]. split; [unfold params_ok; cbn; lia|].
  split; [unfold operator_parts_ok, none_or, is_a, valid; cbn; intuition lia|]. split; [reflexivity|]. vm_compute. auto.
Qed.

(** *** C34: body constructors *)
(** [css] lists what each given code contributes: itself, or - for a body - its entries *)
Theorem c34_entries_partial : forall e h, world e h -> forall f t fuel codes css rest, In (f, t) body_ctors -> codes <> [] -> Forall2 (good_entry fuel h t) codes css ->
  makes_body h (f fuel e h (Z.of_nat (length codes)) (codes ++ rest)) t (concat css).
Proof. exact p34_entries. Qed.
Print Assumptions c34_entries_partial.
Theorem c34_rejects : forall e h, world e h -> forall f t fuel codes css c rest num, In (f, t) body_ctors -> Forall2 (good_entry fuel h t) codes css ->
  (c = 0 \/ (valid h c /\ ~ body_takes t (n_type (h_node h c)))) -> Z.of_nat (length codes) < num ->
  exists h', f fuel e h num (codes ++ c :: rest) = Done (h', e_invalid e) /\ h_top h <= h_top h' /\ (forall x, valid h x -> same_content (h_node h x) (h_node h' x)).
Proof. exact p34_rejects. Qed.
Print Assumptions c34_rejects.
Theorem c34_no_entries : forall e h f t fuel num codes, In (f, t) body_ctors -> num <= 0 -> f fuel e h num codes = Done (h, e_invalid e).
Proof. exact p34_none. Qed.
Print Assumptions c34_no_entries.
(** two array forms make a body of another kind *)
Theorem c34_class_body_arr_refuted : forall e h, world e h -> forall fuel codes css rest, codes <> [] -> Forall2 (good_entry fuel h CT_Class_Body) codes css ->
  makes_body h (def_class_body_arr fuel e h (Z.of_nat (length codes)) (codes ++ rest)) CT_Function_Body (concat css).
Proof. exact p34_class_arr. Qed.
Print Assumptions c34_class_body_arr_refuted.
Theorem c34_namespace_body_arr_refuted : forall e h, world e h -> forall fuel codes css rest, codes <> [] -> Forall2 (good_entry fuel h CT_Namespace_Body) codes css ->
  makes_body h (def_namespace_body_arr fuel e h (Z.of_nat (length codes)) (codes ++ rest)) CT_Global_Body (concat css).
Proof. exact p34_namespace_arr. Qed.
Print Assumptions c34_namespace_body_arr_refuted.
(** parameter lists: a copy of the first parameter followed by the others *)
Theorem c34_params_partial : forall e h, world e h -> forall p ps rest,
  (forall c, In c (p :: ps) -> valid h c /\ n_type (h_node h c) = CT_Parameters /\ n_next (h_node h c) = 0) ->
  n_num (h_node h p) = 1 -> n_front (h_node h p) = 0 -> (forall c, In c ps -> n_parent (h_node h c) = 0) -> NoDup ps ->
  exists h' c, def_params e h (Z.of_nat (length (p :: ps))) ((p :: ps) ++ rest) = Done (h', c) /\ ~ valid h c /\ valid h' c /\
    plist h' c (c :: ps) /\ (forall fuel, (length ps + 1 < fuel)%nat -> params_iter fuel h' c = Done (c :: ps)) /\
    same_but_count (h_node h p) (h_node h' c) /\ n_num (h_node h' c) = Z.of_nat (length (p :: ps)) /\
    (forall x, valid h x -> same_content (h_node h x) (h_node h' x)).
Proof. exact p34_params. Qed.
Print Assumptions c34_params_partial.
Theorem c34_params_rejects : forall e h num codes,
  (num <= 0 -> def_params e h num codes = Done (h, e_invalid e) /\ def_params_arr e h num codes = Done (h, e_invalid e)) /\
  (forall c rest, 0 < num -> codes = c :: rest -> (c = 0 \/ (valid h c /\ n_type (h_node h c) <> CT_Parameters)) -> def_params e h num codes = Done (h, e_invalid e)).
Proof. intros e h num codes. split; [apply p34_params_none|]. intros c rest L -> C. now apply p34_params_first. Qed.
Print Assumptions c34_params_rejects.
(** a later null parameter is dereferenced *)
Theorem c34_params_null_refuted : forall e h p rest num, valid h p -> n_type (h_node h p) = CT_Parameters -> 1 < num -> def_params e h num (p :: 0 :: rest) = Undefined.
Proof. exact p34_params_null. Qed.
Print Assumptions c34_params_null_refuted.
(** the array form reads past the array, does not count its head (NumEntries stays 0) and loses its default value *)
Theorem c34_params_arr_refuted : forall e h, world e h -> forall p, valid h p -> n_type (h_node h p) = CT_Parameters ->
  def_params_arr e h 1 [p] = Undefined /\
  forall x, exists h' c, def_params_arr e h 1 [p; x] = Done (h', c) /\ ~ valid h c /\ valid h' c /\
    h_node h' c = set_ret (n_ret (h_node h p)) (node_of CT_Parameters (n_name (h_node h p))).
Proof. intros e h W p V T. split; [now apply p34_params_arr_past|]. intros x. now apply p34_params_arr_one. Qed.
Print Assumptions c34_params_arr_refuted.

(** untyped entries and the nested export body 12, whose entry is copied *)
Example c34_hypotheses_met : Forall2 (good_entry 20 demo_heap CT_Struct_Body) [9; 12; 10] [[9]; [13]; [10]] /\
  match def_struct_body 20 demo_env demo_heap 3 [9; 12; 10] with
  | Done (h', b) => n_type (h_node h' b) = CT_Struct_Body /\ range_for 9 h' b = Done [9; 15; 10] /\ n_name (h_node h' 15) = [118] | _ => False end /\
  (match def_struct_body 20 demo_env demo_heap 3 [9; 5; 10] with Done (h', b) => b = 1 | _ => False end) /\
  match def_params demo_env demo_heap 2 [7; 8] with Done (h', c) => params_iter 9 h' c = Done [14; 8] | _ => False end.
Proof.
  split; [|split; [vm_compute; auto|split; [vm_compute; auto|vm_compute; auto]]].
  constructor; [|constructor; [|constructor; [|constructor]]].
  - split; [unfold adds; cbn; split; [unfold valid; cbn; lia|reflexivity]|split; [cbn; intuition discriminate|cbn; lia]].
  - split; [|split; [cbn; intuition discriminate|cbn; lia]].
    unfold adds; cbn. split; [|split; [discriminate|split; [intuition discriminate|intros x [<-|[]]; reflexivity]]].
    unfold entries, valid; cbn. split; [lia|split; [reflexivity|split; [intros c [<-|[]]; cbn; lia|split; [constructor; [intros []|constructor]|split; [intuition discriminate|split; [reflexivity|split; [reflexivity|auto]]]]]]].
  - split; [unfold adds; cbn; split; [unfold valid; cbn; lia|reflexivity]|split; [cbn; intuition discriminate|cbn; lia]].
Qed.
