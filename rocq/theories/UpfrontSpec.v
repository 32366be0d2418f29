(** What the def_* constructors promise: which arguments they accept and which node they hand out. *)
From Coq Require Import String ZArith List Bool.
From Verif Require Import Common Text AstModel AstSpec EqSpec EnumModel EnumSpec UpfrontModel.
Close Scope string_scope.
Import ListNotations.
Open Scope Z_scope.

(** a non-empty, non-null text *)
Definition named (s : str_arg) (t : list Z) : Prop := s = Some t /\ t <> [].
Definition has_name (s : str_arg) : Prop := exists t, named s t.
(** a usable code argument: null or a node *)
Definition ref (h : heap) (c : Z) : Prop := c = 0 \/ valid h c.
Definition is_a (h : heap) (c : Z) (kinds : list codetype) : Prop := valid h c /\ In (n_type (h_node h c)) kinds.
Definition none_or (h : heap) (c : Z) (kinds : list codetype) : Prop := c = 0 \/ is_a h c kinds.

(** the static codes exist *)
Definition world (e : env) (h : heap) : Prop := valid h (e_invalid e) /\ valid h (e_void e) /\ valid h (e_int e) /\ valid h (e_bool e).

(** no existing node is touched, except those in [but] *)
Definition kept_but (but : list Z) (h h' : heap) : Prop :=
  h_top h <= h_top h' /\ forall c, valid h c -> ~ In c but -> h_node h' c = h_node h c.
Definition kept := kept_but [].

(** the call returns a fresh node with the contents [n] and touches nothing else *)
Definition creates (h : heap) (r : result) (n : node) : Prop :=
  exists h' c, r = Done (h', c) /\ ~ valid h c /\ valid h' c /\ h_node h' c = n /\ kept h h'.
(** the call returns InvalidCode and touches nothing *)
Definition rejects (e : env) (h : heap) (r : result) : Prop := exists h', r = Done (h', e_invalid e) /\ kept h h'.
(** the call accepts exactly the arguments satisfying [P], and then hands out [n] *)
Definition accepts_iff (e : env) (h : heap) (r : result) (P : Prop) (n : node) : Prop :=
  (P /\ creates h r n) \/ (~ P /\ rejects e h r).

(** a new node of kind [t] with the given name *)
Definition node_of (t : codetype) (name : list Z) : node := set_type t (set_name name zero_node).
(** definition when there is a body, forward declaration otherwise *)
Definition with_body (body : Z) (def fwd : codetype) (n : node) : node :=
  if body =? 0 then set_type fwd n else set_body body (set_type def n).

(** like [creates], and the body (if any) becomes a child of the new node *)
Definition adopts (h : heap) (r : result) (body : Z) (n : node) : Prop :=
  exists h' c, r = Done (h', c) /\ ~ valid h c /\ valid h' c /\ h_node h' c = n /\ kept_but [body] h h' /\
    (body <> 0 -> h_node h' body = set_parent c (h_node h body)).
Definition adopts_iff (e : env) (h : heap) (r : result) (body : Z) (P : Prop) (n : node) : Prop :=
  (P /\ adopts h r body n) \/ (~ P /\ rejects e h r).
(** a new list of the specifiers [l] *)
Definition specs_list (l : list Z) : node := set_num (Z.of_nat (length l)) (set_arr (l ++ repeat 0 (14 - length l)) (node_of CT_Specifiers [])).

(** *** classes and structs *)
Definition struct_node (body parent : Z) (def fwd : codetype) (s : str_arg) (p : opts_struct) : node :=
  set_ret parent (set_num (os_access p) (set_specs (os_specs p) (set_attrs (os_attrs p) (set_flags (os_mflags p)
    (with_body body def fwd (set_name (str_text s) zero_node)))))).
Definition struct_accepts (h : heap) (kinds bodies : list codetype) (p : opts_struct) : Prop :=
  none_or h (os_attrs p) [CT_PlatformAttributes] /\ none_or h (os_parent p) kinds /\ none_or h (os_body p) bodies.

Definition class_kinds := [CT_Class; CT_Struct; CT_Typename; CT_Untyped].

(** *** operators *)
(** how C++ lets the operator be declared with [n] explicit parameters *)
Inductive fit := Impossible | Member | Global.
Definition binary_ops : list Z :=
  [Op_Add; Op_Subtract; Op_Multiply; Op_Divide; Op_Modulo; Op_BAnd; Op_BOr; Op_BXOr; Op_LShift; Op_RShift;
   Op_LAnd; Op_LOr; Op_LEqual; Op_LNot; Op_Lesser; Op_Greater; Op_LesserEqual; Op_GreaterEqual].
Definition compound_ops : list Z :=
  [Op_Assign_Add; Op_Assign_Subtract; Op_Assign_Multiply; Op_Assign_Divide; Op_Assign_Modulo; Op_Assign_BAnd; Op_Assign_BOr;
   Op_Assign_BXOr; Op_Assign_LShift; Op_Assign_RShift].
Definition binary_rule (n : Z) : fit := if n =? 1 then Member else if n =? 2 then Global else Impossible.
Definition unary_rule (n : Z) : fit := if n =? 0 then Member else if n =? 1 then Global else Impossible.
Definition assign_rule (n : Z) : fit := if n =? 1 then Member else Impossible.
(** number of parameters given *)
Definition arity (h : heap) (params : Z) : Z := if params =? 0 then 0 else n_num (h_node h params).
(** a parameter list as the constructors make them: at least one parameter *)
Definition params_ok (h : heap) (params : Z) : Prop := is_a h params [CT_Parameters] -> 1 <= n_num (h_node h params).
(** the operator node *)
Definition operator_node (op : Z) (spelling nspace : list Z) (f : fit) (p : opts_operator) : node :=
  set_attrs (oo_attrs p) (set_specs (oo_specs p) (set_ret (oo_ret p) (set_params (oo_params p) (set_num op (set_flags (oo_mflags p)
    (with_body (oo_body p) (match f with Member => CT_Operator_Member | _ => CT_Operator end)
                           (match f with Member => CT_Operator_Member_Fwd | _ => CT_Operator_Fwd end)
      (set_name (nspace ++ txt "operator " ++ spelling) zero_node))))))).
Definition operator_parts_ok (h : heap) (p : opts_operator) : Prop :=
  none_or h (oo_attrs p) [CT_PlatformAttributes] /\ none_or h (oo_specs p) [CT_Specifiers] /\ is_a h (oo_ret p) [CT_Typename] /\
  none_or h (oo_params p) [CT_Parameters] /\ none_or h (oo_body p) [CT_Function_Body; CT_Execution; CT_Untyped].
(** the code arguments are null or nodes, the return type is a node *)
Definition op_refs (h : heap) (p : opts_operator) : Prop :=
  ref h (oo_attrs p) /\ ref h (oo_specs p) /\ ref h (oo_body p) /\ ref h (oo_params p) /\ valid h (oo_ret p).
Inductive op_rule : Z -> (Z -> fit) -> Prop :=
| rule_binary op : In op binary_ops -> op_rule op binary_rule
| rule_assign : op_rule Op_Assign assign_rule
| rule_complement : op_rule Op_BNot unary_rule.

(** *** bodies *)
(** what a code adds to a body: itself, or the entries of the body it is *)
Definition adds (h : heap) (c : Z) (cs : list Z) : Prop :=
  if is_body_type (n_type (h_node h c)) then
    entries h c cs /\ cs <> [] /\ ~ In (n_next (h_node h (last cs 0))) cs /\ (forall x, In x cs -> is_body_type (n_type (h_node h x)) = false)
  else valid h c /\ cs = [c].
(** the body holds the given entries *)
Definition holds (h h' : heap) (b : Z) (cs ds : list Z) : Prop :=
  entries h' b ds /\ count_for h' b = Done ds /\ Forall2 (fun c d => same_content (h_node h c) (h_node h' d)) cs ds /\
  (forall d, In d ds -> In d cs \/ ~ valid h d) /\
  (NoDup cs -> (forall c, In c cs -> n_parent (h_node h c) = 0) -> ds = cs) /\
  (NoDup cs -> n_next (h_node h (last cs 0)) = 0 -> forall fuel, (length cs < fuel)%nat -> range_for fuel h' b = Done ds).


(** the body constructors with the kind their name promises *)
Definition body_ctor := nat -> env -> heap -> Z -> list Z -> result.
Definition body_ctors : list (body_ctor * codetype) :=
  [(def_class_body, CT_Class_Body); (def_enum_body, CT_Enum_Body); (def_enum_body_arr, CT_Enum_Body);
   (def_export_body, CT_Export_Body); (def_export_body_arr, CT_Export_Body);
   (def_extern_link_body, CT_Extern_Linkage_Body); (def_extern_link_body_arr, CT_Extern_Linkage_Body);
   (def_function_body, CT_Function_Body); (def_function_body_arr, CT_Function_Body);
   (def_global_body, CT_Global_Body); (def_global_body_arr, CT_Global_Body);
   (def_namespace_body, CT_Namespace_Body); (def_struct_body, CT_Struct_Body); (def_struct_body_arr, CT_Struct_Body);
   (def_union_body, CT_Union_Body); (def_union_body_arr, CT_Union_Body)].
(** the entry kinds each one takes *)
Definition body_takes (body entry : codetype) : Prop :=
  match body with
  | CT_Enum_Body | CT_Union_Body => entry = CT_Untyped \/ entry = CT_Comment
  | CT_Extern_Linkage_Body => ~ In entry (body_forbids CT_Global_Body)
  | _ => ~ In entry (body_forbids body)
  end.
(** a usable entry: a code of a kind the body takes. The bound only concerns the model's recursion fuel. *)
Definition good_entry (fuel : nat) (h : heap) (body : codetype) (c : Z) (cs : list Z) : Prop :=
  adds h c cs /\ body_takes body (n_type (h_node h c)) /\ (length cs + 3 < fuel)%nat.
(** a body of kind [t] holding [cs] has been made and nothing else has changed, except that unused entries now
    belong to it *)
Definition makes_body (h : heap) (r : result) (t : codetype) (cs : list Z) : Prop :=
  exists h' b ds, r = Done (h', b) /\ ~ valid h b /\ valid h' b /\ holds h h' b cs ds /\
    same_but_count (node_of t []) (h_node h' b) /\ n_parent (h_node h' b) = 0 /\
    h_top h <= h_top h' /\ (forall x, valid h x -> same_content (h_node h x) (h_node h' x)) /\
    (forall x, valid h x -> (In x cs -> n_parent (h_node h x) <> 0) -> h_node h' x = h_node h x).
