(** The upfront constructors def_* (base/components/interface.upfront.cpp, inlines.hpp:710-736).
    Conventions: a [Code] argument is the address of a node or 0 (null); a [Str] argument is [None] for a null
    Ptr, otherwise its bytes. cache_str keeps the text (C15, C42), so a cached name is the text itself.
    log_failure only logs; GEN_DEBUG_TRAP is empty in release builds. The static codes are the fields of
    [env]; in particular InvalidCode is the (non-null) node Code_Invalid (interface.cpp:84-86). *)
From Coq Require Import String ZArith List Bool.
From Verif Require Import Common Text AstModel EqModel EnumModel.
Import ListNotations.
Open Scope Z_scope.

Record env := { e_invalid : Z; e_void : Z; e_int : Z; e_bool : Z }.
Definition str_arg := option (list Z).
Definition result := run (heap * Z).

(** [return InvalidCode] *)
Definition invalid (e : env) (h : heap) : result := Done (h, e_invalid e).
(** if ( ! ok ) return InvalidCode; k *)
Definition require (e : env) (h : heap) (ok : run bool) (k : result) : result := do b <- ok; if b then k else invalid e h.
(** code->Type is one of [ts] *)
Definition kind_in (t : codetype) (ts : list codetype) : bool := existsb (ct_eqb t) ts.
Definition is_kind (h : heap) (c : Z) (ts : list codetype) : run bool := do n <- get h c; Done (kind_in (n_type n) ts).
(** ! ( code && code->Type != T ) *)
Definition opt_kind (h : heap) (c : Z) (ts : list codetype) : run bool := if c =? 0 then Done true else is_kind h c ts.
(** interface.upfront.cpp:374-386 name__check; also the content checks  Len <= 0 || Ptr == nullptr *)
Definition name_check (s : str_arg) : bool := match s with Some (_ :: _) => true | _ => false end.
Definition str_text (s : str_arg) : list Z := match s with Some t => t | None => [] end.
(** interface.upfront.cpp:389-396 null__check *)
Definition null_check (c : Z) : bool := negb (c =? 0).
(** make_code() followed by stores into the new node *)
Definition make (h : heap) (f : node -> node) : heap * Z := let '(h, r) := new_code h in (upd h r f, r).

(** interface.untyped.cpp:91-115 [untyped_str] *)
Definition untyped_str (e : env) (h : heap) (content : list Z) : result :=
  match content with
  | [] => invalid e h
  | _ => Done (make h (fun n => set_content content (set_type CT_Untyped (set_name content n))))
  end.

(** interface.upfront.cpp:415-429 *)
Definition def_attributes (e : env) (h : heap) (content : str_arg) : result :=
  require e h (Done (name_check content)) (Done (make h (fun n =>
    set_content (str_text content) (set_name (str_text content) (set_type CT_PlatformAttributes n))))).

(** interface.upfront.cpp:476-511 *)
Definition def_constructor (e : env) (h : heap) (params init body : Z) : result :=
  require e h (opt_kind h params [CT_Parameters]) (
  let '(h, r) := make h (fun n => set_ret init (set_params params n)) in
  if negb (body =? 0) then
    require e h (is_kind h body [CT_Function_Body; CT_Untyped])
      (Done (upd h r (fun n => set_body body (set_type CT_Constructor n)), r))
  else Done (upd h r (set_type CT_Constructor_Fwd), r)).

(** interface.hpp:148-157 Opts_def_struct *)
Record opts_struct := { os_body : Z; os_parent : Z; os_access : Z; os_attrs : Z; os_interfaces : list Z; os_specs : Z; os_mflags : Z }.
Fixpoint add_interfaces (fuel : nat) (h : heap) (r : Z) (tys : list Z) : run heap :=
  match tys with [] => Done h | t :: tys => do h <- add_interface fuel h r t; add_interfaces fuel h r tys end.

(** interface.upfront.cpp:513-564 *)
Definition def_class (fuel : nat) (e : env) (h : heap) (name : str_arg) (p : opts_struct) : result :=
  require e h (Done (name_check name)) (
  require e h (opt_kind h (os_attrs p) [CT_PlatformAttributes]) (
  require e h (opt_kind h (os_parent p) [CT_Class; CT_Struct; CT_Typename; CT_Untyped]) (
  let '(h, r) := make h (fun n => set_ret (os_parent p) (set_num (os_access p) (set_specs (os_specs p) (set_attrs (os_attrs p)
      (set_flags (os_mflags p) (set_name (str_text name) n)))))) in
  let finish h := do h <- add_interfaces fuel h r (os_interfaces p); Done (h, r) in
  if negb (os_body p =? 0) then
    require e h (is_kind h (os_body p) [CT_Class_Body; CT_Untyped]) (
      let h := upd h r (fun n => set_body (os_body p) (set_type CT_Class n)) in
      do h <- put h (os_body p) (set_parent r); finish h)
  else finish (upd h r (set_type CT_Class_Fwd))))).

(** interface.upfront.cpp:566-590; registering the macro is C45's concern, [dont_register] is dropped *)
Definition def_define (e : env) (h : heap) (name : str_arg) (params : Z) (content : str_arg) : result :=
  require e h (Done (name_check name)) (
  let '(h, r) := make h (fun n => set_params params (set_name (str_text name) (set_type CT_Preprocess_Define n))) in
  do (h, b) <- untyped_str e h (if name_check content then str_text content ++ [10] else [10]);
  Done (upd h r (set_body b), r)).

(** interface.upfront.cpp:592-627 *)
Definition def_destructor (e : env) (h : heap) (body specs : Z) : result :=
  require e h (opt_kind h specs [CT_Specifiers]) (
  let '(h, r) := make h (set_specs specs) in
  if negb (body =? 0) then
    require e h (is_kind h body [CT_Function_Body; CT_Untyped])
      (Done (upd h r (fun n => set_body body (set_type CT_Destructor n)), r))
  else Done (upd h r (set_type CT_Destructor_Fwd), r)).

(** interface.upfront.cpp:629-692; EnumDecl_Class is [true] *)
Record opts_enum := { oe_body : Z; oe_type : Z; oe_class : bool; oe_attrs : Z; oe_mflags : Z; oe_macro : Z }.
Definition def_enum (e : env) (h : heap) (name : str_arg) (p : opts_enum) : result :=
  require e h (Done (name_check name)) (
  require e h (opt_kind h (oe_type p) [CT_Typename]) (
  require e h (opt_kind h (oe_attrs p) [CT_PlatformAttributes]) (
  let '(h, r) := make h (fun n => set_flags (oe_mflags p) (set_name (str_text name) n)) in
  let finish h :=
    let h := upd h r (set_attrs (oe_attrs p)) in
    if negb (oe_type p =? 0) then Done (upd h r (set_ret (oe_type p)), r)
    else if negb (oe_macro p =? 0) then Done (upd h r (set_params (oe_macro p)), r)
    else
      do n <- get h r;
      if negb (ct_eqb (n_type n) CT_Enum_Class_Fwd) && negb (ct_eqb (n_type n) CT_Enum_Fwd) then invalid e h else Done (h, r) in
  if negb (oe_body p =? 0) then
    require e h (is_kind h (oe_body p) [CT_Enum_Body; CT_Untyped])
      (finish (upd h r (fun n => set_body (oe_body p) (set_type (if oe_class p then CT_Enum_Class else CT_Enum) n))))
  else finish (upd h r (set_type (if oe_class p then CT_Enum_Class_Fwd else CT_Enum_Fwd)))))).

(** interface.upfront.cpp:694-706 *)
Definition def_execution (e : env) (h : heap) (content : str_arg) : result :=
  require e h (Done (name_check content)) (Done (make h (fun n => set_content (str_text content) (set_type CT_Execution n)))).

(** interface.upfront.cpp:708-725 *)
Definition def_extern_link (e : env) (h : heap) (name : str_arg) (body : Z) : result :=
  require e h (Done (name_check name && null_check body)) (
  require e h (is_kind h body [CT_Extern_Linkage_Body; CT_Untyped]) (
  Done (make h (fun n => set_body body (set_name (str_text name) (set_type CT_Extern_Linkage n)))))).

(** interface.upfront.cpp:727-755 *)
Definition def_friend (e : env) (h : heap) (decl : Z) : result :=
  require e h (Done (null_check decl)) (
  require e h (is_kind h decl [CT_Class_Fwd; CT_Function_Fwd; CT_Operator_Fwd; CT_Struct_Fwd; CT_Class; CT_Function; CT_Operator; CT_Struct]) (
  Done (make h (fun n => set_body decl (set_type CT_Friend n))))).

(** interface.upfront.cpp:757-803 *)
Record opts_function := { of_params : Z; of_ret : Z; of_body : Z; of_specs : Z; of_attrs : Z; of_mflags : Z }.
Definition def_function (e : env) (h : heap) (name : str_arg) (p : opts_function) : result :=
  require e h (Done (name_check name)) (
  require e h (opt_kind h (of_params p) [CT_Parameters]) (
  require e h (opt_kind h (of_ret p) [CT_Typename]) (
  require e h (opt_kind h (of_specs p) [CT_Specifiers]) (
  require e h (opt_kind h (of_attrs p) [CT_PlatformAttributes]) (
  let '(h, r) := make h (fun n => set_flags (of_mflags p) (set_name (str_text name) n)) in
  let finish h := Done (upd h r (fun n => set_ret (if negb (of_ret p =? 0) then of_ret p else e_void e)
      (set_params (of_params p) (set_specs (of_specs p) (set_attrs (of_attrs p) n)))), r) in
  if negb (of_body p =? 0) then
    require e h (is_kind h (of_body p) [CT_Function_Body; CT_Execution; CT_Untyped])
      (finish (upd h r (fun n => set_body (of_body p) (set_type CT_Function n))))
  else finish (upd h r (set_type CT_Function_Fwd))))))).

(** interface.upfront.cpp:805-822; the formatted text is "<path>" or a quoted path (C37), for a path without
    NUL that fits the print buffer *)
Definition def_include (e : env) (h : heap) (path : str_arg) (foreign : bool) : result :=
  require e h (Done (name_check path)) (
  let content := if foreign then [60] ++ str_text path ++ [62] else [34] ++ str_text path ++ [34] in
  Done (make h (fun n => set_content content (set_name content (set_type CT_Preprocess_Include n))))).

(** interface.upfront.cpp:824-836 *)
Definition def_module (e : env) (h : heap) (name : str_arg) (mflags : Z) : result :=
  require e h (Done (name_check name)) (
  Done (make h (fun n => set_flags mflags (set_name (str_text name) (set_type CT_Module n))))).

(** interface.upfront.cpp:838-860 *)
Definition def_namespace (e : env) (h : heap) (name : str_arg) (body mflags : Z) : result :=
  require e h (Done (name_check name)) (
  require e h (Done (null_check body)) (
  require e h (opt_kind h body [CT_Namespace_Body; CT_Untyped]) (
  Done (make h (fun n => set_body body (set_flags mflags (set_name (str_text name) (set_type CT_Namespace n)))))))).

(** interface.upfront.cpp:9-372 [operator__validate] *)
Inductive op_validate := OpFail | OpGlobal | OpMember.
Definition one_of (op : Z) (ops : list Z) : bool := existsb (Z.eqb op) ops.
Definition operator_validate (fuel : nat) (e : env) (h : heap) (op params ret : Z) : run op_validate :=
  if op =? Op_Invalid then Done OpFail else
  (* a null ret_type is only logged, then dereferenced *)
  do rn <- get h ret;
  if negb (ct_eqb (n_type rn) CT_Typename) then Done OpFail else
  let verdict (member : bool) : run op_validate := Done (if member then OpMember else OpGlobal) in
  let check_params (k : node -> run op_validate) : run op_validate :=
    if params =? 0 then Done OpFail else
    do p <- get h params; if negb (ct_eqb (n_type p) CT_Parameters) then Done OpFail else k p in
  let check_param_eq_ret (p : node) (k : run op_validate) : run op_validate :=
    do q <- code_is_equal fuel h (n_ret p) ret; if q then k else Done OpFail in
  if one_of op [Op_Assign] then
    check_params (fun p => if n_num p >? 1 then Done OpFail else verdict true)
  else if one_of op [Op_Assign_Add; Op_Assign_Subtract; Op_Assign_Multiply; Op_Assign_Divide; Op_Assign_Modulo; Op_Assign_BAnd;
                     Op_Assign_BOr; Op_Assign_BXOr; Op_Assign_LShift; Op_Assign_RShift] then
    check_params (fun p =>
      if n_num p =? 1 then verdict true
      else check_param_eq_ret p (if n_num p >? 2 then Done OpFail else verdict false))
  else if one_of op [Op_Increment; Op_Decrement] then
    if params =? 0 then verdict false else
    do p <- get h params; if negb (ct_eqb (n_type p) CT_Parameters) then Done OpFail else
    if n_num p =? 1 then
      do q <- code_is_equal fuel h (n_ret p) (e_int e);
      if q then verdict true else check_param_eq_ret p (verdict false)
    else if n_num p =? 2 then
      check_param_eq_ret p (
        do second <- params_get fuel h params 1;
        do q <- code_is_equal fuel h second (e_int e);
        if q then verdict false else Done OpFail)
    else Done OpFail
  else if one_of op [Op_Unary_Plus; Op_Unary_Minus] then
    if params =? 0 then verdict true else
    do p <- get h params; if negb (ct_eqb (n_type p) CT_Parameters) then Done OpFail else
    do q <- code_is_equal fuel h (n_ret p) ret;
    if q then Done OpFail else if n_num p >? 1 then Done OpFail else verdict false
  else if one_of op [Op_BNot] then
    if params =? 0 then verdict true else
    do p <- get h params; if negb (ct_eqb (n_type p) CT_Parameters) then Done OpFail else
    if n_num p >? 1 then Done OpFail else verdict false
  else if one_of op [Op_Add; Op_Subtract; Op_Multiply; Op_Divide; Op_Modulo; Op_BAnd; Op_BOr; Op_BXOr; Op_LShift; Op_RShift] then
    check_params (fun p => if n_num p =? 1 then verdict true else if n_num p =? 2 then verdict false else Done OpFail)
  else if one_of op [Op_UnaryNot] then
    let ret_bool member := do q <- code_is_equal fuel h ret (e_bool e); if q then verdict member else Done OpFail in
    if params =? 0 then ret_bool true else
    do p <- get h params; if negb (ct_eqb (n_type p) CT_Parameters) then Done OpFail else
    if negb (n_num p =? 1) then Done OpFail else ret_bool false
  else if one_of op [Op_LAnd; Op_LOr; Op_LEqual; Op_LNot; Op_Lesser; Op_Greater; Op_LesserEqual; Op_GreaterEqual] then
    check_params (fun p => if n_num p =? 1 then verdict true else if n_num p =? 2 then verdict false else Done OpFail)
  else if one_of op [Op_Indirection; Op_AddressOf; Op_MemberOfPointer] then
    if params =? 0 then verdict true else
    do p <- get h params; if n_num p >? 1 then Done OpFail else verdict true
  else if one_of op [Op_PtrToMemOfPtr] then
    if negb (params =? 0) then Done OpFail else verdict false
  else if one_of op [Op_Subscript; Op_FunctionCall; Op_Comma] then check_params (fun _ => verdict false)
  else verdict false.

(** interface.upfront.cpp:862-925; the name is formatted with "%.*soperator %.*s" (C37) *)
Record opts_operator := { oo_params : Z; oo_ret : Z; oo_body : Z; oo_specs : Z; oo_attrs : Z; oo_mflags : Z }.
Definition def_operator (fuel : nat) (e : env) (h : heap) (op : Z) (nspace : list Z) (p : opts_operator) : result :=
  require e h (opt_kind h (oo_attrs p) [CT_PlatformAttributes]) (
  require e h (opt_kind h (oo_specs p) [CT_Specifiers]) (
  do check <- operator_validate fuel e h op (oo_params p) (oo_ret p);
  match check with
  | OpFail => invalid e h
  | _ =>
    do op_str <- operator_to_str op;
    let name := nspace ++ txt "operator " ++ op_str in
    let is_global := match check with OpGlobal => true | _ => false end in
    let '(h, r) := make h (fun n => set_num op (set_flags (oo_mflags p) (set_name name n))) in
    let finish h := Done (upd h r (fun n => set_params (oo_params p) (set_ret (oo_ret p) (set_specs (oo_specs p) (set_attrs (oo_attrs p) n)))), r) in
    if negb (oo_body p =? 0) then
      require e h (is_kind h (oo_body p) [CT_Function_Body; CT_Execution; CT_Untyped])
        (finish (upd h r (fun n => set_body (oo_body p) (set_type (if is_global then CT_Operator else CT_Operator_Member) n))))
    else finish (upd h r (set_type (if is_global then CT_Operator_Fwd else CT_Operator_Member_Fwd)))
  end)).

(** interface.upfront.cpp:927-959 *)
Definition def_operator_cast (e : env) (h : heap) (type body specs : Z) : result :=
  require e h (Done (null_check type)) (
  require e h (is_kind h type [CT_Typename]) (
  let '(h, r) := make h (fun n => n) in
  let finish h := Done (upd h r (fun n => set_ret type (set_specs specs n)), r) in
  if negb (body =? 0) then
    let h := upd h r (set_type CT_Operator_Cast) in
    require e h (is_kind h body [CT_Function_Body; CT_Execution]) (finish (upd h r (set_body body)))
  else finish (upd h r (set_type CT_Operator_Cast_Fwd)))).

(** interface.upfront.cpp:961-983 *)
Definition def_param (e : env) (h : heap) (type : Z) (name : str_arg) (value : Z) : result :=
  require e h (Done (name_check name && null_check type)) (
  require e h (is_kind h type [CT_Typename]) (
  require e h (opt_kind h value [CT_Untyped]) (
  Done (make h (fun n => let n := set_body value (set_ret type (set_name (str_text name) (set_type CT_Parameters n))) in
                         set_num (n_num n + 1) n))))).

(** interface.upfront.cpp:985-997 *)
Definition def_pragma (e : env) (h : heap) (directive : str_arg) : result :=
  require e h (Done (name_check directive)) (
  Done (make h (fun n => set_content (str_text directive) (set_type CT_Preprocess_Pragma n)))).

(** interface.upfront.cpp:999-1026 *)
Inductive pp_cond := PC_If | PC_IfDef | PC_IfNotDef | PC_ElIf.
Definition def_preprocess_cond (e : env) (h : heap) (type : pp_cond) (expr : str_arg) : result :=
  require e h (Done (name_check expr)) (
  Done (make h (fun n => set_type (match type with PC_If => CT_Preprocess_If | PC_IfDef => CT_Preprocess_IfDef
     | PC_IfNotDef => CT_Preprocess_IfNotDef | PC_ElIf => CT_Preprocess_ElIf end) (set_content (str_text expr) n)))).

(** specifiers_append on a node of the heap *)
Definition append_spec (h : heap) (r spec : Z) : run heap :=
  do n <- get h r; do (n', _) <- specifiers_append n spec; Done (upd h r (fun _ => n')).
(** interface.upfront.cpp:1028-1035 *)
Definition def_specifier (h : heap) (spec : Z) : result :=
  let '(h, r) := make h (set_type CT_Specifiers) in do h <- append_spec h r spec; Done (h, r).
(** interface.upfront.cpp:1916-1968 [def_specifiers], [def_specifiers_arr] (the latter walks the array [specs]);
    the s32 [num] is the number of specifiers given *)
Fixpoint append_specs (h : heap) (r : Z) (specs : list Z) : run heap :=
  match specs with [] => Done h | s :: specs => do h <- append_spec h r s; append_specs h r specs end.
Definition def_specifiers (e : env) (h : heap) (specs : list Z) : result :=
  let num := Z.of_nat (List.length specs) in
  require e h (Done (negb (num <=? 0))) (
  require e h (Done (negb (num >? SPECS_CAP))) (
  let '(h, r) := make h (set_type CT_Specifiers) in do h <- append_specs h r specs; Done (h, r))).

(** interface.upfront.cpp:1037-1077 *)
Definition def_struct (fuel : nat) (e : env) (h : heap) (name : str_arg) (p : opts_struct) : result :=
  require e h (opt_kind h (os_attrs p) [CT_PlatformAttributes]) (
  require e h (opt_kind h (os_parent p) [CT_Typename]) (
  require e h (opt_kind h (os_body p) [CT_Struct_Body]) (
  let '(h, r) := make h (fun n => let n := set_flags (os_mflags p) n in
      if negb (Z.of_nat (List.length (str_text name)) =? 0) then set_name (str_text name) n else n) in
  let h := if negb (os_body p =? 0) then upd h r (fun n => set_body (os_body p) (set_type CT_Struct n))
           else upd h r (set_type CT_Struct_Fwd) in
  let h := upd h r (fun n => set_ret (os_parent p) (set_num (os_access p) (set_specs (os_specs p) (set_attrs (os_attrs p) n)))) in
  do h <- add_interfaces fuel h r (os_interfaces p); Done (h, r)))).

(** interface.upfront.cpp:1079-1111: a wrong declaration kind is only logged *)
Definition def_template (e : env) (h : heap) (params decl mflags : Z) : result :=
  require e h (Done (null_check decl)) (
  require e h (opt_kind h params [CT_Parameters]) (
  do _ <- get h decl;
  Done (make h (fun n => set_body decl (set_params params (set_flags mflags (set_type CT_Template n))))))).

(** interface.upfront.cpp:1113-1144; TypeTag is the upper half of the number whose lower half is IsParamPack (ast.hpp:432-435) *)
Definition def_type (e : env) (h : heap) (name : str_arg) (arr attrs specs tag : Z) : result :=
  require e h (Done (name_check name)) (
  require e h (opt_kind h attrs [CT_PlatformAttributes]) (
  require e h (opt_kind h specs [CT_Specifiers]) (
  require e h (opt_kind h arr [CT_Untyped]) (
  Done (make h (fun n => set_num (2 ^ 16 * tag) (set_body arr (set_specs specs (set_attrs attrs (set_type CT_Typename (set_name (str_text name) n))))))))))).

(** interface.upfront.cpp:1146-1210; the registered type is tested against null, and InvalidCode is not null *)
Definition def_typedef (e : env) (h : heap) (name : str_arg) (type attrs mflags : Z) : result :=
  require e h (Done (null_check type)) (
  require e h (is_kind h type [CT_Class; CT_Class_Fwd; CT_Enum; CT_Enum_Fwd; CT_Enum_Class; CT_Enum_Class_Fwd; CT_Function_Fwd;
                               CT_Struct; CT_Struct_Fwd; CT_Union; CT_Typename]) (
  require e h (opt_kind h attrs [CT_PlatformAttributes]) (
  do (h, registered) <- def_type e h name 0 0 0 0;
  require e h (Done (negb (registered =? 0))) (
  let '(h, r) := make h (fun n => set_ret type (set_flags mflags (set_type CT_Typedef n))) in
  if name_check name then Done (upd h r (fun n => set_num 0 (set_name (str_text name) n)), r)
  else
    do t <- get h type;
    if negb (ct_eqb (n_type t) CT_Untyped) then invalid e h
    else Done (upd h r (fun n => set_num 1 (set_name (n_name t) n)), r))))).

(** interface.upfront.cpp:1212-1238 *)
Definition def_union (e : env) (h : heap) (name : str_arg) (body attrs mflags : Z) : result :=
  require e h (Done (null_check body)) (
  require e h (is_kind h body [CT_Union_Body]) (
  require e h (opt_kind h attrs [CT_PlatformAttributes]) (
  Done (make h (fun n => let n := set_attrs attrs (set_body body (set_type CT_Union (set_flags mflags n))) in
                         match name with Some s => set_name s n | None => n end))))).

(** interface.upfront.cpp:1240-1269: the null test of [type] is not negated *)
Definition def_using (e : env) (h : heap) (name : str_arg) (type attrs mflags : Z) : result :=
  if negb (name_check name) || null_check type then invalid e h else
  do (h, registered) <- def_type e h name 0 0 0 0;
  require e h (Done (negb (registered =? 0))) (
  require e h (opt_kind h attrs [CT_PlatformAttributes]) (
  Done (make h (fun n => set_attrs attrs (set_ret type (set_type CT_Using (set_flags mflags (set_name (str_text name) n)))))))).

(** interface.upfront.cpp:1271-1282 *)
Definition def_using_namespace (e : env) (h : heap) (name : str_arg) : result :=
  require e h (Done (name_check name)) (Done (make h (fun n => set_type CT_Using_Namespace (set_name (str_text name) n)))).

(** interface.upfront.cpp:1284-1321 *)
Record opts_variable := { ov_attrs : Z; ov_specs : Z; ov_value : Z; ov_mflags : Z }.
Definition def_variable (e : env) (h : heap) (type : Z) (name : str_arg) (p : opts_variable) : result :=
  require e h (Done (name_check name && null_check type)) (
  require e h (opt_kind h (ov_attrs p) [CT_PlatformAttributes]) (
  require e h (opt_kind h (ov_specs p) [CT_Specifiers]) (
  require e h (is_kind h type [CT_Typename]) (
  require e h (opt_kind h (ov_value p) [CT_Untyped]) (
  Done (make h (fun n => set_body (ov_value p) (set_specs (ov_specs p) (set_attrs (ov_attrs p) (set_ret type (set_flags (ov_mflags p)
      (set_type CT_Variable (set_name (str_text name) n))))))))))))).

(** inlines.hpp:711-736 *)
Definition def_body (e : env) (h : heap) (type : codetype) : result :=
  require e h (Done (kind_in type [CT_Class_Body; CT_Enum_Body; CT_Export_Body; CT_Extern_Linkage; CT_Function_Body; CT_Global_Body;
                                   CT_Namespace_Body; CT_Struct_Body; CT_Union_Body]))
    (Done (make h (set_type type))).

(** interface.upfront.cpp:1348-2090: all def_*_body share the shape below; [num] is the argument, [codes] the
    varargs (or the array). [bad] is the switch over the entry's kind, [splice] is CT_Global_Body's extra case. *)
Fixpoint body_entries (fuel : nat) (e : env) (h : heap) (r : Z) (bad : codetype -> bool) (splice : bool) (codes : list Z) (num : nat) : result :=
  match num with
  | O => Done (h, r)
  | S num =>
    match codes with
    | [] => Undefined
    | entry :: codes =>
      if entry =? 0 then invalid e h else
      do n <- get h entry;
      if splice && ct_eqb (n_type n) CT_Global_Body then
        do h <- body_append_body fuel h r entry; body_entries fuel e h r bad splice codes num
      else if bad (n_type n) then invalid e h
      else do h <- body_append fuel h r entry; body_entries fuel e h r bad splice codes num
    end
  end.
Definition def_x_body (type : codetype) (bad : codetype -> bool) (splice : bool) (fuel : nat) (e : env) (h : heap) (num : Z) (codes : list Z) : result :=
  require e h (Done (negb (num <=? 0))) (
  let '(h, r) := make h (set_type type) in body_entries fuel e h r bad splice codes (Z.to_nat num)).
Definition not_untyped_or_comment (t : codetype) : bool := negb (ct_eqb t CT_Untyped) && negb (ct_eqb t CT_Comment).
Definition def_class_body := def_x_body CT_Class_Body class_unallowed false.
Definition def_class_body_arr := def_x_body CT_Function_Body class_unallowed false.
Definition def_enum_body := def_x_body CT_Enum_Body not_untyped_or_comment false.
Definition def_enum_body_arr := def_x_body CT_Enum_Body not_untyped_or_comment false.
Definition def_export_body := def_x_body CT_Export_Body global_unallowed false.
Definition def_export_body_arr := def_x_body CT_Export_Body global_unallowed false.
Definition def_extern_link_body := def_x_body CT_Extern_Linkage_Body global_unallowed false.
Definition def_extern_link_body_arr := def_x_body CT_Extern_Linkage_Body global_unallowed false.
Definition def_function_body := def_x_body CT_Function_Body function_unallowed false.
Definition def_function_body_arr := def_x_body CT_Function_Body function_unallowed false.
Definition def_global_body := def_x_body CT_Global_Body global_unallowed true.
Definition def_global_body_arr := def_x_body CT_Global_Body global_unallowed true.
Definition def_namespace_body := def_x_body CT_Namespace_Body namespace_unallowed false.
Definition def_namespace_body_arr := def_x_body CT_Global_Body namespace_unallowed false.
Definition def_struct_body := def_x_body CT_Struct_Body class_unallowed false.
Definition def_struct_body_arr := def_x_body CT_Struct_Body class_unallowed false.
Definition def_union_body := def_x_body CT_Union_Body not_untyped_or_comment false.
Definition def_union_body_arr := def_x_body CT_Union_Body not_untyped_or_comment false.

(** interface.upfront.cpp:1856-1885 [def_params]; interface.upfront.cpp:1441-1469 [def_define_params] is the same code
    for CT_Parameters_Define *)
Fixpoint params_rest (e : env) (h : heap) (r : Z) (codes : list Z) (num : nat) : result :=
  match num with
  | O => Done (h, r)
  | S num =>
    match codes with
    | [] => Undefined
    | param :: codes =>
      do p <- get h param;
      if negb (ct_eqb (n_type p) CT_Parameters) then invalid e h
      else do h <- params_append h r param; params_rest e h r codes num
    end
  end.
Definition def_params (e : env) (h : heap) (num : Z) (codes : list Z) : result :=
  require e h (Done (negb (num <=? 0))) (
  match codes with
  | [] => Undefined
  | param :: codes =>
    require e h (Done (null_check param)) (
    do p <- get h param;
    if negb (ct_eqb (n_type p) CT_Parameters) then invalid e h else
    do (h, r) <- code_duplicate h param;
    params_rest e h r codes (Z.to_nat num - 1))
  end).
(** interface.upfront.cpp:1887-1914 [def_params_arr]: the array is read one element past [num] *)
Fixpoint params_arr_rest (e : env) (h : heap) (r : Z) (codes : list Z) (num : nat) : result :=
  match codes with
  | [] => Undefined                                   (* current = * codes, past the array *)
  | current :: codes =>
    match num with
    | O => Done (h, r)
    | S num =>
      if current =? 0 then invalid e h else
      do p <- get h current;
      if negb (ct_eqb (n_type p) CT_Parameters) then invalid e h
      else do h <- params_append h r current; params_arr_rest e h r codes num
    end
  end.
Definition def_params_arr (e : env) (h : heap) (num : Z) (codes : list Z) : result :=
  require e h (Done (negb (num <=? 0))) (
  match codes with
  | [] => Undefined
  | c :: codes =>
    do (h, current) <- code_duplicate h c;
    do n <- get h current;
    if negb (ct_eqb (n_type n) CT_Parameters) then invalid e h else
    let '(h, r) := make h (fun m => set_ret (n_ret n) (set_type (n_type n) (set_name (n_name n) m))) in
    params_arr_rest e h r codes (Z.to_nat num - 1)
  end).
