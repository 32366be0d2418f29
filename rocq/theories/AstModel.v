(** The AST node ([struct AST], base/components/ast.hpp:376-441), the node heap and the list operations on
    nodes (base/components/inlines.hpp, ast.cpp).

    Simplifications:
    - A [Code] is an abstract address, 0 is null. make_code hands out a new zeroed node, as C24 proves of
      the pools.
    - Interned strings (StrCached) are represented by their text (C15).
    - The node's union of {seven Code slots | Content | ArrSpecs} is represented by separate fields: each
      kind of node is used through one of these views only. Unions of Codes with Codes (Front/Prev/Last,
      Next/Back, the Code slots) and of the 32-bit values are shared fields, as in the code.
    - A failing GEN_ASSERT or a null dereference is [Undefined]. *)
From Coq Require Import String ZArith List Bool.
From Verif Require Import Common Text.
Import ListNotations.
Open Scope Z_scope.

(** base/components/gen/ecodetypes.hpp:8-73 *)
Inductive codetype :=
| CT_Invalid
| CT_Untyped
| CT_NewLine
| CT_Comment
| CT_Access_Private
| CT_Access_Protected
| CT_Access_Public
| CT_PlatformAttributes
| CT_Class
| CT_Class_Fwd
| CT_Class_Body
| CT_Constructor
| CT_Constructor_Fwd
| CT_Destructor
| CT_Destructor_Fwd
| CT_Enum
| CT_Enum_Fwd
| CT_Enum_Body
| CT_Enum_Class
| CT_Enum_Class_Fwd
| CT_Execution
| CT_Export_Body
| CT_Extern_Linkage
| CT_Extern_Linkage_Body
| CT_Friend
| CT_Function
| CT_Function_Fwd
| CT_Function_Body
| CT_Global_Body
| CT_Module
| CT_Namespace
| CT_Namespace_Body
| CT_Operator
| CT_Operator_Fwd
| CT_Operator_Member
| CT_Operator_Member_Fwd
| CT_Operator_Cast
| CT_Operator_Cast_Fwd
| CT_Parameters
| CT_Parameters_Define
| CT_Preprocess_Define
| CT_Preprocess_Include
| CT_Preprocess_If
| CT_Preprocess_IfDef
| CT_Preprocess_IfNotDef
| CT_Preprocess_ElIf
| CT_Preprocess_Else
| CT_Preprocess_EndIf
| CT_Preprocess_Pragma
| CT_Specifiers
| CT_Struct
| CT_Struct_Fwd
| CT_Struct_Body
| CT_Template
| CT_Typedef
| CT_Typename
| CT_Union
| CT_Union_Fwd
| CT_Union_Body
| CT_Using
| CT_Using_Namespace
| CT_Variable.
Definition ct_eq_dec (a b : codetype) : {a = b} + {a <> b}. Proof. decide equality. Defined.
Definition ct_eqb (a b : codetype) : bool := if ct_eq_dec a b then true else false.

Record node := {
  n_type : codetype;
  n_flags : Z;             (* ModuleFlags *)
  n_name : list Z;         (* Name *)
  n_content : list Z;      (* Content *)
  n_inline : Z;            (* InlineCmt *)
  n_attrs : Z;             (* Attributes *)
  n_specs : Z;             (* Specs *)
  n_ret : Z;               (* InitializerList / ParentType / ReturnType / UnderlyingType / ValueType *)
  n_params : Z;            (* Macro / BitfieldSize / Params / UnderlyingTypeMacro *)
  n_body : Z;              (* ArrExpr / Body / Declaration / Value *)
  n_suffix : Z;            (* NextVar / SuffixSpecs / PostNameMacro *)
  n_arr : list Z;          (* ArrSpecs, AST_ArrSpecs_Cap = 14 entries *)
  n_front : Z;             (* Prev / Front / Last *)
  n_next : Z;              (* Next / Back *)
  n_token : Z;             (* Token *)
  n_parent : Z;            (* Parent *)
  n_num : Z                (* NumEntries / IsFunction / IsParamPack+TypeTag / Op / ParentAccess / VarParenthesizedInit *)
}.
(** ast.hpp:357-370: (128 - 8 - 16 - 2*8 - 8 - 8 - 4 - 4 - 4) / 4 - 1 *)
Definition SPECS_CAP : Z := (128 - 8 - 16 - 2 * 8 - 8 - 8 - 4 - 4 - 4) / 4 - 1.
(** an all-zero node (interface.cpp:470) *)
Definition zero_node : node :=
  {| n_type := CT_Invalid; n_flags := 0; n_name := []; n_content := []; n_inline := 0; n_attrs := 0; n_specs := 0; n_ret := 0;
     n_params := 0; n_body := 0; n_suffix := 0; n_arr := repeat 0 (Z.to_nat SPECS_CAP); n_front := 0; n_next := 0; n_token := 0;
     n_parent := 0; n_num := 0 |}.

Definition set_type (v : codetype) (n : node) : node := {| n_type := v; n_flags := n_flags n; n_name := n_name n; n_content := n_content n; n_inline := n_inline n; n_attrs := n_attrs n; n_specs := n_specs n; n_ret := n_ret n; n_params := n_params n; n_body := n_body n; n_suffix := n_suffix n; n_arr := n_arr n; n_front := n_front n; n_next := n_next n; n_token := n_token n; n_parent := n_parent n; n_num := n_num n |}.
Definition set_flags (v : Z) (n : node) : node := {| n_type := n_type n; n_flags := v; n_name := n_name n; n_content := n_content n; n_inline := n_inline n; n_attrs := n_attrs n; n_specs := n_specs n; n_ret := n_ret n; n_params := n_params n; n_body := n_body n; n_suffix := n_suffix n; n_arr := n_arr n; n_front := n_front n; n_next := n_next n; n_token := n_token n; n_parent := n_parent n; n_num := n_num n |}.
Definition set_name (v : list Z) (n : node) : node := {| n_type := n_type n; n_flags := n_flags n; n_name := v; n_content := n_content n; n_inline := n_inline n; n_attrs := n_attrs n; n_specs := n_specs n; n_ret := n_ret n; n_params := n_params n; n_body := n_body n; n_suffix := n_suffix n; n_arr := n_arr n; n_front := n_front n; n_next := n_next n; n_token := n_token n; n_parent := n_parent n; n_num := n_num n |}.
Definition set_content (v : list Z) (n : node) : node := {| n_type := n_type n; n_flags := n_flags n; n_name := n_name n; n_content := v; n_inline := n_inline n; n_attrs := n_attrs n; n_specs := n_specs n; n_ret := n_ret n; n_params := n_params n; n_body := n_body n; n_suffix := n_suffix n; n_arr := n_arr n; n_front := n_front n; n_next := n_next n; n_token := n_token n; n_parent := n_parent n; n_num := n_num n |}.
Definition set_inline (v : Z) (n : node) : node := {| n_type := n_type n; n_flags := n_flags n; n_name := n_name n; n_content := n_content n; n_inline := v; n_attrs := n_attrs n; n_specs := n_specs n; n_ret := n_ret n; n_params := n_params n; n_body := n_body n; n_suffix := n_suffix n; n_arr := n_arr n; n_front := n_front n; n_next := n_next n; n_token := n_token n; n_parent := n_parent n; n_num := n_num n |}.
Definition set_attrs (v : Z) (n : node) : node := {| n_type := n_type n; n_flags := n_flags n; n_name := n_name n; n_content := n_content n; n_inline := n_inline n; n_attrs := v; n_specs := n_specs n; n_ret := n_ret n; n_params := n_params n; n_body := n_body n; n_suffix := n_suffix n; n_arr := n_arr n; n_front := n_front n; n_next := n_next n; n_token := n_token n; n_parent := n_parent n; n_num := n_num n |}.
Definition set_specs (v : Z) (n : node) : node := {| n_type := n_type n; n_flags := n_flags n; n_name := n_name n; n_content := n_content n; n_inline := n_inline n; n_attrs := n_attrs n; n_specs := v; n_ret := n_ret n; n_params := n_params n; n_body := n_body n; n_suffix := n_suffix n; n_arr := n_arr n; n_front := n_front n; n_next := n_next n; n_token := n_token n; n_parent := n_parent n; n_num := n_num n |}.
Definition set_ret (v : Z) (n : node) : node := {| n_type := n_type n; n_flags := n_flags n; n_name := n_name n; n_content := n_content n; n_inline := n_inline n; n_attrs := n_attrs n; n_specs := n_specs n; n_ret := v; n_params := n_params n; n_body := n_body n; n_suffix := n_suffix n; n_arr := n_arr n; n_front := n_front n; n_next := n_next n; n_token := n_token n; n_parent := n_parent n; n_num := n_num n |}.
Definition set_params (v : Z) (n : node) : node := {| n_type := n_type n; n_flags := n_flags n; n_name := n_name n; n_content := n_content n; n_inline := n_inline n; n_attrs := n_attrs n; n_specs := n_specs n; n_ret := n_ret n; n_params := v; n_body := n_body n; n_suffix := n_suffix n; n_arr := n_arr n; n_front := n_front n; n_next := n_next n; n_token := n_token n; n_parent := n_parent n; n_num := n_num n |}.
Definition set_body (v : Z) (n : node) : node := {| n_type := n_type n; n_flags := n_flags n; n_name := n_name n; n_content := n_content n; n_inline := n_inline n; n_attrs := n_attrs n; n_specs := n_specs n; n_ret := n_ret n; n_params := n_params n; n_body := v; n_suffix := n_suffix n; n_arr := n_arr n; n_front := n_front n; n_next := n_next n; n_token := n_token n; n_parent := n_parent n; n_num := n_num n |}.
Definition set_suffix (v : Z) (n : node) : node := {| n_type := n_type n; n_flags := n_flags n; n_name := n_name n; n_content := n_content n; n_inline := n_inline n; n_attrs := n_attrs n; n_specs := n_specs n; n_ret := n_ret n; n_params := n_params n; n_body := n_body n; n_suffix := v; n_arr := n_arr n; n_front := n_front n; n_next := n_next n; n_token := n_token n; n_parent := n_parent n; n_num := n_num n |}.
Definition set_arr (v : list Z) (n : node) : node := {| n_type := n_type n; n_flags := n_flags n; n_name := n_name n; n_content := n_content n; n_inline := n_inline n; n_attrs := n_attrs n; n_specs := n_specs n; n_ret := n_ret n; n_params := n_params n; n_body := n_body n; n_suffix := n_suffix n; n_arr := v; n_front := n_front n; n_next := n_next n; n_token := n_token n; n_parent := n_parent n; n_num := n_num n |}.
Definition set_front (v : Z) (n : node) : node := {| n_type := n_type n; n_flags := n_flags n; n_name := n_name n; n_content := n_content n; n_inline := n_inline n; n_attrs := n_attrs n; n_specs := n_specs n; n_ret := n_ret n; n_params := n_params n; n_body := n_body n; n_suffix := n_suffix n; n_arr := n_arr n; n_front := v; n_next := n_next n; n_token := n_token n; n_parent := n_parent n; n_num := n_num n |}.
Definition set_next (v : Z) (n : node) : node := {| n_type := n_type n; n_flags := n_flags n; n_name := n_name n; n_content := n_content n; n_inline := n_inline n; n_attrs := n_attrs n; n_specs := n_specs n; n_ret := n_ret n; n_params := n_params n; n_body := n_body n; n_suffix := n_suffix n; n_arr := n_arr n; n_front := n_front n; n_next := v; n_token := n_token n; n_parent := n_parent n; n_num := n_num n |}.
Definition set_token (v : Z) (n : node) : node := {| n_type := n_type n; n_flags := n_flags n; n_name := n_name n; n_content := n_content n; n_inline := n_inline n; n_attrs := n_attrs n; n_specs := n_specs n; n_ret := n_ret n; n_params := n_params n; n_body := n_body n; n_suffix := n_suffix n; n_arr := n_arr n; n_front := n_front n; n_next := n_next n; n_token := v; n_parent := n_parent n; n_num := n_num n |}.
Definition set_parent (v : Z) (n : node) : node := {| n_type := n_type n; n_flags := n_flags n; n_name := n_name n; n_content := n_content n; n_inline := n_inline n; n_attrs := n_attrs n; n_specs := n_specs n; n_ret := n_ret n; n_params := n_params n; n_body := n_body n; n_suffix := n_suffix n; n_arr := n_arr n; n_front := n_front n; n_next := n_next n; n_token := n_token n; n_parent := v; n_num := n_num n |}.
Definition set_num (v : Z) (n : node) : node := {| n_type := n_type n; n_flags := n_flags n; n_name := n_name n; n_content := n_content n; n_inline := n_inline n; n_attrs := n_attrs n; n_specs := n_specs n; n_ret := n_ret n; n_params := n_params n; n_body := n_body n; n_suffix := n_suffix n; n_arr := n_arr n; n_front := n_front n; n_next := n_next n; n_token := n_token n; n_parent := n_parent n; n_num := v |}.

(** the nodes handed out so far are those at addresses 1 .. top-1 *)
Record heap := { h_node : Z -> node; h_top : Z }.
Definition valid (h : heap) (c : Z) : Prop := 0 < c < h_top h.
Definition get (h : heap) (c : Z) : run node := if (0 <? c) && (c <? h_top h) then Done (h_node h c) else Undefined.
Definition upd (h : heap) (c : Z) (f : node -> node) : heap :=
  {| h_node := fun x => if x =? c then f (h_node h x) else h_node h x; h_top := h_top h |}.
(** a store through a Code: undefined if it does not point to a node *)
Definition put (h : heap) (c : Z) (f : node -> node) : run heap := rbind (get h c) (fun _ => Done (upd h c f)).
Notation "'do' x <- r ; e" := (rbind r (fun x => e)) (at level 60, x pattern, r at level 50, e at level 60, right associativity).

(** interface.cpp:454-472 [make_code] *)
Definition new_code (h : heap) : heap * Z :=
  ({| h_node := fun x => if x =? h_top h then zero_node else h_node h x; h_top := h_top h + 1 |}, h_top h).

(** ast.cpp:367-377 [code_duplicate]: bytewise copy, Parent cleared *)
Definition code_duplicate (h : heap) (self : Z) : run (heap * Z) :=
  do n <- get h self;
  let '(h, r) := new_code h in
  Done (upd h r (fun _ => set_parent 0 n), r).

(** inlines.hpp:317-344 [code_append] *)
Definition code_append (h : heap) (self other : Z) : run heap :=
  if self =? other then Undefined else
  do o <- get h other;
  do (h, other) <- (if negb (n_parent o =? 0) then code_duplicate h other else Done (h, other));
  do h <- put h other (set_parent self);
  do s <- get h self;
  if n_front s =? 0 then
    Done (upd h self (fun n => set_num (n_num n + 1) (set_next other (set_front other n))))
  else
    let current := n_next s in
    do h <- put h current (set_next other);
    do h <- put h other (set_front current);
    do h <- put h self (set_next other);
    put h self (fun n => set_num (n_num n + 1) n).

(** inlines.hpp:345-363 [code_is_body] *)
Definition is_body_type (t : codetype) : bool :=
  match t with
  | CT_Enum_Body | CT_Class_Body | CT_Union_Body | CT_Export_Body | CT_Global_Body | CT_Struct_Body
  | CT_Function_Body | CT_Namespace_Body | CT_Extern_Linkage_Body => true
  | _ => false
  end.

(** inlines.hpp:364-379 [code_entry]; the result is the pointed-to Code *)
Fixpoint code_entry_at (h : heap) (current : Z) (idx : nat) : run Z :=
  match idx with
  | O => Done current
  | S k => do n <- get h current; code_entry_at h (n_next n) k
  end.
Definition code_entry (h : heap) (self idx : Z) : run Z := do s <- get h self; code_entry_at h (n_front s) (Z.to_nat idx).

(** inlines.hpp:386-391 [code_has_entries] *)
Definition code_has_entries (h : heap) (self : Z) : run bool := do s <- get h self; Done (n_num s >? 0).

(** inlines.hpp:446-465 [begin_CodeBody], [end_CodeBody], [next_CodeBody] *)
Definition begin_body (h : heap) (b : Z) : run Z := do n <- get h b; Done (n_front n).
Definition end_body (h : heap) (b : Z) : run Z := do n <- get h b; do l <- get h (n_next n); Done (n_next l).
Definition next_body (h : heap) (b entry : Z) : run Z := do n <- get h entry; Done (n_next n).

(** inlines.hpp:422-445 [body_append], [body_append_body]: mutually recursive, the loop re-evaluates
    end_CodeBody each round. [fuel] bounds calls + iterations. *)
Fixpoint body_append (fuel : nat) (h : heap) (self other : Z) : run heap :=
  match fuel with O => NoFuel | S fuel =>
    do o <- get h other;
    if is_body_type (n_type o) then body_append_body fuel h self other else code_append h self other
  end
with body_append_body (fuel : nat) (h : heap) (self body : Z) : run heap :=
  match fuel with O => NoFuel | S fuel =>
    if self =? body then Undefined else
    do e <- begin_body h body; body_append_loop fuel h self body e
  end
with body_append_loop (fuel : nat) (h : heap) (self body entry : Z) : run heap :=
  match fuel with O => NoFuel | S fuel =>
    do e <- end_body h body;
    if entry =? e then Done h else
    do h <- body_append fuel h self entry;
    do nx <- next_body h body entry;
    body_append_loop fuel h self body nx
  end.

(** a client's  for ( Code e = begin_CodeBody(b); e != end_CodeBody(b); e = next_CodeBody(b, e) )  (also C++ range for) *)
Fixpoint range_loop (fuel : nat) (h : heap) (b entry : Z) : run (list Z) :=
  match fuel with O => NoFuel | S fuel =>
    do e <- end_body h b;
    if entry =? e then Done [] else
    do nx <- next_body h b entry;
    do r <- range_loop fuel h b nx;
    Done (entry :: r)
  end.
Definition range_for (fuel : nat) (h : heap) (b : Z) : run (list Z) := do e <- begin_body h b; range_loop fuel h b e.

(** inlines.hpp:30-43: the counting loop of body_to_strbuilder_ref ([++curr] of a null Code stays null) *)
Fixpoint count_loop (left : nat) (h : heap) (curr : Z) : run (list Z) :=
  match left with
  | O => Done []
  | S k => do nx <- (if curr =? 0 then Done 0 else do n <- get h curr; Done (n_next n));
           do r <- count_loop k h nx; Done (curr :: r)
  end.
Definition count_for (h : heap) (b : Z) : run (list Z) := do n <- get h b; count_loop (Z.to_nat (n_num n)) h (n_front n).

(** inlines.hpp:492-517 [params_append] *)
Definition params_append (h : heap) (self other : Z) : run heap :=
  if self =? other then Undefined else
  do o <- get h other;
  do (h, entry) <- (if negb (n_parent o =? 0) then code_duplicate h other else Done (h, other));
  do h <- put h entry (set_parent self);
  do s <- get h self;
  if n_front s =? 0 then
    Done (upd h self (fun n => set_num (n_num n + 1) (set_next entry (set_front entry n))))
  else
    do h <- put h (n_front s) (set_next entry);
    do h <- put h self (set_front entry);
    put h self (fun n => set_num (n_num n + 1) n).

(** inlines.hpp:518-534 [params_get]; 542-548: [++ param] assigns Next to param (and dereferences a null param);
    then [param->Next] of what is then null *)
Fixpoint params_get_loop (fuel : nat) (h : heap) (param idx : Z) : run Z :=
  match fuel with O => NoFuel | S fuel =>
    do n <- get h param;
    if negb (n_next n =? 0) then Done 0 else
    do n2 <- get h (n_next n);
    let idx := idx - 1 in
    if idx =? 0 then Done (n_next n2) else params_get_loop fuel h (n_next n2) idx
  end.
Definition params_get := params_get_loop.

(** a client's iteration over parameters: begin_CodeParams / end_CodeParams / next_CodeParams, inlines.hpp:548-567 *)
Fixpoint params_iter (fuel : nat) (h : heap) (p : Z) : run (list Z) :=
  match fuel with O => NoFuel | S fuel =>
    if p =? 0 then Done [] else do n <- get h p; do r <- params_iter fuel h (n_next n); Done (p :: r)
  end.

(** inlines.hpp:590-607 [specifiers_append] on a node (null self: returns false) *)
Definition list_set {A} (l : list A) (i : nat) (x : A) : list A := firstn i l ++ x :: skipn (S i) l.
Definition arr_at (n : node) (i : Z) : run Z := if (0 <=? i) && (i <? SPECS_CAP) then Done (nth (Z.to_nat i) (n_arr n) 0) else Undefined.
Definition arr_put (n : node) (i v : Z) : run node :=
  if (0 <=? i) && (i <? SPECS_CAP) then Done (set_arr (list_set (n_arr n) (Z.to_nat i) v) n) else Undefined.
Definition specifiers_append (n : node) (spec : Z) : run (node * bool) :=
  if n_num n =? SPECS_CAP then Done (n, false) else
  do n <- arr_put n (n_num n) spec; Done (set_num (n_num n + 1) n, true).

(** inlines.hpp:618-627 [specifiers_index_of]; 608-617 [specifiers_has] is the same loop *)
Fixpoint index_loop (left : nat) (n : node) (idx spec : Z) : run Z :=
  match left with
  | O => Done (-1)
  | S k => do s <- arr_at n idx; if s =? spec then Done idx else index_loop k n (idx + 1) spec
  end.
Definition specifiers_index_of (n : node) (spec : Z) : run Z := index_loop (Z.to_nat (n_num n)) n 0 spec.
Fixpoint has_loop (left : nat) (n : node) (idx spec : Z) : run bool :=
  match left with
  | O => Done false
  | S k => do s <- arr_at n idx; if s =? spec then Done true else has_loop k n (idx + 1) spec
  end.
Definition specifiers_has (n : node) (spec : Z) : run bool := has_loop (Z.to_nat (n_num n)) n 0 spec.

(** inlines.hpp:628-668 [specifiers_remove]; the loop's state is (node, curr, next, result) *)
Fixpoint remove_loop (fuel : nat) (n : node) (curr next result spec : Z) : run (node * Z) :=
  match fuel with O => NoFuel | S fuel =>
    if negb (next <? n_num n) then Done (n, result) else
    do s <- arr_at n next;
    if s =? spec then
      let result := next in
      let next := next + 1 in
      if next >=? n_num n then Done (n, result) else
      do s <- arr_at n next;
      do n <- arr_put n curr s;
      remove_loop fuel n (curr + 1) (next + 1) result spec
    else
      do n <- arr_put n curr s;
      remove_loop fuel n (curr + 1) (next + 1) result spec
  end.
Definition specifiers_remove (n : node) (spec : Z) : run (node * Z) :=
  if n_num n =? SPECS_CAP then Done (n, -1) else
  do (n, r) <- remove_loop (S (Z.to_nat (n_num n))) n 0 0 (-1) spec;
  Done ((if r >? -1 then set_num (n_num n - 1) n else n), r).

(** inlines.hpp:468-489 [class_add_interface], 689-708 [struct_add_interface]: append to the chain of
    types starting at ParentType; AccessSpec_Public = 3 *)
Fixpoint chain_end (fuel : nat) (h : heap) (slot : Z) : run Z :=
  match fuel with O => NoFuel | S fuel =>
    do n <- get h slot; if n_next n =? 0 then Done slot else chain_end fuel h (n_next n) end.
Definition add_interface (fuel : nat) (h : heap) (self ty : Z) : run heap :=
  do s <- get h self;
  let h := if negb (n_ret s =? 0) then upd h self (set_num 3) else h in
  do e <- chain_end fuel h (n_ret s);
  put h e (set_next ty).
