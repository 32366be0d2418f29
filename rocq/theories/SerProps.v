(** C41: the text of a piece of code is a function of its content, as [render] says. *)
From Coq Require Import String ZArith List Bool Lia.
From Verif Require Import Common Text ArrayModel StrOpsModel StrModel StrOpsSpec FmtModel FmtSpec EnumModel EnumSpec AstModel AstSpec UpfrontModel UpfrontSpec
  SerModel SerSpec SerProofs SerProofs2 SerProofs3 SerProofs4 SerProofs5.
Import ListNotations.
Close Scope string_scope.
Open Scope Z_scope.

(** Every node that holds the content [t] is serialized to [render t], if that text has less than 128 kilobytes.
    (partial: the shapes in [tree]; larger texts, class parents, export blocks, nested type expressions and the
    cases refuted below are not covered) *)
Theorem c41_text_partial : forall h c t, holds h c t -> Z.of_nat (List.length (render t)) < 131070 ->
  exists k, forall fuel, (k <= fuel)%nat -> code_to_strbuilder fuel h c = Done (render t).
Proof. intros h c t H F. apply p41_text; [exact H|]. unfold fits. change FMT_ROOM with 131071. lia. Qed.
Print Assumptions c41_text_partial.

(** Two nodes with the same content - in the same state of the library or in different ones, built in any way -
    have the same text. *)
Theorem c41_same_content_partial : forall h1 c1 h2 c2 t fuel1 fuel2 u1 u2,
  holds h1 c1 t -> holds h2 c2 t -> Z.of_nat (List.length (render t)) < 131070 ->
  code_to_strbuilder fuel1 h1 c1 = Done u1 -> code_to_strbuilder fuel2 h2 c2 = Done u2 -> u1 = u2.
Proof.
  intros h1 c1 h2 c2 t fuel1 fuel2 u1 u2 H1 H2 F E1 E2.
  destruct (c41_text_partial h1 c1 t H1 F) as (k1 & K1). destruct (c41_text_partial h2 c2 t H2 F) as (k2 & K2).
  rewrite (p41_one_text _ _ _ _ _ _ _ E1 (K1 k1 (le_n _))). symmetry. exact (p41_one_text _ _ _ _ _ _ _ E2 (K2 k2 (le_n _))).
Qed.
Print Assumptions c41_same_content_partial.

(** A node has at most one text: whenever the call finishes, it gives the same text. *)
Theorem c41_one_text : forall h c fuel1 fuel2 t1 t2,
  code_to_strbuilder fuel1 h c = Done t1 -> code_to_strbuilder fuel2 h c = Done t2 -> t1 = t2.
Proof. intros h c m1 m2 t1 t2. apply p41_one_text. Qed.
Print Assumptions c41_one_text.

(** The text of a body is the concatenation of the texts of its entries, in order, whatever they are and however
    long the text is. *)
Theorem c41_body : forall h b ts, valid h b -> In (n_type (h_node h b)) body_kinds ->
  n_num (h_node h b) = Z.of_nat (List.length ts) -> chain_texts h (n_front (h_node h b)) ts ->
  exists k, forall fuel, (k <= fuel)%nat -> code_to_strbuilder fuel h b = Done (concat ts) /\ body_to_strbuilder fuel h b = Done (concat ts).
Proof. intros h b ts Vb K. apply p41_body. split; assumption. Qed.
Print Assumptions c41_body.

(** The text is not affected by code made later: any heap that has the same nodes and more gives the same text. *)
Theorem c41_later_code : forall h h' c fuel t, h_top h <= h_top h' -> (forall x, valid h x -> h_node h' x = h_node h x) ->
  code_to_strbuilder fuel h c = Done t -> code_to_strbuilder fuel h' c = Done t.
Proof. intros h h' c m t T N. apply p41_extends; assumption. Qed.
Print Assumptions c41_later_code.

(** [append_fmt] is what C37's byte-level formatter writes: with a buffer of FMT_ROOM bytes and arguments that
    lie in memory away from it, the buffer then holds the text and the return value is its length plus one. *)
Theorem c41_format : forall m num buf fmt segs last fuel,
  byte_mem m -> num <> 0 -> (forall x, buf <= x < buf + FMT_ROOM -> ~ (num <= x < num + 130)) ->
  literal last -> Forall (fun s => literal (fst s) /\ arg_ok m buf FMT_ROOM num (snd s) /\ value_conv (snd s)) segs -> unambiguous segs last ->
  cstr m fmt (format_text segs last) -> apart fmt (zlen (format_text segs last) + 1) buf FMT_ROOM num ->
  fits (parts_text (format_parts segs last)) ->
  (66 <= fuel)%nat -> (List.length segs < fuel)%nat -> (List.length (parts_text (format_parts segs last)) <= fuel)%nat ->
  exists m1 out, append_fmt (format_parts segs last) = Done out /\
    c_str_fmt_va fuel m num buf FMT_ROOM fmt (format_args segs) = Done (m1, zlen out + 1) /\ cstr m1 buf out.
Proof. exact p41_format. Qed.
Print Assumptions c41_format.

(** ** witnesses *)
(** the library after init: InvalidCode and the type codes void, int, bool *)
Definition start : heap := {| h_node := fun c =>
    if c =? 1 then node_of CT_Invalid [] else node_of CT_Typename (txt (if c =? 2 then "void" else if c =? 3 then "int" else "bool")); h_top := 5 |}.
Definition env0 : env := {| e_invalid := 1; e_void := 2; e_int := 3; e_bool := 4 |}.
Definition str (t : string) : str_arg := Some (txt t).
Definition struct_opts body parent access specs : opts_struct :=
  {| os_body := body; os_parent := parent; os_access := access; os_attrs := 0; os_interfaces := []; os_specs := specs; os_mflags := 0 |}.
Definition fn_opts params ret body specs attrs fl : opts_function :=
  {| of_params := params; of_ret := ret; of_body := body; of_specs := specs; of_attrs := attrs; of_mflags := fl |}.
Definition text_of (r : result) : run (list Z) := do (h, c) <- r; code_to_strbuilder 20 h c.

(** A small header made through the API. *)
Definition header : result :=
  let e := env0 in
  do (h, one) <- untyped_str e start (txt "1");
  do (h, a) <- def_param e h 3 (str "a") 0;
  do (h, b) <- def_param e h 3 (str "b") one;
  do (h, ps) <- def_params e h 2 [a; b];
  do (h, sp) <- def_specifiers e h [Spec_Static; Spec_Inline];
  do (h, fwd) <- def_function e h (str "add") (fn_opts ps 3 0 sp 0 0);
  do (h, st) <- def_struct 9 e h (str "Foo") (struct_opts 0 0 0 0);
  do (h, ret) <- def_execution e h (str "return a + b;");
  do (h, fn) <- def_function e h (str "add") (fn_opts ps 3 ret 0 0 0);
  do (h, v) <- def_variable e h 4 (str "flag") {| ov_attrs := 0; ov_specs := 0; ov_value := one; ov_mflags := 0 |};
  do (h, fb) <- def_struct_body 9 e h 1 [v];
  do (h, bar) <- def_struct 9 e h (str "Bar") (struct_opts fb 3 AccessSpec_Public 0);
  do (h, body) <- def_namespace_body 9 e h 4 [st; fwd; bar; fn];
  def_namespace e h (str "gen") body ModuleFlag_Export.
Definition int_t : typ := Type_ None NoTag (txt "int") None false.
Definition bool_t : typ := Type_ None NoTag (txt "bool") None false.
Definition header_tree : tree :=
  let ps := [Param (Some int_t) (txt "a") None; Param (Some int_t) (txt "b") (Some (txt "1"))] in
  Namespace true (txt "gen")
    [ StructFwd false None (txt "Foo") None;
      FunctionFwd false None (Some [Spec_Static; Spec_Inline]) (Some int_t) (txt "add") ps None;
      Struct false None (txt "Bar") false (Some (AccessSpec_Public, int_t, [])) None [Var false None None bool_t (txt "flag") [] None (InitEq (txt "1")) None];
      Function None None (Some int_t) (txt "add") ps [Raw (txt "return a + b;")] ].
(** proves a closed statement that [vm_compute] has reduced *)
Ltac ground := match goal with
  | |- _ /\ _ => split; [ground|ground]
  | |- True => exact I
  | |- False => repeat match goal with A : Some _ = Some _ |- _ => injection A as <- end; cbn in *; repeat match goal with A : _ \/ _ |- _ => destruct A end; first [contradiction|congruence]
  | |- _ = _ => first [reflexivity|congruence]
  | |- _ <-> _ => split; ground
  | |- _ -> _ => intros; ground
  | |- _ \/ _ => first [solve [left; ground]|right; ground]
  | |- Forall _ _ => first [apply Forall_nil|apply Forall_cons; ground]
  | |- exists t, _ => eexists; ground
  end.
Example c41_hypotheses_met :
  match header with Done (h, c) => holds h c header_tree /\ code_to_strbuilder 20 h c = Done (render header_tree) | _ => False end /\
  render header_tree = txt ("export namespace gen" ++ nl ++ "{" ++ nl ++ "struct Foo;" ++ nl ++ " static inline" ++ nl ++ "int add( int a,  int b = 1);" ++ nl ++
    "struct Bar : public int" ++ nl ++ "{" ++ nl ++ "bool flag = 1;" ++ nl ++ nl ++ "};" ++ nl ++
    "int add( int a,  int b = 1)" ++ nl ++ "{" ++ nl ++ "return a + b;" ++ nl ++ "}" ++ nl ++ nl ++ "}" ++ nl).
Proof.
  split; [|vm_compute; reflexivity].
  assert (H : match header with Done (h, c) => holds h c header_tree | _ => False end) by (vm_compute; ground).
  assert (E : text_of header = Done (render header_tree)) by (vm_compute; reflexivity). unfold text_of in E.
  destruct header as [[h c]| |]; [|contradiction|contradiction]. split; [exact H|exact E].
Qed.

(** ** cases where the text is not what the content asks for *)
(** An export block with at least one entry is never written: the call does not finish. *)
Theorem c41_export_block_refuted : forall h b, valid h b -> n_type (h_node h b) = CT_Export_Body -> 1 <= n_num (h_node h b) ->
  forall fuel, code_to_strbuilder fuel h b = NoFuel.
Proof. exact p41_export. Qed.
Print Assumptions c41_export_block_refuted.

(** A namespace whose body has 128 kilobytes or more of text is written with an empty body. *)
Theorem c41_long_body_refuted : forall h c fuel t, valid h c -> n_type (h_node h c) = CT_Namespace -> exports (h_node h c) false ->
  n_name (h_node h c) <> [] -> Z.of_nat (List.length (n_name (h_node h c))) < 100000 ->
  body_to_strbuilder fuel h (n_body (h_node h c)) = Done t -> 131071 < Z.of_nat (List.length t) ->
  code_to_strbuilder (S fuel) h c = Done (txt "namespace " ++ n_name (h_node h c) ++ braces [] ++ NL).
Proof. exact p41_long_body. Qed.
Print Assumptions c41_long_body_refuted.

(** A class with a parent: the format string has one conversion less than arguments, and the access level's string
    literal is read as a StrBuilder. *)
Theorem c41_class_parent_refuted :
  text_of (do (h, b) <- def_body env0 start CT_Class_Body; def_class 9 env0 h (str "A") (struct_opts b 3 AccessSpec_Public 0)) = Undefined.
Proof. vm_compute. reflexivity. Qed.
Print Assumptions c41_class_parent_refuted.
(** An enum class without an underlying type, as the parser makes it (the constructor rejects it, C32), is written
    as a plain enum. *)
Theorem c41_enum_class_refuted :
  text_of (do (h, b) <- def_body env0 start CT_Enum_Body;
           Done (make h (fun _ => set_body b (node_of CT_Enum_Class (txt "E"))))) =
  Done (txt ("enum E" ++ nl ++ "{" ++ nl ++ nl ++ "};" ++ nl)).
Proof. vm_compute. reflexivity. Qed.
Print Assumptions c41_enum_class_refuted.
(** An exported function definition: "export" is glued to the return type. *)
Theorem c41_export_function_refuted :
  text_of (do (h, b) <- def_execution env0 start (str "x;"); def_function env0 h (str "f") (fn_opts 0 3 b 0 0 ModuleFlag_Export)) =
  Done (txt ("exportint f()" ++ nl ++ "{" ++ nl ++ "x;" ++ nl ++ "}" ++ nl)).
Proof. vm_compute. reflexivity. Qed.
Print Assumptions c41_export_function_refuted.
(** A pure virtual function is written with "= 0" three times. *)
Theorem c41_pure_refuted :
  text_of (do (h, s) <- def_specifiers env0 start [Spec_Virtual; Spec_Pure]; def_function env0 h (str "f") (fn_opts 0 3 0 s 0 0)) =
  Done (txt (" virtual = 0" ++ nl ++ "int f() = 0 = 0;" ++ nl)).
Proof. vm_compute. reflexivity. Qed.
Print Assumptions c41_pure_refuted.
(** An operator definition writes its attributes twice. *)
Theorem c41_operator_attributes_refuted :
  text_of (do (h, a) <- def_attributes env0 start (str "[[nodiscard]]"); do (h, b) <- def_execution env0 h (str "x;");
           do (h, p) <- def_param env0 h 3 (str "a") 0; do (h, q) <- def_param env0 h 3 (str "b") 0; do (h, ps) <- def_params env0 h 2 [p; q];
           def_operator 9 env0 h Op_Add [] {| oo_params := ps; oo_ret := 3; oo_body := b; oo_specs := 0; oo_attrs := a; oo_mflags := 0 |}) =
  Done (txt ("[[nodiscard]] [[nodiscard]] " ++ nl ++ "int operator + ( int a,  int b)" ++ nl ++ "{" ++ nl ++ "x;" ++ nl ++ "}" ++ nl)).
Proof. vm_compute. reflexivity. Qed.
Print Assumptions c41_operator_attributes_refuted.
(** #if and #ifndef are written without the end of the line. *)
Theorem c41_if_refuted :
  text_of (def_preprocess_cond env0 start PC_If (str "A")) = Done (txt "#if A") /\
  text_of (def_preprocess_cond env0 start PC_IfNotDef (str "A")) = Done (txt "#ifndef A") /\
  text_of (def_preprocess_cond env0 start PC_IfDef (str "A")) = Done (txt ("#ifdef A" ++ nl)).
Proof. repeat split; vm_compute; reflexivity. Qed.
Print Assumptions c41_if_refuted.
(** A forward declaration as a friend gets a second semicolon on the next line. *)
Theorem c41_friend_refuted :
  text_of (do (h, f) <- def_function env0 start (str "f") (fn_opts 0 3 0 0 0 0); def_friend env0 h f) = Done (txt ("friend int f();" ++ nl ++ ";" ++ nl)).
Proof. vm_compute. reflexivity. Qed.
Print Assumptions c41_friend_refuted.
(** A struct without a name is fine, an enum or a forward declaration without one is named "(null)". *)
Theorem c41_anonymous_refuted :
  text_of (do (h, b) <- def_body env0 start CT_Struct_Body; def_struct 9 env0 h (Some []) (struct_opts b 0 0 0)) =
    Done (txt ("struct " ++ nl ++ "{" ++ nl ++ nl ++ "};" ++ nl)) /\
  text_of (def_struct 9 env0 start (Some []) (struct_opts 0 0 0 0)) = Done (txt ("struct (null);" ++ nl)).
Proof. split; vm_compute; reflexivity. Qed.
Print Assumptions c41_anonymous_refuted.
(** A constructor that is not part of a class body cannot be written: its null parent is read. *)
Theorem c41_lone_constructor_refuted :
  text_of (def_constructor env0 start 0 0 0) = Undefined.
Proof. vm_compute. reflexivity. Qed.
Print Assumptions c41_lone_constructor_refuted.
(** A struct with a protected parent cannot be written: the access level's name is read past the end of a string literal (C23). *)
Theorem c41_protected_parent_refuted :
  text_of (do (h, b) <- def_body env0 start CT_Struct_Body; def_struct 9 env0 h (str "A") (struct_opts b 3 AccessSpec_Protected 0)) = Undefined.
Proof. vm_compute. reflexivity. Qed.
Print Assumptions c41_protected_parent_refuted.
