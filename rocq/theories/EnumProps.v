(** Property theorems C22, C23 (keyword tables). *)
From Coq Require Import String ZArith List Bool.
From Verif Require Import Common Text HashModel HashSpec HashProofs EnumModel EnumSpec EnumProofs.
Import ListNotations.
Open Scope Z_scope.

(** *** C22 *)
(** every specifier prints its keyword and the keyword is recognised as that specifier *)
Theorem c22_specifiers : forall k s, In (k, s) specifier_spelling -> spec_to_str k = Done (txt s) /\ str_to_specifier (txt s) = k.
Proof. exact p22_spec. Qed.
Print Assumptions c22_specifiers.
Theorem c22_specifiers_all : forall k, 1 <= k < Spec_NumSpecifiers -> In k (map fst specifier_spelling).
Proof. exact spec_covered. Qed.
Print Assumptions c22_specifiers_all.
(** every token kind with a fixed spelling prints it and is recognised by it, except the specifier extern *)
Theorem c22_tokens_partial : forall k s, In (k, s) token_spelling -> k <> Tok_Spec_Extern -> toktype_to_str k = Done (txt s) /\ str_to_toktype (txt s) = k.
Proof. exact p22_tok. Qed.
Print Assumptions c22_tokens_partial.
(** extern is always taken as the linkage declaration *)
Theorem c22_extern_refuted : toktype_to_str Tok_Spec_Extern = Done (txt "extern") /\ str_to_toktype (txt "extern") = Tok_Decl_Extern_Linkage.
Proof. vm_compute. auto. Qed.
Print Assumptions c22_extern_refuted.
(** operators print their C++ spelling *)
Theorem c22_operators : forall k s, In (k, s) operator_spelling -> operator_to_str k = Done (txt s).
Proof. exact p22_op. Qed.
Print Assumptions c22_operators.
Theorem c22_operators_all : forall k, 1 <= k < Op_NumOps -> In k (map fst operator_spelling).
Proof. exact op_covered. Qed.
Print Assumptions c22_operators_all.
(** whatever text is classified as a keyword has the keyword's crc32; a text with no keyword's crc32 is not
    classified *)
Theorem c22_classified_same_hash_partial : forall text, str_to_toktype text <> Tok_Invalid ->
  exists kw, toktype_to_str (str_to_toktype text) = Done kw /\ crc32 kw = crc32 text.
Proof. exact (find_sound toktype_table). Qed.
Print Assumptions c22_classified_same_hash_partial.
Theorem c22_unclassified : forall text, (forall kw, In kw toktype_table -> crc32 kw <> crc32 text) -> str_to_toktype text = Tok_Invalid.
Proof. exact (find_none toktype_table). Qed.
Print Assumptions c22_unclassified.
Theorem c22_specifier_same_hash_partial : forall text, str_to_specifier text <> Spec_Invalid ->
  exists kw, spec_to_str (str_to_specifier text) = Done kw /\ crc32 kw = crc32 text.
Proof. exact (find_sound spec_table). Qed.
Print Assumptions c22_specifier_same_hash_partial.
(** a text of at most four bytes is never confused with a keyword of the same length *)
Theorem c22_short_texts : forall text kw, Forall (fun b => 0 <= b < 256) text -> (length text <= 4)%nat ->
  toktype_to_str (str_to_toktype text) = Done kw -> str_to_toktype text <> Tok_Invalid -> length kw = length text -> kw = text.
Proof. exact p22_short. Qed.
Print Assumptions c22_short_texts.
(** ordinary identifiers that are taken for keywords, and the internal token names that are *)
Theorem c22_other_text_refuted :
  str_to_toktype (txt "bottjjl") = Tok_Decl_Enum /\ str_to_toktype (txt "gwzsll") = Tok_Spec_Virtual /\
  str_to_specifier (txt "gwzsll") = Spec_Virtual /\ str_to_toktype (txt "coddgnf") = Tok_Type_int /\
  ~ In (txt "bottjjl") toktype_table /\ ~ In (txt "gwzsll") spec_table /\
  str_to_toktype (txt "__number__") = Tok_Number /\ str_to_toktype (txt "__string__") = Tok_String.
Proof.
  vm_compute. repeat split; intros H; repeat (destruct H as [H|H]; [discriminate H|]); exact H.
Qed.
Print Assumptions c22_other_text_refuted.

Example c22_hypotheses_met : In (Tok_Decl_Namespace, "namespace"%string) token_spelling /\ In (Spec_Pure, "= 0"%string) specifier_spelling /\
  str_to_toktype (txt "hello") = Tok_Invalid /\ str_to_toktype (txt "int") = Tok_Type_int.
Proof. vm_compute. tauto. Qed.

(** *** C23 *)
Theorem c23_access_partial : forall a s, In (a, s) access_spelling -> a <> AccessSpec_Protected -> access_spec_to_str a = Done (txt s).
Proof.
  intros a s Hi Hn. cbn in Hi. repeat (destruct Hi as [Hi|Hi]; [injection Hi as <- <-; try (vm_compute; reflexivity); now destruct Hn|]). destruct Hi.
Qed.
Print Assumptions c23_access_partial.
(** protected is "private" with the length of "protected": reading it leaves the literal *)
Theorem c23_protected_refuted : access_spec_to_str AccessSpec_Protected = Undefined.
Proof. vm_compute. reflexivity. Qed.
Print Assumptions c23_protected_refuted.
Theorem c23_access_out_of_range : forall a, AccessSpec_Public < a -> access_spec_to_str a = Done (txt "Invalid").
Proof. intros a H. unfold access_spec_to_str. assert (E : (a >? AccessSpec_Public) = true) by (apply Z.gtb_lt; assumption). rewrite E. reflexivity. Qed.
Print Assumptions c23_access_out_of_range.
Theorem c23_module_flags : module_flag_to_str ModuleFlag_Export = Done (txt "export") /\ module_flag_to_str ModuleFlag_Import = Done (txt "import") /\
  module_flag_to_str ModuleFlag_None = Done (txt "__none__").
Proof. vm_compute. auto. Qed.
Print Assumptions c23_module_flags.
(** an invalid flag's text has a stray NUL byte *)
Theorem c23_module_flag_invalid_refuted : forall f, ModuleFlag_Import < f -> module_flag_to_str f = Done (txt "invalid" ++ [0])%list.
Proof. intros f H. unfold module_flag_to_str. assert (E : (f >? ModuleFlag_Import) = true) by (apply Z.gtb_lt; assumption). rewrite E. reflexivity. Qed.
Print Assumptions c23_module_flag_invalid_refuted.
(** kinds print distinct names; the keyword of a forward declared class is misspelt *)
Theorem c23_codetype_names_distinct : NoDup codetype_table.
Proof.
  apply nodupb_ok. vm_compute. reflexivity.
Qed.
Print Assumptions c23_codetype_names_distinct.
Theorem c23_class_fwd_keyword_refuted : table_at codetype_keyword_table 9 = Done (txt "clsss") /\ table_at codetype_table 9 = Done (txt "Class_Fwd").
Proof. vm_compute. auto. Qed.
Print Assumptions c23_class_fwd_keyword_refuted.
Example c23_hypotheses_met : In (AccessSpec_Private, "private"%string) access_spelling /\ AccessSpec_Public < 5.
Proof. split; [cbn; tauto|reflexivity]. Qed.
