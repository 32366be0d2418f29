(** C62: parse_function.  The declarations as sequences of tokens ([function_tokens]), the content they declare and the
    nodes with that content ([func_at]) are in FnSpec.v.  As in ParseProps.v, [raw] are the tokens of the function, [R]
    those behind it in the text, [beyond] those left behind them in the token buffer by earlier calls. *)
From Coq Require Import String ZArith List Bool Lia ZifyBool ZifyNat.
From Verif Require Import Common Text HashModel EnumModel EnumSpec LexModel LexSpec LexProps StripSpec AstModel AstSpec UpfrontModel UpfrontSpec SerModel SerSpec SerProps
  ParseModel ParseSpec ParseProofs3 ParseProofs10 ParseProofs11 ParseProps FnModel FnSpec FnProofs3 FnProofs4 FnProofs5.
Import ListNotations.
Close Scope string_scope.
Open Scope Z_scope.

Definition parse_fn (varadic : Z) src toks beyond ms e fuel := parse_function src toks beyond ms e varadic fuel.
(** no specifier is registered as a macro *)
Definition plain_specifiers (ms : macros) : Prop := forall s t, In (s, t) specifier_spelling -> lookup_macro ms (txt t) = None.

(** C62: a function gives a new node with its content: export, one-word attribute, the specifiers in front of and
    behind the signature, the return type, the name, the parameters in their order, each with its type, name and
    default value, and the text between the braces (or none, for a declaration) or the comment on the line of the [;].
    (partial: types, default values are kept up to their white space; no macros and no [...] among the parameters; the
    cases refuted below are excluded: a return type that begins with const, white space in the name, [= delete],
    comparisons and [->] in default values) *)
Theorem c62_function_partial : forall text beyond ms ms' e varadic fuel h raw R f,
  text_with text ms fuel raw R -> lex text fuel ms = Done (Some (raw ++ R, ms')) -> plain_specifiers ms' -> world e h -> function_tokens text raw (R ++ beyond) f ->
  exists h' c f', parse_text (parse_fn varadic) text beyond ms e fuel h = Done (h', c) /\ func_at h' c f' /\ func_respaced f f' /\ h_top h <= c /\ unchanged h h'.
Proof.
  intros text beyond ms ms' e varadic fuel h raw R f (B & NR & MF & F & FT & _) L NM W T.
  destruct (function_text text (raw ++ R) beyond ms ms' e varadic fuel h B NR MF L F FT W NM raw R f eq_refl T) as (h' & c & f' & K1 & K2 & K3 & K4 & _ & K5).
  exists h', c, f'. auto.
Qed.
Print Assumptions c62_function_partial.

(** ... which C41 writes: the text of that content, for all but exported definitions and pure functions. *)
Theorem c62_rewrite_partial : forall text beyond ms ms' e varadic fuel h raw R f,
  text_with text ms fuel raw R -> lex text fuel ms = Done (Some (raw ++ R, ms')) -> plain_specifiers ms' -> world e h -> function_tokens text raw (R ++ beyond) f ->
  exists h' c f', parse_text (parse_fn varadic) text beyond ms e fuel h = Done (h', c) /\ func_respaced f f' /\
    forall tr, func_tree f' = Some tr -> Z.of_nat (length (render tr)) < 131070 -> exists k, forall n, (k <= n)%nat -> code_to_strbuilder n h' c = Done (render tr).
Proof.
  intros text beyond ms ms' e varadic fuel h raw R f X L NM W T. destruct (c62_function_partial _ beyond _ _ e varadic _ h _ _ _ X L NM W T) as (h' & c & f' & K1 & K2 & K3 & _).
  exists h', c, f'. split; [exact K1|]. split; [exact K3|]. intros tr E. exact (c41_text_partial h' c tr (func_holds h' c f' tr K2 E)).
Qed.
Print Assumptions c62_rewrite_partial.

(** ** Where the full statement fails *)
(** a text that begins with const: the loop over the specifiers does not eat it and never ends *)
Theorem c62_const_refuted : forall text beyond ms ms' e varadic fuel h k R, Forall macro_fits ms ->
  lex text fuel ms = Done (Some (k :: R, ms')) -> spelled text k Spec_Const -> parse_text (parse_fn varadic) text beyond ms e fuel h = NoFuel.
Proof. exact const_never. Qed.
Print Assumptions c62_const_refuted.
Definition hv := {| h_node := fun i => if i =? 9 then set_parent 1 (set_name (txt "...") (set_ret 8 (set_type CT_Parameters zero_node))) else zero_node; h_top := 10 |}.
Definition fagain (t : string) : run (list Z) := rbind (parse_text (parse_fn 9) (txt t) (toks_of (txt "int x;")) [] e0 300 hv) (fun '(h, c) => code_to_strbuilder 300 h c).
(** white space inside a name is dropped, as are [delete], the text of a default value behind [->], and the body of a
    function of any arguments; a comparison in a default value reads past the end *)
Theorem c62_content_lost_refuted :
  fagain ("int f<unsigned int>();" ++ nl) = out "int f<unsignedint>();" /\
  fagain ("int f() = delete;" ++ nl ++ more) = out (" = 0" ++ nl ++ "int f() = 0 = 0;") /\
  fagain ("int f(int a = p->x);" ++ nl ++ more) = out "int f( int a = p->);" /\
  fagain ("int f(int a = b < c);" ++ nl ++ more) = Undefined /\
  fagain ("int f(...) { return 1; }" ++ nl ++ more) = out "int f( (null) ...);".
Proof. vm_compute. auto 6. Qed.
Print Assumptions c62_content_lost_refuted.

(** ** The hypotheses are met *)
Definition function_example := txt "static int A::f(int a = g(1, 2), int b) const { if (a) { b; } } int z;".
Definition function_toks : list token := Eval vm_compute in toks_of function_example.
Definition fk (i : nat) := nth i function_toks (Tok 0 0 0 0 0 0).
Definition fks (a n : nat) := map fk (seq a n).
Lemma no_macros : plain_specifiers []. Proof. intros s t _. reflexivity. Qed.
Lemma int_type : forall i k r, native (fk i) -> ~ fmt k -> ~ native k -> upto function_example (fk i) (fk i) = txt "int" -> type_tokens function_example [fk i] (k :: r) int_ty.
Proof. intros i k r N F K E. apply (native_type function_example (fk i) [] k r (txt "int")); [exact N|constructor|exact F|exact K|symmetry; exact E|dec|dec|dec]. Qed.
Ltac other := apply v_other; [solid|dec|dec|dec|dec|dec|dec|].
Example c62_hypotheses_met : text_with function_example [] 300 (fks 0 30) (fks 30 3) /\ lex function_example 300 [] = Done (Some (fks 0 30 ++ fks 30 3, [])) /\
  plain_specifiers [] /\ world e0 w0 /\
  function_tokens function_example (fks 0 30) (fks 30 3 ++ [])
    (Func false None [Spec_Static; Spec_Const] int_ty (txt "A::f") [Param (Some int_ty) (txt "a") (Some (txt "g(1, 2)")); Param (Some int_ty) (txt "b") None]
       (Some [txt "if (a) { b; }"]) None).
Proof.
  split; [text_is|]. split; [vm_compute; reflexivity|]. split; [exact no_macros|]. split; [exact w0_ok|].
  apply (ft function_example false [] [] None (fks 0 1) [Spec_Static] (fks 1 1) int_ty [] (fks 2 3) (txt "A::f") (fks 5 14)
    [Param (Some int_ty) (txt "a") (Some (txt "g(1, 2)")); Param (Some int_ty) (txt "b") None] (fks 19 1) [Spec_Const] (fks 20 10) [] (Some [txt "if (a) { b; }"]) (fks 30 3 ++ []) None).
  - left. split; reflexivity.
  - reflexivity.
  - apply (s_more function_example [] (fk 0) Spec_Static [] []); [no_gap| |constructor]. split; [vm_compute; intuition discriminate|]. exists "static"%string. split; [vm_compute; tauto|reflexivity].
  - apply Forall_cons; [vm_compute; tauto|constructor].
  - apply (int_type 1 (fk 2)); [dec|solid|dec|reflexivity].
  - reflexivity.
  - exists [], (fk 1), []. split; [reflexivity|]. split; [no_gap|]. split; [solid|dec].
  - no_gap.
  - apply (nm function_example (fk 2) [] (fks 3 2)); [reflexivity|left; reflexivity|]. apply (q_more function_example [] (fk 3) [] (fk 4) [] []); [no_gap|reflexivity|no_gap|reflexivity|left; reflexivity|constructor].
  - dec.
  - unfold solid. repeat constructor; dec.
  - apply (ps_some function_example [] (fk 5) (fks 6 9) (Param (Some int_ty) (txt "a") (Some (txt "g(1, 2)"))) (fks 15 4)); [no_gap|reflexivity| |].
    + apply (pm function_example (fks 6 1) int_ty (fks 7 1) (txt "a") (fks 8 7) (Some (txt "g(1, 2)"))); [apply (int_type 6 (fk 7)); [dec|solid|dec|reflexivity]|reflexivity| |].
      * right. exists [], (fk 7). split; [reflexivity|]. split; [no_gap|]. split; reflexivity.
      * exists [], (fk 8), [], (fk 9), (fks 10 5). split; [reflexivity|]. split; [no_gap|]. split; [split; reflexivity|]. split; [no_gap|]. split; [solid|]. split; [|split; [solid|split; [reflexivity|split; [dec|split; [apply no_block; dec|dec]]]]].
        other. apply v_open; [reflexivity|reflexivity|]. do 3 other. apply v_close; [reflexivity|reflexivity|]. constructor.
    + apply (mp_more function_example [] (fk 15) (fks 16 2) (Param (Some int_ty) (txt "b") None) (fks 18 1)); [no_gap|reflexivity| |apply (mp_end function_example [] (fk 18)); [no_gap|reflexivity]].
      apply (pm function_example (fks 16 1) int_ty (fks 17 1) (txt "b") [] None); [apply (int_type 16 (fk 17)); [dec|solid|dec|reflexivity]|reflexivity| |reflexivity].
      right. exists [], (fk 17). split; [reflexivity|]. split; [no_gap|]. split; reflexivity.
  - apply (s_more function_example [] (fk 19) Spec_Const [] []); [no_gap| |constructor]. apply spec_const; reflexivity.
  - apply (fe_body function_example (fks 20 10)). apply (bt_text function_example [] (fk 20) (fk 21) (fks 22 7) (fk 29)); [no_gap|reflexivity| |reflexivity|dec].
    unfold in_braces. do 4 (apply n_other; [dec|dec|dec|]). apply n_open; [reflexivity|]. do 2 (apply n_other; [dec|dec|dec|]). apply n_close; [reflexivity|]. constructor.
  - dec.
Qed.
