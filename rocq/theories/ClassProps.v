(** C64: parse_class and parse_struct.  Classes and structs as sequences of tokens ([class_tokens]), the content they declare
    and when two contents differ in their white space only ([tree_like]) are in GlobalSpec.v. *)
From Coq Require Import String ZArith List Bool Lia ZifyBool ZifyNat.
From Verif Require Import Common Text HashModel EnumModel EnumSpec LexModel LexSpec LexProps StripSpec AstModel AstSpec UpfrontModel UpfrontSpec SerModel SerSpec SerProps
  ParseModel ParseSpec ParseProofs3 ParseProofs10 ParseProofs11 ParseProps FnModel FnSpec FnProps GlobalModel GlobalSpec GlobalProps ClassProofs4.
Import ListNotations.
Close Scope string_scope.
Open Scope Z_scope.

(** parse_struct or parse_class *)
Definition parse_aggregate (gl : globals) (is_struct : bool) src toks beyond ms e fuel :=
  if is_struct then parse_struct src toks beyond ms e gl fuel else parse_class src toks beyond ms e gl fuel.

(** C64: a class or struct, with its attribute, final, a base, any members to any depth of nested classes and the comment behind
    it, gives a new node that declares the same; so does a forward declaration.
    (partial: white space inside type names and default values is not kept; not members here: constructors, destructors, operators,
    friends, templates, unions, macros; interfaces behind the first base are left out; the cases refuted below are excluded) *)
Theorem c64_class_partial : forall text beyond ms e gl fuel h toks is_struct t,
  ready text beyond ms e gl fuel h toks -> class_tokens text beyond is_struct toks [] t ->
  exists h' c t', parse_text (parse_aggregate gl is_struct) text beyond ms e fuel h = Done (h', c) /\ holds h' c t' /\ tree_like t t' /\ h_top h <= c /\ unchanged h h'.
Proof.
  intros text beyond ms e gl fuel h toks st t X T. destruct (ready_ms _ _ _ _ _ _ _ _ X) as (ms' & L & NM). destruct X as ((B & NR & MF & F & FT & _) & _ & W & G & BY). rewrite app_nil_r in FT.
  destruct (class_text text toks beyond ms ms' e gl fuel h B NR MF L F FT W G NM BY st t T) as (h' & c & t' & K1 & K2 & K3 & K4 & _ & K5).
  exists h', c, t'. auto.
Qed.
Print Assumptions c64_class_partial.
(** ... which C41 writes *)
Theorem c64_rewrite_partial : forall text beyond ms e gl fuel h toks is_struct t,
  ready text beyond ms e gl fuel h toks -> class_tokens text beyond is_struct toks [] t ->
  exists h' c t', parse_text (parse_aggregate gl is_struct) text beyond ms e fuel h = Done (h', c) /\ tree_like t t' /\
    (Z.of_nat (length (render t')) < 131070 -> exists k, forall n, (k <= n)%nat -> code_to_strbuilder n h' c = Done (render t')).
Proof.
  intros text beyond ms e gl fuel h toks st t X T. destruct (c64_class_partial _ _ _ _ _ _ _ _ _ _ X T) as (h' & c & t' & K1 & K2 & K3 & _).
  exists h', c, t'. split; [exact K1|]. split; [exact K3|]. intros Z. exact (c41_text_partial h' c t' K2 Z).
Qed.
Print Assumptions c64_rewrite_partial.

(** ** Where the full statement fails *)
Definition cagain (is_struct : bool) (t : string) : run (list Z) :=
  rbind (parse_text (parse_aggregate gg is_struct) (txt t) earlier [] e0 600 hg) (fun '(h, c) => code_to_strbuilder 300 h c).
Definition braced (head body : string) : string := (head ++ nl ++ "{" ++ nl ++ body ++ nl ++ "};")%string.
(** destructors lose their name, constructors [= default] and explicit; what begins with the class's name is taken for a constructor *)
Theorem c64_special_members_refuted :
  cagain true "struct A { ~A(); };" = out (braced "struct A" ("~(null)();" ++ nl)) /\
  cagain true "struct A { virtual ~A() = 0; };" = out (braced "struct A" ("virtual ~(null)();" ++ nl ++ " = 0;" ++ nl)) /\
  cagain false "class A { A() = default; };" = out (braced "class A" ("A();" ++ nl)) /\
  cagain false "class A { explicit A(int); };" = out (braced "class A" ("A(  int );" ++ nl)) /\
  cagain false "class A { Abc (x); };" = out (braced "class A" ("A(  x );" ++ nl)).
Proof. vm_compute. auto. Qed.
Print Assumptions c64_special_members_refuted.
(** interfaces lose their access; a virtual base takes the body with it *)
Theorem c64_bases_refuted :
  cagain true "struct A final : public B, C, private D { };" = out (braced ("struct A final : public B" ++ nl ++ ", C, D") "") /\
  cagain true "struct A : virtual B { };" = out "struct A;".
Proof. vm_compute. auto. Qed.
Print Assumptions c64_bases_refuted.
(** bases that are read but cannot be written: any of a class, a protected one, more than five *)
Theorem c64_unwritten_refuted :
  cagain false "class A : public B { };" = Undefined /\ cagain true "struct A : protected B { };" = Undefined /\
  cagain true "struct A : B, C, D, E, F, G { };" = Undefined.
Proof. vm_compute. auto. Qed.
Print Assumptions c64_unwritten_refuted.

(** ** The hypotheses are met *)
Definition class_example := txt "struct A final : public B { public: int x; struct C { int y; }; private: class D; };".
Definition class_toks : list token := Eval vm_compute in toks_of class_example.
Definition ck (i : nat) := nth i class_toks (Tok 0 0 0 0 0 0).
Definition cks (a n : nat) := map ck (seq a n).
Definition named_ty (n : string) : typ := {| ty_tag := NoTag; ty_attrs := None; ty_specs := None; ty_name := txt n; ty_pack := false |}.
Definition class_declared : tree :=
  Struct false None (txt "A") true (Some (Tok_Access_Public, named_ty "B", [])) None
    [Raw (txt "public:" ++ NL); Var false None None int_ty (txt "x") [] None NoInit None;
     Struct false None (txt "C") false None None [Var false None None int_ty (txt "y") [] None NoInit None];
     Raw (txt "private:" ++ NL); ClassFwd false None (txt "D") None].
Lemma c_int : forall i k r, native (ck i) -> ~ fmt k -> ~ native k -> upto class_example (ck i) (ck i) = txt "int" -> type_tokens class_example [ck i] (k :: r) int_ty.
Proof. intros i k r N F K E. apply (native_type class_example (ck i) [] k r (txt "int")); [exact N|constructor|exact F|exact K|symmetry; exact E|dec|dec|dec]. Qed.
Ltac c_variable i n name :=
  apply m_declared; apply (dc_variable class_example earlier true [] None [] [] [] (cks i 1) int_ty [] (cks (i + 1) 1) (txt name) [] [] [] NoInit None (cks (i + 2) 1) (cks (i + 3) n) None (ck i) (cks (i + 1) 2));
  [reflexivity|constructor|constructor|dec|no_gap|intros k r E; injection E as <- _; solid|apply (c_int i (ck (i + 1))); [dec|solid|dec|reflexivity]|reflexivity|no_gap
  |apply (nm class_example (ck (i + 1)) [] []); [reflexivity|left; reflexivity|constructor]|dec
  |exists [], (ck (i + 2)), []; split; [reflexivity|]; split; [no_gap|]; split; [solid|]; split; dec
  |exists [], (ck (i + 2)), []; split; [reflexivity|]; split; [no_gap|]; split; [solid|]; split; dec
  |constructor|constructor|right; reflexivity|left; apply (se_plain class_example [] (ck (i + 2)) (ck (i + 3))); [no_gap|reflexivity|dec]|reflexivity|vm_compute; tauto
  |exists (ck i), (ck (i + 1)), (cks (i + 2) (S n)); split; [reflexivity|dec]|repeat constructor; dec
  |exists [], (ck (i + 2)), (ck (i + 3)), (ck (i + 4)), (cks (i + 5) (n - 2) ++ earlier); split; [reflexivity|]; split; [no_gap|]; split; [solid|]; left; split; dec].
Example c64_hypotheses_met : ready class_example earlier [] e0 gg 300 hg class_toks /\ class_tokens class_example earlier true class_toks [] class_declared.
Proof.
  split.
  - split; [text_is|]. split; [intros ms' H; assert (E : lex class_example 300 [] = Done (Some (class_toks, []))) by (vm_compute; reflexivity); rewrite E in H; injection H as <-; exact no_macros|].
    split; [exact hg_ok|]. split; [exact gg_ok|apply Nat.leb_le; reflexivity].
  - apply (cl_body class_example earlier false [] (cks 0 6) {| hd_struct := true; hd_attrs := None; hd_name := txt "A"; hd_final := true; hd_base := Some (Tok_Access_Public, named_ty "B", []) |} [] (ck 6) (cks 7 18) (ck 25) (cks 26 1) []
      [Raw (txt "public:" ++ NL); Var false None None int_ty (txt "x") [] None NoInit None;
       Struct false None (txt "C") false None None [Var false None None int_ty (txt "y") [] None NoInit None];
       Raw (txt "private:" ++ NL); ClassFwd false None (txt "D") None] None).
    + left. split; reflexivity.
    + apply (ch class_example true (ck 0) [] None [] (cks 1 1) (txt "A") (cks 2 1) true (cks 3 3)); [reflexivity|reflexivity|no_gap|apply (nm class_example (ck 1) [] []); [reflexivity|left; reflexivity|constructor]|dec| |].
      * right. split; [reflexivity|]. exists [], (ck 2). split; [reflexivity|]. split; [no_gap|reflexivity].
      * exists [], (ck 3), [], (cks 4 1), [], (cks 5 1), (txt "B"). split; [reflexivity|]. split; [no_gap|]. split; [reflexivity|]. split; [no_gap|]. split; [no_gap|].
        split; [apply (nm class_example (ck 5) [] []); [reflexivity|left; reflexivity|constructor]|]. split; [dec|]. split; [reflexivity|]. split; [reflexivity|]. right. exists (ck 4). split; [reflexivity|]. split; [reflexivity|]. left. reflexivity.
    + no_gap.
    + reflexivity.
    + apply (mb_label class_example earlier (ck 7) (ck 8)); [left; reflexivity|reflexivity|].
      apply (mb_simple class_example earlier InClass (cks 9 3) (cks 12 13)); [c_variable 9%nat 15%nat "x"%string|].
      apply (mb_class class_example earlier InClass (cks 12 2) {| hd_struct := true; hd_attrs := None; hd_name := txt "C"; hd_final := false; hd_base := None |} [] (ck 14) (cks 15 3) (ck 18) (ck 19) [] (cks 20 5) (cks 25 2) [Var false None None int_ty (txt "y") [] None NoInit None] None).
      * apply (ch class_example true (ck 12) [] None [] (cks 13 1) (txt "C") [] false [] None); [reflexivity|reflexivity|no_gap|apply (nm class_example (ck 13) [] []); [reflexivity|left; reflexivity|constructor]|dec|left; split; reflexivity|reflexivity].
      * repeat constructor; dec.
      * no_gap.
      * reflexivity.
      * apply (mb_simple class_example earlier InClass (cks 15 3) []); [c_variable 15%nat 9%nat "y"%string|constructor].
      * unfold in_braces. do 3 (apply n_other; [dec|dec|dec|]). constructor.
      * reflexivity.
      * reflexivity.
      * apply (se_plain class_example [] (ck 19) (ck 20)); [no_gap|reflexivity|dec].
      * reflexivity.
      * apply (mb_label class_example earlier (ck 20) (ck 21)); [right; right; reflexivity|reflexivity|].
        apply (mb_forward class_example earlier InClass (ck 22) (ck 23) (ck 24) [] [] (cks 25 2) None _ {| hd_struct := false; hd_attrs := None; hd_name := txt "D"; hd_final := false; hd_base := None |}).
        -- apply (ch class_example false (ck 22) [] None [] (cks 23 1) (txt "D") [] false [] None); [reflexivity|reflexivity|no_gap|apply (nm class_example (ck 23) [] []); [reflexivity|left; reflexivity|constructor]|dec|left; split; reflexivity|reflexivity].
        -- reflexivity.
        -- apply (se_plain class_example [] (ck 24) (ck 25)); [no_gap|reflexivity|dec].
        -- reflexivity.
        -- constructor.
    + reflexivity.
    + apply (se_plain class_example [] (ck 26) (nth 0 earlier (ck 0))); [no_gap|reflexivity|dec].
    + reflexivity.
Qed.
