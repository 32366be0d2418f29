(** C52-C56: parse_using, parse_typedef, parse_variable, parse_enum.  The declarations as sequences of tokens
    ([using_tokens], ...) and the content they declare are in ParseSpec.v; [holds] (SerSpec.v) says that a node has
    that content, [render] what its text is.  [raw] are the tokens of the declaration, [R] those behind it in the
    text, [beyond] those left behind them in the token buffer by earlier calls. *)
From Coq Require Import String ZArith List Bool Lia ZifyBool ZifyNat.
From Verif Require Import Common Text HashModel EnumModel EnumSpec LexModel LexSpec LexProps StripSpec AstModel AstSpec UpfrontModel UpfrontSpec SerModel SerSpec SerProps
  ParseModel ParseSpec ParseProofs3 ParseProofs10 ParseProofs11.
Import ListNotations.
Close Scope string_scope.
Open Scope Z_scope.

(** [text] is a text with the tokens [raw ++ R] *)
Definition text_with (text : list Z) (ms : macros) (fuel : nat) (raw R : list token) : Prop :=
  Forall (fun c => 0 <= c < 256) text /\ ~ runs_off text /\ Forall macro_fits ms /\ Z.of_nat (length text) + 2 <= Z.of_nat fuel /\
  (length (raw ++ R) < fuel)%nat /\ exists ms', lex text fuel ms = Done (Some (raw ++ R, ms')).
(** the nodes that were there are as before *)
Definition unchanged (h h' : heap) : Prop := forall x, valid h x -> h_node h' x = h_node h x.

(** C52: a using declaration gives a new node with its content: export, name, type (with its specifiers, template
    arguments and qualifiers), array sizes, and the comment on its line.
    (partial: type names are kept up to their white space; attributes are those of one word; function types and
    decltype are not covered; the cases refuted below are excluded) *)
Theorem c52_using_partial : forall text beyond ms e fuel h raw R tr,
  text_with text ms fuel raw R -> world e h -> using_tokens text raw (R ++ beyond) tr ->
  exists h' c tr', parse_text parse_using text beyond ms e fuel h = Done (h', c) /\ holds h' c tr' /\ tree_respaced tr tr' /\ h_top h <= c /\ unchanged h h'.
Proof.
  intros text beyond ms e fuel h raw R tr (B & NR & MF & F & FT & ms' & L) W T.
  destruct (using_text text (raw ++ R) beyond ms ms' e fuel h B NR MF L F FT W raw R tr eq_refl T) as (h' & c & tr' & K1 & K2 & K3 & K4 & _ & K5).
  exists h', c, tr'. auto.
Qed.
Print Assumptions c52_using_partial.

(** C53: the same for typedef. *)
Theorem c53_typedef_partial : forall text beyond ms e fuel h raw R x ty name ss cmt,
  text_with text ms fuel raw R -> world e h -> typedef_tokens text raw (R ++ beyond) x ty name ss cmt ->
  exists h' c ty', parse_text parse_typedef text beyond ms e fuel h = Done (h', c) /\ typedef_at h' c x ty' name ss cmt /\ typ_respaced ty ty' /\ h_top h <= c /\ unchanged h h'.
Proof.
  intros text beyond ms e fuel h raw R x ty name ss cmt (B & NR & MF & F & FT & ms' & L) W T.
  destruct (typedef_text text (raw ++ R) beyond ms ms' e fuel h B NR MF L F FT W raw R x ty name ss cmt eq_refl T) as (h' & c & ty' & K1 & K2 & K3 & K4 & _ & K5).
  exists h', c, ty'. auto.
Qed.
Print Assumptions c53_typedef_partial.

(** C54: a variable: export, one-word attribute, specifiers, type, name, array sizes, bit field or initializer, comment.
    (partial: as above; one declarator) *)
Theorem c54_variable_partial : forall text beyond ms e fuel h raw R tr,
  text_with text ms fuel raw R -> world e h -> variable_tokens text raw R tr ->
  exists h' c tr', parse_text parse_variable text beyond ms e fuel h = Done (h', c) /\ holds h' c tr' /\ tree_respaced tr tr' /\ h_top h <= c /\ unchanged h h'.
Proof.
  intros text beyond ms e fuel h raw R tr (B & NR & MF & F & FT & ms' & L) W T.
  destruct (variable_text text (raw ++ R) beyond ms ms' e fuel h B NR MF L F FT W raw R tr eq_refl T) as (h' & c & tr' & K1 & K2 & K3 & K4 & _ & K5).
  exists h', c, tr'. auto.
Qed.
Print Assumptions c54_variable_partial.

(** C55: an enum: name, underlying type, its entries and what stands between them, in order.
    (partial: as above; an enum class without an underlying type is excluded, c55_enum_class_refuted) *)
Theorem c55_enum_partial : forall text beyond ms e fuel h raw R tr,
  text_with text ms fuel raw R -> world e h -> enum_tokens text raw (R ++ beyond) tr ->
  exists h' c tr', parse_text parse_enum text beyond ms e fuel h = Done (h', c) /\ holds h' c tr' /\ tree_respaced tr tr' /\ h_top h <= c /\ unchanged h h'.
Proof.
  intros text beyond ms e fuel h raw R tr (B & NR & MF & F & FT & ms' & L) W T.
  destruct (enum_text text (raw ++ R) beyond ms ms' e fuel h B NR MF L F FT W raw R tr eq_refl T) as (h' & c & tr' & K1 & K2 & K3 & K4 & _ & K5).
  exists h', c, tr'. auto.
Qed.
Print Assumptions c55_enum_partial.

(** Parsing and writing: what is written for the node parsed from a declaration is the text of the declaration's
    content. *)
Definition rewrites (p : list Z -> list token -> list token -> macros -> env -> nat -> M Z) (text : list Z) (beyond : list token) (ms : macros) (e : env) (fuel : nat) (h : heap) (tr : tree) : Prop :=
  exists h' c tr', parse_text p text beyond ms e fuel h = Done (h', c) /\ tree_respaced tr tr' /\
    (Z.of_nat (length (render tr')) < 131070 -> exists k, forall n, (k <= n)%nat -> code_to_strbuilder n h' c = Done (render tr')).
Theorem c52_rewrite_partial : forall text beyond ms e fuel h raw R tr,
  text_with text ms fuel raw R -> world e h -> using_tokens text raw (R ++ beyond) tr -> rewrites parse_using text beyond ms e fuel h tr.
Proof. intros text beyond ms e fuel h raw R tr X W T. destruct (c52_using_partial _ beyond _ e _ h _ _ _ X W T) as (h' & c & tr' & K1 & K2 & K3 & _). exists h', c, tr'. split; [exact K1|]. split; [exact K3|]. exact (c41_text_partial h' c tr' K2). Qed.
Print Assumptions c52_rewrite_partial.
Theorem c54_rewrite_partial : forall text beyond ms e fuel h raw R tr,
  text_with text ms fuel raw R -> world e h -> variable_tokens text raw R tr -> rewrites parse_variable text beyond ms e fuel h tr.
Proof. intros text beyond ms e fuel h raw R tr X W T. destruct (c54_variable_partial _ beyond _ e _ h _ _ _ X W T) as (h' & c & tr' & K1 & K2 & K3 & _). exists h', c, tr'. split; [exact K1|]. split; [exact K3|]. exact (c41_text_partial h' c tr' K2). Qed.
Print Assumptions c54_rewrite_partial.
Theorem c55_rewrite_partial : forall text beyond ms e fuel h raw R tr,
  text_with text ms fuel raw R -> world e h -> enum_tokens text raw (R ++ beyond) tr -> rewrites parse_enum text beyond ms e fuel h tr.
Proof. intros text beyond ms e fuel h raw R tr X W T. destruct (c55_enum_partial _ beyond _ e _ h _ _ _ X W T) as (h' & c & tr' & K1 & K2 & K3 & _). exists h', c, tr'. split; [exact K1|]. split; [exact K3|]. exact (c41_text_partial h' c tr' K2). Qed.
Print Assumptions c55_rewrite_partial.

(** C56: the flag by which the parsers recognize an attribute is set on no token but GEN_API and macros: an attribute
    written as in C++, for the compilers of GNU or Microsoft is not recognized (refuted: C56 wants them all). *)
Theorem c56_only_api_refuted : forall text ms fuel toks ms', Forall macro_fits ms -> lex text fuel ms = Done (Some (toks, ms')) ->
  Forall (fun k => flagged k TF_Attribute -> t_type k = Tok_Attribute_GEN_API \/ macro_kind (t_type k)) toks.
Proof.
  intros text ms fuel toks ms' MF L. destruct (lex_fits _ _ _ _ _ MF L) as (F & _). eapply Forall_impl; [|exact F]. intros k [H|(_ & H & _)] X; auto.
Qed.
Print Assumptions c56_only_api_refuted.

(** ** Where the full statements fail: texts parsed and written again *)
Definition h0 := {| h_node := fun _ => zero_node; h_top := 10 |}.
Definition e0 := {| e_invalid := 1; e_void := 2; e_int := 3; e_bool := 4 |}.
Definition toks_of (t : list Z) := match lex t 300 [] with Done (Some (l, _)) => l | _ => [] end.
Definition again p (t : string) : run (list Z) := rbind (parse_text p (txt t) (toks_of (txt "int x;")) [] e0 300 h0) (fun '(h, c) => code_to_strbuilder 300 h c).
Definition nl := String (Ascii.ascii_of_nat 10) EmptyString.
(** further text, so that reporting an error does not run past the end (C50) *)
Definition more := ("int padding, padding_padding, padding;" ++ nl)%string.
Definition out (s : string) := Done (txt (s ++ nl)).
(** an attribute behind the name is lost, the rest of a qualified name too, the errors of the parser are not acted on *)
Theorem c52_content_lost_refuted :
  again parse_using ("using A GEN_API = int;" ++ nl) = out "using A = int;" /\
  again parse_using ("using Base::f;" ++ nl ++ more) = out "using Base;" /\
  again parse_using ("using A = B<decltype(a->b)>;" ++ nl ++ more) = out "using A = B<decltype(a->;" /\
  again parse_using ("export // c" ++ nl ++ "using A = int;" ++ nl ++ more) = out "export using using;" /\
  again parse_using ("using 5;" ++ nl ++ more) = out "using 5;" /\
  again parse_using ("using namespace A; // c" ++ nl) = out "using namespace A;".
Proof. vm_compute. auto 6. Qed.
Print Assumptions c52_content_lost_refuted.
(** the token behind the ';' is read even if there is none: a comment left in the buffer by an earlier call is
    attached; with nothing there, the read is out of bounds *)
Definition parsed p (t b : string) {A} (f : heap -> Z -> A) : run A := rbind (parse_text p (txt t) (toks_of (txt b)) [] e0 300 h0) (fun '(h, c) => Done (f h c)).
Theorem c52_stale_comment_refuted :
  parsed parse_using "using A = int;              " "// old" (fun h c => Z.eqb (n_inline (h_node h c)) 0) = Done false /\
  parsed parse_using "using A = int;" "" (fun h c => Z.eqb (n_inline (h_node h c)) 0) = Undefined.
Proof. vm_compute. auto. Qed.
Print Assumptions c52_stale_comment_refuted.
(** '>>>' is one token and closes nothing *)
Theorem c52_three_brackets_refuted : again parse_using ("using A = B<C<D<int>>>;" ++ nl) = Undefined.
Proof. vm_compute. auto. Qed.
Print Assumptions c52_three_brackets_refuted.
(** more than 14 specifiers: those of the type are dropped; more than 16: memory is overwritten *)
Theorem c53_many_pointers_refuted :
  again parse_typedef ("typedef int *************** A;" ++ nl) = out "typedef int   A;" /\
  again parse_typedef ("typedef int ***************** A;" ++ nl) = Undefined.
Proof. vm_compute. auto. Qed.
Print Assumptions c53_many_pointers_refuted.
Theorem c54_declarators_refuted :
  again parse_variable ("int a, b[2];" ++ nl) = Undefined /\
  again parse_variable ("int x {3};" ++ nl) = out "int x = {3};" /\
  again parse_variable ("int x : 3 = 1;" ++ nl) = out "int x : 3 = 1;" /\
  parsed parse_variable ("int x : 3 = 1;" ++ nl) "" (fun h c => (n_content (h_node h (n_params (h_node h c))), n_body (h_node h c))) = Done (txt "3 = 1", 0).
Proof. vm_compute. auto. Qed.
Print Assumptions c54_declarators_refuted.
(** a comment before the enum is taken for the keyword, what follows is lost; the comment behind '};' is not written *)
Theorem c55_content_lost_refuted :
  again parse_enum ("// c" ++ nl ++ "enum A { a };" ++ nl ++ more) = out "enum (null);" /\
  again parse_enum ("enum A { a }; // c" ++ nl) = out ("enum A" ++ nl ++ "{" ++ nl ++ "a" ++ nl ++ "};").
Proof. vm_compute. auto. Qed.
Print Assumptions c55_content_lost_refuted.
Theorem c55_enum_class_refuted : again parse_enum ("enum class A { a, b };" ++ nl) = out ("enum A" ++ nl ++ "{" ++ nl ++ "a,b" ++ nl ++ "};").
Proof. vm_compute. auto. Qed.
Print Assumptions c55_enum_class_refuted.
(** attributes that are not GEN_API: the declaration is lost *)
Theorem c56_declaration_lost_refuted :
  again parse_using ("using A [[x]] = int;" ++ nl ++ more) = out "using A;" /\
  again parse_enum ("enum [[x]] A { a, b = 2 };" ++ nl ++ more) = out "enum (null);" /\
  again parse_variable ("[[maybe_unused]] int x;" ++ nl ++ more) = out "[ [[ [maybe_unused ];".
Proof. vm_compute. auto. Qed.
Print Assumptions c56_declaration_lost_refuted.

(** ** The hypotheses are met *)
Lemma text_ok : forall t, forallb (fun c => (0 <=? c) && (c <? 256) && negb (c =? 13) && negb (c =? 42) && negb (c =? 35)) t = true -> Forall (fun c => 0 <= c < 256) t /\ ~ runs_off t.
Proof.
  intros t H. rewrite forallb_forall in H. split; [apply Forall_forall; intros x Hx; specialize (H x Hx); lia|]. apply plain_text; intros I; specialize (H _ I); discriminate H.
Qed.
Ltac text_is := match goal with |- text_with ?t ?m ?f ?a ?b => destruct (text_ok t ltac:(vm_compute; reflexivity)); split; [assumption|split; [assumption|split; [constructor|split; [vm_compute; discriminate|split; [vm_compute; lia|eexists; vm_compute; reflexivity]]]]] end.
Ltac no_gap := constructor.
Ltac dec := vm_compute; intuition (try discriminate).
Definition w0 : heap := {| h_node := fun _ => zero_node; h_top := 10 |}.
Lemma w0_ok : world e0 w0. Proof. unfold world, valid. cbn. lia. Qed.

Definition using_example := txt ("export using A = const N::B<int>& [3]; // hi" ++ nl ++ "int b;").
Definition using_toks : list token := Eval vm_compute in toks_of using_example.
Definition uk (i : nat) := nth i using_toks (Tok 0 0 0 0 0 0).
Definition uks (a n : nat) := map uk (seq a n).
Definition int_ty := Type_ None NoTag (txt "int") None false.
Lemma spec_const : forall src k, t_type k = Tok_Spec_Const -> word src k = txt "const" -> spelled src k Spec_Const.
Proof. intros src k E W. split; [rewrite E; vm_compute; intuition discriminate|]. exists "const"%string. split; [vm_compute; tauto|exact W]. Qed.
Example c52_hypotheses_met : text_with using_example [] 300 (uks 0 17) (uks 17 3) /\ world e0 w0 /\
  using_tokens using_example (uks 0 17) (uks 17 3 ++ []) (Using true None (txt "A") (Some (Type_ None NoTag (txt "N::B<int>") (Some [Spec_Const; Spec_Ref]) false, [txt "3"])) (Some (txt ("// hi" ++ nl)))).
Proof.
  split; [text_is|]. split; [exact w0_ok|].
  change (uks 0 17) with (uks 0 2 ++ [] ++ uk 2 :: [] ++ uk 3 :: (([] ++ uks 4 1 ++ [] ++ uks 5 6 ++ uks 11 1 ++ []) ++ uks 12 3 ++ uks 15 2)).
  apply (u_type using_example true (uks 0 2) [] (uk 2) [] (uk 3) (uks 4 8) (Type_ None NoTag (txt "N::B<int>") (Some [Spec_Const; Spec_Ref]) false) (uks 12 3) [txt "3"] (uks 15 2) (uks 17 3 ++ []) (Some (txt ("// hi" ++ nl)))).
  - exists [], (uk 1). split; [no_gap|]. split; [reflexivity|]. right. split; [reflexivity|]. exists (uk 0). split; reflexivity.
  - no_gap.
  - reflexivity.
  - dec.
  - no_gap.
  - split; reflexivity.
  - apply (ty using_example [] (uks 4 1) (uks 5 6) (uks 11 1) [] (uks 12 3 ++ uks 15 2) [] None NoTag (txt "N::B<int>") [Spec_Const] [Spec_Ref] false).
    + reflexivity.
    + apply (s_more using_example [] (uk 4) Spec_Const [] []); [no_gap| |constructor]. split; [vm_compute; intuition discriminate|]. exists "const"%string. split; [vm_compute; tauto|reflexivity].
    + repeat constructor.
    + no_gap.
    + apply tn_name.
      * change (uks 5 6) with (uk 5 :: [] ++ uks 6 5). change (txt "N::B<int>") with (upto using_example (uk 5) (last ([] ++ uks 6 5) (uk 5))).
        apply (nm using_example (uk 5) [] (uks 6 5)); [reflexivity|left; reflexivity|].
        apply (q_more using_example [] (uk 6) [] (uk 7) (uks 8 3) []); [no_gap|reflexivity|no_gap|reflexivity| |constructor].
        right. exists [], (uk 8), (uks 9 2). split; [reflexivity|]. split; [no_gap|]. split; [reflexivity|]. split; [reflexivity|].
        apply (a_other using_example 0 (uk 9) [uk 10]); [intros [H|H]; discriminate H|dec|dec|intros H; discriminate H|]. apply a_end; reflexivity.
      * exists [], (uk 11), (uks 12 5). split; [reflexivity|]. split; [no_gap|]. split; [intros [H|H]; discriminate H|]. split; dec.
    + dec.
    + intros a b H. exfalso. assert (I : In 47 (txt "N::B<int>")) by (rewrite H; apply in_or_app; right; left; reflexivity). revert I. dec.
    + dec.
    + apply (s_more using_example [] (uk 11) Spec_Ref [] []); [no_gap| |constructor]. split; [vm_compute; intuition discriminate|]. exists "&"%string. split; [vm_compute; tauto|reflexivity].
    + apply Forall_cons; [cbn; tauto|constructor].
    + dec.
    + left. split; reflexivity.
  - apply (as_more using_example [] (uk 12) [] (uk 13) [] (uk 14) [] []); [no_gap|reflexivity|no_gap|intros [H|H]; discriminate H|repeat constructor; dec|reflexivity|dec|constructor].
  - apply (se_comment using_example [] (uk 15) (uk 16) (uks 17 3 ++ [])); [no_gap|reflexivity|reflexivity|reflexivity|dec].
Qed.
Ltac solid := intros [H|H]; discriminate H.
Lemma no_block : forall t, ~ In 47 t -> closed t.
Proof. intros t N a b H. exfalso. apply N. rewrite H. apply in_or_app. right. left. reflexivity. Qed.
(** int, followed by a token that is no line end *)
Lemma native_type : forall src first more k r t, native first -> Forall native more -> ~ fmt k -> ~ native k -> t = upto src first (last more first) ->
  ~ In 47 t -> ~ In 92 t -> words t <> [] -> type_tokens src (first :: more) (k :: r) (Type_ None NoTag t None false).
Proof.
  intros src first more k r t N1 N2 F N3 -> C1 C2 C3.
  pose proof (ty src [] [] (first :: more) [] [] (k :: r) [] None NoTag (upto src first (last more first)) [] [] false) as X. cbn [app some_specs] in X. rewrite app_nil_r in X. apply X; clear X.
  - reflexivity.
  - constructor.
  - constructor.
  - no_gap.
  - apply tn_native; auto.
    + eapply Forall_impl; [|exact N2]. auto.
    + destruct more as [|a m]; [left; reflexivity|right]. apply (proj1 (Forall_forall _ _) N2). clear. assert (G : forall (l : list token) x d, In (last (x :: l) d) (x :: l)).
      { induction l as [|y l IH]; intros x d; [left; reflexivity|right; exact (IH y d)]. } apply G.
  - exact C2.
  - apply no_block, C1.
  - exact C3.
  - constructor.
  - constructor.
  - vm_compute. discriminate.
  - left. auto.
Qed.

Definition typedef_example := txt "typedef unsigned long Foo[3]; int x;".
Definition typedef_toks : list token := Eval vm_compute in toks_of typedef_example.
Definition dk (i : nat) := nth i typedef_toks (Tok 0 0 0 0 0 0).
Definition dks (a n : nat) := map dk (seq a n).
Example c53_hypotheses_met : text_with typedef_example [] 300 (dks 0 8) (dks 8 3) /\ world e0 w0 /\
  typedef_tokens typedef_example (dks 0 8) (dks 8 3 ++ []) false (Type_ None NoTag (txt "unsigned long") None false) (txt "Foo") [txt "3"] None.
Proof.
  split; [text_is|]. split; [exact w0_ok|].
  apply (td typedef_example false (dks 0 1) (dks 1 2) (Type_ None NoTag (txt "unsigned long") None false) [] (dk 3) (dks 4 3) [txt "3"] (dks 7 1) (dks 8 3 ++ []) None).
  - exists [], (dk 0). split; [no_gap|]. split; [reflexivity|]. left. split; reflexivity.
  - apply (native_type typedef_example (dk 1) [dk 2] (dk 3)); [dec|constructor; [dec|constructor]|solid|dec|reflexivity|dec|dec|dec].
  - exists [], (dk 1), [dk 2]. split; [reflexivity|]. split; [no_gap|]. split; [solid|dec].
  - no_gap.
  - reflexivity.
  - dec.
  - apply (as_more typedef_example [] (dk 4) [] (dk 5) [] (dk 6) [] []); [no_gap|reflexivity|no_gap|solid|repeat constructor; dec|reflexivity|dec|constructor].
  - apply (se_plain typedef_example [] (dk 7) (dk 8) (dks 9 2)); [no_gap|reflexivity|]. intros [H _]. discriminate H.
Qed.

Definition variable_example := txt ("GEN_API static int x[2] = { 1, 2 }; // hi" ++ nl ++ "int y;").
Definition variable_toks : list token := Eval vm_compute in toks_of variable_example.
Definition vk (i : nat) := nth i variable_toks (Tok 0 0 0 0 0 0).
Definition vks (a n : nat) := map vk (seq a n).
Example c54_hypotheses_met : text_with variable_example [] 300 (vks 0 15) (vks 15 3) /\ world e0 w0 /\
  variable_tokens variable_example (vks 0 15) (vks 15 3)
    (Var false (Some (txt "GEN_API")) (Some [Spec_Static]) int_ty (txt "x") [txt "2"] None (InitEq (txt "{ 1, 2 }")) (Some (txt ("// hi" ++ nl)))).
Proof.
  split; [text_is|]. split; [exact w0_ok|].
  apply (vt variable_example false [] (vks 0 1) (Some (txt "GEN_API")) (vks 1 1) [Spec_Static] (vks 2 1) int_ty [] (vks 3 1) (txt "x") (vks 4 3) [txt "2"] (vks 7 6) (InitEq (txt "{ 1, 2 }")) None (vks 13 2) (vks 15 3) (Some (txt ("// hi" ++ nl)))).
  - left. split; reflexivity.
  - exists [], (vk 0), (vk 1), (vks 2 13). split; [reflexivity|]. split; [no_gap|]. split; [reflexivity|]. split; [dec|]. split; [reflexivity|].
    split; [|split; [dec|split; [reflexivity|split; [solid|dec]]]].
    split; [repeat constructor; dec|]. split; [intros b H; discriminate H|]. intros a b H. assert (I : In 32 (txt "GEN_API")) by (rewrite H; apply in_or_app; right; left; reflexivity). revert I. dec.
  - apply (s_more variable_example [] (vk 1) Spec_Static [] []); [no_gap| |constructor]. split; [vm_compute; intuition discriminate|]. exists "static"%string. split; [vm_compute; tauto|reflexivity].
  - apply Forall_cons; [vm_compute; tauto|constructor].
  - dec.
  - apply (native_type variable_example (vk 2) [] (vk 3)); [dec|constructor|solid|dec|reflexivity|dec|dec|dec].
  - reflexivity.
  - no_gap.
  - apply (nm variable_example (vk 3) [] []); [reflexivity|left; reflexivity|constructor].
  - dec.
  - exists [], (vk 4), (vks 5 10). split; [reflexivity|]. split; [no_gap|]. split; [solid|]. split; dec.
  - exists [], (vk 7), (vks 8 7). split; [reflexivity|]. split; [no_gap|]. split; [solid|]. split; dec.
  - apply (as_more variable_example [] (vk 4) [] (vk 5) [] (vk 6) [] []); [no_gap|reflexivity|no_gap|solid|repeat constructor; dec|reflexivity|dec|constructor].
  - apply (i_assign variable_example [] (vk 7) [] (vk 8) (vks 9 4) (vk 13) (vks 14 1)); [no_gap|split; reflexivity|no_gap|solid| |reflexivity|reflexivity|dec].
    apply n_open; [left; reflexivity|]. do 3 (apply n_other; [dec|dec|dec|]). apply n_close; [left; reflexivity|]. constructor.
  - right. reflexivity.
  - left. apply (se_comment variable_example [] (vk 13) (vk 14) (vks 15 3)); [no_gap|reflexivity|reflexivity|reflexivity|dec].
Qed.

Definition enum_example := txt ("enum E : int { a, // one" ++ nl ++ " b = 2 }; int x;").
Definition enum_toks : list token := Eval vm_compute in toks_of enum_example.
Definition ek (i : nat) := nth i enum_toks (Tok 0 0 0 0 0 0).
Definition eks (a n : nat) := map ek (seq a n).
Example c55_hypotheses_met : text_with enum_example [] 300 (eks 0 13) (eks 13 3) /\ world e0 w0 /\
  enum_tokens enum_example (eks 0 13) (eks 13 3 ++ []) (Enum false None (txt "E") (Some int_ty) [Raw (txt "a,"); Raw (txt ("// one" ++ nl)); Raw (txt "b = 2")]).
Proof.
  split; [text_is|]. split; [exact w0_ok|].
  apply (et enum_example (ek 0) false [] [] None [] (ek 1) (eks 2 2) (Some int_ty) (eks 4 8) (Some [txt "a,"; txt ("// one" ++ nl); txt "b = 2"]) (eks 12 1) (eks 13 3 ++ []) None).
  - reflexivity.
  - left. split; reflexivity.
  - reflexivity.
  - no_gap.
  - reflexivity.
  - dec.
  - exists [], (ek 2), (eks 3 1). split; [reflexivity|]. split; [no_gap|]. split; [reflexivity|]. apply (native_type enum_example (ek 3) [] (ek 4)); [dec|constructor|solid|dec|reflexivity|dec|dec|dec].
  - exists [], (ek 4), (eks 5 6), (ek 11). split; [reflexivity|]. split; [no_gap|]. split; [reflexivity|]. split; [|reflexivity].
    apply (eb_entry enum_example (eks 5 2) (txt "a,") (eks 7 4)); [apply (en_comma enum_example (ek 5) [] [] (ek 6)); [reflexivity|left; reflexivity|no_gap|reflexivity]|dec|].
    apply (eb_format enum_example (ek 7) (eks 8 3)); [right; reflexivity|dec|].
    apply (eb_entry enum_example (eks 8 3) (txt "b = 2") []); [|dec|constructor].
    apply (en_last enum_example (ek 8) (eks 9 2) [] (ek 11) []); [reflexivity| |no_gap|reflexivity].
    right. exists [], (ek 9), [ek 10]. split; [reflexivity|]. split; [no_gap|]. split; [reflexivity|]. split; [reflexivity|]. repeat constructor; dec.
  - apply (se_plain enum_example [] (ek 12) (ek 13) (eks 14 2)); [no_gap|reflexivity|]. intros [H _]. discriminate H.
  - reflexivity.
Qed.
