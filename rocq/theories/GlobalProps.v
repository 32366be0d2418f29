(** C63: parse_global_body and parse_namespace.  The bodies as sequences of tokens ([members], [namespace_tokens]), the content
    they declare and when two contents differ in their white space only ([tree_like]) are in GlobalSpec.v. *)
From Coq Require Import String ZArith List Bool Lia ZifyBool ZifyNat.
From Verif Require Import Common Text HashModel EnumModel EnumSpec LexModel LexSpec LexProps StripSpec AstModel AstSpec UpfrontModel UpfrontSpec SerModel SerSpec SerProps
  ParseModel ParseSpec ParseProofs3 ParseProofs10 ParseProofs11 ParseProps FnModel FnSpec FnProps GlobalModel GlobalSpec GlobalProofs11.
Import ListNotations.
Close Scope string_scope.
Open Scope Z_scope.

Definition parse_body (gl : globals) src toks beyond ms e fuel := parse_global_body src toks beyond ms e gl fuel.
Definition parse_nspace (gl : globals) src toks beyond ms e fuel := parse_namespace src toks beyond ms e gl fuel.
(** the library's own nodes for line ends, #else, #endif and the labels of access levels: they have a parent, and so are copied when they are appended *)
Definition own_node (e : env) (h : heap) (c : Z) (k : codetype) : Prop := kind_is h c [k] /\ n_parent (h_node h c) <> 0 /\ c <> e_invalid e.
Definition own_label (e : env) (h : heap) (c : Z) (k : codetype) (t : string) : Prop := own_node e h c k /\ n_name (h_node h c) = txt t ++ txt ":" ++ NL.
Definition own_nodes (e : env) (gl : globals) (h : heap) : Prop :=
  own_node e h (g_newline gl) CT_NewLine /\ own_node e h (g_else gl) CT_Preprocess_Else /\ own_node e h (g_endif gl) CT_Preprocess_EndIf /\
  own_label e h (g_public gl) CT_Access_Public "public" /\ own_label e h (g_protected gl) CT_Access_Protected "protected" /\ own_label e h (g_private gl) CT_Access_Private "private".
(** a text, the tokens of which are [toks], given to a library ready to parse it *)
Definition ready (text : list Z) (beyond : list token) (ms : macros) (e : env) (gl : globals) (fuel : nat) (h : heap) (toks : list token) : Prop :=
  text_with text ms fuel toks [] /\ (forall ms', lex text fuel ms = Done (Some (toks, ms')) -> plain_specifiers ms') /\
  world e h /\ own_nodes e gl h /\ (2 <= length beyond)%nat.
Lemma ready_ms : forall text beyond ms e gl fuel h toks, ready text beyond ms e gl fuel h toks -> exists ms', lex text fuel ms = Done (Some (toks, ms')) /\ plain_specifiers ms'.
Proof. intros text beyond ms e gl fuel h toks ((_ & _ & _ & _ & _ & (ms' & L)) & P & _). rewrite app_nil_r in L. exists ms'. auto. Qed.

(** C63: the members of a body, to any depth of namespaces, extern blocks and classes, give a new body whose entries are, in their
    order, those members: line ends, comments, directives, using declarations, typedefs, enums, variables, functions, classes and structs.
    (partial: white space inside type names and default values is not kept; not modelled as members: unions, templates,
    constructors, destructors, operators, friends, modules, static_assert, macros; the cases refuted below are excluded) *)
Theorem c63_global_body_partial : forall text beyond ms e gl fuel h toks l,
  ready text beyond ms e gl fuel h toks -> members text beyond InNamespace toks [] l ->
  exists h' c l', parse_text (parse_body gl) text beyond ms e fuel h = Done (h', c) /\ holds h' c (Block l') /\ Forall2 tree_like l l' /\ h_top h <= c /\ unchanged h h'.
Proof.
  intros text beyond ms e gl fuel h toks l X T. destruct (ready_ms _ _ _ _ _ _ _ _ X) as (ms' & L & NM). destruct X as ((B & NR & MF & F & FT & _) & _ & W & G & BY). rewrite app_nil_r in FT.
  destruct (global_text text toks beyond ms ms' e gl fuel h B NR MF L F FT W G NM BY l T) as (h' & c & l' & K1 & K2 & K3 & K4 & _ & K5).
  exists h', c, l'. auto.
Qed.
Print Assumptions c63_global_body_partial.
(** ... and a namespace gives a new namespace of that name around such a body *)
Theorem c63_namespace_partial : forall text beyond ms e gl fuel h toks t,
  ready text beyond ms e gl fuel h toks -> namespace_tokens text beyond toks [] t ->
  exists h' c t', parse_text (parse_nspace gl) text beyond ms e fuel h = Done (h', c) /\ holds h' c t' /\ tree_like t t' /\ h_top h <= c /\ unchanged h h'.
Proof.
  intros text beyond ms e gl fuel h toks t X T. destruct (ready_ms _ _ _ _ _ _ _ _ X) as (ms' & L & NM). destruct X as ((B & NR & MF & F & FT & _) & _ & W & G & BY). rewrite app_nil_r in FT.
  destruct (namespace_text text toks beyond ms ms' e gl fuel h B NR MF L F FT W G NM BY t T) as (h' & c & t' & K1 & K2 & K3 & K4 & _ & K5).
  exists h', c, t'. auto.
Qed.
Print Assumptions c63_namespace_partial.
(** ... which C41 writes: the texts of the members, one behind the other *)
Theorem c63_rewrite_partial : forall text beyond ms e gl fuel h toks l,
  ready text beyond ms e gl fuel h toks -> members text beyond InNamespace toks [] l ->
  exists h' c l', parse_text (parse_body gl) text beyond ms e fuel h = Done (h', c) /\ Forall2 tree_like l l' /\
    (Z.of_nat (length (render (Block l'))) < 131070 -> exists k, forall n, (k <= n)%nat -> code_to_strbuilder n h' c = Done (concat (map render l'))).
Proof.
  intros text beyond ms e gl fuel h toks l X T. destruct (c63_global_body_partial _ _ _ _ _ _ _ _ _ X T) as (h' & c & l' & K1 & K2 & K3 & _).
  exists h', c, l'. split; [exact K1|]. split; [exact K3|]. intros Z. exact (c41_text_partial h' c (Block l') K2 Z).
Qed.
Print Assumptions c63_rewrite_partial.

(** ** Where the full statement fails *)
(** [export], behind any members: the keyword is never eaten, the call does not return *)
Theorem c63_export_refuted : forall text beyond ms e gl fuel h raw k R l x,
  ready text beyond ms e gl fuel h (raw ++ k :: R) -> members text beyond InNamespace raw (k :: R) l -> kind Tok_Module_Export k ->
  parse_text (parse_body gl) text beyond ms e fuel h <> Done x.
Proof.
  intros text beyond ms e gl fuel h raw k R l x X T K. destruct (ready_ms _ _ _ _ _ _ _ _ X) as (ms' & L & NM). destruct X as ((B & NR & MF & F & FT & _) & _ & W & G & BY). rewrite app_nil_r in FT.
  exact (export_text text (raw ++ k :: R) beyond ms ms' e gl fuel h B NR MF L F FT W G NM BY raw k R l x eq_refl T K).
Qed.
Print Assumptions c63_export_refuted.

Definition own (k : codetype) := set_parent 1 (AstModel.set_type k zero_node).
Definition hg := {| h_node := fun i => if i =? 9 then set_name (txt "...") (set_ret 8 (own CT_Parameters)) else if i =? 10 then own CT_NewLine
  else if i =? 11 then own CT_Preprocess_Else else if i =? 12 then own CT_Preprocess_EndIf
  else if i =? 13 then set_name (txt ("private:" ++ nl)) (own CT_Access_Private) else if i =? 14 then set_name (txt ("protected:" ++ nl)) (own CT_Access_Protected)
  else if i =? 15 then set_name (txt ("public:" ++ nl)) (own CT_Access_Public) else zero_node; h_top := 16 |}.
Definition gg := {| g_newline := 10; g_else := 11; g_endif := 12; g_varadic := 9; g_private := 13; g_protected := 14; g_public := 15 |}.
Definition earlier := Eval vm_compute in toks_of (txt "int x; int y;").
Definition gagain (t : string) : run (list Z) := rbind (parse_text (parse_body gg) (txt t) earlier [] e0 600 hg) (fun '(h, c) => code_to_strbuilder 300 h c).
(** variables in front of a constructor are written as constructors of their type *)
Theorem c63_content_changed_refuted :
  gagain "int x; A::A(int a) : x(a) { }" = out ("int(  int x );" ++ nl ++ "A::A(  int a ) : x(a)" ++ nl ++ "{" ++ nl ++ nl ++ "}") /\
  gagain "namespace { int x; }" = out ("namespace {" ++ nl ++ "{" ++ nl ++ "int x;" ++ nl ++ nl ++ "}") /\
  gagain "int f(int, int);" = out "int f( int, int  );".
Proof. vm_compute. auto. Qed.
Print Assumptions c63_content_changed_refuted.
(** valid declarations that are rejected, or that make the parser read in front of its tokens *)
Theorem c63_rejected_refuted :
  gagain "thread_local int x;" = Done (txt "Invalid Code!") /\ gagain "volatile int x;" = Done (txt "Invalid Code!") /\ gagain "int Parser::Parse() { }" = Done (txt "Invalid Code!") /\
  gagain "enum E : int;" = Undefined.
Proof. vm_compute. auto. Qed.
Print Assumptions c63_rejected_refuted.

(** ** The hypotheses are met *)
Definition body_example := txt "using A = int; namespace N { static int x = 3; int f(int a) { a; } } extern ""C"" { int y; }".
Definition body_toks : list token := Eval vm_compute in toks_of body_example.
Definition bk (i : nat) := nth i body_toks (Tok 0 0 0 0 0 0).
Definition bks (a n : nat) := map bk (seq a n).
Lemma b_int : forall i k r, native (bk i) -> ~ fmt k -> ~ native k -> upto body_example (bk i) (bk i) = txt "int" -> type_tokens body_example [bk i] (k :: r) int_ty.
Proof. intros i k r N F K E. apply (native_type body_example (bk i) [] k r (txt "int")); [exact N|constructor|exact F|exact K|symmetry; exact E|dec|dec|dec]. Qed.
Definition body_tree : list tree :=
  [Using false None (txt "A") (Some (int_ty, [])) None;
   Namespace false (txt "N") [Var false None (Some [Spec_Static]) int_ty (txt "x") [] None (InitEq (txt "3")) None;
     match func_tree (Func false None [] int_ty (txt "f") [Param (Some int_ty) (txt "a") None] (Some [txt "a;"]) None) with Some t => t | None => NewLine end];
   Linkage (txt "C") [Var false None None int_ty (txt "y") [] None NoInit None]].
Lemma hg_ok : world e0 hg. Proof. unfold world, valid. cbn. lia. Qed.
Lemma gg_ok : own_nodes e0 gg hg. Proof. repeat split; try (vm_compute; intuition discriminate). Qed.
Example c63_hypotheses_met : ready body_example earlier [] e0 gg 300 hg body_toks /\ members body_example earlier InNamespace body_toks [] body_tree.
Proof.
  split.
  - split; [text_is|]. split; [intros ms' H; assert (E : lex body_example 300 [] = Done (Some (body_toks, []))) by (vm_compute; reflexivity); rewrite E in H; injection H as <-; exact no_macros|].
    split; [exact hg_ok|]. split; [exact gg_ok|apply Nat.leb_le; reflexivity].
  - change body_toks with (bks 0 5 ++ bk 5 :: [] ++ bks 6 1 ++ [] ++ bk 7 :: (bks 8 6 ++ bks 14 10 ++ []) ++ bk 24 :: bk 25 :: [] ++ bk 26 :: bk 27 :: (bks 28 3 ++ []) ++ [bk 31]).
    apply mb_simple; [|apply mb_namespace; [reflexivity|reflexivity|constructor| |dec|constructor|reflexivity| |reflexivity|apply mb_linkage; [reflexivity|constructor|reflexivity|reflexivity|dec|reflexivity| |reflexivity|constructor]]].
    + apply m_using; [reflexivity|]. apply (u_type body_example false (bks 0 1) [] (bk 1) [] (bk 2) (bks 3 1) int_ty [] [] (bks 4 1) (bks 5 27 ++ earlier) None).
      * exists [], (bk 0). split; [no_gap|]. split; [reflexivity|]. left. split; reflexivity.
      * no_gap.
      * reflexivity.
      * dec.
      * no_gap.
      * split; reflexivity.
      * apply (b_int 3 (bk 4)); [dec|solid|dec|reflexivity].
      * constructor.
      * apply (se_plain body_example [] (bk 4) (bk 5)); [no_gap|reflexivity|dec].
    + apply (nm body_example (bk 6) [] []); [reflexivity|left; reflexivity|constructor].
    + apply mb_simple; [|apply mb_simple; [|constructor]]; apply m_declared.
      * apply (dc_variable body_example earlier false [] None (bks 8 1) [Spec_Static] [] (bks 9 1) int_ty [] (bks 10 1) (txt "x") [] [] (bks 11 2) (InitEq (txt "3")) None (bks 13 1) (bks 14 18) None (bk 8) (bks 9 5)).
        -- reflexivity.
        -- apply (s_more body_example [] (bk 8) Spec_Static [] []); [no_gap| |constructor]. split; [vm_compute; intuition discriminate|]. exists "static"%string. split; [vm_compute; tauto|reflexivity].
        -- apply Forall_cons; [vm_compute; tauto|constructor].
        -- dec.
        -- no_gap.
        -- intros k r E. injection E as <- _. solid.
        -- apply (b_int 9 (bk 10)); [dec|solid|dec|reflexivity].
        -- reflexivity.
        -- no_gap.
        -- apply (nm body_example (bk 10) [] []); [reflexivity|left; reflexivity|constructor].
        -- dec.
        -- exists [], (bk 11), (bks 12 2). split; [reflexivity|]. split; [no_gap|]. split; [solid|]. split; dec.
        -- exists [], (bk 11), (bks 12 2). split; [reflexivity|]. split; [no_gap|]. split; [solid|]. split; dec.
        -- constructor.
        -- apply (i_assign body_example [] (bk 11) [] (bk 12) [] (bk 13) []); [no_gap|split; reflexivity|no_gap|solid| |reflexivity|reflexivity|dec].
           apply n_other; [dec|dec|dec|]. constructor.
        -- right. reflexivity.
        -- left. apply (se_plain body_example [] (bk 13) (bk 14)); [no_gap|reflexivity|dec].
        -- reflexivity.
        -- vm_compute. tauto.
        -- split; [|intros E; discriminate E]. apply (nc_plain body_example (bks 9 5) (bk 14) (bk 15)); dec.
        -- repeat constructor; dec.
        -- exists [], (bk 11), (bk 12), (bk 13), (bks 14 18 ++ earlier). split; [reflexivity|]. split; [no_gap|]. split; [solid|]. left. split; dec.
      * apply (dc_function body_example earlier false [] None [] [] [] (bks 14 1) int_ty [] (bks 15 1) (txt "f") (bks 16 4) [Param (Some int_ty) (txt "a") None] [] [] (bks 20 4) [] (Some [txt "a;"]) (bks 24 8) None (bk 14) (bks 15 9)).
        -- reflexivity.
        -- constructor.
        -- constructor.
        -- no_gap.
        -- intros k r E. injection E as <- _. solid.
        -- apply (b_int 14 (bk 15)); [dec|solid|dec|reflexivity].
        -- reflexivity.
        -- no_gap.
        -- apply (nm body_example (bk 15) [] []); [reflexivity|left; reflexivity|constructor].
        -- dec.
        -- unfold FnSpec.solid. repeat constructor; dec.
        -- apply (ps_some body_example [] (bk 16) (bks 17 2) (Param (Some int_ty) (txt "a") None) (bks 19 1)); [no_gap|reflexivity| |apply (mp_end body_example [] (bk 19)); [no_gap|reflexivity]].
           apply (pm body_example (bks 17 1) int_ty (bks 18 1) (txt "a") [] None); [apply (b_int 17 (bk 18)); [dec|solid|dec|reflexivity]|reflexivity| |reflexivity].
           right. exists [], (bk 18). split; [reflexivity|]. split; [no_gap|]. split; reflexivity.
        -- constructor.
        -- apply (fe_body body_example (bks 20 4)). apply (bt_text body_example [] (bk 20) (bk 21) (bks 22 1) (bk 23)); [no_gap|reflexivity| |reflexivity|dec].
           unfold in_braces. do 2 (apply n_other; [dec|dec|dec|]). constructor.
        -- dec.
        -- reflexivity.
        -- reflexivity.
        -- vm_compute. tauto.
        -- split; [|intros E; discriminate E]. apply (nc_plain body_example [] (bk 14) (bk 15)); dec.
        -- repeat constructor; dec.
        -- exists [], (bk 16), (bk 17), (bk 18), (bks 19 13 ++ earlier). split; [reflexivity|]. split; [no_gap|]. split; [solid|]. split; dec.
    + apply mb_simple; [|constructor]; apply m_declared.
      apply (dc_variable body_example earlier false [] None [] [] [] (bks 28 1) int_ty [] (bks 29 1) (txt "y") [] [] [] NoInit None (bks 30 1) (bks 31 1) None (bk 28) (bks 29 2)).
      * reflexivity.
      * constructor.
      * constructor.
      * dec.
      * no_gap.
      * intros k r E. injection E as <- _. solid.
      * apply (b_int 28 (bk 29)); [dec|solid|dec|reflexivity].
      * reflexivity.
      * no_gap.
      * apply (nm body_example (bk 29) [] []); [reflexivity|left; reflexivity|constructor].
      * dec.
      * exists [], (bk 30), []. split; [reflexivity|]. split; [no_gap|]. split; [solid|]. split; dec.
      * exists [], (bk 30), []. split; [reflexivity|]. split; [no_gap|]. split; [solid|]. split; dec.
      * constructor.
      * constructor.
      * right. reflexivity.
      * left. apply (se_plain body_example [] (bk 30) (bk 31)); [no_gap|reflexivity|dec].
      * reflexivity.
      * vm_compute. tauto.
      * split; [apply (nc_other body_example (bks 28 3) (bk 31)); dec|]. intros _. exists (bks 28 3), (bk 31). split; [reflexivity|]. split; dec.
      * repeat constructor; dec.
      * exists [], (bk 30), (bk 31), (nth 0 earlier (bk 0)), (tl earlier). split; [reflexivity|]. split; [no_gap|]. split; [solid|]. left. split; dec.
Qed.
