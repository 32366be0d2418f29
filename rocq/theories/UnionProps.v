(** C68: parse_union.  Unions as sequences of tokens ([union_tokens]), the content they declare and when two contents differ in
    their white space only ([tree_like]) are in GlobalSpec.v. *)
From Coq Require Import String ZArith List Bool Lia ZifyBool ZifyNat.
From Verif Require Import Common Text HashModel EnumModel EnumSpec LexModel LexSpec LexProps StripSpec AstModel AstSpec UpfrontModel UpfrontSpec SerModel SerSpec SerProps
  ParseModel ParseSpec ParseProofs3 ParseProofs10 ParseProofs11 ParseProps FnModel FnSpec FnProps GlobalModel GlobalSpec GlobalProps ClassProofs4 ClassProps UnionProofs2 UnionProofs3.
Import ListNotations.
Close Scope string_scope.
Open Scope Z_scope.

(** C68: a union, exported or not, with its attribute, a name or none, and any members - variables, enums, comments, blank lines,
    directives, unions to any depth - gives a new node that declares the same.
    (partial: white space inside type names and default values is not kept; not members here: classes and structs (which the
    function reads), macros; the cases refuted below are excluded) *)
Theorem c68_union_partial : forall text beyond ms e gl fuel h toks t,
  ready text beyond ms e gl fuel h toks -> union_tokens text beyond toks [] t ->
  exists h' c t', parse_text (parse_union_of gl) text beyond ms e fuel h = Done (h', c) /\ holds h' c t' /\ tree_like t t' /\ h_top h <= c /\ unchanged h h'.
Proof.
  intros text beyond ms e gl fuel h toks t X T. destruct (ready_ms _ _ _ _ _ _ _ _ X) as (ms' & L & NM). destruct X as ((B & NR & MF & F & FT & _) & _ & W & G & BY). rewrite app_nil_r in FT.
  destruct (union_text text toks beyond ms ms' e gl fuel h B NR MF L F FT W G BY t T) as (h' & c & t' & K1 & K2 & K3 & K4 & _ & K5).
  exists h', c, t'. auto.
Qed.
Print Assumptions c68_union_partial.
(** ... which C41 writes *)
Theorem c68_rewrite_partial : forall text beyond ms e gl fuel h toks t,
  ready text beyond ms e gl fuel h toks -> union_tokens text beyond toks [] t ->
  exists h' c t', parse_text (parse_union_of gl) text beyond ms e fuel h = Done (h', c) /\ tree_like t t' /\
    (Z.of_nat (length (render t')) < 131070 -> exists k, forall n, (k <= n)%nat -> code_to_strbuilder n h' c = Done (render t')).
Proof.
  intros text beyond ms e gl fuel h toks t X T. destruct (c68_union_partial _ _ _ _ _ _ _ _ _ X T) as (h' & c & t' & K1 & K2 & K3 & _).
  exists h', c, t'. split; [exact K1|]. split; [exact K3|]. intros Z. exact (c41_text_partial h' c t' K2 Z).
Qed.
Print Assumptions c68_rewrite_partial.

(** ** Where the full statement fails *)
Definition uagain (t : string) : run (list Z) :=
  rbind (parse_text (parse_union_of gg) (txt t) earlier [] e0 600 hg) (fun '(h, c) => code_to_strbuilder 300 h c).
(** an access label in a union: the function never returns, whatever the library holds and however many steps it is given *)
Theorem c68_never_returns_refuted : forall fuel h x, parse_text (parse_union_of gg) (txt "union U { public: };") earlier [] e0 fuel h <> Done x.
Proof. exact never_returns. Qed.
Print Assumptions c68_never_returns_refuted.
(** ... and goes on for as long as it is given steps, until the heap is full: six hundred turns are not refused *)
Theorem c68_label_refuted : uagain "union U { public: };" = NoFuel.
Proof. vm_compute. reflexivity. Qed.
Print Assumptions c68_label_refuted.
(** what is no member is kept as a failed one: a function, a stray semicolon *)
Theorem c68_other_members_refuted :
  uagain "union U { int f(); };" = out (braced "union U" ("int f( Invalid Code!  );" ++ nl)) /\
  uagain "union U { int x; ; };" = out (braced "union U" ("int x;" ++ nl ++ "; ;;" ++ nl)).
Proof. vm_compute. auto. Qed.
Print Assumptions c68_other_members_refuted.
(** forward declarations, variables of the union, an unclosed union, a comment in front of the semicolon: read past the tokens *)
Theorem c68_reads_past_end_refuted :
  uagain "union U;" = Undefined /\ uagain "union U { int x; } u;" = Undefined /\ uagain "union U { int x;" = Undefined /\
  uagain ("union U { int x; } // a" ++ nl ++ ";") = Undefined.
Proof. vm_compute. auto. Qed.
Print Assumptions c68_reads_past_end_refuted.

(** ** The hypotheses are met *)
Definition union_example := txt ("export union U { int x; union { int y; }; // c" ++ nl ++ "};").
Definition union_toks : list token := Eval vm_compute in toks_of union_example.
Definition uk (i : nat) := nth i union_toks (Tok 0 0 0 0 0 0).
Definition uks (a n : nat) := map uk (seq a n).
Definition union_declared : tree :=
  Union true None (txt "U")
    [Var false None None int_ty (txt "x") [] None NoInit None;
     Union false None [] [Var false None None int_ty (txt "y") [] None NoInit None];
     Raw (txt ("// c" ++ nl))].
Lemma u_int : forall i k r, native (uk i) -> ~ fmt k -> ~ native k -> upto union_example (uk i) (uk i) = txt "int" -> type_tokens union_example [uk i] (k :: r) int_ty.
Proof. intros i k r N F K E. apply (native_type union_example (uk i) [] k r (txt "int")); [exact N|constructor|exact F|exact K|symmetry; exact E|dec|dec|dec]. Qed.
Ltac u_variable i n nx name :=
  apply (us_variable union_example earlier (uk i) (uks (i + 1) 2)); [dec|];
  apply (vt union_example false [] [] None [] [] (uks i 1) int_ty [] (uks (i + 1) 1) (txt name) [] [] [] NoInit None (uks (i + 2) 1) (uks (i + 3) n) None);
  [left; split; reflexivity|constructor|constructor|constructor|dec|apply (u_int i (uk (i + 1))); [dec|solid|dec|reflexivity]|reflexivity|no_gap
  |apply (nm union_example (uk (i + 1)) [] []); [reflexivity|left; reflexivity|constructor]|dec
  |exists [], (uk (i + 2)), []; split; [reflexivity|]; split; [no_gap|]; split; [solid|]; split; dec
  |exists [], (uk (i + 2)), []; split; [reflexivity|]; split; [no_gap|]; split; [solid|]; split; dec
  |constructor|constructor|right; reflexivity|left; apply (se_plain union_example [] (uk (i + 2)) nx); [no_gap|reflexivity|dec]].
Example c68_hypotheses_met : ready union_example earlier [] e0 gg 300 hg union_toks /\ union_tokens union_example earlier union_toks [] union_declared.
Proof.
  split.
  - split; [text_is|]. split; [intros ms' H; assert (E : lex union_example 300 [] = Done (Some (union_toks, []))) by (vm_compute; reflexivity); rewrite E in H; injection H as <-; exact no_macros|].
    split; [exact hg_ok|]. split; [exact gg_ok|apply Nat.leb_le; reflexivity].
  - apply (un union_example earlier true (uks 0 1) (uks 1 2) None (txt "U") (uk 3) (uks 4 11) (uk 15) (uk 16) []).
    + right. split; [reflexivity|]. exists [], (uk 0). split; [reflexivity|]. split; [no_gap|reflexivity].
    + apply (uh_named union_example (uk 1) [] None [] (uk 2)); [reflexivity|constructor|no_gap|reflexivity].
    + reflexivity.
    + apply (um_simple union_example earlier (uks 4 3) (uks 7 8)); [u_variable 4%nat 10%nat (uk 7) "x"%string|].
      apply (um_union union_example earlier (uks 7 1) None [] (uk 8) (uks 9 3) (uk 12) (uk 13) (uks 14 1)).
      * apply (uh_unnamed union_example (uk 7) [] None []); [reflexivity|constructor|no_gap].
      * repeat constructor; dec.
      * reflexivity.
      * apply (um_simple union_example earlier (uks 9 3) []); [u_variable 9%nat 5%nat (uk 12) "y"%string|constructor].
      * unfold in_braces. do 3 (apply n_other; [dec|dec|dec|]). constructor.
      * reflexivity.
      * reflexivity.
      * apply (um_simple union_example earlier (uks 14 1) []); [apply (us_comment union_example earlier (uk 14)); reflexivity|constructor].
    + reflexivity.
    + reflexivity.
Qed.
