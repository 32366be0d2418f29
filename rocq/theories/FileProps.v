(** C65: a whole file - declarations, comments and empty lines, in any order and number - is written, parsed, and is the
    same: same members in the same order, same text.  Which members is said by [member] (FileSpec.v), in terms of the texts
    of their parts; [file_text] is the text, [holds] (SerSpec.v) says that a node has the content, [writes] (RelexSpec.v) is
    the lexical grammar. *)
From Coq Require Import String ZArith List Bool Lia ZifyBool ZifyNat.
From Verif Require Import Common Text HashModel EnumModel EnumSpec LexModel LexSpec AstModel AstSpec UpfrontModel UpfrontSpec SerModel SerSpec SerProps
  RelexSpec RelexProofs5 RelexProofs7 RelexProps ParseModel ParseSpec ParseProps FnSpec FnProps GlobalModel GlobalSpec GlobalProps RoundSpec RoundProofs3 RoundProps FileSpec FileProofs FileProofs5.
Import ListNotations.
Close Scope string_scope.
Open Scope Z_scope.

(** a library ready to parse a text of this length: no macro is named like a specifier, the tokens an earlier text left
    are [beyond] *)
Definition set_up (text : list Z) (beyond : list token) (ms : macros) (e : env) (gl : globals) (fuel : nat) (h : heap) : Prop :=
  no_odd_macros ms /\ plain_specifiers ms /\ Forall macro_fits ms /\ quiet beyond /\ Z.of_nat (List.length text) + 2 <= Z.of_nat fuel /\ world e h /\ own_nodes e gl h.

(** The text of a file of such members parses as a body with exactly these members, in this order.
    (partial: functions only of the forms [int f(...);] and [int f(...) { ... }]; no namespaces, classes with bodies, directives or exported declarations; not the cases refuted
    below; [~ runs_off] excludes texts on which the lexer reads past the end, C38) *)
Theorem c65_file_partial : forall l beyond ms e gl fuel h,
  begun l -> Forall (member ms) l -> (forall ls, writes ms (file_text l) ls -> no_outside ls) -> ~ runs_off (file_text l) -> set_up (file_text l) beyond ms e gl fuel h ->
  exists h' c, parse_text (parse_body gl) (file_text l) beyond ms e fuel h = Done (h', c) /\ holds h' c (Block l) /\ h_top h <= c /\ unchanged h h'.
Proof. intros l beyond ms e gl fuel h BG F NO NR (OM & PS & MF & Q & FU & W & G). eapply file_round; eauto. apply NO. apply file_writes; auto. Qed.
Print Assumptions c65_file_partial.

(** Writing what was parsed gives the text of the file again - and so do parsing that text and writing, any number of times. *)
Theorem c65_file_text_partial : forall l beyond ms e gl fuel h,
  begun l -> Forall (member ms) l -> (forall ls, writes ms (file_text l) ls -> no_outside ls) -> ~ runs_off (file_text l) -> set_up (file_text l) beyond ms e gl fuel h ->
  Z.of_nat (List.length (file_text l)) < 131070 ->
  exists h' c k, parse_text (parse_body gl) (file_text l) beyond ms e fuel h = Done (h', c) /\ forall n, (k <= n)%nat -> code_to_strbuilder n h' c = Done (file_text l).
Proof.
  intros l beyond ms e gl fuel h BG F NO NR SU FT. destruct (c65_file_partial l beyond ms e gl fuel h BG F NO NR SU) as (h' & c & K1 & K2 & _). destruct (c41_text_partial h' c (Block l) K2 FT) as (k & T). exists h', c, k. split; [exact K1|]. exact T.
Qed.
Print Assumptions c65_file_text_partial.

(** A body with such members - parsed before, or built - is written, and the text parsed: the new body is written as the same text. *)
Theorem c65_file_again_partial : forall l beyond ms e gl fuel h c0,
  holds h c0 (Block l) -> begun l -> Forall (member ms) l -> (forall ls, writes ms (file_text l) ls -> no_outside ls) -> ~ runs_off (file_text l) -> set_up (file_text l) beyond ms e gl fuel h ->
  Z.of_nat (List.length (file_text l)) < 131070 ->
  exists k, forall n, (k <= n)%nat -> exists text h' c,
    code_to_strbuilder n h c0 = Done text /\ parse_text (parse_body gl) text beyond ms e fuel h = Done (h', c) /\ code_to_strbuilder n h' c = Done text /\ holds h' c (Block l).
Proof.
  intros l beyond ms e gl fuel h c0 H0 BG F NO NR SU FT. destruct (c65_file_partial l beyond ms e gl fuel h BG F NO NR SU) as (h' & c & K1 & K2 & K3 & K4).
  destruct (c41_text_partial h c0 (Block l) H0 FT) as (k0 & T0). destruct (c41_text_partial h' c (Block l) K2 FT) as (k1 & T1). exists (k0 + k1)%nat. intros n LE. exists (file_text l), h', c. split; [apply T0; lia|]. split; [exact K1|]. split; [apply T1; lia|]. exact K2.
Qed.
Print Assumptions c65_file_again_partial.

(** Two files with the same text have the same content. *)
Theorem c65_unambiguous_partial : forall l l' beyond ms e gl fuel h,
  file_text l = file_text l' -> begun l -> begun l' -> Forall (member ms) l -> Forall (member ms) l' -> (forall ls, writes ms (file_text l) ls -> no_outside ls) ->
  ~ runs_off (file_text l) -> set_up (file_text l) beyond ms e gl fuel h ->
  exists h' c, parse_text (parse_body gl) (file_text l) beyond ms e fuel h = Done (h', c) /\ holds h' c (Block l) /\ holds h' c (Block l').
Proof.
  intros l l' beyond ms e gl fuel h E BG BG' F F' NO NR SU. destruct (c65_file_partial l beyond ms e gl fuel h BG F NO NR SU) as (h1 & c1 & A1 & A2 & _). rewrite E in NO, NR, SU.
  destruct (c65_file_partial l' beyond ms e gl fuel h BG' F' NO NR SU) as (h2 & c2 & B1 & B2 & _). rewrite <- E, A1 in B1. injection B1 as E1 E2. subst h2 c2. exists h1, c1. auto.
Qed.
Print Assumptions c65_unambiguous_partial.

(** ** Where it fails: what is read back differs from what was written *)
(** the comment of a using declaration gains a line end each time, that of a class slashes; a namespace gains an empty line *)
Theorem c65_text_grows_refuted :
  gagain ("using A = int;  // c" ++ nl) = out ("using A = int;  // c" ++ nl) /\
  gagain ("class A;  // c" ++ nl) = out ("class A; // // c" ++ nl) /\
  gagain ("namespace N" ++ nl ++ "{" ++ nl ++ "int x;" ++ nl ++ nl ++ "}" ++ nl) = out ("namespace N" ++ nl ++ "{" ++ nl ++ "int x;" ++ nl ++ nl ++ nl ++ "}").
Proof. vm_compute. auto. Qed.
Print Assumptions c65_text_grows_refuted.
(** empty lines at the beginning are lost; a variable whose value looks like a constructor is not read, nor is one with
    its value in parentheses *)
Theorem c65_lost_refuted :
  gagain (nl ++ nl ++ "int a;") = out "int a;" /\ gagain "int x = C::C(3);" = Undefined /\ gagain "int x( 3 );" = Undefined.
Proof. vm_compute. auto. Qed.
Print Assumptions c65_lost_refuted.

(** a function whose first parameter is one word in front of a comma is taken for a variable, and not read *)
Theorem c65_function_as_variable_refuted :
  gagain ("int f( int, A b)" ++ nl ++ "{" ++ nl ++ "return 1;" ++ nl ++ "}" ++ nl) = Undefined /\
  gagain ("int f( int a, A b)" ++ nl ++ "{" ++ nl ++ "return 1;" ++ nl ++ "}" ++ nl) = out ("int f( int a,  A b)" ++ nl ++ "{" ++ nl ++ "return 1;" ++ nl ++ "}").
Proof. vm_compute. auto. Qed.
Print Assumptions c65_function_as_variable_refuted.

(** ** The hypotheses are met *)
Definition comment_1 := txt ("// hello" ++ nl).
Definition body_1 := txt ("if ( n == 0 ) { return 1; }" ++ nl ++ "return f(n, 2);").
Definition file_example : list tree :=
  [UsingNamespace (txt "N"); NewLine; Raw comment_1; Using false None (txt "A") (Some (int_t, [])) None; NewLine; NewLine;
   Typedef false int_t (txt "B") (Some comment_1); Var false None (Some [Spec_Static]) int_t (txt "x") [txt "n + 1"] None (InitEq (txt "{ f(1, 2), 3 }")) None; Raw comment_1;
   Var false None None int_t (txt "y") [] None NoInit (Some comment_1); Enum false None (txt "E") (Some int_t) [Raw (txt "a,"); Raw (txt "b = 2,"); Raw (txt "c")]; EnumFwd false None (txt "F") None None;
   ClassFwd false None (txt "C") None; StructFwd false None (txt "D") (Some comment_1);
   FunctionFwd false None (Some [Spec_Static; Spec_Inline]) (Some int_t) (txt "f") [Param (Some int_t) (txt "a") (Some (txt "g(1, 2)")); Param (Some int_t) [] None] (Some comment_1);
   FunctionFwd false None None (Some int_t) (txt "g") [] None;
   Function None None (Some int_t) (txt "h") [Param (Some int_t) (txt "n") None] [Raw body_1]].
Lemma comment_1_ok : line_comment_text comment_1.
Proof. exists (txt " hello"). split; [reflexivity|]. split; [repeat constructor; unfold byte_ok; vm_compute; congruence|]. vm_compute. intuition discriminate. Qed.
Lemma name_ok s : nameb (txt s) = true -> is_name [] (txt s). Proof. apply nameb_ok. Qed.
Lemma int_ok : plain_typ [] int_t.
Proof.
  split; [reflexivity|]. split; [reflexivity|]. split; [|exact I]. exists lexemes_0. split; [apply phraseb_is; vm_compute; reflexivity|]. split; [apply tidy_by; reflexivity|]. right. split; [reflexivity|]. repeat constructor; vm_compute; discriminate.
Qed.
Lemma int_writes l : writes [] (txt "int") l -> l <> [] -> l = lexemes_0.
Proof. intros W N. rewrite <- (lx_ok [] _ _ W N). apply lx_ok; [|discriminate]. destruct int_ok as (_ & _ & (l0 & ((W0 & N0 & _) & _) & _) & _). apply (RelexProofs7.check_ok [] 99). vm_compute. reflexivity. Qed.
Lemma example_members : Forall (member []) file_example.
Proof.
  pose proof comment_1_ok as CO. pose proof int_ok as PI. unfold file_example. repeat (apply Forall_cons; [|]); try apply Forall_nil; try (apply fm_line); try (apply fm_comment; exact CO); try (apply fm_class); try (apply fm_struct; [|exact CO]); try (apply name_ok; vm_compute; reflexivity).
  - apply fm_namespace, pl_namespace, name_ok. vm_compute. reflexivity.
  - apply fm_using, pl_using; [apply name_ok; vm_compute; reflexivity|exact PI|constructor|exact I].
  - apply fm_typedef, pl_typedef; [exact PI|reflexivity|apply name_ok; vm_compute; reflexivity|exact CO].
  - apply fm_variable; [apply pl_var| |discriminate].
    + split; [discriminate|]. split; [repeat constructor; vm_compute; tauto|]. split; [vm_compute; discriminate|exact I].
    + exact PI.
    + apply name_ok. vm_compute. reflexivity.
    + constructor; [|constructor]. exists lexemes_1. split; [apply phraseb_is; vm_compute; reflexivity|]. repeat constructor; vm_compute; discriminate.
    + exact I.
    + exists lexemes_2. split; [apply phraseb_is; vm_compute; reflexivity|]. vm_compute. auto 20.
    + right. reflexivity.
    + left. reflexivity.
    + exact I.
    + split; [reflexivity|]. split; [repeat constructor; vm_compute; tauto|]. eexists _, _. split; [reflexivity|]. vm_compute. tauto.
  - apply fm_variable; [|split; [reflexivity|]|discriminate].
    + apply pl_var; [exact I|exact PI|apply name_ok; vm_compute; reflexivity|constructor|exact I|exact I|left; reflexivity|left; reflexivity|exact CO].
    + intros e l W. apply int_writes in W; [|discriminate]. injection W as -> _. vm_compute. tauto.
  - apply fm_enum; [apply pl_enum; [apply name_ok; vm_compute; reflexivity|exact PI|]| |exact I].
    + apply (ew_comma [] (txt "a") [(txt "a", Tok_Identifier)]); [apply phraseb_is; vm_compute; reflexivity|exists (txt "a"), []; auto|].
      apply (ew_comma [] (txt "b = 2") [(txt "b", Tok_Identifier); (txt "=", Tok_Operator); (txt "2", Tok_Number)]); [apply phraseb_is; vm_compute; reflexivity| |].
      * exists (txt "b"), [(txt "=", Tok_Operator); (txt "2", Tok_Number)]. split; auto. right. eexists _, _. split; [reflexivity|]. split; [reflexivity|]. repeat constructor; discriminate.
      * apply (ew_last [] (txt "c") [(txt "c", Tok_Identifier)]); [apply phraseb_is; vm_compute; reflexivity|exists (txt "c"), []; auto].
    + intros x HI. cbn [In] in HI. destruct HI as [E|[E|[E|[]]]]; injection E as <-; vm_compute; intuition discriminate.
  - apply fm_enum; [apply pl_enum_fwd; [apply name_ok; vm_compute; reflexivity|exact I|exact I]|reflexivity|exact I].
  - apply fm_function; [|exact PI| |apply name_ok; vm_compute; reflexivity| | |exact CO].
    + split; [discriminate|]. split; [repeat constructor; vm_compute; tauto|vm_compute; discriminate].
    + split; [reflexivity|]. split; [repeat constructor; vm_compute; tauto|]. eexists _, _. split; [reflexivity|]. vm_compute. tauto.
    + repeat constructor; exists int_t; (split; [reflexivity|]; split; [exact PI|]; split); try (right; apply name_ok; vm_compute; reflexivity); try (left; reflexivity); try exact I.
      exists (lexed (txt "g(1, 2)")). split; [apply phraseb_is; [vm_compute; reflexivity|reflexivity]|]. split; [apply tidy_by; reflexivity|]. split; [vm_compute; intuition discriminate|]. split; [vm_compute; intuition discriminate|]. vm_compute. intuition discriminate.
    + intros l W. destruct l as [|x l]; [constructor|]. rewrite <- (lx_ok [] _ _ W) by discriminate. vm_compute. repeat constructor; discriminate.
  - apply fm_function; [exact I|exact PI|split; [reflexivity|]|apply name_ok; vm_compute; reflexivity|constructor| |exact I].
    + intros e l W. apply int_writes in W; [|discriminate]. injection W as -> _. vm_compute. tauto.
    + intros l W. destruct l as [|x l]; [constructor|]. pose proof (lx_ok [] _ _ W ltac:(discriminate)) as E. discriminate E.
  - apply fm_definition; [exact I|exact PI|split; [reflexivity|]|apply name_ok; vm_compute; reflexivity| | |].
    + intros e l W. apply int_writes in W; [|discriminate]. injection W as -> _. vm_compute. tauto.
    + repeat constructor; exists int_t; (split; [reflexivity|]; split; [exact PI|]; split); [right; apply name_ok; vm_compute; reflexivity|exact I].
    + intros l W. destruct l as [|x l]; [constructor|]. rewrite <- (lx_ok [] _ _ W) by discriminate. vm_compute. repeat constructor; discriminate.
    + exists (lexed body_1). split; [apply (RelexProofs7.check_ok [] 99); vm_compute; reflexivity|]. split; [vm_compute; discriminate|]. split; [vm_compute; repeat constructor; discriminate|]. split; [eexists _, _; split; [reflexivity|split; discriminate]|].
      split; [exists (txt ("if ( n == 0 ) { return 1; }" ++ nl ++ "return f(n, 2)")), 59; split; [reflexivity|vm_compute; auto]|]. split; [vm_compute; discriminate|vm_compute; intuition discriminate].
Qed.
Fixpoint outsideb (l : list lexeme) : bool :=
  match l with
  | q :: ((n :: o :: _) as r) => negb ((snd n =? Tok_Identifier) && (snd o =? Tok_Paren_Open) && ((snd q =? Tok_Access_StaticSymbol) || (snd q =? Tok_Operator) && (hd 0 (fst q) =? 126))) && outsideb r
  | _ => true
  end.
Lemma outsideb_ok l : outsideb l = true -> no_outside l.
Proof.
  intros H a. revert l H. induction a as [|x a IH]; intros l H q n o b -> K1 K2.
  - cbn [app outsideb] in H. apply andb_prop in H. destruct H as (H & _). split; [lia|]. intros (X1 & X2). lia.
  - apply (IH (a ++ q :: n :: o :: b)) with (b := b) (n := n) (o := o); auto. cbn [app] in H. destruct (a ++ q :: n :: o :: b) as [|y r] eqn:E; [reflexivity|]. destruct r as [|z r]; [reflexivity|]. cbn [outsideb] in *. apply andb_prop in H. apply H.
Qed.
Example c65_hypotheses_met : begun file_example /\ Forall (member []) file_example /\ (forall ls, writes [] (file_text file_example) ls -> no_outside ls) /\ ~ runs_off (file_text file_example) /\
  set_up (file_text file_example) earlier [] e0 gg 600 hg /\ Z.of_nat (List.length (file_text file_example)) < 131070.
Proof.
  split; [eexists _, _; split; [reflexivity|discriminate]|]. split; [exact example_members|]. split; [|split; [apply text_ok; vm_compute; reflexivity|split; [|vm_compute; reflexivity]]].
  - intros ls W. destruct ls as [|x ls]; [intros [|? ?] ? ? ? ? E; discriminate E|]. rewrite <- (lx_ok [] _ _ W) by discriminate.
    apply outsideb_ok. vm_compute. reflexivity.
  - split; [repeat constructor|]. split; [intros s t _; reflexivity|]. split; [constructor|]. split; [|split; [vm_compute; discriminate|split; [exact hg_ok|exact gg_ok]]]. eexists _, _, _. split; [reflexivity|]. split; discriminate.
Qed.
