(** C57: the text written for a declaration, parsed again, gives a node with the same content, whatever text follows.
    Which declarations is said by [plain] (RoundSpec.v), in terms of the texts of their parts; [render] (SerSpec.v) is
    the text, [holds] (SerSpec.v) says that a node has the content, [writes] (RelexSpec.v) is the lexical grammar. *)
From Coq Require Import String ZArith List Bool Lia ZifyBool ZifyNat.
From Verif Require Import Common Text HashModel EnumModel EnumSpec LexModel LexSpec AstModel AstSpec UpfrontModel UpfrontSpec SerModel SerSpec SerProps
  RelexSpec RelexProofs5 RelexProofs7 RelexProps ParseModel ParseSpec ParseProps RoundSpec RoundProofs8.
Import ListNotations.
Close Scope string_scope.
Open Scope Z_scope.

(** [rest] is written as some tokens, the first of which is no comment *)
Definition follows_on (ms : macros) (rest : list Z) : Prop := exists e l, writes ms rest (e :: l) /\ snd e <> Tok_Comment.
(** the parser for a declaration *)
Definition parser_for (t : tree) : list Z -> list token -> list token -> macros -> env -> nat -> M Z :=
  match t with Using _ _ _ _ _ | UsingNamespace _ => parse_using | Typedef _ _ _ _ => parse_typedef | Var _ _ _ _ _ _ _ _ _ => parse_variable | _ => parse_enum end.

(** The content of a declaration (using, typedef, variable, enum) survives writing and parsing: names, types with
    their template arguments and specifiers, array sizes, bit field, initializer, entries, comment, export.
    (partial: no attributes or parameter packs; an enum's entries have no comments between them; the cases refuted
    below are excluded; [~ runs_off] excludes texts on which the lexer reads past the end, C38) *)
Theorem c57_round_trip_partial : forall ms t rest beyond e fuel h,
  plain ms t -> follows_on ms rest -> no_odd_macros ms -> Forall macro_fits ms -> ~ runs_off (render t ++ rest) ->
  Z.of_nat (List.length (render t ++ rest)) + 2 <= Z.of_nat fuel -> world e h ->
  exists h' c, parse_text (parser_for t) (render t ++ rest) beyond ms e fuel h = Done (h', c) /\ holds h' c t /\ h_top h <= c /\ unchanged h h'.
Proof.
  intros ms t rest beyond e fuel h P (x & l & W & NC) NO MF NR F WD. apply (round_trip ms t rest (x :: l) beyond e fuel h NO P W); auto. exists x, l. auto.
Qed.
Print Assumptions c57_round_trip_partial.

(** A node is written, the text parsed, and the new node written: both texts are the same. *)
Theorem c57_text_again_partial : forall ms t rest beyond e fuel h c0,
  holds h c0 t -> Z.of_nat (List.length (render t)) < 131070 ->
  plain ms t -> follows_on ms rest -> no_odd_macros ms -> Forall macro_fits ms -> ~ runs_off (render t ++ rest) ->
  Z.of_nat (List.length (render t ++ rest)) + 2 <= Z.of_nat fuel -> world e h ->
  exists k, forall n, (k <= n)%nat -> exists text h' c,
    code_to_strbuilder n h c0 = Done text /\ parse_text (parser_for t) (text ++ rest) beyond ms e fuel h = Done (h', c) /\ code_to_strbuilder n h' c = Done text.
Proof.
  intros ms t rest beyond e fuel h c0 H0 FT P FO NO MF NR F W. destruct (c57_round_trip_partial ms t rest beyond e fuel h P FO NO MF NR F W) as (h' & c & K1 & K2 & _).
  destruct (c41_text_partial h c0 t H0 FT) as (k0 & T0). destruct (c41_text_partial h' c t K2 FT) as (k1 & T1). exists (k0 + k1)%nat. intros n LE. exists (render t), h', c. split; [apply T0; lia|]. split; [exact K1|]. apply T1. lia.
Qed.
Print Assumptions c57_text_again_partial.

(** Parsing tells declarations apart: two plain declarations with the same text have the same content. *)
Theorem c57_unambiguous_partial : forall ms t t' beyond e h,
  plain ms t -> plain ms t' -> render t = render t' -> parser_for t = parser_for t' -> no_odd_macros ms -> Forall macro_fits ms ->
  ~ runs_off (render t ++ txt "x") -> world e h -> lookup_macro ms (txt "x") = None ->
  exists h' c, holds h' c t /\ holds h' c t' /\ parse_text (parser_for t) (render t ++ txt "x") beyond ms e (List.length (render t) + 3) h = Done (h', c).
Proof.
  intros ms t t' beyond e h P P' ER EP NO MF NR W NX.
  assert (FO : follows_on ms (txt "x")). { exists (txt "x", Tok_Identifier), []. split; [|discriminate]. apply RoundProofs4.name_writes. split; [|split; auto]. - split; [repeat constructor; unfold word_char; cbn; lia|]. split; [discriminate|]. unfold digit. cbn. lia. - intros kw HI E. assert (G : forallb (fun kw => negb (crc32 kw =? crc32 (txt "x"))) toktype_table = true) by (vm_compute; reflexivity). rewrite forallb_forall in G. specialize (G kw HI). lia. }
  assert (L : Z.of_nat (List.length (render t ++ txt "x")) + 2 <= Z.of_nat (List.length (render t) + 3)) by (rewrite app_length; cbn; lia).
  destruct (c57_round_trip_partial ms t (txt "x") beyond e _ h P FO NO MF NR L W) as (h1 & c1 & A1 & A2 & _). rewrite ER in NR, L. destruct (c57_round_trip_partial ms t' (txt "x") beyond e _ h P' FO NO MF NR L W) as (h2 & c2 & B1 & B2 & _).
  rewrite <- ER, <- EP in B1. rewrite A1 in B1. injection B1 as E1 E2. subst h2 c2. exists h1, c1. auto.
Qed.
Print Assumptions c57_unambiguous_partial.

(** ** Where the full statement fails: [round t] is the text of [t], and what is written for the node parsed from it *)
Definition round (t : tree) : list Z * run (list Z) :=
  (render t, rbind (parse_text (parser_for t) (render t ++ txt more) [] [] e0 300 h0) (fun '(h, c) => code_to_strbuilder 300 h c)).
Definition int_t := Type_ None NoTag (txt "int") None false.
Definition gives (a b : string) := (txt (a ++ nl), out b).
(** the attribute of a using declaration or of an enum declared in advance is written before the keyword, but read
    behind it; an exported enum is not parsed *)
Theorem c57_attribute_refuted :
  round (Using false (Some (txt "GEN_API")) (txt "A") (Some (int_t, [])) None) = gives "GEN_API using A = int;" "GEN_API using GEN_API;" /\
  round (EnumFwd false (Some (txt "GEN_API")) (txt "A") None None) = gives "GEN_API enum A;" "GEN_API enum (null);" /\
  round (Enum true None (txt "A") None [Raw (txt "a")]) = gives ("export enum A" ++ nl ++ "{" ++ nl ++ "a" ++ nl ++ "};") "enum (null);".
Proof. vm_compute. auto. Qed.
Print Assumptions c57_attribute_refuted.
(** a string at the end of a value in parentheses loses its closing quote; a comment behind the last entry gains a line
    each time; a variable with the specifier register loses its name *)
Theorem c57_text_lost_refuted :
  round (Var false None None int_t (txt "x") [] None (InitParen (txt """s""")) None) = gives "int x( ""s""  );" "int x( ""s  );" /\
  round (Enum false None (txt "A") None [Raw (txt "a,"); Raw (txt ("// c" ++ nl))]) = gives ("enum A" ++ nl ++ "{" ++ nl ++ "a,// c" ++ nl ++ nl ++ "};") ("enum A" ++ nl ++ "{" ++ nl ++ "a,// c" ++ nl ++ nl ++ nl ++ "};") /\
  round (Var false None (Some [Spec_Register]) int_t (txt "x") [] None NoInit None) = gives "register int x;" "register int;".
Proof. vm_compute. auto. Qed.
Print Assumptions c57_text_lost_refuted.

(** ** witnesses *)
Definition phraseb (x : list Z) : bool :=
  RelexProofs7.check 99 [] x (lexed x) && forallb (fun l => negb (RelexProofs7.leq (fst l) (txt "extern"))) (lexed x) && negb (existsb (Z.eqb 10) x) && negb (hd 32 x =? 32) && negb (last x 32 =? 32) &&
  negb (snd (last (lexed x) ([], 0)) =? Tok_String) && match lexed x with [] => false | _ => true end.
Lemma phraseb_ok x : phraseb x = true -> phrase [] x (lexed x).
Proof.
  unfold phraseb. rewrite !andb_true_iff. intros ((((((H1 & H2) & H3) & H4) & H5) & H6) & H7). split; [|split].
  - split; [apply (RelexProofs7.check_ok [] 99); exact H1|]. split; [destruct (lexed x); [discriminate|discriminate]|]. split; [|split].
    + intros HI. assert (existsb (Z.eqb 10) x = true) by (apply existsb_exists; exists 10; auto). rewrite H in H3. discriminate.
    + apply Forall_forall. intros l I E. rewrite forallb_forall in H2. specialize (H2 l I). rewrite E in H2. discriminate.
    + destruct x as [|c u]; [discriminate|]. exists c, u. split; auto. cbn [hd] in H4. lia.
  - destruct x as [|c u] using rev_ind; [discriminate|]. exists u, c. split; auto. rewrite last_last in H5. lia.
  - lia.
Qed.
Lemma phraseb_is x l : phraseb x = true -> lexed x = l -> phrase [] x l.
Proof. intros H <-. apply phraseb_ok. exact H. Qed.
Definition nameb (w : list Z) : bool := RelexProofs4.wordb w && forallb (fun kw => negb (crc32 kw =? crc32 w)) toktype_table.
Lemma nameb_ok w : nameb w = true -> is_name [] w.
Proof.
  unfold nameb. rewrite andb_true_iff. intros (H1 & H2). split; [apply RelexProofs4.wordb_ok; auto|]. split; auto. intros kw HI. rewrite forallb_forall in H2. specialize (H2 kw HI). lia.
Qed.
Definition map_type := txt "N::Map<int, B<C>>".
Definition var_tree := Var true None (Some [Spec_Static]) (Type_ None NoTag map_type (Some [Spec_Const; Spec_Ref]) false) (txt "x") [txt "n + 1"] None (InitEq (txt "{ f(1, 2), 3 }")) (Some (txt ("// hi" ++ nl))).
Definition enum_tree_ := Enum false None (txt "E") (Some int_t) [Raw (txt "a,"); Raw (txt "b = 2,"); Raw (txt "c")].
Lemma tidy_by t : forallb (fun c => negb (existsb (Z.eqb c) [9; 10; 11; 12; 13; 34; 39; 47; 92])) t = true -> negb (hd 0 t =? 32) = true ->
  (fix go (l : list Z) := match l with a :: ((b :: _) as r) => negb ((a =? 32) && (b =? 32)) && go r | _ => true end) t = true -> tidy t.
Proof.
  intros H1 H2 H3. split; [|split].
  - apply Forall_forall. intros c HI I. rewrite forallb_forall in H1. specialize (H1 c HI). assert (existsb (Z.eqb c) [9; 10; 11; 12; 13; 34; 39; 47; 92] = true) by (apply existsb_exists; exists c; split; auto; lia). rewrite H in H1. discriminate.
  - intros b ->. discriminate H2.
  - intros a. clear H1 H2. revert t H3. induction a as [|c a IH]; intros t H3 b ->; [discriminate H3|]. change ((c :: a) ++ [32; 32] ++ b) with (c :: (a ++ [32; 32] ++ b)) in H3. destruct (a ++ [32; 32] ++ b) as [|d q] eqn:E; [destruct a; discriminate|]. apply andb_prop in H3. destruct H3 as (_ & H3). apply (IH (d :: q) H3 b). symmetry. exact E.
Qed.
Definition lexemes_0 := Eval vm_compute in lexed (txt "int").
Definition lexemes_1 := Eval vm_compute in lexed (txt "n + 1").
Definition lexemes_2 := Eval vm_compute in lexed (txt "{ f(1, 2), 3 }").
Example c57_hypotheses_met : plain [] var_tree /\ plain [] enum_tree_ /\ follows_on [] (txt "int y;") /\ no_odd_macros [] /\ Forall macro_fits [] /\
  ~ runs_off (render var_tree ++ txt "int y;") /\ ~ runs_off (render enum_tree_ ++ txt "int y;") /\ world e0 w0.
Proof.
  assert (PI : plain_typ [] int_t).
  { split; [reflexivity|]. split; [reflexivity|]. split; [|exact I]. exists (lexemes_0). split; [apply phraseb_is; vm_compute; reflexivity|]. split; [apply tidy_by; reflexivity|]. right. split; [reflexivity|]. repeat constructor; vm_compute; discriminate. }
  split; [|split; [|split; [|split; [repeat constructor|split; [constructor|split; [|split; [|exact w0_ok]]]]]]].
  - apply pl_var.
    + split; [discriminate|]. split; [repeat constructor; vm_compute; tauto|]. split; [vm_compute; discriminate|exact I].
    + split; [reflexivity|]. split; [reflexivity|]. split.
      * eexists. split; [apply (phraseb_is map_type ((txt "N", Tok_Identifier) :: [] ++ (txt "::", Tok_Access_StaticSymbol) :: (txt "Map", Tok_Identifier) :: (txt "<", Tok_Operator) :: (txt "int", Tok_Type_int) :: (txt ",", Tok_Comma) :: (txt "B", Tok_Identifier) :: (txt "<", Tok_Operator) :: (txt "C", Tok_Identifier) :: [(txt ">>", Tok_Operator)])); vm_compute; reflexivity|]. split; [apply tidy_by; reflexivity|]. left.
        
        apply nw_more; [left; reflexivity|reflexivity|]. apply nw_one. right. eexists _, _. split; [reflexivity|]. split; [reflexivity|].
        apply aw_other; [vm_compute; tauto|]. apply aw_other; [vm_compute; tauto|]. apply aw_other; [vm_compute; tauto|]. apply aw_open; [reflexivity|discriminate|]. apply aw_other; [vm_compute; tauto|]. apply aw_end2. reflexivity.
      * split; [discriminate|]. split; [repeat constructor; vm_compute; tauto|]. split; [vm_compute; discriminate|]. cbn. split; [|exact I]. intros (H & _). discriminate H.
    + apply nameb_ok. vm_compute. reflexivity.
    + constructor; [|constructor]. exists (lexemes_1). split; [apply phraseb_is; vm_compute; reflexivity|]. repeat constructor; vm_compute; discriminate.
    + exact I.
    + exists (lexemes_2). split; [apply phraseb_is; vm_compute; reflexivity|]. vm_compute. auto 20.
    + right. reflexivity.
    + left. reflexivity.
    + exists (txt " hi"). split; [reflexivity|]. split; [repeat constructor; unfold byte_ok; vm_compute; congruence|]. vm_compute. intuition discriminate.
  - apply pl_enum; [apply nameb_ok; vm_compute; reflexivity|exact PI|].
    apply (ew_comma [] (txt "a") [(txt "a", Tok_Identifier)]); [apply phraseb_is; vm_compute; reflexivity|exists (txt "a"), []; auto|].
    apply (ew_comma [] (txt "b = 2") [(txt "b", Tok_Identifier); (txt "=", Tok_Operator); (txt "2", Tok_Number)]); [apply phraseb_is; vm_compute; reflexivity| |].
    + exists (txt "b"), [(txt "=", Tok_Operator); (txt "2", Tok_Number)]. split; auto. right. eexists _, _. split; [reflexivity|]. split; [reflexivity|]. repeat constructor; discriminate.
    + apply (ew_last [] (txt "c") [(txt "c", Tok_Identifier)]); [apply phraseb_is; vm_compute; reflexivity|exists (txt "c"), []; auto].
  - exists (txt "int", Tok_Type_int), [(txt "y", Tok_Identifier); (txt ";", Tok_Statement_End)]. split; [apply (RelexProofs7.check_ok [] 99); vm_compute; reflexivity|discriminate].
  - apply text_ok. vm_compute. reflexivity.
  - apply text_ok. vm_compute. reflexivity.
Qed.
