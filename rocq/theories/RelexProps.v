(** C48: the text made for a piece of code, given back to the lexer, is read as the tokens of that code. The tokens
    ([tokens]) and the lexical grammar ([writes]) are in RelexSpec.v, the texts ([render]) in SerSpec.v. *)
From Coq Require Import String ZArith List Bool Lia ZifyBool ZifyNat.
From Verif Require Import Common HashModel Text EnumModel EnumSpec EnumProofs LexModel LexSpec AstModel AstSpec SerModel SerSpec SerProps
  RelexSpec RelexProofs RelexProofs2 RelexProofs3 RelexProofs4 RelexProofs5 RelexProofs6 RelexProofs7.
Import ListNotations.
Close Scope string_scope.
Open Scope Z_scope.

(** the macro table does not define these words, which have no token kind of their own *)
Definition no_odd_macros (ms : macros) : Prop := Forall (fun w => lookup_macro ms (txt w) = None) ["register"; "noexcept"; "delete"]%string.

(** A text written as words, numbers, strings, symbols and comments with blanks between is lexed as exactly these. *)
Theorem c48_lexical_grammar : forall src ms l fuel, writes ms src l -> l <> [] -> Z.of_nat (List.length src) + 2 <= Z.of_nat fuel ->
  exists toks, lex src fuel ms = Done (Some (toks, ms)) /\ visible (lexemes_of src toks) = l.
Proof.
  intros src ms l fuel W NE F. apply lex_writes; [|exact F|exact W|exact NE]. destruct (writes_reads ms _ _ W) as (l' & R & _). exact (reads_bytes ms _ _ _ R).
Qed.
Print Assumptions c48_lexical_grammar.

(** The text of a piece of code is lexed as the tokens of its parts in order: its keywords and punctuation, and
    for each name, type name, value or body text [x] in it the tokens [lx x] that [x] is written as. No two of
    them run together and none is split.
    (partial: preprocessor lines are not covered; line-end tokens are not counted; [lexable] excludes "&" before
    "&" or "&&" among specifiers, refuted below, and texts with the word [extern] in them) *)
Theorem c48_text_partial : forall lx ms t fuel, no_odd_macros ms -> lexable lx ms t -> tokens lx t <> [] ->
  Z.of_nat (List.length (render t)) + 2 <= Z.of_nat fuel ->
  exists toks, lex (render t) fuel ms = Done (Some (toks, ms)) /\ visible (lexemes_of (render t) toks) = tokens lx t.
Proof. intros lx ms t fuel P OK NE F. exact (tree_lex lx ms P t fuel OK NE F). Qed.
Print Assumptions c48_text_partial.

(** From the node to the tokens: what the library writes for a node that holds [t] is lexed as the tokens of [t]. *)
Theorem c48_round_trip_partial : forall lx ms h c t, holds h c t -> Z.of_nat (List.length (render t)) < 131070 ->
  no_odd_macros ms -> lexable lx ms t -> tokens lx t <> [] ->
  exists k, forall fuel, (k <= fuel)%nat -> exists text toks, code_to_strbuilder fuel h c = Done text /\
    lex text fuel ms = Done (Some (toks, ms)) /\ visible (lexemes_of text toks) = tokens lx t.
Proof.
  intros lx ms h c t H F P OK NE. destruct (c41_text_partial h c t H F) as (k & K). exists (k + List.length (render t) + 2)%nat. intros fuel G.
  destruct (c48_text_partial lx ms t fuel P OK NE) as (toks & E1 & E2); [lia|]. exists (render t), toks. split; [apply K; lia|]. split; assumption.
Qed.
Print Assumptions c48_round_trip_partial.

(** Names: a function declared with any identifiers is lexed with the same identifiers in the same places. *)
Theorem c48_names : forall ms specs ret name ps fuel,
  no_odd_macros ms -> is_name ms ret -> is_name ms name -> Forall (fun p => is_name ms (fst p) /\ is_name ms (snd p)) ps ->
  Forall (fun s => In s (map fst specifier_spelling)) specs ->
  let id x := (x, Tok_Identifier) in
  let text := render (FunctionFwd false None (Some specs) (Some (Type_ None NoTag ret None false)) name
    (map (fun p => Param (Some (Type_ None NoTag (fst p) None false)) (snd p) None) ps) None) in
  Z.of_nat (List.length text) + 2 <= Z.of_nat fuel ->
  exists toks, lex text fuel ms = Done (Some (toks, ms)) /\
    visible (lexemes_of text toks) =
      flat_map spec_tokens (filter leading specs) ++ [id ret; id name; tk "("] ++
      (match ps with [] => [] | p :: r => [id (fst p); id (snd p)] ++ flat_map (fun q => [tk ","; id (fst q); id (snd q)]) r end) ++ [tk ")"] ++
      flat_map spec_tokens (filter trails specs) ++ [tk ";"].
Proof.
  intros ms specs ret name ps fuel P R1 R2 R3 R4 id text F.
  assert (LF : forall x, is_name ms x -> item (fun x => [(x, Tok_Identifier)]) ms x).
  { intros x X. pose proof X as Y. destruct X as ((W1 & W2 & W3) & W4 & W5). split; [split|].
    - rewrite <- (app_nil_r x) at 1. apply w_word; [split; auto|right; right; right; split; auto| |constructor]. cbn. unfold word_char. lia.
    - constructor; [|constructor]. cbn [fst]. intros ->. apply (W4 (txt "extern")); [vm_compute; auto 100|reflexivity].
    - destruct x as [|c u]; [contradiction|]. exists c, u. split; auto. apply Forall_inv in W1. cbn [hd] in W3. unfold word_char, spacep in *. split; [lia|]. cbn. lia. }
  assert (TY : forall x, is_name ms x -> typ_ok (fun x => [(x, Tok_Identifier)]) ms (Type_ None NoTag x None false)).
  { intros x X. unfold typ_ok. cbn. repeat (split; auto). discriminate. }
  destruct (c48_text_partial (fun x => [(x, Tok_Identifier)]) ms (FunctionFwd false None (Some specs) (Some (Type_ None NoTag ret None false)) name
    (map (fun p => Param (Some (Type_ None NoTag (fst p) None false)) (snd p) None) ps) None) fuel P) as (toks & E1 & E2); auto.
  - cbn [lexable]. split; [exact I|]. split; [exact R4|]. split; [apply TY; auto|]. split; [apply LF; auto|]. split; [|exact I].
    clear text F. induction R3 as [|p r [X Y] _ IH]; cbn [map]; constructor; auto. split; [apply TY; auto|]. split; [apply LF; auto|exact I].
  - cbn [tokens tks tko app]. unfold parens. intros E. apply app_eq_nil in E. destruct E as [_ E]. discriminate E.
  - exists toks. split; auto. subst text. rewrite E2. cbn [tokens tks tko app some_specs]. unfold parens, end_tokens, typ_tokens, some_specs. cbn [tks tko app ty_attrs ty_tag ty_name ty_specs ty_pack].
    f_equal. f_equal. f_equal. rewrite <- app_assoc. cbn [app]. f_equal. f_equal.
    destruct ps as [|p r]; [reflexivity|]. cbn [map params_tokens]. rewrite <- ?app_assoc. unfold param_tokens, typ_tokens. cbn [app p_type p_name p_value tko tks ty_attrs ty_tag ty_name ty_specs ty_pack]. do 2 f_equal. f_equal. clear. induction r as [|q r IH]; [reflexivity|]. cbn [map flat_map]. rewrite IH. reflexivity.
Qed.
Print Assumptions c48_names.

(** ** witnesses *)
(** the tokens of a text, from the lexer itself *)
Definition lexed (x : list Z) : list lexeme := match lex x 200 [] with Done (Some (toks, _)) => lexemes_of x toks | _ => [] end.

Definition leafb (x : list Z) : bool := check 99 [] x (lexed x) && forallb (fun l => negb (leq (fst l) (txt "extern"))) (lexed x).
Lemma leafb_ok x : leafb x = true -> leaf lexed [] x.
Proof.
  unfold leafb. intros H. apply andb_true_iff in H. destruct H as [H1 H2]. split; [apply (check_ok [] 99); exact H1|]. apply Forall_forall. intros l I E. rewrite forallb_forall in H2. specialize (H2 l I). rewrite E in H2. discriminate.
Qed.
Ltac leaves := match goal with
  | |- _ /\ _ => split; [leaves|leaves]
  | |- True => exact I
  | |- leaf _ _ _ => apply leafb_ok; vm_compute; reflexivity
  | |- item _ _ _ => split; [leaves|leaves]
  | |- opens _ => eexists _, _; split; [vm_compute; reflexivity|]; split; [lia|]; unfold spacep; cbn; lia
  | |- sealed _ => exists (txt "return a + b"), 59; split; [reflexivity|cbn; auto 9]
  | |- typ_ok _ _ _ => unfold typ_ok; cbn [oall ty_attrs ty_name ty_specs ty_pack]; leaves
  | |- param_ok _ _ _ => unfold param_ok; cbn [oall p_type p_name p_value]; leaves
  | |- Forall _ [] => apply Forall_nil
  | |- Forall _ _ => apply Forall_cons; [leaves|leaves]
  | |- specs_fine _ => unfold specs_fine; leaves
  | |- In _ _ => vm_compute; auto 40
  | |- _ -> _ => discriminate
  end.
(** The header of C41, made through the API, meets the hypotheses; its tokens. *)
Example c48_hypotheses_met : no_odd_macros [] /\ lexable lexed [] header_tree /\ tokens lexed header_tree <> [] /\
  map fst (tokens lexed header_tree) = map txt ["export"; "namespace"; "gen"; "{"; "struct"; "Foo"; ";"; "static"; "inline"; "int"; "add"; "("; "int"; "a"; ","; "int"; "b"; "="; "1"; ")"; ";";
    "struct"; "Bar"; ":"; "public"; "int"; "{"; "bool"; "flag"; "="; "1"; ";"; "}"; ";"; "int"; "add"; "("; "int"; "a"; ","; "int"; "b"; "="; "1"; ")"; "{"; "return"; "a"; "+"; "b"; ";"; "}"; "}"]%string.
Proof.
  split; [repeat constructor|]. split; [|split; [discriminate|vm_compute; reflexivity]].
  unfold header_tree, int_t, bool_t. cbn [lexable oall]. unfold end_ok. cbn [oall]. leaves.
Qed.

(** Specifiers "&" "&" on a type: the text is "&&", one token of another kind. *)
Theorem c48_ref_ref_refuted :
  let t := Typedef false (Type_ None NoTag (txt "T") (Some [Spec_Ref; Spec_Ref]) false) (txt "R") None in
  render t = txt ("typedef T &&  R;" ++ nl) /\ map fst (lexed (render t)) = map txt ["typedef"; "T"; "&&"; "R"; ";"]%string /\
  map fst (tokens lexed t) = map txt ["typedef"; "T"; "&"; "&"; "R"; ";"]%string.
Proof. vm_compute. auto. Qed.
Print Assumptions c48_ref_ref_refuted.

(** A body text that does not end a token runs into the next one. *)
Theorem c48_raw_text_refuted :
  let t := Block [Raw (txt "a"); Raw (txt "b")] in
  render t = txt "ab" /\ map fst (lexed (render t)) = map txt ["ab"]%string /\ map fst (tokens lexed t) = map txt ["a"; "b"]%string.
Proof. vm_compute. auto. Qed.
Print Assumptions c48_raw_text_refuted.
