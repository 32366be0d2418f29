(** C67: parse_friend.  The declarations as sequences of tokens ([friend_type], [friend_function]), the content they
    declare and the nodes with that content ([friend_at]) are in FriendSpec.v.  As in FnProps.v, [raw] are the tokens of
    the declaration, [R] those behind it in the text, [beyond] those left behind them in the token buffer. *)
From Coq Require Import String ZArith List Bool Lia ZifyBool ZifyNat.
From Verif Require Import Common Text HashModel EnumModel EnumSpec LexModel LexSpec LexProps StripSpec AstModel AstSpec UpfrontModel UpfrontSpec SerModel SerSpec SerProofs SerProps
  ParseModel ParseSpec ParseProofs3 ParseProofs10 ParseProofs11 ParseProps FnModel FnSpec FnProofs3 FnProofs4 FnProofs5 FnProps FriendModel FriendSpec FriendProofs FriendProofs2.
Import ListNotations.
Close Scope string_scope.
Open Scope Z_scope.

Definition parse_fr (varadic : Z) src toks beyond ms e fuel := parse_friend src toks beyond ms e varadic fuel.
(** a new node with the content [f], up to the spacing of type names and default values *)
Definition befriends (text : list Z) beyond ms e varadic fuel h (f : friend_) : Prop :=
  exists h' c f', parse_text (parse_fr varadic) text beyond ms e fuel h = Done (h', c) /\ friend_at h' c f' /\ friend_respaced f f' /\ h_top h <= c /\ unchanged h h'.

(** C67: friend and a type gives a new node with that type.
    (partial: types as in C52; not in front of a name, which begins a function) *)
Theorem c67_type_partial : forall text beyond ms ms' e varadic fuel h raw R ty,
  text_with text ms fuel raw R -> lex text fuel ms = Done (Some (raw ++ R, ms')) -> plain_specifiers ms' -> world e h -> friend_type text raw R ty ->
  befriends text beyond ms e varadic fuel h (FriendType ty).
Proof.
  intros text beyond ms ms' e varadic fuel h raw R ty (B & NR & MF & F & FT & _) L NM W T.
  destruct (type_text text (raw ++ R) beyond ms ms' e varadic fuel h B NR MF L F FT W raw R ty eq_refl T) as (h' & c & f' & K1 & K2 & K3 & K4 & _ & K5).
  exists h', c, f'. auto.
Qed.
Print Assumptions c67_type_partial.

(** A friend with a specifier other than these, behind any of the others, gives the invalid code and leaves the library as it
    was, if the parser returns at all: its report of the error may read past the text (C47). *)
Theorem c67_specifier_refused : forall text beyond ms ms' e varadic fuel h kf pre sp g b s r h' c,
  text_with text ms fuel (kf :: pre ++ g ++ b :: r) [] -> lex text fuel ms = Done (Some (kf :: pre ++ g ++ b :: r, ms')) ->
  kind Tok_Decl_Friend kf -> spec_tokens text pre sp -> Forall (fun s => In s [Spec_Inline; Spec_ForceInline]) sp -> Z.of_nat (length sp) <= 14 ->
  gap g -> spelled text b s -> ~ In s [Spec_Const; Spec_Inline; Spec_ForceInline] ->
  parse_text (fun src toks beyond ms e fuel => parse_friend src toks beyond ms e varadic fuel) text beyond ms e fuel h = Done (h', c) -> c = e_invalid e /\ h' = h.
Proof.
  intros text beyond ms ms' e varadic fuel h kf pre sp g b s r h' c (B & NR & MF & F & FT & _) L KF SP VS CAP G SB NI X. rewrite app_nil_r in FT.
  apply (refused_text text (kf :: pre ++ g ++ b :: r) beyond ms ms' e varadic fuel h B NR MF L F FT kf pre sp g b s r h' c eq_refl KF SP VS CAP G SB); [|exact X].
  unfold friend_specifier. destruct (existsb (Z.eqb s) _) eqn:EX; [|reflexivity]. apply existsb_exists in EX. destruct EX as (x & IN & EQ). apply Z.eqb_eq in EQ. subst x. contradiction.
Qed.
Print Assumptions c67_specifier_refused.
(** ... and it does return: a virtual friend *)
Example c67_refused_met : parse_text (fun src toks beyond ms e fuel => parse_friend src toks beyond ms e 0 fuel) (txt "friend inline virtual int f(); int g(); int hh();") [] [] e0 300 h0 = Done (h0, e_invalid e0).
Proof. vm_compute. reflexivity. Qed.

(** A defined function gives a new node with the function: its specifiers, return type, name, parameters and body.  A
    token has to follow, in the text or, where the text ends, in the buffer: the parser looks at it.
    (partial: as C62; the specifiers in front of the return type are [inline] and [forceinline]; unlike in C62 the return
    type may begin with const; operators are not covered) *)
Theorem c67_definition_partial : forall text beyond ms ms' e varadic fuel h raw R f l,
  text_with text ms fuel raw R -> lex text fuel ms = Done (Some (raw ++ R, ms')) -> plain_specifiers ms' -> world e h ->
  friend_function text raw (R ++ beyond) f -> f_body f = Some l -> next_token beyond R (fun k => t_type k <> Tok_Decl_Operator) ->
  befriends text beyond ms e varadic fuel h (FriendFn f).
Proof.
  intros text beyond ms ms' e varadic fuel h raw R f l (B & NR & MF & F & FT & _) L NM W T FB NX.
  destruct (definition_text text (raw ++ R) beyond ms ms' e varadic fuel h B NR MF L F FT W NM raw R f l eq_refl T FB NX) as (h' & c & f' & K1 & K2 & K3 & K4 & _ & K5).
  exists h', c, f'. auto.
Qed.
Print Assumptions c67_definition_partial.

(** So does a declared function, where a token [o] other than [;] follows and the text behind it is longer than that up
    to it: behind the [;] of the declaration the parser looks for another one and reports that it finds none. *)
Theorem c67_declaration_partial : forall text beyond ms ms' e varadic fuel h first raw g o R f,
  text_with text ms fuel (first :: raw) (g ++ o :: R) -> lex text fuel ms = Done (Some ((first :: raw) ++ g ++ o :: R, ms')) -> plain_specifiers ms' -> world e h ->
  friend_function text (first :: raw) ((g ++ o :: R) ++ beyond) f -> f_body f = None -> gap g -> ~ fmt o ->
  ~ In (t_type o) [Tok_Statement_End; Tok_Decl_Operator] -> 2 * t_start o - t_start first + 2 <= Z.of_nat (length text) + 1 ->
  befriends text beyond ms e varadic fuel h (FriendFn f).
Proof.
  intros text beyond ms ms' e varadic fuel h first raw g o R f (B & NR & MF & F & FT & _) L NM W T FB G K NO RD.
  destruct (declaration_text text ((first :: raw) ++ g ++ o :: R) beyond ms ms' e varadic fuel h B NR MF L F FT W NM first raw g o R f eq_refl T FB G K NO RD) as (h' & c & f' & K1 & K2 & K3 & K4 & _ & K5).
  exists h', c, f'. auto.
Qed.
Print Assumptions c67_declaration_partial.

(** ... which C41 writes. *)
Theorem c67_rewrite_partial : forall text beyond ms e varadic fuel h f, befriends text beyond ms e varadic fuel h f ->
  exists h' c f', parse_text (parse_fr varadic) text beyond ms e fuel h = Done (h', c) /\ friend_respaced f f' /\
    forall tr, friend_tree f' = Some tr -> Z.of_nat (length (render tr)) < 131070 -> exists k, forall n, (k <= n)%nat -> code_to_strbuilder n h' c = Done (render tr).
Proof.
  intros text beyond ms e varadic fuel h f (h' & c & f' & K1 & K2 & K3 & _). exists h', c, f'. split; [exact K1|]. split; [exact K3|]. intros tr E. exact (c41_text_partial h' c tr (friend_holds h' c f' tr K2 E)).
Qed.
Print Assumptions c67_rewrite_partial.
Theorem c67_rewrite_type_partial : forall text beyond ms e varadic fuel h ty, befriends text beyond ms e varadic fuel h (FriendType ty) ->
  exists h' c ty', parse_text (parse_fr varadic) text beyond ms e fuel h = Done (h', c) /\ typ_respaced ty ty' /\
    (~ In 59 (typ_text ty') -> Z.of_nat (length (typ_text ty')) < 131000 ->
     exists k, forall n, (k <= n)%nat -> code_to_strbuilder n h' c = Done (txt "friend " ++ typ_text ty' ++ txt ";" ++ NL)).
Proof.
  intros text beyond ms e varadic fuel h ty (h' & c & [t|f] & K1 & K2 & K3 & _); cbn in K3; [|contradiction]. exists h', c, t. split; [exact K1|]. split; [exact K3|]. intros N F. apply friend_type_text; [exact K2|exact N|].
  unfold fits. rewrite !app_length. change (length (txt "friend ")) with 7%nat. change (length (txt ";")) with 1%nat. change (length NL) with 1%nat. change FMT_ROOM with 131071. lia.
Qed.
Print Assumptions c67_rewrite_type_partial.

(** ** Where the full statement fails *)
(** a declared function that ends the text, unless it ends far from its start: the report on the missing second [;] reads
    past the text, or, where nothing is left behind the tokens, the parser reads past those *)
Theorem c67_reads_past_end_refuted : forall text beyond ms ms' e varadic fuel h first raw f,
  text_with text ms fuel (first :: raw) [] -> lex text fuel ms = Done (Some (first :: raw, ms')) -> plain_specifiers ms' -> world e h ->
  friend_function text (first :: raw) beyond f -> f_body f = None ->
  (beyond = [] \/ exists o r, beyond = o :: r /\ ~ fmt o /\ t_type o <> Tok_Decl_Operator) -> 2 * t_start (last raw first) - t_start first + 2 > Z.of_nat (length text) + 1 ->
  parse_text (parse_fr varadic) text beyond ms e fuel h = Undefined.
Proof.
  intros text beyond ms ms' e varadic fuel h first raw f (B & NR & MF & F & FT & _) L NM W T FB BY RD. rewrite app_nil_r in FT.
  exact (past_text text (first :: raw) beyond ms ms' e varadic fuel h B NR MF L F FT W NM first raw f eq_refl T FB BY RD).
Qed.
Print Assumptions c67_reads_past_end_refuted.
Definition fragain (t : string) : run (list Z) := rbind (parse_text (parse_fr 9) (txt t) (toks_of (txt "int x;")) [] e0 300 hv) (fun '(h, c) => code_to_strbuilder 300 h c).
(** a [;] on a line of its own is written behind a declared function; the specifiers of a type are dropped *)
Theorem c67_content_lost_refuted :
  fragain ("friend int f();" ++ nl ++ more) = out ("friend int f();" ++ nl ++ ";") /\
  fragain ("friend inline class A;" ++ nl) = out "friend class A;".
Proof. vm_compute. auto 6. Qed.
Print Assumptions c67_content_lost_refuted.

(** ** The hypotheses are met *)
Definition example_a := txt "friend class A; int z;".
Definition toks_a : list token := Eval vm_compute in toks_of example_a.
Definition ak (i : nat) := nth i toks_a (Tok 0 0 0 0 0 0).
Definition aks (a n : nat) := map ak (seq a n).
Example c67_type_hypotheses_met : text_with example_a [] 300 (aks 0 3) (aks 3 4) /\ lex example_a 300 [] = Done (Some (aks 0 3 ++ aks 3 4, [])) /\ plain_specifiers [] /\ world e0 w0 /\
  friend_type example_a (aks 0 3) (aks 3 4) (Type_ None TagClass (txt "A") None false).
Proof.
  split; [text_is|]. split; [vm_compute; reflexivity|]. split; [exact no_macros|]. split; [exact w0_ok|].
  apply (ft_ example_a (ak 0) (aks 1 2)); [reflexivity| |reflexivity|].
  - apply (ty example_a [] [] (aks 1 2) [] [] (aks 3 4) [] None TagClass (txt "A") [] [] false); [reflexivity|constructor|constructor|no_gap| |dec|apply no_block; dec|dec|constructor|constructor|dec|left; split; reflexivity].
    apply (tn_tag example_a (ak 1) TagClass [] (aks 2 1)); [discriminate|reflexivity|no_gap| |].
    + apply (nm example_a (ak 2) [] []); [reflexivity|left; reflexivity|constructor].
    + exists [], (ak 3), (aks 4 3). split; [reflexivity|]. split; [no_gap|]. split; [solid|dec].
  - exists [], (ak 3), (aks 4 3). split; [reflexivity|]. split; [no_gap|]. split; [solid|]. split; [|dec]. split; [dec|]. split; dec.
Qed.

Definition example_b := txt "friend inline const int f(int a) { return a; } int z;".
Definition toks_b : list token := Eval vm_compute in toks_of example_b.
Definition bk (i : nat) := nth i toks_b (Tok 0 0 0 0 0 0).
Definition bks (a n : nat) := map bk (seq a n).
Definition const_int := Type_ None NoTag (txt "int") (Some [Spec_Const]) false.
Definition func_b := Func false None [Spec_Inline] const_int (txt "f") [Param (Some int_ty) (txt "a") None] (Some [txt "return a;"]) None.
Example c67_definition_hypotheses_met : text_with example_b [] 300 (bks 0 14) (bks 14 3) /\ lex example_b 300 [] = Done (Some (bks 0 14 ++ bks 14 3, [])) /\ plain_specifiers [] /\ world e0 w0 /\
  friend_function example_b (bks 0 14) (bks 14 3 ++ []) func_b /\ f_body func_b = Some [txt "return a;"] /\ next_token [] (bks 14 3) (fun k => t_type k <> Tok_Decl_Operator).
Proof.
  split; [text_is|]. split; [vm_compute; reflexivity|]. split; [exact no_macros|]. split; [exact w0_ok|]. split; [|split; [reflexivity|]].
  2:{ left. exists [], (bk 14), (bks 15 2). split; [reflexivity|]. split; [no_gap|]. split; [solid|dec]. }
  apply (ff example_b (bk 0) (bks 1 1) [Spec_Inline] (bks 2 2) const_int [] (bks 4 1) (txt "f") (bks 5 4) [Param (Some int_ty) (txt "a") None] [] [] (bks 9 5) [] (Some [txt "return a;"]) (bks 14 3 ++ []) None).
  - reflexivity.
  - apply (s_more example_b [] (bk 1) Spec_Inline [] []); [no_gap| |constructor]. split; [vm_compute; intuition discriminate|]. exists "inline"%string. split; [vm_compute; tauto|reflexivity].
  - apply Forall_cons; [vm_compute; tauto|constructor].
  - apply (ty example_b [] (bks 2 1) (bks 3 1) [] [] (bks 4 10) [] None NoTag (txt "int") [Spec_Const] [] false); [reflexivity| |repeat constructor|no_gap| |dec|apply no_block; dec|dec|constructor|constructor|dec|left; split; reflexivity].
    + apply (s_more example_b [] (bk 2) Spec_Const [] []); [no_gap| |constructor]. apply spec_const; reflexivity.
    + apply (tn_native example_b (bk 3) [] (bk 4) (bks 5 9)); [dec|constructor|left; reflexivity|solid|dec].
  - reflexivity.
  - no_gap.
  - apply (nm example_b (bk 4) [] []); [reflexivity|left; reflexivity|constructor].
  - dec.
  - unfold solid. repeat constructor; dec.
  - apply (ps_some example_b [] (bk 5) (bks 6 2) (Param (Some int_ty) (txt "a") None) (bks 8 1)); [no_gap|reflexivity| |apply (mp_end example_b [] (bk 8)); [no_gap|reflexivity]].
    apply (pm example_b (bks 6 1) int_ty (bks 7 1) (txt "a") [] None); [|reflexivity| |reflexivity].
    + apply (native_type example_b (bk 6) [] (bk 7) (bks 8 6) (txt "int")); [dec|constructor|solid|dec|reflexivity|dec|dec|dec].
    + right. exists [], (bk 7). split; [reflexivity|]. split; [no_gap|]. split; reflexivity.
  - constructor.
  - apply (fe_body example_b (bks 9 5)). apply (bt_text example_b [] (bk 9) (bk 10) (bks 11 2) (bk 13)); [no_gap|reflexivity| |reflexivity|dec].
    unfold in_braces. do 3 (apply n_other; [dec|dec|dec|]). constructor.
  - dec.
Qed.

Definition example_c := txt ("friend int f();" ++ nl ++ more).
Definition toks_c : list token := Eval vm_compute in toks_of example_c.
Definition ck (i : nat) := nth i toks_c (Tok 0 0 0 0 0 0).
Definition cks (a n : nat) := map ck (seq a n).
Definition func_c := Func false None [] int_ty (txt "f") [] None None.
Lemma declares : forall src k rest, upto src (ck 1) (ck 1) = txt "int" -> word src (ck 2) = txt "f" -> t_type k <> Tok_Comment -> friend_function src (cks 0 6) (k :: rest) func_c.
Proof.
  intros src k rest U WF NC. apply (ff src (ck 0) [] [] (cks 1 1) int_ty [] (cks 2 1) (txt "f") (cks 3 2) [] [] [] (cks 5 1) [] None (k :: rest) None).
  - reflexivity.
  - constructor.
  - constructor.
  - apply (native_type src (ck 1) [] (ck 2) (cks 3 3) (txt "int")); [dec|constructor|solid|dec|symmetry; exact U|dec|dec|dec].
  - reflexivity.
  - no_gap.
  - rewrite <- WF. apply (nm src (ck 2) [] []); [reflexivity|left; reflexivity|constructor].
  - dec.
  - unfold solid. repeat constructor; dec.
  - apply (ps_none src [] (ck 3) [] (ck 4)); [no_gap|reflexivity|no_gap|reflexivity].
  - constructor.
  - apply (fe_semi src (cks 5 1)). apply (se_plain src [] (ck 5) k rest); [no_gap|reflexivity|]. intros (X & _). contradiction.
  - dec.
Qed.
Example c67_declaration_hypotheses_met : text_with example_c [] 300 (ck 0 :: cks 1 5) ([] ++ ck 6 :: cks 7 6) /\ lex example_c 300 [] = Done (Some ((ck 0 :: cks 1 5) ++ [] ++ ck 6 :: cks 7 6, [])) /\
  plain_specifiers [] /\ world e0 w0 /\ friend_function example_c (ck 0 :: cks 1 5) (([] ++ ck 6 :: cks 7 6) ++ []) func_c /\ f_body func_c = None /\ ~ fmt (ck 6) /\
  ~ In (t_type (ck 6)) [Tok_Statement_End; Tok_Decl_Operator] /\ 2 * t_start (ck 6) - t_start (ck 0) + 2 <= Z.of_nat (length example_c) + 1.
Proof.
  split; [text_is|]. split; [vm_compute; reflexivity|]. split; [exact no_macros|]. split; [exact w0_ok|]. split; [apply declares; [reflexivity|reflexivity|dec]|]. split; [reflexivity|]. split; [solid|]. split; dec.
Qed.
Definition example_d := txt "friend int f();".
Example c67_reads_past_end_hypotheses_met : text_with example_d [] 300 (ck 0 :: cks 1 5) [] /\ lex example_d 300 [] = Done (Some (ck 0 :: cks 1 5, [])) /\ friend_function example_d (ck 0 :: cks 1 5) (cks 6 7) func_c /\
  (exists o r, cks 6 7 = o :: r /\ ~ fmt o /\ t_type o <> Tok_Decl_Operator) /\ 2 * t_start (last (cks 1 5) (ck 0)) - t_start (ck 0) + 2 > Z.of_nat (length example_d) + 1.
Proof.
  split; [text_is|]. split; [vm_compute; reflexivity|]. split; [apply declares; [reflexivity|reflexivity|dec]|]. split; [exists (ck 6), (cks 7 6); split; [reflexivity|]; split; [solid|dec]|dec].
Qed.
