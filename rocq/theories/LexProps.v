(** C38-C40: lexing. The specification is in LexSpec.v. [ms] is any macro table, [fuel] bounds the steps of
    the model's loops: any fuel above the length of the text is enough, so the lexer stops. *)
From Coq Require Import String ZArith List Bool Lia ZifyBool ZifyNat.
From Verif Require Import Common HashModel Text ArrayModel StrOpsModel EnumModel EnumSpec LexModel LexSpec LexProofs LexProofs8.
Import ListNotations.
Close Scope string_scope.
Open Scope Z_scope.

(** C38, partial: the texts that [runs_off] describes are excluded (the lexer reads past their end, below), and
    the bytes outside tokens are those that [accounted] lists. *)
Theorem c38_lex_partial : forall src ms fuel,
  Forall (fun b => 0 <= b < 256) src -> ~ runs_off src -> zlen src + 2 <= Z.of_nat fuel ->
  exists r, lex src fuel ms = Done r /\
  match r with
  | Some (toks, _) => toks <> [] /\ Forall (in_source src) toks /\ in_order toks /\ forall i, 0 <= i < zlen src -> accounted src toks i
  | None => In 35 src \/ Forall spacep src
  end.
Proof. exact p38. Qed.
Print Assumptions c38_lex_partial.

(** C39, partial: the position is that of the token, or that of the white space or '#' before it. *)
Theorem c39_positions_partial : forall src ms fuel toks ms',
  Forall (fun b => 0 <= b < 256) src -> ~ runs_off src -> zlen src + 2 <= Z.of_nat fuel ->
  lex src fuel ms = Done (Some (toks, ms')) -> Forall (positioned src) toks.
Proof. exact p39. Qed.
Print Assumptions c39_positions_partial.

(** C39: exact for the tokens of a directive, at the start of the text, and when no white space or '#'
    precedes the token. *)
Theorem c39_exact_partial : forall src ms fuel toks ms',
  Forall (fun b => 0 <= b < 256) src -> ~ runs_off src -> zlen src + 2 <= Z.of_nat fuel ->
  lex src fuel ms = Done (Some (toks, ms')) ->
  forall k, In k toks ->
  has_bit (t_flags k) TF_Preprocess = true \/ t_start k = 0 \/ (~ spacep (byte_at src (t_start k - 1)) /\ byte_at src (t_start k - 1) <> 35) ->
  at_line_col src (t_start k) (t_line k) (t_col k).
Proof. exact p39_exact. Qed.
Print Assumptions c39_exact_partial.

(** C40, partial: [edge] lets a run be cut after a number, and [kind] says nothing of an identifier that has
    the same hash as a keyword. *)
Theorem c40_words_partial : forall src ms fuel toks ms',
  Forall (fun b => 0 <= b < 256) src -> ~ runs_off src -> zlen src + 2 <= Z.of_nat fuel ->
  lex src fuel ms = Done (Some (toks, ms')) ->
  forall a k b, toks = a ++ k :: b -> ordinary a k -> word_first (byte_at src (t_start k)) ->
  word_token src (table src ms a) a k.
Proof. exact p40. Qed.
Print Assumptions c40_words_partial.

(** C40: the macro table afterwards is what the #define tokens say. *)
Theorem c40_macro_table_partial : forall src ms fuel toks ms',
  Forall (fun b => 0 <= b < 256) src -> ~ runs_off src -> zlen src + 2 <= Z.of_nat fuel ->
  lex src fuel ms = Done (Some (toks, ms')) -> ms' = table src ms toks.
Proof. exact p40_table. Qed.
Print Assumptions c40_macro_table_partial.

(** ** Where the full statements fail *)
Definition spans (toks : list token) := map (fun t => (t_start t, t_len t, t_type t)) toks.
Definition shown (src : list Z) := match lex src 300 [] with Done (Some (toks, _)) => Some (spans toks) | _ => None end.

(** C38 refuted: the lexer reads past the end of texts that end in a comment, carriage return or directive
    that is not finished. *)
Theorem c38_reads_past_end_refuted :
  lex (txt "a /* b") 300 [] = Undefined /\ lex (txt ";" ++ [13]) 300 [] = Undefined /\
  lex (txt "#define ") 300 [] = Undefined /\ lex (txt "#include <a") 300 [] = Undefined.
Proof. vm_compute. auto. Qed.
Print Assumptions c38_reads_past_end_refuted.
(** C38 refuted: text is dropped — the [x] after a carriage return, all of [@abc(d)], with an empty token in
    its place — and the two tokens of an unsupported directive overlap. *)
Theorem c38_text_dropped_refuted :
  shown (txt ";" ++ [13] ++ txt "x") = Some [(0, 1, Tok_Statement_End)] /\
  shown (txt "@abc(d) e") = Some [(0, 0, Tok_Identifier); (8, 1, Tok_Identifier)] /\
  shown (txt "#foo bar") = Some [(0, 1, Tok_Preprocess_Hash); (0, 8, Tok_Preprocess_Unsupported)].
Proof. vm_compute. auto. Qed.
Print Assumptions c38_text_dropped_refuted.
(** C38 refuted: a macro with a blank between its parentheses stops the lexer without a result. *)
Theorem c38_no_result_refuted : lex (txt "#define F( ) a") 300 [] = Done None.
Proof. vm_compute. auto. Qed.
Print Assumptions c38_no_result_refuted.

(** C39 refuted: in "a b" the second token is said to be in column 2; it is in column 3. *)
Theorem c39_column_refuted : exists a b ms, lex (txt "a b") 300 [] = Done (Some ([a; b], ms)) /\
  t_start b = 2 /\ t_line b = 1 /\ t_col b = 2 /\ ~ at_line_col (txt "a b") 2 1 2.
Proof.
  eexists _, _, _. split; [vm_compute; reflexivity|]. cbn [t_start t_line t_col]. split; [reflexivity|]. split; [reflexivity|]. split; [reflexivity|].
  intros (x & y & E & B & _ & _ & L). assert (zlen y = 1) as H by lia. clear L. change (firstn (Z.to_nat 2) (txt "a b")) with [97; 32] in E. destruct B as [->|(z & ->)].
  - cbn [app] in E. subst y. discriminate H.
  - assert (In 10 [97; 32]) as I by (rewrite E; apply in_or_app; left; apply in_or_app; right; left; reflexivity). cbn in I. lia.
Qed.
Print Assumptions c39_column_refuted.

(** C40 refuted: a number suffix becomes an identifier of its own, and an identifier whose hash is that of
    "virtual" is taken for the keyword. *)
Theorem c40_suffix_refuted : shown (txt "10u") = Some [(0, 2, Tok_Number); (2, 1, Tok_Identifier)].
Proof. vm_compute. auto. Qed.
Print Assumptions c40_suffix_refuted.
Theorem c40_hash_collision_refuted : shown (txt "gwzsll") = Some [(0, 6, Tok_Spec_Virtual)] /\ In (Tok_Spec_Virtual, "virtual"%string) token_spelling.
Proof. split; [vm_compute; reflexivity|]. vm_compute. intuition. Qed.
Print Assumptions c40_hash_collision_refuted.

(** ** The hypotheses are met *)
Lemma plain_text : forall src, ~ In 13 src -> ~ In 42 src -> ~ In 35 src -> ~ runs_off src.
Proof.
  intros src A B C [(a & ->)|[(a & b & -> & _)|[(a & w1 & w & w2 & -> & _)|(a & w1 & w & w2 & q & b & -> & _)]]].
  - apply A, in_or_app. right. left. reflexivity.
  - apply B, in_or_app. right. right. left. reflexivity.
  - apply C, in_or_app. right. left. reflexivity.
  - apply C, in_or_app. right. left. reflexivity.
Qed.
(** a text with one directive at its start *)
Lemma one_directive : forall rest, ~ In 13 rest -> ~ In 42 rest -> ~ In 35 rest -> ~ In 34 rest -> ~ In 60 rest ->
  (forall w1 w w2, rest = w1 ++ w ++ w2 -> Forall spacep w1 -> Forall spacep w2 -> crc32 w <> crc32 (txt "define")) -> ~ runs_off (35 :: rest).
Proof.
  intros src A B C D E F [(a & H)|[(a & b & H & _)|[(a & w1 & w & w2 & H & S1 & S2 & K)|(a & w1 & w & w2 & q & b & H & _ & _ & _ & Q & _)]]].
  - assert (In 13 (35 :: src)) as I by (rewrite H; apply in_or_app; right; left; reflexivity). destruct I as [I|I]; [discriminate|contradiction].
  - assert (In 42 (35 :: src)) as I by (rewrite H; apply in_or_app; right; right; left; reflexivity). destruct I as [I|I]; [discriminate|contradiction].
  - destruct a as [|x a].
    + injection H as H. apply (F w1 w w2); assumption.
    + injection H as _ H. apply C. rewrite H. apply in_or_app. right. left. reflexivity.
  - assert (In q (35 :: src)) as I by (rewrite H, !in_app_iff; cbn; tauto).
    destruct I as [I|I]; [lia|]. destruct Q; subst q; contradiction.
Qed.

Definition c38_text := txt "int a = b+12; // done".
Example c38_hypotheses_met : Forall (fun b => 0 <= b < 256) c38_text /\ ~ runs_off c38_text /\
  shown c38_text = Some [(0, 3, Tok_Type_int); (4, 1, Tok_Identifier); (6, 1, Tok_Operator); (8, 1, Tok_Identifier); (9, 1, Tok_Operator); (10, 2, Tok_Number); (12, 1, Tok_Statement_End); (14, 7, Tok_Comment)].
Proof.
  split; [repeat constructor; lia|]. split; [apply plain_text; vm_compute; intuition discriminate|vm_compute; reflexivity].
Qed.

Definition c40_text := txt "#define F(a) a" ++ [10] ++ txt "int F(x) F y".
Example c40_hypotheses_met : Forall (fun b => 0 <= b < 256) c40_text /\ ~ runs_off c40_text /\
  exists toks ms, lex c40_text 300 [] = Done (Some (toks, ms)) /\ length toks = 15%nat.
Proof.
  split; [repeat constructor; lia|]. split; [|eexists _, _; split; vm_compute; reflexivity].
  apply (one_directive (txt "define F(a) a" ++ [10] ++ txt "int F(x) F y")); try (vm_compute; intuition discriminate).
  intros w1 w w2 H S1 S2 K.
  assert (w1 = []) as ->. { destruct w1 as [|x w1]; [reflexivity|]. injection H as <- H. apply Forall_inv in S1. vm_compute in S1. intuition discriminate. }
  assert (w2 = []) as ->. { destruct w2 as [|x w2]; [reflexivity|]. exfalso. destruct (exists_last (l := x :: w2) ltac:(discriminate)) as (l & z & L). rewrite L in H, S2. apply Forall_app in S2. destruct S2 as (_ & S2). apply Forall_inv in S2.
    cbn [app] in H. rewrite app_assoc in H. change (txt "define F(a) a" ++ 10 :: txt "int F(x) F y") with ((txt "define F(a) a" ++ [10] ++ txt "int F(x) F ") ++ [121]) in H. apply app_inj_tail in H. destruct H as (_ & <-). vm_compute in S2. intuition discriminate. }
  rewrite app_nil_r in H. cbn [app] in H. subst w. vm_compute in K. discriminate.
Qed.
