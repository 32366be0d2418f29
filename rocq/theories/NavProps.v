(** C47: the parser's navigation of the token stream; C50: reporting a parse failure. *)
From Coq Require Import String ZArith List Bool Lia ZifyBool ZifyNat.
From Verif Require Import Common HashModel Text EnumModel LexModel NavModel NavSpec NavProofs.
Import ListNotations.
Close Scope string_scope.
Open Scope Z_scope.

(** C47: a token of the expected kind is consumed, whatever the state. *)
Theorem c47_eat_expected : forall src toks ms s k, token_at toks (n_idx s) k ->
  lex_eat src toks ms (t_type k) s = Done (true, Nav (n_idx s + 1) (n_scopes s)).
Proof. intros src toks ms. apply (eat_match toks src ms). Qed.
Print Assumptions c47_eat_expected.
(** C47: so is a macro that may stand for an identifier, when one is expected. *)
Theorem c47_eat_macro_as_identifier : forall src toks ms s k m, token_at toks (n_idx s) k -> ~ formatting k ->
  lookup_macro ms (slice src (t_start k) (t_len k)) = Some m -> Z.land (mac_flags m) MF_Allow_As_Identifier <> 0 ->
  lex_eat src toks ms Tok_Identifier s = Done (true, Nav (n_idx s + 1) (n_scopes s)).
Proof. intros src toks ms s k m K F M B. apply (eat_macro toks src ms s k K F). exists m. split; assumption. Qed.
Print Assumptions c47_eat_macro_as_identifier.
(** C47: at the end nothing is consumed. (The failure must be reportable: C50.) *)
Theorem c47_eat_at_end_partial : forall src toks ms t s k, n_idx s = zlen toks -> token_at toks (zlen toks - 1) k ->
  reportable src toks (n_scopes s) k -> lex_eat src toks ms t s = Done (false, s).
Proof. intros src toks ms. apply (eat_end toks src ms). Qed.
Print Assumptions c47_eat_at_end_partial.
(** C47: a token of another kind is not consumed: the index stays at it, if it is not a newline or comment, and
    moves to the next token that is not one otherwise. *)
Theorem c47_eat_other_partial : forall src toks ms t s k j x,
  token_at toks (n_idx s) k -> t_type k <> t ->
  ~ (t = Tok_Identifier /\ exists m, lookup_macro ms (slice src (t_start k) (t_len k)) = Some m /\ Z.land (mac_flags m) MF_Allow_As_Identifier <> 0) ->
  first_other toks formatting (n_idx s) j x -> reportable src toks (n_scopes s) x ->
  lex_eat src toks ms t s = Done (false, Nav j (n_scopes s)) /\ (~ formatting k -> j = n_idx s).
Proof.
  intros src toks ms t s k j x K Ne NM F R. split; [apply (eat_mismatch toks src ms t s k j x); assumption|].
  intros NF. destruct F as (A & B & C & D). destruct (Z.eq_dec j (n_idx s)); [assumption|]. exfalso. apply NF, (D (n_idx s) k); [lia|exact K].
Qed.
Print Assumptions c47_eat_other_partial.
(** C47: the current token, and the kind test, skip newlines and comments and nothing else. *)
Theorem c47_current : forall toks s j k, 0 <= n_idx s -> first_other toks formatting (n_idx s) j k ->
  lex_current toks true s = Done (k, Nav j (n_scopes s)) /\
  forall t, check toks t s = Done (t_type k =? t, Nav j (n_scopes s)).
Proof. intros toks s j k H F. split; [apply (current_skip toks s j k H F)|]. intros t. apply (check_ok toks s t H), F. Qed.
Print Assumptions c47_current.
(** C47: when there is no such token left, the code reads past the token array (so the full claim fails). *)
Theorem c47_current_past_end_refuted : forall toks s, 0 <= n_idx s -> only toks formatting (n_idx s) -> lex_current toks true s = Undefined.
Proof. exact current_none. Qed.
Print Assumptions c47_current_past_end_refuted.
(** C47: looking ahead skips newlines only. *)
Theorem c47_peek_next : forall toks s j k, 0 <= n_idx s -> first_other toks newline (n_idx s) j k ->
  lex_peek toks true s = Done k /\ forall k', token_at toks (j + 1) k' -> lex_next toks true s = Done k'.
Proof. intros toks s j k H F. split; [apply (peek_skip toks s j k H F)|]. intros k'. apply (next_skip toks s j k k' H F). Qed.
Print Assumptions c47_peek_next.
(** C47: without skipping: this token, the next, the previous. *)
Theorem c47_neighbours : forall toks s k,
  (token_at toks (n_idx s) k -> lex_current toks false s = Done (k, s) /\ lex_peek toks false s = Done k) /\
  (token_at toks (n_idx s + 1) k -> lex_next toks false s = Done k) /\
  (token_at toks (n_idx s - 1) k -> lex_previous toks false s = Done k).
Proof.
  intros toks s k. destruct (noskip_ok toks s k) as (A & B & C). split; [|split; assumption]. intros H. split; [apply current_noskip, H|apply A, H].
Qed.
Print Assumptions c47_neighbours.
(** C47: looking back over newlines finds the last token at or before the current one that is not a newline. *)
Theorem c47_previous_skips : forall toks s j k, 0 <= j <= n_idx s -> n_idx s < zlen toks -> token_at toks j k -> ~ newline k ->
  (forall m x, j < m <= n_idx s -> token_at toks m x -> newline x) -> lex_previous toks true s = Done k.
Proof. exact previous_skip. Qed.
Print Assumptions c47_previous_skips.
(** C47 refuted: unless the current token is a newline, the token given as the previous one is the current one. *)
Theorem c47_previous_is_current_refuted : forall toks s k, token_at toks (n_idx s) k -> ~ newline k -> lex_previous toks true s = Done k.
Proof.
  intros toks s k K N. pose proof (token_at_range toks _ _ K) as R. apply (previous_skip toks s (n_idx s) k); auto; [lia|apply R|]. intros m x M. lia.
Qed.
Print Assumptions c47_previous_is_current_refuted.
(** C47: in any sequence of operations that does not leave the array, the index never moves back and stays
    within the stream. (No newline or comment is registered as a macro.) *)
Theorem c47_session : forall src toks ms os s s',
  (forall i k, token_at toks i k -> formatting k -> lookup_macro ms (slice src (t_start k) (t_len k)) = None) ->
  0 <= n_idx s <= zlen toks -> performs src toks ms os s = Done s' -> n_idx s <= n_idx s' <= zlen toks.
Proof. intros src toks ms os s s'. apply (performs_inv toks src ms os s s'). Qed.
Print Assumptions c47_session.

(** ** C47 and C50: what fails *)
Definition T (start len type : Z) := Tok start len type 1 1 0.
(** "a\nb;" with its newline token: expecting an identifier at the newline fails although one follows, and the
    newline is consumed *)
Theorem c47_eat_moves_refuted :
  lex_eat (txt "x" ++ [10] ++ txt "b;    ") [T 0 1 Tok_Identifier; T 1 1 Tok_NewLine; T 2 1 Tok_Identifier; T 3 1 Tok_Statement_End] [] Tok_Identifier (Nav 1 [0])
  = Done (false, Nav 2 [0]).
Proof. vm_compute. reflexivity. Qed.
Print Assumptions c47_eat_moves_refuted.

(** C50: composing the failure message stays within the source iff the scope started far enough back *)
Theorem c50_report_partial : forall src toks ms t s k, token_at toks (n_idx s) k -> ~ formatting k -> t_type k <> t -> t <> Tok_Identifier ->
  reportable src toks (n_scopes s) k -> lex_eat src toks ms t s = Done (false, s).
Proof.
  intros src toks ms t s k K F Ne NI R. replace s with (Nav (n_idx s) (n_scopes s)) at 2 by (destruct s; reflexivity).
  apply (eat_mismatch toks src ms t s k (n_idx s) k); try assumption; [tauto|]. split; [lia|]. split; [exact K|]. split; [exact F|intros; lia].
Qed.
Print Assumptions c50_report_partial.
(** C50 refuted: with an error in the second half of its scope's text, the message is composed from bytes behind the
    end of the source. *)
Theorem c50_report_overrun_refuted : forall src toks s k st rest b, 0 <= n_idx s -> token_at toks (n_idx s) k -> ~ formatting k ->
  n_scopes s = st :: rest -> token_at toks st b -> zlen src < t_start k + (t_start k - t_start b + 1) ->
  report src toks s = Undefined.
Proof.
  intros src toks s k st rest b H K F E B L. apply (report_bad toks src s (n_idx s) k st rest b); try assumption; [|lia]. split; [lia|]. split; [exact K|]. split; [exact F|intros; lia].
Qed.
Print Assumptions c50_report_overrun_refuted.
(** "struct A b" in parse_struct: after the name neither ':' nor '{' nor ';' *)
Example c50_witness : exists toks ms, lex (txt "struct A b") 300 [] = Done (Some (toks, ms)) /\
  lex_eat (txt "struct A b") toks ms Tok_Statement_End (Nav 2 [0]) = Undefined.
Proof. eexists _, _. split; vm_compute; reflexivity. Qed.

(** ** Hypotheses *)
Definition c47_toks := [T 0 3 Tok_Identifier; T 3 1 Tok_NewLine; T 4 6 Tok_Comment; T 10 1 Tok_Statement_End].
Definition c47_src := txt "abc" ++ [10] ++ txt "/* */" ++ [10] ++ txt "; // and so on".
Example c47_hypotheses_met :
  token_at c47_toks 0 (T 0 3 Tok_Identifier) /\ ~ formatting (T 0 3 Tok_Identifier) /\ first_other c47_toks formatting 1 3 (T 10 1 Tok_Statement_End) /\
  first_other c47_toks newline 1 2 (T 4 6 Tok_Comment) /\ reportable c47_src c47_toks [0] (T 10 1 Tok_Statement_End) /\
  (forall i k, token_at c47_toks i k -> formatting k -> lookup_macro [] (slice c47_src (t_start k) (t_len k)) = None) /\
  performs c47_src c47_toks [] [Push; Check Tok_Identifier; Eat Tok_Identifier; Eat Tok_Identifier; Eat Tok_Statement_End; Eat Tok_Comma; Pop] (Nav 0 []) = Done (Nav 4 []).
Proof.
  split; [split; [lia|reflexivity]|]. split; [intros [H|H]; discriminate H|]. split.
  { split; [lia|]. split; [split; [lia|reflexivity]|]. split; [intros [H|H]; discriminate H|]. intros m x Hm (_ & Hx). assert (m = 1 \/ m = 2) as [-> | ->] by lia; injection Hx as <-; [left|right]; reflexivity. }
  split. { split; [lia|]. split; [split; [lia|reflexivity]|]. split; [intros H; discriminate H|]. intros m x Hm (_ & Hx). assert (m = 1) as -> by lia; injection Hx as <-; reflexivity. }
  split. { exists 0, [], (T 0 3 Tok_Identifier). split; [reflexivity|]. split; [split; [lia|reflexivity]|]. vm_compute. discriminate. }
  split; [reflexivity|vm_compute; reflexivity].
Qed.
