(** Proofs about token navigation. *)
From Coq Require Import String ZArith List Bool Lia ZifyBool ZifyNat.
From Verif Require Import Common HashModel Text EnumModel LexModel NavModel NavSpec.
Import ListNotations.
Close Scope string_scope.
Open Scope Z_scope.

Section P.
Variable toks : list token.

Lemma tok_at_ok : forall i k, token_at toks i k -> tok_at toks i = Done k.
Proof. intros i k (A & B). unfold tok_at. replace (0 <=? i) with true by lia. rewrite B. reflexivity. Qed.
Lemma tok_at_inv : forall i k, tok_at toks i = Done k -> token_at toks i k.
Proof. intros i k. unfold tok_at. destruct (Z.leb_spec 0 i); [|discriminate]. destruct (nth_error toks (Z.to_nat i)) eqn:E; [|discriminate]. intros H0. injection H0 as ->. split; [lia|exact E]. Qed.
Lemma token_at_range : forall i k, token_at toks i k -> 0 <= i < num toks.
Proof. intros i k (A & B). assert (Z.to_nat i < length toks)%nat by (apply nth_error_Some; rewrite B; discriminate). unfold num, zlen. lia. Qed.
Lemma token_at_ex : forall i, 0 <= i < num toks -> exists k, token_at toks i k.
Proof. intros i H. destruct (nth_error toks (Z.to_nat i)) eqn:E; [eexists; split; [lia|exact E]|]. apply nth_error_None in E. unfold num, zlen in H. lia. Qed.
Lemma token_at_det : forall i a b, token_at toks i a -> token_at toks i b -> a = b.
Proof. intros i a b (_ & A) (_ & B). congruence. Qed.
Lemma tok_at_out : forall i, ~ (0 <= i < num toks) -> tok_at toks i = Undefined.
Proof. intros i H. unfold tok_at. destruct (Z.leb_spec 0 i); [|reflexivity]. destruct (nth_error toks (Z.to_nat i)) eqn:E; [|reflexivity]. exfalso. apply H. apply (token_at_range i t). split; assumption. Qed.

(** skipping up *)
Lemma skip_up : forall p (P : token -> Prop) , (forall k, p (t_type k) = true <-> P k) -> forall fuel i, 0 <= i -> num toks - i <= Z.of_nat fuel ->
  (exists j k, first_other toks P i j k /\ skip_tokens toks fuel p 1 i = Done j) \/ (only toks P i /\ skip_tokens toks fuel p 1 i = Undefined).
Proof.
  intros p P HP. induction fuel as [|n IH]; intros i Hi Hf.
  - right. assert (tok_at toks i = Undefined) as E by (apply tok_at_out; lia). split; [intros m x Hm Hx; apply token_at_range in Hx; lia|]. cbn [skip_tokens]. rewrite E. reflexivity.
  - cbn [skip_tokens]. destruct (Z.ltb_spec i (num toks)) as [L|L].
    2:{ right. rewrite tok_at_out by lia. split; [intros m x Hm Hx; apply token_at_range in Hx; lia|reflexivity]. }
    destruct (token_at_ex i ltac:(lia)) as (k & K). rewrite (tok_at_ok _ _ K). cbn [rbind]. destruct (p (t_type k)) eqn:E.
    + apply HP in E. destruct (IH (i + 1) ltac:(lia) ltac:(lia)) as [(j & k' & (A & B & C & D) & R)|(A & R)]; rewrite R.
      * left. exists j, k'. split; [|reflexivity]. split; [lia|]. split; [exact B|]. split; [exact C|]. intros m x Hm Hx. destruct (Z.eq_dec m i) as [->|]; [rewrite (token_at_det _ _ _ Hx K); exact E|apply (D m x); [lia|exact Hx]].
      * right. split; [|reflexivity]. intros m x Hm Hx. destruct (Z.eq_dec m i) as [->|]; [rewrite (token_at_det _ _ _ Hx K); exact E|apply (A m x); [lia|exact Hx]].
    + left. exists i, k. split; [|reflexivity]. split; [lia|]. split; [exact K|]. split; [rewrite <- HP, E; discriminate|intros; lia].
Qed.
Lemma fmt_iff : forall k, is_formatting (t_type k) = true <-> formatting k.
Proof. intros k. unfold is_formatting, formatting. lia. Qed.
Lemma nl_iff : forall k, is_newline (t_type k) = true <-> newline k.
Proof. intros k. unfold is_newline, newline. lia. Qed.
Lemma first_det : forall P i j k j' k', first_other toks P i j k -> first_other toks P i j' k' -> j = j' /\ k = k'.
Proof.
  intros P i j k j' k' (A & B & C & D) (A' & B' & C' & D'). assert (j = j') as <-. { destruct (Z.lt_trichotomy j j') as [L|[L|L]]; [exfalso|exact L|exfalso]. - apply C, (D' j k); [lia|exact B]. - apply C', (D j' k'); [lia|exact B']. }
  split; [reflexivity|]. apply (token_at_det j); assumption.
Qed.
Lemma skip_found : forall p P i j k, (forall k, p (t_type k) = true <-> P k) -> 0 <= i -> first_other toks P i j k -> skip_tokens toks (length toks) p 1 i = Done j.
Proof.
  intros p P i j k HP Hi F. destruct (skip_up p P HP (length toks) i Hi ltac:(unfold num, zlen; lia)) as [(j' & k' & F' & R)|(O & _)].
  - rewrite R. destruct (first_det _ _ _ _ _ _ F F') as (-> & _). reflexivity.
  - exfalso. destruct F as (A & B & C & _). apply C, (O j k); assumption.
Qed.
Lemma skip_none : forall p P i, (forall k, p (t_type k) = true <-> P k) -> 0 <= i -> only toks P i -> skip_tokens toks (length toks) p 1 i = Undefined.
Proof.
  intros p P i HP Hi F. destruct (skip_up p P HP (length toks) i Hi ltac:(unfold num, zlen; lia)) as [(j' & k' & (A & B & C & _) & R)|(_ & R)]; [|exact R].
  exfalso. apply C, (F j' k'); assumption.
Qed.
Lemma skip_cases : forall p P i, (forall k, p (t_type k) = true <-> P k) -> 0 <= i -> (exists j k, first_other toks P i j k) \/ only toks P i.
Proof. intros p P i HP Hi. destruct (skip_up p P HP (length toks) i Hi ltac:(unfold num, zlen; lia)) as [(j' & k' & F' & R)|(O & _)]; [left; eauto|right; exact O]. Qed.

(** current *)
Lemma current_skip : forall s j k, 0 <= n_idx s -> first_other toks formatting (n_idx s) j k -> lex_current toks true s = Done (k, Nav j (n_scopes s)).
Proof. intros s j k H F. unfold lex_current. rewrite (skip_found _ _ _ _ _ fmt_iff H F). cbn [rbind]. destruct F as (_ & K & _). rewrite (tok_at_ok _ _ K). reflexivity. Qed.
Lemma current_none : forall s, 0 <= n_idx s -> only toks formatting (n_idx s) -> lex_current toks true s = Undefined.
Proof. intros s H F. unfold lex_current. rewrite (skip_none _ _ _ fmt_iff H F). reflexivity. Qed.
Lemma current_noskip : forall s k, token_at toks (n_idx s) k -> lex_current toks false s = Done (k, s).
Proof. intros s k K. unfold lex_current. cbn [rbind]. rewrite (tok_at_ok _ _ K). destruct s. reflexivity. Qed.
Lemma current_inv : forall b s k s', 0 <= n_idx s -> lex_current toks b s = Done (k, s') -> n_idx s <= n_idx s' < num toks /\ n_scopes s' = n_scopes s.
Proof.
  intros b s k s' H R. destruct b.
  - destruct (skip_cases _ _ (n_idx s) fmt_iff H) as [(j & k' & F)|F]; [rewrite (current_skip _ _ _ H F) in R|rewrite (current_none _ H F) in R; discriminate].
    injection R as <- <-. cbn [n_idx n_scopes]. destruct F as (A & B & _). apply token_at_range in B. split; [lia|reflexivity].
  - unfold lex_current in R. cbn [rbind] in R. destruct (tok_at toks (n_idx s)) eqn:E; cbn [rbind] in R; try discriminate. injection R as <- <-. apply tok_at_inv, token_at_range in E. unfold set_idx. cbn [n_idx n_scopes]. split; [lia|reflexivity].
Qed.
Lemma peek_skip : forall s j k, 0 <= n_idx s -> first_other toks newline (n_idx s) j k -> lex_peek toks true s = Done k.
Proof. intros s j k H F. unfold lex_peek. rewrite (skip_found _ _ _ _ _ nl_iff H F). cbn [rbind]. destruct F as (_ & K & _). apply (tok_at_ok _ _ K). Qed.
Lemma next_skip : forall s j k k', 0 <= n_idx s -> first_other toks newline (n_idx s) j k -> token_at toks (j + 1) k' -> lex_next toks true s = Done k'.
Proof. intros s j k k' H F K. unfold lex_next. rewrite (skip_found _ _ _ _ _ nl_iff H F). cbn [rbind]. apply (tok_at_ok _ _ K). Qed.
Lemma skip_down : forall p (P : token -> Prop), (forall k, p (t_type k) = true <-> P k) -> forall fuel i j k, 0 <= j <= i -> i - j <= Z.of_nat fuel -> i < num toks ->
  token_at toks j k -> ~ P k -> (forall m x, j < m <= i -> token_at toks m x -> P x) -> skip_tokens toks fuel p (-1) i = Done j.
Proof.
  intros p P HP. induction fuel as [|n IH]; intros i j k H1 H2 H3 K NP A.
  - assert (i = j) as -> by lia. cbn [skip_tokens]. rewrite (tok_at_ok _ _ K). cbn [rbind]. destruct (p (t_type k)) eqn:E; [apply HP in E; contradiction|reflexivity].
  - cbn [skip_tokens]. destruct (Z.eq_dec i j) as [->|N].
    + rewrite (tok_at_ok _ _ K). cbn [rbind]. destruct (p (t_type k)) eqn:E; [apply HP in E; contradiction|reflexivity].
    + destruct (token_at_ex i ltac:(lia)) as (x & X). rewrite (tok_at_ok _ _ X). cbn [rbind]. assert (E : p (t_type x) = true) by (apply HP, (A i x); [lia|exact X]).
      rewrite E. apply (IH (i + -1) j k); auto; try lia. intros m y M Y. apply (A m y); [lia|exact Y].
Qed.
Lemma previous_skip : forall s j k, 0 <= j <= n_idx s -> n_idx s < num toks -> token_at toks j k -> ~ newline k ->
  (forall m x, j < m <= n_idx s -> token_at toks m x -> newline x) -> lex_previous toks true s = Done k.
Proof.
  intros s j k H1 H2 K NP A. unfold lex_previous. rewrite (skip_down is_newline newline nl_iff (length toks) (n_idx s) j k) by (auto; unfold num, zlen in H2; lia).
  cbn [rbind]. apply tok_at_ok, K.
Qed.
Lemma noskip_ok : forall s k, (token_at toks (n_idx s) k -> lex_peek toks false s = Done k) /\ (token_at toks (n_idx s + 1) k -> lex_next toks false s = Done k) /\ (token_at toks (n_idx s - 1) k -> lex_previous toks false s = Done k).
Proof. intros s k. unfold lex_peek, lex_next, lex_previous. cbn [rbind]. split; [|split]; apply tok_at_ok. Qed.
Lemma check_ok : forall s t, 0 <= n_idx s ->
  (n_idx s = num toks -> check toks t s = Done (false, s)) /\
  (forall j k, first_other toks formatting (n_idx s) j k -> check toks t s = Done (t_type k =? t, Nav j (n_scopes s))).
Proof.
  intros s t H. unfold check, left_. split.
  - intros ->. rewrite Z.sub_diag. reflexivity.
  - intros j k F. rewrite (current_skip _ _ _ H F). destruct F as (A & B & _). apply token_at_range in B. replace (num toks - n_idx s =? 0) with false by lia. reflexivity.
Qed.

(** eat *)
Variable src : list Z.
Variable ms : macros.
Lemma report_at_end : forall s k, n_idx s = num toks -> token_at toks (num toks - 1) k -> reportable src toks (n_scopes s) k -> report src toks s = Done tt.
Proof.
  intros s k H K (st & rest & b & E & B & L). unfold report. rewrite E, (tok_at_ok _ _ B). cbn [rbind]. replace (n_idx s >=? num toks) with true by lia. rewrite (tok_at_ok _ _ K). cbn [rbind]. cbv zeta.
  replace (t_start k + (t_start k - t_start b + 2) <=? zlen src + 1) with true by lia. reflexivity.
Qed.
Lemma report_in : forall s j k, 0 <= n_idx s -> first_other toks formatting (n_idx s) j k -> reportable src toks (n_scopes s) k -> report src toks s = Done tt.
Proof.
  intros s j k H F (st & rest & b & E & B & L). unfold report. rewrite E, (tok_at_ok _ _ B). cbn [rbind]. rewrite (current_skip _ _ _ H F). destruct F as (F1 & F2 & _). apply token_at_range in F2. replace (n_idx s >=? num toks) with false by lia. cbn [rbind]. cbv zeta.
  replace (t_start k + (t_start k - t_start b + 2) <=? zlen src + 1) with true by lia. reflexivity.
Qed.
Lemma report_bad : forall s j k st rest b, 0 <= n_idx s -> first_other toks formatting (n_idx s) j k -> n_scopes s = st :: rest -> token_at toks st b -> zlen src + 1 < 2 * t_start k - t_start b + 2 -> report src toks s = Undefined.
Proof.
  intros s j k st rest b H F E B L. unfold report. rewrite E, (tok_at_ok _ _ B). cbn [rbind]. rewrite (current_skip _ _ _ H F). destruct F as (F1 & F2 & _). apply token_at_range in F2. replace (n_idx s >=? num toks) with false by lia. cbn [rbind]. cbv zeta.
  replace (t_start k + (t_start k - t_start b + 2) <=? zlen src + 1) with false by lia. reflexivity.
Qed.
Lemma eat_end : forall t s k, n_idx s = num toks -> token_at toks (num toks - 1) k -> reportable src toks (n_scopes s) k -> lex_eat src toks ms t s = Done (false, s).
Proof. intros t s k H K R. unfold lex_eat. replace (num toks - n_idx s <=? 0) with true by lia. rewrite (report_at_end s k H K R). reflexivity. Qed.
Lemma eat_match : forall s k, token_at toks (n_idx s) k -> lex_eat src toks ms (t_type k) s = Done (true, Nav (n_idx s + 1) (n_scopes s)).
Proof.
  intros s k K. unfold lex_eat. pose proof (token_at_range _ _ K). replace (num toks - n_idx s <=? 0) with false by lia. rewrite (tok_at_ok _ _ K). cbn [rbind]. cbv zeta. rewrite !andb_negb_r, Z.eqb_refl. reflexivity.
Qed.
Definition names_identifier_macro (k : token) : Prop :=
  exists m, lookup_macro ms (slice src (t_start k) (t_len k)) = Some m /\ Z.land (mac_flags m) MF_Allow_As_Identifier <> 0.
Lemma bit_iff : forall f, bitfield_is_set f MF_Allow_As_Identifier = true <-> Z.land f MF_Allow_As_Identifier <> 0.
Proof.
  intros f. unfold bitfield_is_set. rewrite Z.land_comm. change MF_Allow_As_Identifier with (2 ^ 2). destruct (Z.testbit f 2) eqn:T.
  - assert (Z.land f (2 ^ 2) = 2 ^ 2) as ->; [|split; [intros _; discriminate|intros _; apply Z.eqb_refl]]. apply Z.bits_inj'. intros n Hn. rewrite Z.land_spec, Z.pow2_bits_eqb by lia. destruct (Z.eqb_spec 2 n) as [<-|]; [rewrite T; reflexivity|apply andb_false_r].
  - assert (Z.land f (2 ^ 2) = 0) as ->; [|split; [discriminate|intros H; contradiction]]. apply Z.bits_inj'. intros n Hn. rewrite Z.land_spec, Z.pow2_bits_eqb, Z.bits_0 by lia. destruct (Z.eqb_spec 2 n) as [<-|]; [rewrite T; reflexivity|apply andb_false_r].
Qed.
Lemma eat_macro : forall s k, token_at toks (n_idx s) k -> ~ formatting k -> names_identifier_macro k -> lex_eat src toks ms Tok_Identifier s = Done (true, Nav (n_idx s + 1) (n_scopes s)).
Proof.
  intros s k K NF (m & M & B). apply bit_iff in B. unfold lex_eat. pose proof (token_at_range _ _ K). replace (num toks - n_idx s <=? 0) with false by lia. rewrite (tok_at_ok _ _ K). cbn [rbind]. cbv zeta.
  unfold formatting in NF. replace (t_type k =? Tok_NewLine) with false by lia. replace (t_type k =? Tok_Comment) with false by lia. cbn [andb orb]. rewrite M, B. cbn [andb negb]. destruct (negb (t_type k =? Tok_Identifier)); reflexivity.
Qed.
Lemma eat_mismatch : forall t s k j x, token_at toks (n_idx s) k -> t_type k <> t -> ~ (t = Tok_Identifier /\ names_identifier_macro k) ->
  first_other toks formatting (n_idx s) j x -> reportable src toks (n_scopes s) x ->
  lex_eat src toks ms t s = Done (false, Nav j (n_scopes s)).
Proof.
  intros t s k j x K Ne NM F R. unfold lex_eat. pose proof (token_at_range _ _ K) as RK. replace (num toks - n_idx s <=? 0) with false by lia. rewrite (tok_at_ok _ _ K). cbn [rbind]. cbv zeta. replace (t_type k =? t) with false by lia. cbn [negb].
  match goal with |- (if ?c then _ else _) = _ => assert (c = true) as -> end.
  { apply Bool.negb_true_iff, Bool.not_true_iff_false. intros H. apply andb_prop in H. destruct H as (H1 & H2). apply NM. split; [lia|]. unfold names_identifier_macro. destruct (lookup_macro ms (slice src (t_start k) (t_len k))) as [m|]; [|discriminate]. exists m. split; [reflexivity|]. apply bit_iff, H2. }
  set (s1 := if _ || _ then _ else s). assert (first_other toks formatting (n_idx s1) j x /\ n_scopes s1 = n_scopes s /\ 0 <= n_idx s1) as (F1 & S1 & N1).
  { subst s1. destruct F as (A & B & C & D). match goal with |- context [if ?c then _ else _] => destruct c eqn:Q end.
    - cbn [set_idx n_idx n_scopes]. split; [|split; [reflexivity|lia]]. split; [|split; [exact B|split; [exact C|intros m y Hm; apply D; lia]]].
      assert (n_idx s <> j); [|lia]. intros <-. apply C. rewrite <- (token_at_det _ _ _ K B). unfold formatting. lia.
    - split; [|split; [reflexivity|lia]]. split; [exact A|]. split; [exact B|]. split; [exact C|exact D]. }
  rewrite (current_skip s1 j x N1 F1). cbn [rbind]. rewrite (report_in (Nav j (n_scopes s1)) j x); [rewrite S1; reflexivity|cbn [n_idx]|cbn [n_idx]|cbn [n_scopes]; rewrite S1; exact R].
  - destruct F as (_ & B & _). apply token_at_range in B. lia.
  - destruct F as (_ & B & C & _). split; [lia|]. split; [exact B|]. split; [exact C|intros; lia].
Qed.
Definition plain : Prop := forall i k, token_at toks i k -> formatting k -> lookup_macro ms (slice src (t_start k) (t_len k)) = None.
Lemma eat_inv : forall t s b s', plain -> 0 <= n_idx s <= num toks -> lex_eat src toks ms t s = Done (b, s') ->
  n_idx s <= n_idx s' <= num toks /\ n_scopes s' = n_scopes s /\ (b = true -> n_idx s' = n_idx s + 1).
Proof.
  intros t s b s' PL H R. unfold lex_eat in R. destruct (num toks - n_idx s <=? 0) eqn:Q.
  { destruct (report src toks s); cbn [rbind] in R; try discriminate. injection R as <- <-. split; [lia|split; [reflexivity|discriminate]]. }
  destruct (tok_at toks (n_idx s)) as [k| |] eqn:K; cbn [rbind] in R; try discriminate. cbv zeta in R. apply tok_at_inv in K. pose proof (token_at_range _ _ K).
  set (c := _ || _) in R. set (na := if negb (t_type k =? t) then _ else false) in R.
  destruct na eqn:NA.
  - destruct (lex_current toks true (if c then set_idx (n_idx s + 1) s else s)) as [(k', s2)| |] eqn:E; cbn [rbind] in R; try discriminate. apply current_inv in E; [|destruct c; cbn [set_idx n_idx]; lia].
    destruct (report src toks s2); cbn [rbind] in R; try discriminate. injection R as <- <-. destruct E as (E & E'). split; [destruct c; cbn [set_idx n_idx] in E; lia|]. split; [destruct c; exact E'|discriminate].
  - injection R as <- <-. destruct c eqn:C; cbn [set_idx n_idx n_scopes]; [|split; [lia|split; [reflexivity|lia]]].
    exfalso. subst c na. assert (formatting k) as F by (unfold formatting; lia). rewrite (PL _ _ K F), andb_false_r in NA. cbn [negb] in NA. destruct (negb (t_type k =? t)) eqn:N; [discriminate|]. lia.
Qed.
Lemma perform_inv : forall o s s', plain -> 0 <= n_idx s <= num toks -> perform src toks ms o s = Done s' -> n_idx s <= n_idx s' <= num toks.
Proof.
  intros o s s' PL H R. destruct o; cbn [perform] in R.
  - destruct (lex_current toks skip s) as [(k, s2)| |] eqn:E; cbn [rbind] in R; try discriminate. injection R as <-. apply current_inv in E; lia.
  - destruct (lex_peek toks skip s); cbn [rbind] in R; try discriminate. injection R as <-. lia.
  - destruct (lex_next toks skip s); cbn [rbind] in R; try discriminate. injection R as <-. lia.
  - destruct (lex_previous toks skip s); cbn [rbind] in R; try discriminate. injection R as <-. lia.
  - destruct (lex_eat src toks ms type s) as [(b, s2)| |] eqn:E; cbn [rbind] in R; try discriminate. injection R as <-. apply eat_inv in E; [lia|exact PL|lia].
  - unfold check in R. destruct (left_ toks s =? 0); cbn [rbind] in R; [injection R as <-; lia|]. destruct (lex_current toks true s) as [(k, s2)| |] eqn:E; cbn [rbind] in R; try discriminate. injection R as <-. apply current_inv in E; lia.
  - unfold check_noskip in R. destruct (left_ toks s =? 0); cbn [rbind] in R; [injection R as <-; lia|]. destruct (lex_current toks false s) as [(k, s2)| |] eqn:E; cbn [rbind] in R; try discriminate. injection R as <-. apply current_inv in E; lia.
  - injection R as <-. cbn. lia.
  - injection R as <-. cbn. lia.
Qed.
Lemma performs_inv : forall os s s', plain -> 0 <= n_idx s <= num toks -> performs src toks ms os s = Done s' -> n_idx s <= n_idx s' <= num toks.
Proof.
  induction os as [|o r IH]; intros s s' PL H R; cbn [performs] in R; [injection R as <-; lia|].
  destruct (perform src toks ms o s) as [s1| |] eqn:E; cbn [rbind] in R; try discriminate. apply perform_inv in E; [|exact PL|exact H]. apply IH in R; [lia|exact PL|lia].
Qed.
End P.
