(** Directives, continued. *)
From Coq Require Import String ZArith List Bool Lia ZifyBool ZifyNat.
From Verif Require Import Common HashModel Text ArrayModel StrOpsModel EnumModel EnumProofs LexModel LexSpec LexProofs LexProofs2 LexProofs3.
Import ListNotations.
Close Scope string_scope.
Open Scope Z_scope.

Section Dir.
Variable src : list Z.
Hypothesis bytes : Forall byte src.
Variable ms0 : macros.
Notation len := (zlen src).
Notation ch := (byte_at src).
Notation St := (St src).
Notation core := (core src ms0).
Notation acc := (acc src).
Notation nolast := (Tok 0 0 0 0 0 0).

Lemma no_word : forall c, In c [0; 9; 10; 13; 32; 34; 35; 39; 40; 46; 60; 62; 92] -> ~ word_char c.
Proof. intros c H. unfold word_char. cbn [In] in H. lia. Qed.
Ltac noword := apply no_word; cbn [In]; lia.

Lemma edge_end : forall ts q, len <= q -> edge src ts q.
Proof. intros ts q H. apply edge_before. rewrite ch_past by exact H. noword. Qed.
Lemma edge_char : forall ts q c, ch q = c -> ~ word_char c -> edge src ts (q + 1).
Proof. intros ts q c E H. apply edge_after. replace (q + 1 - 1) with q by lia. congruence. Qed.

Lemma unsupported_ok : forall n a b p tk ts ms, 0 <= p <= len -> len - p + 1 <= Z.of_nat n -> runs_off src \/
  exists q l, unsupported src n a b (St p tk ts ms) = Done (St q (set_len l tk) ts ms) /\ l = t_len tk + (q - p) /\ p <= q <= len /\ edge src ts q.
Proof.
  induction n as [|n IH]; intros a b p tk ts ms P Hn; [lia|]. cbn [unsupported]. rewrite left_St. destruct (Z.eqb_spec (len - p) 0) as [E|E].
  { right. exists p, (t_len tk). rewrite set_len_same. split; [reflexivity|]. split; [lia|]. split; [lia|apply edge_end; lia]. }
  rewrite cur_ok by lia. cbn [rbind]. set (a' := if (ch p =? 34) && negb b then negb a else a). set (b' := if (ch p =? 39) && negb a' then negb b else b).
  destruct ((ch p =? 92) && negb a' && negb b') eqn:D.
  - assert (E1 : ch p = 92) by lia. rewrite take_ok by lia. cbn [rbind].
    assert (G : forall q l, p + 1 <= q <= len -> l = t_len tk + (q - p) -> edge src ts q -> runs_off src \/ exists q' l',
      rbind (Done (St q (set_len l tk) ts ms)) (fun s => rbind (cur src s) (fun c => if c =? 10 then rbind (take src s) (unsupported src n a' b') else Done s)) = Done (St q' (set_len l' tk) ts ms) /\ l' = t_len tk + (q' - p) /\ p <= q' <= len /\ edge src ts q').
    { intros q l L El Eq. cbn [rbind]. rewrite cur_ok by lia. cbn [rbind]. destruct (Z.eqb_spec (ch q) 10) as [E2|E2].
      - pose proof (inside src q 10 ltac:(lia) E2 ltac:(lia)). rewrite take_ok by lia. cbn [rbind]. destruct (IH a' b' (q + 1) (set_len (t_len (set_len l tk) + 1) (set_len l tk)) ts ms) as [H0|(q2 & l2 & R & El2 & L2 & E3)]; [lia|lia|now left|].
        right. exists q2, l2. rewrite R. rewrite !set_len_set_len. split; [reflexivity|]. cbn [t_len set_len] in El2. split; [lia|]. split; [lia|exact E3].
      - right. exists q, l. split; [reflexivity|]. split; [exact El|]. split; [lia|exact Eq]. }
    destruct (Z.eq_dec (ch (p + 1)) 13) as [E2|E2].
    + pose proof (inside src (p + 1) 13 ltac:(lia) E2 ltac:(lia)). rewrite if_cur_yes by (try lia; exact E2). rewrite take_ok by lia. rewrite set_len_set_len. apply G; [lia|cbn [t_len set_len]; lia|]. apply (edge_char _ _ 13); [exact E2|noword].
    + rewrite if_cur_no by (try lia; exact E2). apply G; [lia|lia|]. apply (edge_char _ _ 92); [exact E1|noword].
  - assert (G : forall q l, p <= q < len -> l = t_len tk + (q - p) -> runs_off src \/ exists q' l',
      rbind (Done (St q (set_len l tk) ts ms)) (fun s => rbind (cur src s) (fun c => if c =? 10 then take src s else rbind (take src s) (unsupported src n a' b'))) = Done (St q' (set_len l' tk) ts ms) /\ l' = t_len tk + (q' - p) /\ p <= q' <= len /\ edge src ts q').
    { intros q l L El. cbn [rbind]. rewrite cur_ok by lia. cbn [rbind]. rewrite take_ok by lia. rewrite set_len_set_len. destruct (Z.eqb_spec (ch q) 10) as [E2|E2].
      - right. exists (q + 1), (t_len (set_len l tk) + 1). split; [reflexivity|]. cbn [t_len set_len]. split; [lia|]. split; [lia|]. apply (edge_char _ _ 10); [exact E2|noword].
      - cbn [rbind]. destruct (IH a' b' (q + 1) (set_len (t_len (set_len l tk) + 1) tk) ts ms) as [H0|(q2 & l2 & R & El2 & L2 & E3)]; [lia|lia|now left|].
        right. exists q2, l2. rewrite R. rewrite set_len_set_len. split; [reflexivity|]. cbn [t_len set_len] in El2. split; [lia|]. split; [lia|exact E3]. }
    destruct (Z.eq_dec (ch p) 13) as [E2|E2].
    + rewrite if_cur_yes by (try lia; exact E2). rewrite take_ok by lia. destruct (Z.eq_dec (p + 1) len) as [E3|E3]; [left; apply (cr_end src p); [lia|exact E3|exact E2]|]. apply G; lia.
    + rewrite if_cur_no by (try lia; exact E2). replace (St p tk ts ms) with (St p (set_len (t_len tk) tk) ts ms) by (rewrite set_len_same; reflexivity). apply G; lia.
Qed.

Lemma content_ok : forall n a b p l tk ts ms, 0 <= p <= len -> len - p + 1 <= Z.of_nat n ->
  exists q l' r, content src n a b (St p tk ts ms) l = Done (St q tk ts ms, l', r) /\ (r = Lex_Continue -> l' = l + (q - p) /\ p <= q <= len /\ edge src ts q).
Proof.
  induction n as [|n IH]; intros a b p l tk ts ms P Hn; [lia|]. cbn [content]. rewrite left_St. destruct (Z.eqb_spec (len - p) 0) as [E|E].
  { exists p, l, Lex_Continue. split; [reflexivity|]. intros _. split; [lia|]. split; [lia|apply edge_end; lia]. }
  rewrite cur_ok by lia. cbn [rbind]. set (a' := if (ch p =? 34) && negb b then negb a else a). set (b' := if (ch p =? 39) && negb a' then negb b else b).
  destruct ((ch p =? 92) && negb a' && negb b') eqn:D.
  - rewrite move_ok by lia. cbn [rbind]. rewrite cur_ok by lia. cbn [rbind].
    assert (G : forall q l1, p + 1 <= q <= len -> l1 = l + (q - p) -> exists q' l' r,
      rbind (cur src (St q tk ts ms)) (fun c => if c =? 10 then rbind (move_forward src (St q tk ts ms)) (fun s => content src n a' b' s (l1 + 1)) else Done (St q tk ts ms, l1, Lex_ReturnNull)) = Done (St q' tk ts ms, l', r) /\ (r = Lex_Continue -> l' = l + (q' - p) /\ p <= q' <= len /\ edge src ts q')).
    { intros q l1 L El. rewrite cur_ok by lia. cbn [rbind]. destruct (Z.eqb_spec (ch q) 10) as [E2|E2].
      - pose proof (inside src q 10 ltac:(lia) E2 ltac:(lia)). rewrite move_ok by lia. cbn [rbind]. destruct (IH a' b' (q + 1) (l1 + 1) tk ts ms) as (q2 & l2 & r & R & K); [lia|lia|].
        exists q2, l2, r. split; [exact R|]. intros Hr. destruct (K Hr) as (K1 & K2 & K3). split; [lia|]. split; [lia|exact K3].
      - exists q, l1, Lex_ReturnNull. split; [reflexivity|discriminate]. }
    destruct (Z.eqb_spec (ch (p + 1)) 13) as [E2|E2].
    + pose proof (inside src (p + 1) 13 ltac:(lia) E2 ltac:(lia)). rewrite move_ok by lia. cbn [rbind]. apply G; lia.
    + cbn [rbind]. apply G; lia.
  - destruct (Z.eqb_spec (ch p) 13) as [E1|E1]; [exists p, l, Lex_Continue; split; [reflexivity|]; intros _; split; [lia|]; split; [lia|]; apply edge_before; rewrite E1; noword|].
    destruct (Z.eqb_spec (ch p) 10) as [E2|E2]; [exists p, l, Lex_Continue; split; [reflexivity|]; intros _; split; [lia|]; split; [lia|]; apply edge_before; rewrite E2; noword|].
    rewrite move_ok by lia. cbn [rbind]. destruct (IH a' b' (p + 1) (l + 1) tk ts ms) as (q2 & l2 & r & R & K); [lia|lia|].
    exists q2, l2, r. split; [exact R|]. intros Hr. destruct (K Hr) as (K1 & K2 & K3). split; [lia|]. split; [lia|exact K3].
Qed.

(** the token at the beginning of an iteration, at [p0] *)
Definition t_fresh (p0 : Z) : token := Tok p0 0 Tok_Invalid (fst (lc src p0)) (snd (lc src p0)) TF_Null.

Lemma core_dir : forall p q ts h k, core p ts -> p < q <= len -> ch p = 35 -> here src p (p + 1) h -> t_type h = Tok_Preprocess_Hash -> t_start k = p -> t_len k = q - p ->
  t_type k = Tok_Preprocess_Unsupported -> positioned src k -> core q ((ts ++ [h]) ++ [k]).
Proof.
  intros p q ts h k C L E35 Hh Th Sk Lk Tk Pk. pose proof C as (P & A & B & D & W). pose proof Hh as (Sh & Lh & _).
  assert (W1 : ~ word_first (ch p)) by (rewrite E35; unfold word_first, word_char; lia).
  split; [lia|]. split; [rewrite <- app_assoc; apply (laid_app _ _ p); [exact A|]; apply laid_dir; [lia| |apply laid_nil; unfold t_end; lia]; split; [exact Th|split; [exact Tk|]]; lia|].
  split; [apply (acc_app src _ _ p); [apply acc_more, acc_more, B|apply acc_tok; unfold t_end; lia]|].
  split; [apply Forall_app; split; [apply Forall_app; split; [exact D|constructor; [apply (here_positioned src p (p + 1)); [lia|exact Hh]|constructor]]|constructor; [exact Pk|constructor]]|].
  apply words_app; [apply words_app; [exact W|]|]; apply sym_wordok; congruence.
Qed.

(** where the directive's text is, for [runs_off] *)
Lemma cut : forall p q0 q1 q2, 0 <= p < len -> p < q0 -> q0 <= q1 -> q1 <= q2 <= len -> ch p = 35 ->
  src = firstn (Z.to_nat p) src ++ txt "#" ++ slice src (p + 1) (q0 - (p + 1)) ++ slice src q0 (q1 - q0) ++ slice src q1 (q2 - q1) ++ slice src q2 (len - q2).
Proof.
  intros p q0 q1 q2 H0 H1 H2 H3 E. change (txt "#") with [35]. rewrite <- E, <- (slice_one src p) by lia. replace 1 with (p + 1 - p) at 1 by lia.
  rewrite (slice_app src q1 q2 len) by lia. rewrite (slice_app src q0 q1 len) by lia. rewrite (slice_app src (p + 1) q0 len) by lia. rewrite (slice_app src p (p + 1) len) by lia.
  rewrite slice_all by lia. symmetry. apply slice_full.
Qed.
Lemma spans_between : forall p q, spans src char_is_space p q -> between src p q spacep.
Proof. intros p q (_ & A & _) i Hi. apply space_iff; [apply ch_byte, bytes|apply A, Hi]. Qed.

Variable fuel : nat.
Hypothesis enough : len + 2 <= Z.of_nat fuel.
Lemma directive_ok : forall p0 p ts ms, core p ts -> 0 <= p0 <= p -> between src p0 p spacep -> ch p = 35 -> ms = table src ms0 ts ->
  runs_off src \/ exists q tk' new ms' r, lex_preprocessor_directive src fuel (St p (t_fresh p0) ts ms) = Done (St q tk' (ts ++ new) ms', r) /\
    (r = Lex_Continue -> core q (ts ++ new) /\ p < q /\ ms' = table src ms0 (ts ++ new) /\ edge src (ts ++ new) q /\ new <> []).
Proof.
  intros p0 p ts ms C P0 B0 E35 M. pose proof C as (P & _). pose proof (inside src p 35 P E35 ltac:(lia)) as Lp. unfold lex_preprocessor_directive. change (l_pos (St p (t_fresh p0) ts ms)) with p.
  change (l_line (St p (t_fresh p0) ts ms)) with (fst (lc src p)). change (l_col (St p (t_fresh p0) ts ms)) with (snd (lc src p)).
  rewrite append_St, move_ok by lia. cbn [rbind]. set (h := Tok p 1 _ _ _ _).
  assert (Hh : here src p (p + 1) h). { split; [reflexivity|]. split; [cbn; lia|]. split; reflexivity. }
  assert (C1 : core (p + 1) (ts ++ [h])). { apply (core_here src ms0 p); [exact C|lia|exact Hh|apply preproc_wordok; reflexivity]. }
  assert (M1 : ms = table src ms0 (ts ++ [h])) by (rewrite table_snoc, learn_other by discriminate; exact M).
  destruct (skip_ok src fuel (p + 1) (t_fresh p0) (ts ++ [h]) ms) as (q0 & S0 & R0); [lia|lia|]. rewrite R0. cbn [rbind]. clear R0. pose proof S0 as (L0 & _).
  assert (C2 : core q0 (ts ++ [h])) by (apply (spans_space_acc src bytes ms0 fuel _ (p + 1)); assumption).
  rewrite with_tok_St. change (l_pos (St q0 (t_fresh p0) (ts ++ [h]) ms)) with q0. change (t_len (l_tok (St q0 (t_fresh p0) (ts ++ [h]) ms))) with 0.
  destruct (while_take src (fun c => negb (char_is_space c)) fuel q0 (set_text q0 0 (t_fresh p0)) (ts ++ [h]) ms) as (q1 & S1 & R1); [lia|lia|]. rewrite R1. cbn [rbind]. clear R1. pose proof S1 as (L1 & _).
  change (t_len (set_text q0 0 (t_fresh p0))) with 0. replace (0 + (q1 - q0)) with (q1 - q0) by lia. set (tk := set_len (q1 - q0) _).
  change (slice src (t_start (l_tok (St q1 tk (ts ++ [h]) ms))) (t_len (l_tok (St q1 tk (ts ++ [h]) ms)))) with (slice src q0 (q1 - q0)). set (w := slice src q0 (q1 - q0)). rewrite with_tok_St. set (type := str_to_toktype w).
  assert (BT : between src p0 q0 (fun c => spacep c \/ c = 35)).
  { intros i Hi. destruct (Z.lt_trichotomy i p) as [H|[->|H]]; [left; apply B0; lia|right; exact E35|left; apply (spans_between _ _ S0); lia]. }
  assert (BT' : between src p0 p (fun c => spacep c \/ c = 35)) by (intros i Hi; left; apply B0; lia).
  destruct (negb ((type >=? Tok_Preprocess_Define) && (type <=? Tok_Preprocess_Pragma))) eqn:D.
  { rewrite with_tok_St. set (tk1 := set_type Tok_Preprocess_Unsupported (set_type type tk)).
    destruct (unsupported_ok fuel false false q1 tk1 (ts ++ [h]) ms) as [H|(q2 & l2 & R2 & El & L2 & E2)]; [lia|lia|left; exact H|right]. rewrite R2. cbn [rbind]. rewrite with_tok_St, append_tok_St.
    set (k := set_text p _ _). exists q2, k, [h; k], ms, Lex_Continue. replace (ts ++ [h; k]) with ((ts ++ [h]) ++ [k]) by (rewrite <- app_assoc; reflexivity). split; [reflexivity|]. intros _.
    change (t_len tk1) with (q1 - q0) in El. split; [|split; [lia|split; [|split; [|discriminate]]]].
    - apply (core_dir p q2); try assumption; try reflexivity; try lia; [unfold k; cbn [set_text t_len t_start set_len]; change (t_start tk1) with q0; lia|].
      exists p0. change (t_start k) with p. change (t_line k) with (fst (lc src p0)). change (t_col k) with (snd (lc src p0)). split; [lia|]. split; [apply lc_spec|]. split; [exact BT'|]. change (t_flags k) with TF_Null. discriminate.
    - rewrite table_snoc, learn_other by discriminate. exact M1.
    - apply edge_more, E2. }
  assert (N : type <> Tok_Invalid). { intros E. rewrite E in D. discriminate D. }
  assert (NI : type <> Tok_Identifier). { intros E. rewrite E in D. discriminate D. }
  assert (NH : type <> Tok_Preprocess_Hash). { intros E. rewrite E in D. discriminate D. }
  (* the token naming the directive *)
  assert (CK : forall k, t_start k = q0 -> t_len k = q1 - q0 -> t_line k = fst (lc src p0) -> t_col k = snd (lc src p0) -> has_bit (t_flags k) TF_Preprocess = false -> t_type k = type -> core q1 ((ts ++ [h]) ++ [k]) /\ ms = table src ms0 ((ts ++ [h]) ++ [k])).
  { intros k K1 K2 K3 K4 K5 K6. split; [|rewrite table_snoc, learn_other by congruence; exact M1]. apply (core_tok src ms0 q0); try assumption; unfold t_end; try lia.
    - exists p0. rewrite K1, K3, K4. split; [lia|]. split; [apply lc_spec|]. split; [exact BT|]. rewrite K5. discriminate.
    - apply acc_tok; unfold t_end; lia.
    - apply hash_wordok; reflexivity. }
  destruct ((type =? Tok_Preprocess_Else) || (type =? Tok_Preprocess_EndIf)) eqn:D1.
  { rewrite with_tok_St, append_tok_St. set (k := or_flags _ _). destruct (CK k) as (CK1 & CK2); try reflexivity.
    destruct (end_line_ok src fuel enough q1 k ((ts ++ [h]) ++ [k]) ms) as [H|(q2 & R2 & L2 & A2 & E2)]; [lia|left; exact H|right]. rewrite R2. cbn [rbind].
    exists q2, k, [h; k], ms, Lex_Continue. replace (ts ++ [h; k]) with ((ts ++ [h]) ++ [k]) by (rewrite <- app_assoc; reflexivity). split; [reflexivity|]. intros _. split; [|split; [lia|split; [exact CK2|split; [|discriminate]]]].
    - apply (core_skip src ms0 q1); [exact CK1|lia|exact A2].
    - apply E2. apply (nonspace_stop src bytes q0). exact S1. }
  set (s2 := if (type >=? Tok_Preprocess_If) && (type <=? Tok_Preprocess_ElIf) then _ else _).
  assert (Es2 : exists fl, s2 = St q1 (set_flags fl (set_type type tk)) (ts ++ [h]) ms /\ has_bit fl TF_Preprocess = false).
  { unfold s2. destruct ((type >=? Tok_Preprocess_If) && (type <=? Tok_Preprocess_ElIf)); [exists (Z.lor TF_Null TF_Preprocess_Cond)|exists TF_Null]; split; reflexivity. }
  destruct Es2 as (fl & Es2 & Fl). rewrite Es2. clear Es2 s2. rewrite append_tok_St. set (k := set_flags fl _). destruct (CK k) as (CK1 & CK2); try reflexivity; [exact Fl|]. set (ts' := (ts ++ [h]) ++ [k]) in *.
  destruct (skip_ok src fuel q1 k ts' ms) as (q2 & S2 & R2); [lia|lia|]. rewrite R2. cbn [rbind]. clear R2. pose proof S2 as (L2 & _).
  assert (C3 : core q2 ts') by (apply (spans_space_acc src bytes ms0 fuel _ q1); assumption).
  assert (Cut := cut p q0 q1 q2 ltac:(lia) ltac:(lia) ltac:(lia) ltac:(lia) E35). fold w in Cut.
  assert (F1 : Forall spacep (slice src (p + 1) (q0 - (p + 1)))) by (apply slice_Forall; [lia|lia|apply spans_between, S0]).
  assert (F2 : Forall spacep (slice src q1 (q2 - q1))) by (apply slice_Forall; [lia|lia|apply spans_between, S2]).
  assert (DEF : runs_off src \/ exists q3 new ms' r, (if type =? Tok_Preprocess_Define then lex_preprocessor_define src fuel (St q2 k ts' ms) else Done (St q2 k ts' ms, Lex_Continue)) = Done (St q3 k (ts' ++ new) ms', r) /\
     (r = Lex_Continue -> core q3 (ts' ++ new) /\ q2 <= q3 /\ ms' = table src ms0 (ts' ++ new) /\ (type <> Tok_Preprocess_Define -> q3 = q2))).
  { destruct (Z.eqb_spec type Tok_Preprocess_Define) as [Ed|Ed].
    - destruct (Z.eq_dec q2 len) as [El|El].
      + left. right; right; left. exists (firstn (Z.to_nat p) src), (slice src (p + 1) (q0 - (p + 1))), w, (slice src q1 (q2 - q1)).
        split; [|split; [exact F1|split; [exact F2|apply (tok_hash w Tok_Preprocess_Define); [exact Ed|discriminate|reflexivity]]]]. rewrite Cut at 1. replace (len - q2) with 0 by lia. change (slice src q2 0) with (@nil Z). rewrite app_nil_r. reflexivity.
      + right. destruct (define_ok src bytes ms0 fuel enough q2 k ts' ms C3 ltac:(lia) CK2) as (q3 & new & ms' & r & R3 & K). exists q3, new, ms', r. split; [exact R3|]. intros Hr. destruct (K Hr) as (K1 & K2 & K3). split; [exact K1|]. split; [lia|]. split; [exact K3|]. intros Hn. now destruct Hn.
    - right. exists q2, [], ms, Lex_Continue. rewrite app_nil_r. split; [reflexivity|]. intros _. split; [exact C3|]. split; [lia|]. split; [exact CK2|auto]. }
  destruct DEF as [H|(q3 & new & ms' & r & R3 & K)]; [left; exact H|]. rewrite R3. cbn [rbind]. clear R3. destruct r.
  2: { right. exists q3, k, (h :: k :: new), ms', Lex_ReturnNull. unfold ts'. rewrite <- !app_assoc. split; [reflexivity|discriminate]. }
  destruct (K eq_refl) as (K1 & K2 & K3 & K4). clear K. pose proof K1 as (Q3 & _). change (l_pos (St q3 k (ts' ++ new) ms')) with q3. change (l_line (St q3 k (ts' ++ new) ms')) with (fst (lc src q3)). change (l_col (St q3 k (ts' ++ new) ms')) with (snd (lc src q3)).
  assert (Tail : forall x, ts ++ h :: k :: new ++ [x] = (ts' ++ new) ++ [x]) by (intros x; unfold ts'; rewrite <- !app_assoc; reflexivity).
  destruct (Z.eqb_spec type Tok_Preprocess_Include) as [Ei|Ei].
  - assert (E32 : q3 = q2) by (apply K4; rewrite Ei; discriminate). rewrite cur_ok by lia. cbn [rbind]. destruct (negb (ch q3 =? 34) && negb (ch q3 =? 60)) eqn:D2.
    { right. exists q3, k, (h :: k :: new), ms', Lex_ReturnNull. unfold ts'. rewrite <- !app_assoc. split; [reflexivity|discriminate]. }
    assert (Lq3 : q3 < len). { destruct (Z.eq_dec q3 len) as [E|]; [rewrite E, ch_end in D2; discriminate D2|lia]. }
    rewrite move_ok by lia. cbn [rbind]. destruct (grow_ok src (fun c => negb (c =? 34) && negb (c =? 62)) fuel (q3 + 1) 1 k (ts' ++ new) ms') as (q4 & S4 & R4); [lia|lia|]. rewrite R4. cbn [rbind]. pose proof S4 as (L4 & A4 & B4).
    destruct (Z.eq_dec q4 len) as [E4|E4].
    { left. right; right; right. exists (firstn (Z.to_nat p) src), (slice src (p + 1) (q0 - (p + 1))), w, (slice src q1 (q2 - q1)), (ch q2), (slice src (q2 + 1) (len - (q2 + 1))). split.
      - rewrite Cut at 1. rewrite <- (slice_app src q2 (q2 + 1) len) by lia. replace (q2 + 1 - q2) with 1 by lia. rewrite slice_one by lia. reflexivity.
      - split; [exact F1|]. split; [exact F2|]. split; [apply (tok_hash w Tok_Preprocess_Include); [exact Ei|discriminate|reflexivity]|]. split; [rewrite <- E32; lia|].
        split; intros Hin; (apply slice_in in Hin; [|lia|lia]); destruct Hin as (i & Hi & Hc); specialize (A4 i ltac:(lia)); cbv beta in A4; rewrite Hc in A4; discriminate A4. }
    right. specialize (B4 ltac:(lia)). cbv beta in B4. rewrite move_ok by lia. cbn [rbind]. rewrite cur_ok by lia. cbn [rbind]. set (x := Tok q3 (1 + (q4 - (q3 + 1)) + 1) Tok_String _ _ _).
    assert (Ex : x = Tok q3 (q4 + 1 - q3) Tok_String (fst (lc src q3)) (snd (lc src q3)) TF_Preprocess) by (unfold x; f_equal; lia).
    assert (C5 : core (q4 + 1) ((ts' ++ new) ++ [x])) by (rewrite Ex; apply core_local; [exact K1|lia]).
    assert (M5 : ms' = table src ms0 ((ts' ++ new) ++ [x])) by (rewrite table_snoc, learn_other by discriminate; exact K3).
    assert (E5 : edge src ((ts' ++ new) ++ [x]) (q4 + 1)) by (apply (edge_char _ _ (ch q4)); [reflexivity|noword]).
    assert (Fin : forall q, q4 + 1 <= q <= len -> acc ((ts' ++ new) ++ [x]) (q4 + 1) q -> edge src ((ts' ++ new) ++ [x]) q ->
      exists q' tk' new' ms'' r, Done (append x (St q k (ts' ++ new) ms'), Lex_Continue) = Done (St q' tk' (ts ++ new') ms'', r) /\ (r = Lex_Continue -> core q' (ts ++ new') /\ p < q' /\ ms'' = table src ms0 (ts ++ new') /\ edge src (ts ++ new') q' /\ new' <> [])).
    { intros q Hq Ac Ed. rewrite append_St. exists q, k, (h :: k :: new ++ [x]), ms', Lex_Continue. rewrite Tail. split; [reflexivity|]. intros _. split; [apply (core_skip src ms0 (q4 + 1)); [exact C5|lia|exact Ac]|]. split; [lia|]. split; [exact M5|]. split; [exact Ed|discriminate]. }
    destruct (Z.eqb_spec (ch (q4 + 1)) 13) as [E6|E6].
    + pose proof (inside src (q4 + 1) 13 ltac:(lia) E6 ltac:(lia)). change (l_pos (St (q4 + 1) k (ts' ++ new) ms')) with (q4 + 1). rewrite at_ok by lia. cbn [rbind]. destruct (Z.eqb_spec (ch (q4 + 1 + 1)) 10) as [E7|E7].
      * pose proof (inside src (q4 + 1 + 1) 10 ltac:(lia) E7 ltac:(lia)). rewrite move_ok by lia. cbn [rbind]. rewrite move_ok by lia. cbn [rbind]. apply Fin; [lia| |].
        -- intros i Hi. right; left. destruct (Z.eq_dec i (q4 + 1)) as [->|]; [rewrite E6; unfold spacep; cbn; tauto|]. replace i with (q4 + 1 + 1) by lia. rewrite E7. unfold spacep; cbn; tauto.
        -- apply (edge_char _ _ 10); [exact E7|noword].
      * cbn [rbind]. apply Fin; [lia|apply acc_nil|exact E5].
    + destruct (Z.eqb_spec (ch (q4 + 1)) 10) as [E7|E7]; cbn [rbind].
      * pose proof (inside src (q4 + 1) 10 ltac:(lia) E7 ltac:(lia)). rewrite move_ok by lia. cbn [rbind]. apply Fin; [lia| |].
        -- apply acc_one. right; left. rewrite E7; unfold spacep; cbn; tauto.
        -- apply (edge_char _ _ 10); [exact E7|noword].
      * apply Fin; [lia|apply acc_nil|exact E5].
  - right. destruct (content_ok fuel false false q3 0 k (ts' ++ new) ms') as (q4 & l4 & r & R4 & K); [lia|lia|]. rewrite R4. cbn [rbind]. destruct r.
    2: { exists q4, k, (h :: k :: new), ms', Lex_ReturnNull. unfold ts'. rewrite <- !app_assoc. split; [reflexivity|discriminate]. }
    destruct (K eq_refl) as (Kl & Kq & Ke). rewrite append_St. set (x := Tok q3 l4 _ _ _ _). assert (Ex : x = Tok q3 (q4 - q3) Tok_Preprocess_Content (fst (lc src q3)) (snd (lc src q3)) TF_Preprocess) by (unfold x; f_equal; lia).
    exists q4, k, (h :: k :: new ++ [x]), ms', Lex_Continue. rewrite Tail. split; [reflexivity|]. intros _. split; [rewrite Ex; apply core_local; [exact K1|lia]|]. split; [lia|].
    split; [rewrite table_snoc, learn_other by discriminate; exact K3|]. split; [apply edge_more, Ke|discriminate].
Qed.
End Dir.
