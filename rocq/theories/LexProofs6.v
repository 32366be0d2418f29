(** The switch on the current character. *)
From Coq Require Import String ZArith List Bool Lia ZifyBool ZifyNat.
From Verif Require Import Common HashModel Text ArrayModel StrOpsModel EnumModel EnumSpec EnumProofs LexModel LexSpec LexProofs LexProofs2 LexProofs3 LexProofs4 LexProofs5.
Import ListNotations.
Close Scope string_scope.
Open Scope Z_scope.

Section Switch.
Variable src : list Z.
Hypothesis bytes : Forall byte src.
Variable ms0 : macros.
Notation len := (zlen src).
Notation ch := (byte_at src).
Notation St := (St src).
Notation acc := (acc src).
Notation T := (T src).
Variable fuel : nat.
Hypothesis enough : len + 2 <= Z.of_nat fuel.

Ltac symc := unfold sym_char; rewrite sym_chars; cbn [In]; lia.
Ltac nofirst := apply sym_no_first; symc.
Ltac badty := cbn [In]; intros [?|[?|[?|[]]]]; discriminate.
Ltac rdy := apply readyT; [lia|lia|lia|reflexivity|badty|nofirst|].

Ltac sf q k := first [eapply (scanned_found src _ _ q k); [lia| |reflexivity] | eapply (scanned_now src _ _ q k); [lia|]].

Lemma edge_prev : forall ts q i, q = i + 1 -> sym_char (ch i) -> edge src ts q.
Proof. intros ts q i -> H. apply edge_sym. replace (i + 1 - 1) with i by lia. exact H. Qed.

Lemma one_ok : forall p0 p ts ms ty fl, 0 <= p < len -> sym_char (ch p) -> has_bit fl TF_Preprocess = false -> ~ In ty [Tok_Invalid; Tok_Identifier; Tok_Preprocess_Hash] ->
  scanned src p0 p ts ms (rbind (move_if_left src (begin ty fl (St p (t_fresh src p0) ts ms))) (fun s => Done (s, Found))).
Proof.
  intros p0 p ts ms ty fl P Sc Hf Ht. apply (scanned_found src p0 p (p + 1) (T p0 p 1 ty fl)); [lia| |rewrite begin_St; apply move_if_ok; lia].
  apply readyT; try assumption; try lia; [apply sym_no_first; exact Sc|apply (edge_prev _ _ p); [reflexivity|exact Sc]].
Qed.

Lemma symbol_ok : forall p0 p ts ms, 0 <= p < len ->
  match lex_symbol src fuel (ch p) (St p (t_fresh src p0) ts ms) with
  | Some r => runs_off src \/ scanned src p0 p ts ms r
  | None => ~ sym_char (ch p)
  end.
Proof.
  intros p0 p ts ms P. unfold lex_symbol.
  destruct (Z.eqb_spec (ch p) 46) as [E|E46].
  { right. rewrite begin_St, move_if_ok by lia. cbn [rbind]. destruct (Z.eq_dec (ch (p + 1)) 46) as [E1|E1].
    - pose proof (inside src (p + 1) 46 ltac:(lia) E1 ltac:(lia)). rewrite if_cur_yes by (try lia; exact E1). rewrite move_ok by lia. cbn [rbind]. destruct (Z.eq_dec (ch (p + 1 + 1)) 46) as [E2|E2].
      + pose proof (inside src (p + 1 + 1) 46 ltac:(lia) E2 ltac:(lia)). rewrite if_cur_yes by (try lia; exact E2). rewrite with_tok_St, move_ok by lia.
        apply (scanned_found src p0 p (p + 3) (T p0 p 3 Tok_Varadic_Argument TF_Null)); [lia| |replace (p + 1 + 1 + 1) with (p + 3) by lia; reflexivity]. rdy. apply (edge_prev _ _ (p + 1 + 1)); [lia|symc].
      + rewrite if_cur_no by (try lia; exact E2). set (k := T p0 p 1 Tok_Access_MemberSymbol TF_AccessOperator). sf (p + 1 + 1) k.
        split; [reflexivity|]. split; [cbn; lia|]. split; [unfold t_end; cbn; lia|]. split; [lia|]. split; [reflexivity|]. split; [reflexivity|]. split; [reflexivity|]. split; [badty|]. split; [|split; [apply (edge_prev _ _ (p + 1)); [lia|symc]|nofirst]].
        apply (acc_app src _ _ (p + 1)); [apply acc_tok; unfold t_end; cbn; lia|]. apply acc_one. right; right; right; left. split; [exact E1|]. exists k. split; [apply in_or_app; right; now left|]. split; reflexivity.
    - rewrite if_cur_no by (try lia; exact E1). sf (p + 1) (T p0 p 1 Tok_Access_MemberSymbol TF_AccessOperator). rdy. apply (edge_prev _ _ p); [lia|symc]. }
  destruct (Z.eqb_spec (ch p) 38) as [E|E38].
  { right. rewrite begin_St, move_if_ok by lia. cbn [rbind]. destruct (Z.eq_dec (ch (p + 1)) 38) as [E1|E1].
    - pose proof (inside src (p + 1) 38 ltac:(lia) E1 ltac:(lia)). rewrite if_cur_yes by (try lia; exact E1). rewrite with_tok_St, move_if_ok by lia.
      sf (p + 1 + 1) (T p0 p 2 Tok_Ampersand_DBL (Z.lor TF_Operator TF_Specifier)). rdy. apply (edge_prev _ _ (p + 1)); [lia|symc].
    - rewrite if_cur_no by (try lia; exact E1). sf (p + 1) (T p0 p 1 Tok_Ampersand (Z.lor TF_Operator TF_Specifier)). rdy. apply (edge_prev _ _ p); [lia|symc]. }
  destruct (Z.eqb_spec (ch p) 58) as [E|E58].
  { right. rewrite begin_St, move_if_ok by lia. cbn [rbind]. destruct (Z.eq_dec (ch (p + 1)) 58) as [E1|E1].
    - pose proof (inside src (p + 1) 58 ltac:(lia) E1 ltac:(lia)). rewrite if_cur_yes by (try lia; exact E1). rewrite take_ok by lia. cbn [rbind]. rewrite with_tok_St.
      sf (p + 1 + 1) (T p0 p 2 Tok_Access_StaticSymbol TF_Null). rdy. apply (edge_prev _ _ (p + 1)); [lia|symc].
    - rewrite if_cur_no by (try lia; exact E1). sf (p + 1) (T p0 p 1 Tok_Assign_Classifer TF_Null). rdy. apply (edge_prev _ _ p); [lia|symc]. }
  destruct (Z.eqb_spec (ch p) 123) as [E|E123]; [right; apply one_ok; [lia|symc|reflexivity|badty]|].
  assert (EL : forall ty, ~ In ty [Tok_Invalid; Tok_Identifier; Tok_Preprocess_Hash] -> sym_char (ch p) -> runs_off src \/ scanned src p0 p ts ms (rbind (rbind (move_if_left src (begin ty TF_EndDefinition (St p (t_fresh src p0) ts ms))) (end_line src fuel)) (fun s => Done (s, Found)))).
  { intros ty Hty Sc. rewrite begin_St, move_if_ok by lia. cbn [rbind]. set (k := T p0 p 1 ty TF_EndDefinition). destruct (end_line_ok src fuel enough (p + 1) k ts ms) as [H|(q & R & L & A & Ed)]; [lia|left; exact H|right].
    apply (scanned_found src p0 p q k); [lia| |exact R].
    split; [reflexivity|]. split; [cbn; lia|]. split; [unfold t_end; cbn; lia|]. split; [lia|]. split; [reflexivity|]. split; [reflexivity|]. split; [reflexivity|]. split; [exact Hty|]. split; [|split; [|apply sym_no_first, Sc]].
    - apply (acc_app src _ _ (p + 1)); [apply acc_tok; unfold t_end; cbn; lia|]. apply acc_more, A.
    - apply edge_more, Ed. apply (edge_prev _ _ p); [reflexivity|exact Sc]. }
  destruct (Z.eqb_spec (ch p) 125) as [E|E125]; [apply EL; [badty|symc]|].
  destruct (Z.eqb_spec (ch p) 91) as [E|E91].
  { right. cbv zeta. rewrite begin_St, left_St. replace (len - p =? 0) with false by lia. rewrite move_ok by lia. cbn [rbind]. destruct (Z.eq_dec (ch (p + 1)) 93) as [E1|E1].
    - pose proof (inside src (p + 1) 93 ltac:(lia) E1 ltac:(lia)). rewrite if_cur_yes by (try lia; exact E1). rewrite with_tok_St, move_ok by lia.
      sf (p + 1 + 1) (T p0 p 2 Tok_Operator TF_Null). rdy. apply (edge_prev _ _ (p + 1)); [lia|symc].
    - rewrite if_cur_no by (try lia; exact E1). sf (p + 1) (T p0 p 1 Tok_BraceSquare_Open TF_Null). rdy. apply (edge_prev _ _ p); [lia|symc]. }
  destruct (Z.eqb_spec (ch p) 93) as [E|E93]; [right; apply one_ok; [lia|symc|reflexivity|badty]|].
  destruct (Z.eqb_spec (ch p) 40) as [E|E40]; [right; apply one_ok; [lia|symc|reflexivity|badty]|].
  destruct (Z.eqb_spec (ch p) 41) as [E|E41]; [right; apply one_ok; [lia|symc|reflexivity|badty]|].
  destruct (Z.eqb_spec (ch p) 39) as [E|E39].
  { right. rewrite begin_St, move_ok by lia. cbn [rbind].
    assert (G1 : exists q l, (if left src (St (p + 1) (T p0 p 1 Tok_Char TF_Literal) ts ms) =? 0 then Done (St (p + 1) (T p0 p 1 Tok_Char TF_Literal) ts ms) else if_cur src 92 (fun s => rbind (take src s) (if_cur src 39 (take src))) (St (p + 1) (T p0 p 1 Tok_Char TF_Literal) ts ms)) = Done (St q (T p0 p l Tok_Char TF_Literal) ts ms) /\ p + l = q /\ p + 1 <= q <= len).
    { rewrite left_St. destruct (len - (p + 1) =? 0); [exists (p + 1), 1; split; [reflexivity|lia]|]. destruct (Z.eq_dec (ch (p + 1)) 92) as [E1|E1].
      - pose proof (inside src (p + 1) 92 ltac:(lia) E1 ltac:(lia)). rewrite if_cur_yes by (try lia; exact E1). rewrite take_ok by lia. cbn [rbind]. destruct (Z.eq_dec (ch (p + 1 + 1)) 39) as [E2|E2].
        + pose proof (inside src (p + 1 + 1) 39 ltac:(lia) E2 ltac:(lia)). rewrite if_cur_yes by (try lia; exact E2). rewrite take_ok by lia. exists (p + 1 + 1 + 1), 3. split; [reflexivity|lia].
        + rewrite if_cur_no by (try lia; exact E2). exists (p + 1 + 1), 2. split; [reflexivity|lia].
      - rewrite if_cur_no by (try lia; exact E1). exists (p + 1), 1. split; [reflexivity|lia]. }
    destruct G1 as (q & l & R1 & El & L1). rewrite R1. cbn [rbind].
    destruct (while_take src (fun c => negb (c =? 39)) fuel q (T p0 p l Tok_Char TF_Literal) ts ms) as (q1 & (S1 & S2 & S3) & R2); [lia|lia|]. rewrite R2. cbn [rbind]. rewrite left_St.
    change (set_len (t_len (T p0 p l Tok_Char TF_Literal) + (q1 - q)) (T p0 p l Tok_Char TF_Literal)) with (T p0 p (l + (q1 - q)) Tok_Char TF_Literal).
    destruct (Z.eqb_spec (len - q1) 0) as [E1|E1].
    - sf q1 (T p0 p (l + (q1 - q)) Tok_Char TF_Literal). rdy. apply edge_end. lia.
    - rewrite take_ok by lia. change (set_len (t_len (T p0 p (l + (q1 - q)) Tok_Char TF_Literal) + 1) (T p0 p (l + (q1 - q)) Tok_Char TF_Literal)) with (T p0 p (l + (q1 - q) + 1) Tok_Char TF_Literal).
      apply (scanned_found src p0 p (q1 + 1) (T p0 p (l + (q1 - q) + 1) Tok_Char TF_Literal)); [lia| |reflexivity]. rdy. apply (edge_prev _ _ q1); [lia|]. specialize (S3 ltac:(lia)). cbv beta in S3. symc. }
  destruct (Z.eqb_spec (ch p) 44) as [E|E44]; [right; apply one_ok; [lia|symc|reflexivity|badty]|].
  destruct (Z.eqb_spec (ch p) 42) as [E|E42].
  { right. rewrite begin_St, move_if_ok by lia. cbn [rbind]. destruct (Z.eq_dec (ch (p + 1)) 61) as [E1|E1].
    - pose proof (inside src (p + 1) 61 ltac:(lia) E1 ltac:(lia)). rewrite if_cur_yes by (try lia; exact E1). rewrite with_tok_St, move_if_ok by lia.
      sf (p + 1 + 1) (T p0 p 2 Tok_Star (Z.lor (Z.lor TF_Specifier TF_Operator) TF_Assign)). rdy. apply (edge_prev _ _ (p + 1)); [lia|symc].
    - rewrite if_cur_no by (try lia; exact E1). sf (p + 1) (T p0 p 1 Tok_Star (Z.lor TF_Specifier TF_Operator)). rdy. apply (edge_prev _ _ p); [lia|symc]. }
  destruct (Z.eqb_spec (ch p) 59) as [E|E59]; [apply EL; [badty|symc]|].
  destruct (Z.eqb_spec (ch p) 34) as [E|E34].
  { right. rewrite begin_St, move_ok by lia. cbn [rbind]. destruct (string_ok src fuel p0 p (p + 1) 1 ts ms) as (q & l & R & L & Ll & D); [lia|lia|lia|lia|].
    apply (scanned_found src p0 p q (T p0 p l Tok_String TF_Literal)); [lia| |exact R]. destruct D as [(D1 & D2)|(D1 & D2)].
    - rdy. apply edge_end. lia.
    - set (k := T p0 p l Tok_String TF_Literal). split; [reflexivity|]. split; [cbn; lia|]. split; [unfold t_end; cbn; lia|]. split; [lia|]. split; [reflexivity|]. split; [reflexivity|]. split; [reflexivity|]. split; [badty|]. split; [|split; [apply (edge_prev _ _ (q - 1)); [lia|symc]|nofirst]].
      apply (acc_app src _ _ (q - 1)); [apply acc_tok; unfold t_end; cbn; lia|]. replace q with (q - 1 + 1) at 2 by lia. apply acc_one. right; right; left. split; [exact D2|]. exists k. split; [apply in_or_app; right; now left|]. split; [reflexivity|unfold t_end; cbn; lia]. }
  destruct (Z.eqb_spec (ch p) 63) as [E|E63]; [right; apply one_ok; [lia|symc|reflexivity|badty]|].
  destruct (Z.eqb_spec (ch p) 61) as [E|E61].
  { right. rewrite begin_St, move_if_ok by lia. cbn [rbind]. destruct (Z.eq_dec (ch (p + 1)) 61) as [E1|E1].
    - pose proof (inside src (p + 1) 61 ltac:(lia) E1 ltac:(lia)). rewrite if_cur_yes by (try lia; exact E1). rewrite with_tok_St, move_if_ok by lia.
      sf (p + 1 + 1) (T p0 p 2 Tok_Operator TF_Operator). rdy. apply (edge_prev _ _ (p + 1)); [lia|symc].
    - rewrite if_cur_no by (try lia; exact E1). sf (p + 1) (T p0 p 1 Tok_Operator (Z.lor TF_Operator TF_Assign)). rdy. apply (edge_prev _ _ p); [lia|symc]. }
  assert (OP : sym_char (ch p) -> forall fl, has_bit fl TF_Preprocess = false -> scanned src p0 p ts ms (rbind (rbind (cur src (St (p + 1) (T p0 p 1 Tok_Operator fl) ts ms)) (fun c => if c =? 61 then move_if_left src (with_tok (fun k => or_flags TF_Assign (set_len (t_len k + 1) k)) (St (p + 1) (T p0 p 1 Tok_Operator fl) ts ms)) else repeats src fuel (St (p + 1) (T p0 p 1 Tok_Operator fl) ts ms))) (fun s => Done (s, Found)))).
  { intros Sc fl Hf. rewrite cur_ok by lia. cbn [rbind]. destruct (Z.eqb_spec (ch (p + 1)) 61) as [E1|E1].
    - pose proof (inside src (p + 1) 61 ltac:(lia) E1 ltac:(lia)). rewrite with_tok_St, move_if_ok by lia.
      sf (p + 1 + 1) (T p0 p 2 Tok_Operator (Z.lor fl TF_Assign)).
      apply readyT; [lia|lia|lia|rewrite hb_lor, Hf; reflexivity|badty|apply sym_no_first, Sc|apply (edge_prev _ _ (p + 1)); [lia|symc]].
    - destruct (repeats_ok src fuel p0 p (p + 1) 1 fl ts ms) as (q & l & R & A & B & C); [lia|lia|lia|lia|replace (p + 1 - 1) with p by lia; exact Sc|].
      apply (scanned_found src p0 p q (T p0 p l Tok_Operator fl)); [lia| |exact R]. apply readyT; [lia|lia|lia|exact Hf|badty|apply sym_no_first, Sc|apply edge_sym, C]. }
  change (existsb (Z.eqb (ch p)) (txt "+%^~!<>|")) with (existsb (Z.eqb (ch p)) [43; 37; 94; 126; 33; 60; 62; 124]). destruct (existsb (Z.eqb (ch p)) _) eqn:EX.
  { right. cbn [existsb] in EX. rewrite begin_St, move_if_ok by lia. cbn [rbind]. apply OP; [symc|reflexivity]. }
  destruct (Z.eqb_spec (ch p) 45) as [E|E45].
  { right. cbv zeta. rewrite begin_St, left_St. replace (len - p =? 0) with false by lia. rewrite move_ok by lia. cbn [rbind]. destruct (Z.eq_dec (ch (p + 1)) 62) as [E1|E1].
    - pose proof (inside src (p + 1) 62 ltac:(lia) E1 ltac:(lia)). rewrite cur_ok by lia. cbn [rbind]. rewrite E1. cbn [Z.eqb Pos.eqb]. rewrite with_tok_St, take_ok by lia. cbn [rbind]. destruct (Z.eq_dec (ch (p + 1 + 1)) 42) as [E2|E2].
      + pose proof (inside src (p + 1 + 1) 42 ltac:(lia) E2 ltac:(lia)). rewrite if_cur_yes by (try lia; exact E2). rewrite take_ok by lia.
        sf (p + 1 + 1 + 1) (T p0 p 3 Tok_Operator (Z.lor TF_Operator TF_AccessOperator)). rdy. apply (edge_prev _ _ (p + 1 + 1)); [lia|symc].
      + rewrite if_cur_no by (try lia; exact E2).
        sf (p + 1 + 1) (T p0 p 2 Tok_Operator (Z.lor TF_Operator TF_AccessOperator)). rdy. apply (edge_prev _ _ (p + 1)); [lia|symc].
    - assert (K := OP ltac:(symc) TF_Operator eq_refl). rewrite cur_ok in * by lia. cbn [rbind] in *. replace (ch (p + 1) =? 62) with false by lia. exact K. }
  destruct (Z.eqb_spec (ch p) 47) as [E|E47].
  2: { unfold sym_char. rewrite sym_chars. cbn [existsb] in EX. cbn [In]. lia. }
  rewrite begin_St, move_ok by lia. cbn [rbind]. rewrite left_St. destruct (Z.eqb_spec (len - (p + 1)) 0) as [E0|E0].
  { right. exists (p + 1), (T p0 p 1 Tok_Operator TF_Operator), Found. split; [lia|]. split; [|reflexivity]. rdy. apply (edge_prev _ _ p); [lia|symc]. }
  rewrite cur_ok by lia. cbn [rbind]. destruct (Z.eqb_spec (ch (p + 1)) 61) as [E1|E1].
  { right. rewrite take_ok by lia. cbn [rbind]. rewrite with_tok_St. exists (p + 1 + 1), (T p0 p 2 Tok_Operator TF_Assign), Found. split; [lia|]. split; [|reflexivity]. rdy. apply (edge_prev _ _ (p + 1)); [lia|symc]. }
  assert (NX : forall q l, p + 2 <= q <= len -> p + l = q -> edge src (ts ++ [T p0 p l Tok_Comment TF_Null]) q ->
    scanned src p0 p ts ms (rbind (if_cur src 13 (take src) (St q (T p0 p l Tok_Comment TF_Null) ts ms)) (fun s => rbind (if_cur src 10 (take src) s) (fun s => Done (append_tok s, Next))))).
  { intros q l L El Ed. destruct (line_end_ok src p0 p q l ts ms) as (q' & l' & R & A & B & C); [lia|lia|exact El|].
    assert (R' : rbind (if_cur src 13 (take src) (St q (T p0 p l Tok_Comment TF_Null) ts ms)) (fun s => rbind (if_cur src 10 (take src) s) (fun s => Done (append_tok s, Next))) = Done (append_tok (St q' (T p0 p l' Tok_Comment TF_Null) ts ms), Next)).
    { destruct (if_cur src 13 (take src) (St q (T p0 p l Tok_Comment TF_Null) ts ms)); [|discriminate R|discriminate R]. cbn [rbind] in *. rewrite R. reflexivity. }
    rewrite R'. exists q', (T p0 p l' Tok_Comment TF_Null), Next. split; [lia|]. split; [|reflexivity]. rdy. destruct C as [(C1 & C2)|[C|C]].
    - replace l' with l by lia. rewrite C1. exact Ed.
    - apply edge_after. rewrite C. unfold word_char. lia.
    - apply edge_after. rewrite C. unfold word_char. lia. }
  destruct (Z.eqb_spec (ch (p + 1)) 47) as [E2|E2].
  { right. rewrite with_tok_St, move_ok by lia. cbn [rbind]. change (set_flags TF_Null (set_len 2 (set_type Tok_Comment (T p0 p 1 Tok_Operator TF_Operator)))) with (T p0 p 2 Tok_Comment TF_Null).
    destruct (while_take src (fun c => negb (c =? 10) && negb (c =? 13)) fuel (p + 1 + 1) (T p0 p 2 Tok_Comment TF_Null) ts ms) as (q & (S1 & S2 & S3) & R); [lia|lia|]. rewrite R. cbn [rbind].
    change (set_len (t_len (T p0 p 2 Tok_Comment TF_Null) + (q - (p + 1 + 1))) (T p0 p 2 Tok_Comment TF_Null)) with (T p0 p (2 + (q - (p + 1 + 1))) Tok_Comment TF_Null).
    apply NX; [lia|lia|]. apply edge_before. destruct (Z.eq_dec q len) as [El|El]; [rewrite El, ch_end|specialize (S3 ltac:(lia)); cbv beta in S3]; unfold word_char; lia. }
  destruct (Z.eqb_spec (ch (p + 1)) 42) as [E3|E3].
  { rewrite with_tok_St, move_ok by lia. cbn [rbind]. change (set_flags TF_Null (set_len 2 (set_type Tok_Comment (T p0 p 1 Tok_Operator TF_Operator)))) with (T p0 p 2 Tok_Comment TF_Null).
    destruct (block_ok src fuel p0 p (p + 1 + 1) 2 ts ms) as [H|(q & l & R & A & B & C & D & F)]; try assumption; try lia; [left; exact H|right]. rewrite R. cbn [rbind]. rewrite take_ok by lia. cbn [rbind]. rewrite take_ok by lia. cbn [rbind].
    change (set_len (t_len (set_len (t_len (T p0 p l Tok_Comment TF_Null) + 1) (T p0 p l Tok_Comment TF_Null)) + 1) (set_len (t_len (T p0 p l Tok_Comment TF_Null) + 1) (T p0 p l Tok_Comment TF_Null))) with (T p0 p (l + 1 + 1) Tok_Comment TF_Null).
    apply NX; [lia|lia|]. apply (edge_prev _ _ (q + 1)); [lia|symc]. }
  right. exists (p + 1), (T p0 p 1 Tok_Operator TF_Operator), Found. split; [lia|]. split; [|reflexivity]. rdy. apply (edge_prev _ _ p); [lia|symc].
Qed.

Lemma number_ok : forall p0 p ts ms, 0 <= p < len -> digit (ch p) -> exists q, p < q /\ lex_number src fuel (St p (t_fresh src p0) ts ms) = Done (St q (T p0 p (q - p) Tok_Number TF_Literal) ts ms) /\ ready src p0 p q (T p0 p (q - p) Tok_Number TF_Literal) ts.
Proof.
  intros p0 p ts ms P Dg.
  assert (RD : forall q, p < q <= len -> ready src p0 p q (T p0 p (q - p) Tok_Number TF_Literal) ts).
  { intros q L. apply readyT; [lia|lia|lia|reflexivity|badty|intros (_ & W); exact (W Dg)|]. right; right; right; left. eexists. split; [apply in_or_app; right; now left|]. split; [reflexivity|unfold t_end; cbn; lia]. }
  assert (G : exists q, p < q <= len /\ lex_number src fuel (St p (t_fresh src p0) ts ms) = Done (St q (T p0 p (q - p) Tok_Number TF_Literal) ts ms)).
  2: { destruct G as (q & L & R). exists q. split; [lia|]. split; [exact R|apply RD, L]. }
  unfold lex_number. rewrite begin_St, move_ok by lia. cbn [rbind].
  assert (TK : forall q, p < q < len -> take src (St q (T p0 p (q - p) Tok_Number TF_Literal) ts ms) = Done (St (q + 1) (T p0 p (q + 1 - p) Tok_Number TF_Literal) ts ms)).
  { intros q L. rewrite take_ok by lia. unfold LexProofs.St, LexProofs5.T, set_len. cbn [t_start t_len t_type t_line t_col t_flags]. do 3 f_equal. lia. }
  assert (WT : forall f q, p < q <= len -> exists q', q <= q' <= len /\ while_left src fuel f (take src) (St q (T p0 p (q - p) Tok_Number TF_Literal) ts ms) = Done (St q' (T p0 p (q' - p) Tok_Number TF_Literal) ts ms)).
  { intros f q L. destruct (while_take src f fuel q (T p0 p (q - p) Tok_Number TF_Literal) ts ms) as (q' & (S & _) & R); [lia|lia|]. exists q'. split; [lia|]. rewrite R. unfold LexProofs.St, LexProofs5.T, set_len. cbn [t_start t_len t_type t_line t_col t_flags]. do 3 f_equal. lia. }
  assert (SE : forall l q, p < q <= len -> (if left src (St q (T p0 p (q - p) Tok_Number TF_Literal) ts ms) =? 0 then Done false else rbind (cur src (St q (T p0 p (q - p) Tok_Number TF_Literal) ts ms)) (fun c => Done (existsb (Z.eqb c) l))) = Done (negb (len - q =? 0) && existsb (Z.eqb (ch q)) l)).
  { intros l q L. rewrite left_St. destruct (len - q =? 0); [reflexivity|]. rewrite cur_ok by lia. reflexivity. }
  replace (T p0 p 1 Tok_Number TF_Literal) with (T p0 p (p + 1 - p) Tok_Number TF_Literal) by (f_equal; lia). rewrite SE by lia. cbn [rbind]. destruct (negb (len - (p + 1) =? 0) && _) eqn:D1.
  { rewrite TK by lia. cbn [rbind]. destruct (WT char_is_hex_digit (p + 1 + 1)) as (q & L & R); [lia|]. exists q. split; [lia|exact R]. }
  destruct (WT char_is_digit (p + 1)) as (q & L & R); [lia|]. rewrite R. cbn [rbind]. rewrite SE by lia. cbn [rbind]. destruct (negb (len - q =? 0) && _) eqn:D2; [|exists q; split; [lia|reflexivity]].
  rewrite TK by lia. cbn [rbind]. destruct (WT char_is_digit (q + 1)) as (q2 & L2 & R2); [lia|]. rewrite R2. cbn [rbind]. rewrite SE by lia. cbn [rbind]. destruct (negb (len - q2 =? 0) && _) eqn:D3; [|exists q2; split; [lia|reflexivity]].
  rewrite cur_ok by lia. cbn [rbind]. rewrite TK by lia. cbn [rbind]. rewrite SE by lia. cbn [rbind]. destruct (negb (len - (q2 + 1) =? 0) && existsb (Z.eqb (ch (q2 + 1))) (txt "lL") && _) eqn:D4.
  - rewrite TK by lia. exists (q2 + 1 + 1). split; [lia|reflexivity].
  - exists (q2 + 1). split; [lia|reflexivity].
Qed.
End Switch.
