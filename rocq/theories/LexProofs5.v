(** Symbols, literals, comments and words. *)
From Coq Require Import String ZArith List Bool Lia ZifyBool ZifyNat.
From Verif Require Import Common HashModel Text ArrayModel StrOpsModel EnumModel EnumSpec EnumProofs LexModel LexSpec LexProofs LexProofs2 LexProofs3 LexProofs4.
Import ListNotations.
Close Scope string_scope.
Open Scope Z_scope.

Lemma hb_lor : forall a b f, has_bit (Z.lor a b) f = has_bit a f || has_bit b f.
Proof.
  intros a b f. unfold has_bit. rewrite Z.land_lor_distr_l. destruct (Z.eqb_spec (Z.lor (Z.land a f) (Z.land b f)) 0) as [E|E].
  - apply Z.lor_eq_0_iff in E. destruct E as [-> ->]. reflexivity.
  - destruct (Z.eqb_spec (Z.land a f) 0) as [Ea|Ea]; [|reflexivity]. destruct (Z.eqb_spec (Z.land b f) 0) as [Eb|Eb]; [|reflexivity]. rewrite Ea, Eb in E. now destruct E.
Qed.

Section Sym.
Variable src : list Z.
Hypothesis bytes : Forall byte src.
Variable ms0 : macros.
Notation len := (zlen src).
Notation ch := (byte_at src).
Notation St := (St src).
Notation core := (core src ms0).
Notation acc := (acc src).
Notation nolast := (Tok 0 0 0 0 0 0).

Definition ready (p0 p q : Z) (k : token) (ts : list token) : Prop :=
  t_start k = p /\ 1 <= t_len k /\ t_end k <= q /\ q <= len /\ t_line k = fst (lc src p0) /\ t_col k = snd (lc src p0) /\ has_bit (t_flags k) TF_Preprocess = false /\
  ~ In (t_type k) [Tok_Invalid; Tok_Identifier; Tok_Preprocess_Hash] /\ acc (ts ++ [k]) p q /\ edge src (ts ++ [k]) q /\ ~ word_first (ch p).

(** the pending token at [p], [l] bytes long *)
Definition T (p0 p l ty fl : Z) : token := Tok p l ty (fst (lc src p0)) (snd (lc src p0)) fl.
Lemma begin_St : forall p0 p ts ms ty fl, begin ty fl (St p (t_fresh src p0) ts ms) = St p (T p0 p 1 ty fl) ts ms.
Proof. reflexivity. Qed.

Lemma readyT : forall p0 p q l ty fl ts, 1 <= l -> p + l = q -> q <= len -> has_bit fl TF_Preprocess = false -> ~ In ty [Tok_Invalid; Tok_Identifier; Tok_Preprocess_Hash] -> ~ word_first (ch p) ->
  edge src (ts ++ [T p0 p l ty fl]) q -> ready p0 p q (T p0 p l ty fl) ts.
Proof.
  intros p0 p q l ty fl ts H1 H2 H3 H4 H5 H6 H7. unfold ready. change (t_start (T p0 p l ty fl)) with p. change (t_len (T p0 p l ty fl)) with l. unfold t_end at 1. change (t_start (T p0 p l ty fl)) with p. change (t_len (T p0 p l ty fl)) with l.
  split; [reflexivity|]. split; [exact H1|]. split; [lia|]. split; [exact H3|]. split; [reflexivity|]. split; [reflexivity|]. split; [exact H4|]. split; [exact H5|]. split; [|split; [exact H7|exact H6]].
  apply acc_tok; [cbn [T t_start]; lia|]. unfold t_end. cbn [T t_start t_len]. lia.
Qed.

Definition sym_char (c : Z) := In c (txt ".&:{}[]()',*;?=+%^~!<>|-/" ++ [34]).
Lemma sym_chars : txt ".&:{}[]()',*;?=+%^~!<>|-/" ++ [34] = [46; 38; 58; 123; 125; 91; 93; 40; 41; 39; 44; 42; 59; 63; 61; 43; 37; 94; 126; 33; 60; 62; 124; 45; 47; 34].
Proof. reflexivity. Qed.
Lemma sym_no_word : forall c, sym_char c -> ~ word_char c.
Proof. intros c. unfold sym_char. rewrite sym_chars. cbn [In]. unfold word_char. lia. Qed.
Lemma sym_no_first : forall c, sym_char c -> ~ word_first c.
Proof. intros c H (W & _). exact (sym_no_word c H W). Qed.
Lemma edge_sym : forall ts q, sym_char (ch (q - 1)) -> edge src ts q.
Proof. intros ts q H. apply edge_after, sym_no_word, H. Qed.

(** the repeated operator characters *)
Lemma repeats_ok : forall n p0 p q l fl ts ms, 0 <= p < q -> q <= len -> p + l = q -> len - q + 1 <= Z.of_nat n -> sym_char (ch (q - 1)) ->
  exists q' l', repeats src n (St q (T p0 p l Tok_Operator fl) ts ms) = Done (St q' (T p0 p l' Tok_Operator fl) ts ms) /\ p + l' = q' /\ q <= q' <= len /\ sym_char (ch (q' - 1)).
Proof.
  induction n as [|n IH]; intros p0 p q l fl ts ms P L El Hn Sc; [lia|]. cbn [repeats]. rewrite left_St. destruct (Z.eqb_spec (len - q) 0) as [E|E]; [exists q, l; split; [reflexivity|]; split; [exact El|]; split; [lia|exact Sc]|].
  rewrite cur_ok by lia. cbn [rbind]. change (l_pos (St q (T p0 p l Tok_Operator fl) ts ms)) with q. rewrite at_ok by lia. cbn [rbind].
  destruct ((ch q =? ch (q - 1)) && (t_len (l_tok (St q (T p0 p l Tok_Operator fl) ts ms)) <? 3)) eqn:D; [|exists q, l; split; [reflexivity|]; split; [exact El|]; split; [lia|exact Sc]].
  rewrite with_tok_St, move_if_ok by lia. cbn [rbind]. change (set_len (t_len (T p0 p l Tok_Operator fl) + 1) (T p0 p l Tok_Operator fl)) with (T p0 p (l + 1) Tok_Operator fl).
  destruct (IH p0 p (q + 1) (l + 1) fl ts ms) as (q' & l' & R & A & B & C); [lia|lia|lia|lia|replace (q + 1 - 1) with q by lia; replace (ch q) with (ch (q - 1)) by lia; exact Sc|].
  exists q', l'. split; [exact R|]. split; [exact A|]. split; [lia|exact C].
Qed.

Lemma string_ok : forall n p0 p q l ts ms, 0 <= p < q -> q <= len -> p + l = q -> len - q + 1 <= Z.of_nat n -> 
  exists q' l', string_rest src n (St q (T p0 p l Tok_String TF_Literal) ts ms) = Done (St q' (T p0 p l' Tok_String TF_Literal) ts ms) /\ q <= q' <= len /\ l <= l' /\
    ((p + l' = q' /\ q' = len) \/ (p + l' = q' - 1 /\ ch (q' - 1) = 34)).
Proof.
  induction n as [|n IH]; intros p0 p q l ts ms P L El Hn; [lia|]. cbn [string_rest]. rewrite left_St. destruct (Z.eqb_spec (len - q) 0) as [E|E].
  { exists q, l. split; [reflexivity|]. split; [lia|]. split; [lia|]. left. lia. }
  rewrite cur_ok by lia. cbn [rbind]. destruct (Z.eqb_spec (ch q) 34) as [E1|E1].
  { rewrite move_ok by lia. exists (q + 1), l. split; [reflexivity|]. split; [lia|]. split; [lia|]. right. replace (q + 1 - 1) with q by lia. split; [lia|exact E1]. }
  rewrite take_ok by lia. change (set_len (t_len (T p0 p l Tok_String TF_Literal) + 1) (T p0 p l Tok_String TF_Literal)) with (T p0 p (l + 1) Tok_String TF_Literal). cbn [rbind].
  destruct (Z.eqb_spec (ch q) 92) as [E2|E2].
  - rewrite left_St. destruct (Z.eqb_spec (len - (q + 1)) 0) as [E3|E3].
    + cbn [rbind]. destruct (IH p0 p (q + 1) (l + 1) ts ms) as (q' & l' & R & A & B & C); [lia|lia|lia|lia|]. exists q', l'. split; [exact R|]. split; [lia|]. split; [lia|exact C].
    + rewrite take_ok by lia. cbn [rbind]. change (set_len (t_len (T p0 p (l + 1) Tok_String TF_Literal) + 1) (T p0 p (l + 1) Tok_String TF_Literal)) with (T p0 p (l + 1 + 1) Tok_String TF_Literal).
      destruct (IH p0 p (q + 1 + 1) (l + 1 + 1) ts ms) as (q' & l' & R & A & B & C); [lia|lia|lia|lia|]. exists q', l'. split; [exact R|]. split; [lia|]. split; [lia|exact C].
  - destruct (IH p0 p (q + 1) (l + 1) ts ms) as (q' & l' & R & A & B & C); [lia|lia|lia|lia|]. exists q', l'. split; [exact R|]. split; [lia|]. split; [lia|exact C].
Qed.

(** no end of a block comment at or after [q] *)
Lemma open_comment : forall p, 0 <= p -> ch p = 47 -> ch (p + 1) = 42 -> (forall i, p + 2 <= i < len -> ~ (ch i = 42 /\ ch (i + 1) = 47)) -> runs_off src.
Proof.
  intros p P E1 E2 H. right; left. assert (L : p + 1 < len). { destruct (Z.lt_ge_cases (p + 1) len); [assumption|]. rewrite ch_past in E2 by lia. discriminate E2. }
  exists (firstn (Z.to_nat p) src), (slice src (p + 2) (len - (p + 2))). split.
  - change (txt "/*") with ([47] ++ [42]). rewrite <- E1, <- E2 at 1. rewrite <- (slice_one src p), <- (slice_one src (p + 1)) by lia. replace 1 with (p + 1 - p) at 1 by lia. replace 1 with (p + 2 - (p + 1)) at 3 by lia.
    rewrite <- !app_assoc. rewrite (slice_app src (p + 1) (p + 2) len) by lia. rewrite (slice_app src p (p + 1) len) by lia. rewrite slice_all by lia. symmetry. apply slice_full.
  - intros x y E. change (txt "*/") with [42; 47] in E. assert (Ln : zlen (slice src (p + 2) (len - (p + 2))) = len - (p + 2)) by (apply slice_len; lia). 
    assert (Lx : zlen (slice src (p + 2) (len - (p + 2))) = zlen x + 2 + zlen y) by (rewrite E; unfold zlen; rewrite !app_length; cbn [length]; lia).
    assert (N0 : ch (p + 2 + Z.of_nat (length x)) = 42). { rewrite <- (nth_slice src (length x) (p + 2) (len - (p + 2))) by (unfold zlen in *; lia). rewrite E. rewrite app_nth2 by lia. rewrite Nat.sub_diag. reflexivity. }
    assert (N1 : ch (p + 2 + Z.of_nat (S (length x))) = 47). { rewrite <- (nth_slice src (S (length x)) (p + 2) (len - (p + 2))) by (unfold zlen in *; lia). rewrite E. rewrite app_nth2 by lia. replace (S (length x) - length x)%nat with 1%nat by lia. reflexivity. }
    apply (H (p + 2 + Z.of_nat (length x))); [unfold zlen in *; lia|]. split; [exact N0|]. replace (p + 2 + Z.of_nat (length x) + 1) with (p + 2 + Z.of_nat (S (length x))) by lia. exact N1.
Qed.
Lemma block_ok : forall n p0 p q l ts ms, 0 <= p -> p + 2 <= q <= len -> p + l = q -> len - q + 1 <= Z.of_nat n -> ch p = 47 -> ch (p + 1) = 42 -> (forall i, p + 2 <= i < q -> ~ (ch i = 42 /\ ch (i + 1) = 47)) ->
  runs_off src \/ exists q' l', block_comment src n (St q (T p0 p l Tok_Comment TF_Null) ts ms) = Done (St q' (T p0 p l' Tok_Comment TF_Null) ts ms) /\ p + l' = q' /\ q <= q' /\ q' + 2 <= len /\ ch q' = 42 /\ ch (q' + 1) = 47.
Proof.
  induction n as [|n IH]; intros p0 p q l ts ms P L El Hn E1 E2 Hi; [lia|]. cbn [block_comment].
  destruct (Z.eq_dec q len) as [E|E]. { left. apply (open_comment p); try assumption. rewrite <- E. exact Hi. }
  rewrite cur_ok by lia. cbn [rbind]. change (l_pos (St q (T p0 p l Tok_Comment TF_Null) ts ms)) with q. rewrite at_ok by lia. cbn [rbind]. rewrite left_St.
  destruct ((len - q =? 0) || ((ch q =? 42) && (ch (q + 1) =? 47))) eqn:D.
  - right. exists q, l. assert (E4 : ch (q + 1) = 47) by lia. pose proof (inside src (q + 1) 47 ltac:(lia) E4 ltac:(lia)). split; [reflexivity|]. split; [exact El|]. split; [lia|]. split; [lia|]. split; [lia|exact E4].
  - rewrite take_ok by lia. cbn [rbind]. change (set_len (t_len (T p0 p l Tok_Comment TF_Null) + 1) (T p0 p l Tok_Comment TF_Null)) with (T p0 p (l + 1) Tok_Comment TF_Null).
    destruct (IH p0 p (q + 1) (l + 1) ts ms) as [H|(q' & l' & R & A & B & C)]; try assumption; try lia.
    + intros i Hi'. destruct (Z.eq_dec i q) as [->|]; [lia|apply Hi; lia].
    + left; exact H.
    + right. exists q', l'. split; [exact R|]. split; [exact A|]. split; [lia|exact C].
Qed.

(** the line end taken with a comment *)
Lemma line_end_ok : forall p0 p q l ts ms, 0 <= p -> p + 2 <= q <= len -> p + l = q -> exists q' l',
  rbind (if_cur src 13 (take src) (St q (T p0 p l Tok_Comment TF_Null) ts ms)) (if_cur src 10 (take src)) = Done (St q' (T p0 p l' Tok_Comment TF_Null) ts ms) /\ p + l' = q' /\ q <= q' <= len /\
    (q' = q /\ ch q <> 13 /\ ch q <> 10 \/ ch (q' - 1) = 13 \/ ch (q' - 1) = 10).
Proof.
  intros p0 p q l ts ms P L El. destruct (Z.eq_dec (ch q) 13) as [E1|E1].
  - pose proof (inside src q 13 ltac:(lia) E1 ltac:(lia)). rewrite if_cur_yes by (try lia; exact E1). rewrite take_ok by lia. cbn [rbind]. change (set_len (t_len (T p0 p l Tok_Comment TF_Null) + 1) (T p0 p l Tok_Comment TF_Null)) with (T p0 p (l + 1) Tok_Comment TF_Null).
    destruct (Z.eq_dec (ch (q + 1)) 10) as [E2|E2].
    + pose proof (inside src (q + 1) 10 ltac:(lia) E2 ltac:(lia)). rewrite if_cur_yes by (try lia; exact E2). rewrite take_ok by lia. change (set_len (t_len (T p0 p (l + 1) Tok_Comment TF_Null) + 1) (T p0 p (l + 1) Tok_Comment TF_Null)) with (T p0 p (l + 1 + 1) Tok_Comment TF_Null).
      exists (q + 1 + 1), (l + 1 + 1). split; [reflexivity|]. split; [lia|]. split; [lia|]. right; right. replace (q + 1 + 1 - 1) with (q + 1) by lia. exact E2.
    + rewrite if_cur_no by (try lia; exact E2). exists (q + 1), (l + 1). split; [reflexivity|]. split; [lia|]. split; [lia|]. right; left. replace (q + 1 - 1) with q by lia. exact E1.
  - rewrite if_cur_no by (try lia; exact E1). cbn [rbind]. destruct (Z.eq_dec (ch q) 10) as [E2|E2].
    + pose proof (inside src q 10 ltac:(lia) E2 ltac:(lia)). rewrite if_cur_yes by (try lia; exact E2). rewrite take_ok by lia. change (set_len (t_len (T p0 p l Tok_Comment TF_Null) + 1) (T p0 p l Tok_Comment TF_Null)) with (T p0 p (l + 1) Tok_Comment TF_Null).
      exists (q + 1), (l + 1). split; [reflexivity|]. split; [lia|]. split; [lia|]. right; right. replace (q + 1 - 1) with q by lia. exact E2.
    + rewrite if_cur_no by (try lia; exact E2). exists q, l. split; [reflexivity|]. split; [lia|]. split; [lia|]. left. auto.
Qed.

Variable fuel : nat.
Hypothesis enough : len + 2 <= Z.of_nat fuel.

(** the outcome of a symbol at [p] *)
Definition scanned (p0 p : Z) (ts : list token) (ms : macros) (r : run (lx * next)) : Prop :=
  exists q k n, p < q /\ ready p0 p q k ts /\ r = Done (match n with Found => St q k ts ms | Next => St q k (ts ++ [k]) ms end, n).

Lemma scanned_found : forall p0 p q k ts ms r, p < q -> ready p0 p q k ts -> r = Done (St q k ts ms) -> scanned p0 p ts ms (rbind r (fun s => Done (s, Found))).
Proof. intros p0 p q k ts ms r L R ->. exists q, k, Found. split; [exact L|]. split; [exact R|reflexivity]. Qed.
Lemma scanned_now : forall p0 p q k ts ms, p < q -> ready p0 p q k ts -> scanned p0 p ts ms (Done (St q k ts ms, Found)).
Proof. intros p0 p q k ts ms L R. exists q, k, Found. split; [exact L|]. split; [exact R|reflexivity]. Qed.
End Sym.
