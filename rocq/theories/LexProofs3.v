(** Directives. *)
From Coq Require Import String ZArith List Bool Lia ZifyBool ZifyNat.
From Verif Require Import Common HashModel Text ArrayModel StrOpsModel EnumModel EnumProofs LexModel LexSpec LexProofs LexProofs2.
Import ListNotations.
Close Scope string_scope.
Open Scope Z_scope.

Lemma tok_hash : forall w k kw, str_to_toktype w = k -> k <> Tok_Invalid -> toktype_to_str k = Done kw -> crc32 w = crc32 kw.
Proof.
  intros w k kw E N T. subst k. destruct (find_sound toktype_table w N) as (kw' & A & B). unfold str_to_toktype in T.
  assert (E : Done kw = Done kw') by (rewrite <- T; exact A). injection E as ->. congruence.
Qed.

Section Dir.
Variable src : list Z.
Hypothesis bytes : Forall byte src.
Variable ms0 : macros.
Notation len := (zlen src).
Notation ch := (byte_at src).
Notation St := (St src).
Notation core := (core src ms0).
Notation acc := (acc src).

(** ** cutting the text *)
Lemma slice_all : forall p q, 0 <= p <= q -> q <= len -> firstn (Z.to_nat p) src ++ slice src p (q - p) = firstn (Z.to_nat q) src.
Proof.
  intros p q H L. unfold slice. unfold zlen in L. rewrite firstn_skipn_comm. replace (Z.to_nat p + Z.to_nat (q - p))%nat with (Z.to_nat q) by lia.
  rewrite <- (firstn_skipn (Z.to_nat p) (firstn (Z.to_nat q) src)) at 2. f_equal. rewrite firstn_firstn. f_equal. lia.
Qed.
Lemma slice_full : firstn (Z.to_nat len) src = src.
Proof. unfold zlen. rewrite Nat2Z.id. apply firstn_all. Qed.
Lemma nth_slice : forall i p n, (i < Z.to_nat n)%nat -> 0 <= p -> nth i (slice src p n) 0 = ch (p + Z.of_nat i).
Proof.
  intros i p n H P. unfold slice, byte_at. replace (Z.to_nat (p + Z.of_nat i)) with (Z.to_nat p + i)%nat by lia.
  rewrite <- (firstn_skipn (Z.to_nat n) (skipn (Z.to_nat p) src)) in |- * at 1. clear -H. revert H. generalize (Z.to_nat n) (Z.to_nat p). clear. intros n p H.
  assert (N : forall m (l : list Z) j, nth j (skipn m l) 0 = nth (m + j) l 0).
  { clear. induction m as [|m IH]; intros l j; [reflexivity|]. destruct l; [destruct j; reflexivity|]. cbn [skipn Nat.add nth]. apply IH. }
  rewrite <- N. rewrite firstn_skipn. revert i H. generalize (skipn p src). clear. induction n as [|n IH]; intros l i H; [lia|]. destruct l; [destruct i; reflexivity|]. destruct i; [reflexivity|]. cbn [firstn nth]. apply IH. lia.
Qed.
Lemma slice_len : forall p q, 0 <= p <= q -> q <= len -> zlen (slice src p (q - p)) = q - p.
Proof. intros p q H L. unfold slice, zlen in *. rewrite firstn_length, skipn_length. lia. Qed.
Lemma slice_Forall : forall P p q, 0 <= p <= q -> q <= len -> between src p q P -> Forall P (slice src p (q - p)).
Proof.
  intros P p q H L B. rewrite Forall_forall. intros c Hc. apply (In_nth _ _ 0) in Hc. destruct Hc as (i & Hi & <-). pose proof (slice_len p q H L) as Hl. unfold zlen in Hl.
  rewrite nth_slice by lia. apply B. lia.
Qed.
Lemma slice_in : forall c p q, 0 <= p <= q -> q <= len -> In c (slice src p (q - p)) -> exists i, p <= i < q /\ ch i = c.
Proof.
  intros c p q H L Hc. apply (In_nth _ _ 0) in Hc. destruct Hc as (i & Hi & E). pose proof (slice_len p q H L) as Hl. unfold zlen in Hl.
  rewrite nth_slice in E by lia. exists (p + Z.of_nat i). split; [lia|exact E].
Qed.
Lemma slice_one : forall p, 0 <= p < len -> slice src p 1 = [ch p].
Proof.
  intros p H. pose proof (slice_len p (p + 1) ltac:(lia) ltac:(lia)) as L. replace (p + 1 - p) with 1 in L by lia. unfold zlen in L.
  pose proof (nth_slice 0 p 1 ltac:(lia) ltac:(lia)) as N. destruct (slice src p 1) as [|c [|d l]]; cbn [length] in L; try lia. cbn [nth] in N. rewrite N. do 2 f_equal. lia.
Qed.
Lemma slice_app : forall p q r, 0 <= p <= q -> q <= r <= len -> slice src p (q - p) ++ slice src q (r - q) = slice src p (r - p).
Proof.
  intros p q r H L. apply (app_inv_head (firstn (Z.to_nat p) src)). rewrite app_assoc, !slice_all by lia. reflexivity.
Qed.

Lemma cr_end : forall p, 0 <= p -> p + 1 = len -> ch p = 13 -> runs_off src.
Proof.
  intros p P L E. left. exists (firstn (Z.to_nat p) src). rewrite <- E, <- (slice_one p) by lia. replace 1 with (p + 1 - p) at 1 by lia. rewrite slice_all by lia. rewrite L. symmetry. apply slice_full.
Qed.

(** ** edges *)
Lemma edge_more : forall ts new p, edge src ts p -> edge src (ts ++ new) p.
Proof.
  intros ts new p [H|[H|[H|[(k & A & B)|H]]]]; unfold edge; [tauto|tauto|tauto| |tauto]. right; right; right; left. exists k. split; [apply in_or_app; now left|exact B].
Qed.
Lemma edge_after : forall ts p, ~ word_char (ch (p - 1)) -> edge src ts p.
Proof. intros ts p H. right; left. exact H. Qed.
Lemma edge_before : forall ts p, ~ word_char (ch p) -> edge src ts p.
Proof. intros ts p H. right; right; left. exact H. Qed.
Lemma space_no_word : forall c, spacep c -> ~ word_char c.
Proof. intros c. unfold spacep. change (txt " " ++ [9; 10; 11; 12; 13]) with [32; 9; 10; 11; 12; 13]. cbn [In]. unfold word_char. lia. Qed.
Lemma nonspace_stop : forall p q ts, spans src (fun c => negb (char_is_space c)) p q -> edge src ts q.
Proof.
  intros p q ts (A & _ & B). apply edge_before. destruct (Z.eq_dec q len) as [->|N]; [rewrite ch_end; unfold word_char; lia|].
  specialize (B ltac:(lia)). apply space_no_word, space_iff; [apply ch_byte, bytes|destruct (char_is_space (ch q)); [reflexivity|discriminate B]].
Qed.

(** ** tokens that are not words *)
Lemma sym_wordok : forall ts k, ~ word_first (ch (t_start k)) -> wordok src ms0 ts k.
Proof. intros ts k H _ W. now destruct H. Qed.
Lemma hash_wordok : forall ts h k, t_type h = Tok_Preprocess_Hash -> t_flags h = TF_Preprocess -> wordok src ms0 (ts ++ [h]) k.
Proof. intros ts h k H F (_ & O) _. destruct (O ts h eq_refl). split; assumption. Qed.

Lemma newline_ok : forall p tk ts ms, core p ts -> ms = table src ms0 ts -> edge src ts p ->
  exists q tk' new, newline_after src (St p tk ts ms) = Done (St q tk' (ts ++ new) ms) /\ core q (ts ++ new) /\ p <= q /\
    ms = table src ms0 (ts ++ new) /\ edge src (ts ++ new) q.
Proof.
  intros p tk ts ms C M E. pose proof C as (P & _). unfold newline_after, fresh_token. rewrite with_tok_St. change (l_pos (St p tk ts ms)) with p. change (l_line (St p tk ts ms)) with (fst (lc src p)). change (l_col (St p tk ts ms)) with (snd (lc src p)).
  set (t0 := Tok p 0 Tok_Invalid (fst (lc src p)) (snd (lc src p)) TF_Null).
  assert (NL : forall q l, p <= q -> q = p + l -> 0 <= l -> ch q = 10 -> q <= len -> ~ word_first (ch p) ->
    exists q' tk' new, if_cur src 10 (fun s => rbind (move_forward src (with_tok (fun k => set_len (t_len k + 1) (set_type Tok_NewLine k)) s)) (fun s => Done (append_tok s))) (St q (set_len l t0) ts ms) = Done (St q' tk' (ts ++ new) ms) /\ core q' (ts ++ new) /\ p <= q' /\
    ms = table src ms0 (ts ++ new) /\ edge src (ts ++ new) q').
  { intros q l L Eq Hl E10 Lq Wp. pose proof (inside src q 10 ltac:(lia) E10 ltac:(lia)). rewrite if_cur_yes by (try lia; exact E10). rewrite with_tok_St, move_ok by lia. cbn [rbind]. rewrite append_tok_St.
    set (k := set_len _ _). exists (q + 1), k, [k]. split; [reflexivity|].
    assert (H0 : here src p (q + 1) k). { split; [reflexivity|]. split; [unfold k; cbn [t_len set_len]; lia|]. split; reflexivity. }
    split; [apply (core_here src ms0 p); [exact C|lia|exact H0|apply sym_wordok; destruct H0 as (-> & _); exact Wp]|]. split; [lia|].
    split; [rewrite table_snoc, learn_other by discriminate; exact M|]. apply edge_after; replace (q + 1 - 1) with q by lia; rewrite E10; unfold word_char; lia. }
  destruct (Z.eq_dec (ch p) 13) as [E1|E1].
  - pose proof (inside src p 13 P E1 ltac:(lia)). rewrite if_cur_yes by assumption. rewrite move_ok by lia. cbn [rbind]. rewrite with_tok_St. destruct (Z.eq_dec (ch (p + 1)) 10) as [E2|E2].
    + apply NL; try lia. rewrite E1. unfold word_first, word_char. lia.
    + rewrite if_cur_no by (try lia; exact E2). exists (p + 1), (set_len 1 t0), []. rewrite app_nil_r. split; [reflexivity|].
      split; [apply (core_skip src ms0 p); [exact C|lia|apply acc_one; right; left; rewrite E1; unfold spacep; cbn; tauto]|]. split; [lia|]. split; [exact M|].
      apply edge_after; replace (p + 1 - 1) with p by lia; rewrite E1; unfold word_char; lia.
  - rewrite if_cur_no by assumption. cbn [rbind]. destruct (Z.eq_dec (ch p) 10) as [E2|E2].
    + apply (NL p 0); try lia. rewrite E2. unfold word_first, word_char. lia.
    + rewrite if_cur_no by assumption. exists p, t0, []. rewrite app_nil_r. split; [reflexivity|]. split; [exact C|]. split; [lia|]. split; [exact M|]. exact E.
Qed.

Variable fuel : nat.
Hypothesis enough : len + 2 <= Z.of_nat fuel.
(** ** end of line *)
Lemma end_line_ok : forall p tk ts ms, 0 <= p <= len -> runs_off src \/
  exists q, end_line src fuel (St p tk ts ms) = Done (St q tk ts ms) /\ p <= q <= len /\ acc ts p q /\ (edge src ts p -> edge src ts q).
Proof.
  intros p tk ts ms P. unfold end_line. destruct (while_move src (fun c => c =? 32) fuel p tk ts ms) as (q & S & R); [lia|lia|]. rewrite R. cbn [rbind]. rewrite left_St. pose proof S as (Lpq & A & B).
  assert (Aq : acc ts p q). { intros i Hi. right; left. specialize (A i Hi). cbv beta in A. replace (ch i) with 32 by lia. left. reflexivity. }
  assert (Eq : edge src ts p -> edge src ts q). { intros E. destruct (Z.eq_dec p q) as [<-|N]; [exact E|]. apply edge_after. specialize (A (q - 1) ltac:(lia)). cbv beta in A. unfold word_char. lia. }
  destruct (Z.eqb_spec (len - q) 0) as [E|E]; [right; exists q; split; [reflexivity|]; split; [lia|]; split; assumption|].
  rewrite cur_ok by lia. cbn [rbind]. destruct (Z.eqb_spec (ch q) 13) as [E1|E1]; [|destruct (Z.eqb_spec (ch q) 10) as [E2|E2]].
  - destruct (Z.eq_dec (q + 1) len) as [E3|E3]; [left; apply (cr_end q); [lia|exact E3|exact E1]|]. right. exists (q + 2). rewrite move_ok by lia. cbn [rbind]. rewrite move_ok by lia.
    replace (q + 1 + 1) with (q + 2) by lia. split; [reflexivity|]. split; [lia|]. split.
    + apply (acc_app src _ _ q); [exact Aq|]. apply (acc_app src _ _ (q + 1)); [apply acc_one; right; left; rewrite E1; unfold spacep; cbn; tauto|].
      replace (q + 2) with (q + 1 + 1) by lia. apply acc_one. right; right; right; right; right; left. replace (q + 1 - 1) with q by lia. split; [lia|exact E1].
    + intros _. right; right; right; right. replace (q + 2 - 2) with q by lia. split; [lia|exact E1].
  - right. exists (q + 1). rewrite move_ok by lia. split; [reflexivity|]. split; [lia|]. split.
    + apply (acc_app src _ _ q); [exact Aq|]. apply acc_one; right; left; rewrite E2; unfold spacep; cbn; tauto.
    + intros _. apply edge_after. replace (q + 1 - 1) with q by lia. rewrite E2. unfold word_char. lia.
  - right. exists q. split; [reflexivity|]. split; [lia|]. split; assumption.
Qed.

(** ** #define *)
Definition reg (ms : macros) (name : list Z) (F : Z) : macros := match lookup_macro ms name with None => register_macro ms name (Macro 0 F) | Some _ => ms end.
Lemma reg_St : forall q tk ts ms name F,
  match lookup_macro ms name with None => with_macros (register_macro (l_macros (St q tk ts ms)) name (Macro 0 F)) (St q tk ts ms) | Some _ => St q tk ts ms end = St q tk ts (reg ms name F).
Proof. intros. unfold reg. destruct (lookup_macro ms name); reflexivity. Qed.
Lemma define_ok : forall p tk ts ms, core p ts -> p < len -> ms = table src ms0 ts ->
  exists q new ms' r, lex_preprocessor_define src fuel (St p tk ts ms) = Done (St q tk (ts ++ new) ms', r) /\
    (r = Lex_Continue -> core q (ts ++ new) /\ p < q /\ ms' = table src ms0 (ts ++ new)).
Proof.
  intros p tk ts ms C L M. pose proof C as (P & _). unfold lex_preprocessor_define. change (l_pos (St p tk ts ms)) with p. change (l_line (St p tk ts ms)) with (fst (lc src p)). change (l_col (St p tk ts ms)) with (snd (lc src p)).
  rewrite move_ok by lia. cbn [rbind]. destruct (grow_ok src is_word_char fuel (p + 1) 1 tk ts ms) as (q & S & R); [lia|lia|]. rewrite R. cbn [rbind]. pose proof S as (Lq & _).
  replace (1 + (q - (p + 1))) with (q - p) by lia. rewrite append_St. change (l_macros (St q tk ts ms)) with ms. set (name := Tok p (q - p) Tok_Identifier _ _ _).
  assert (C1 : core q (ts ++ [name])) by (apply core_local; [exact C|lia]).
  assert (TB : forall F, F = (if ch q =? 40 then MF_Functional else 0) \/ lookup_macro ms (slice src p (q - p)) <> None ->
    reg ms (slice src p (q - p)) F = table src ms0 (ts ++ [name])).
  { intros F HF. unfold reg. rewrite table_snoc, <- M. unfold learn. change (defined_name name) with true. cbv iota. unfold text_of. change (t_start name) with p. change (t_len name) with (q - p).
    destruct (lookup_macro ms (slice src p (q - p))); [reflexivity|]. destruct HF as [->|HF]; [|now destruct HF]. unfold t_end. change (t_start name + t_len name) with (p + (q - p)). replace (p + (q - p)) with q by lia. reflexivity. }
  rewrite left_St. destruct (Z.eqb_spec (len - q) 0) as [E|E].
  { cbn [rbind]. exists q, [name]. eexists. exists Lex_Continue. split; [rewrite reg_St; reflexivity|].
    intros _. split; [exact C1|]. split; [lia|]. apply TB. left. replace (ch q) with 0; [reflexivity|]. symmetry. apply ch_past. lia. }
  rewrite cur_ok by lia. cbn [rbind]. destruct (Z.eqb_spec (ch q) 40) as [E1|E1].
  - change (l_pos (St q tk (ts ++ [name]) ms)) with q. change (l_line (St q tk (ts ++ [name]) ms)) with (fst (lc src q)). change (l_col (St q tk (ts ++ [name]) ms)) with (snd (lc src q)).
    rewrite append_St, move_ok by lia. cbn [rbind]. set (po := Tok q 1 _ _ _ _).
    assert (C2 : core (q + 1) ((ts ++ [name]) ++ [po])). { unfold po. replace 1 with (q + 1 - q) at 2 by lia. apply core_local; [exact C1|lia]. }
    destruct (params_ok src bytes ms0 fuel enough fuel (q + 1) tk _ ms C2) as (q2 & new & r & R2 & K).
    { exists po. split; [apply in_or_app; right; now left|]. split; [reflexivity|]. split; [reflexivity|]. unfold t_end. cbn. lia. }
    { lia. }
    rewrite R2. cbn [rbind]. destruct r.
    2: { cbn [rbind]. exists q2, (name :: po :: new), ms, Lex_ReturnNull. split; [rewrite <- !app_assoc; reflexivity|discriminate]. }
    destruct (K eq_refl) as (K1 & K2 & K3). pose proof K1 as (Q2 & _). rewrite cur_ok by lia. cbn [rbind]. destruct (Z.eqb_spec (ch q2) 41) as [E2|E2]; cbn [negb rbind].
    2: { exists q2, (name :: po :: new), ms, Lex_ReturnNull. split; [rewrite <- !app_assoc; reflexivity|discriminate]. }
    pose proof (inside src q2 41 ltac:(lia) E2 ltac:(lia)). rewrite append_St, move_ok by lia. cbn [rbind]. set (pc := Tok _ 1 Tok_Paren_Close _ _ _).
    assert (C3 : core (q2 + 1) ((((ts ++ [name]) ++ [po]) ++ new) ++ [pc])).
    { unfold pc. cbn [St l_pos l_line l_col]. replace 1 with (q2 + 1 - q2) at 2 by lia. apply core_local; [exact K1|lia]. }
    exists (q2 + 1), (name :: po :: new ++ [pc]). eexists. exists Lex_Continue. replace (ts ++ name :: po :: new ++ [pc]) with ((((ts ++ [name]) ++ [po]) ++ new) ++ [pc]) by (rewrite <- !app_assoc; reflexivity). split.
    + rewrite reg_St. reflexivity.
    + intros _. split; [exact C3|]. split; [lia|]. rewrite table_snoc, learn_other by discriminate. rewrite table_plain by exact K3. rewrite table_snoc, learn_other by discriminate. apply TB.
      destruct (lookup_macro ms (slice src p (q - p))) eqn:KK; [right; discriminate|left; reflexivity].
  - cbn [rbind]. exists q, [name]. eexists. exists Lex_Continue. split.
    + rewrite reg_St. reflexivity.
    + intros _. split; [exact C1|]. split; [lia|]. apply TB. left. reflexivity.
Qed.
End Dir.
