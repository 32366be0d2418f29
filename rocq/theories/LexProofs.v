(** The scanner: positions, lines and columns, and the loops that move over a run of characters. *)
From Coq Require Import String ZArith List Bool Lia ZifyBool ZifyNat.
From Verif Require Import Common HashModel Text ArrayModel StrOpsModel EnumModel LexModel LexSpec.
Import ListNotations.
Open Scope Z_scope.

Lemma rbind_done {A B} : forall (a : A) (f : A -> run B), rbind (Done a) f = f a.
Proof. reflexivity. Qed.

Definition byte (b : Z) := 0 <= b < 256.

Lemma space_iff : forall c, byte c -> char_is_space c = true <-> spacep c.
Proof.
  intros c H. unfold char_is_space, spacep, sc. change (txt " " ++ [9; 10; 11; 12; 13]) with [32; 9; 10; 11; 12; 13]. cbn [In].
  unfold byte in H. destruct (c <? 128) eqn:E; lia.
Qed.
Lemma word_char_iff : forall c, byte c -> is_word_char c = true <-> word_char c.
Proof. intros c H. unfold is_word_char, char_is_alphanumeric, char_is_alpha, char_is_digit, word_char, sc. unfold byte in H. destruct (c <? 128) eqn:E; lia. Qed.
Lemma digit_iff : forall c, byte c -> char_is_digit c = true <-> digit c.
Proof. intros c H. unfold char_is_digit, digit, sc. unfold byte in H. destruct (c <? 128) eqn:E; lia. Qed.
Lemma word_start_iff : forall c, byte c -> is_word_start c = true <-> word_first c.
Proof. intros c H. unfold is_word_start, char_is_alpha, word_first, word_char, digit, sc. unfold byte in H. destruct (c <? 128) eqn:E; lia. Qed.

Section Scan.
Variable src : list Z.
Hypothesis bytes : Forall byte src.
Notation len := (zlen src).
Notation ch := (byte_at src).

Lemma ch_byte : forall i, byte (ch i).
Proof.
  intros i. unfold byte_at. destruct (Nat.lt_ge_cases (Z.to_nat i) (length src)) as [H|H].
  - rewrite Forall_forall in bytes. apply bytes, nth_In, H.
  - rewrite nth_overflow by exact H. unfold byte. lia.
Qed.
Lemma ch_end : ch len = 0.
Proof. unfold byte_at, zlen. rewrite Nat2Z.id. apply nth_overflow. lia. Qed.
Lemma ch_past : forall i, len <= i -> ch i = 0.
Proof. intros i H. unfold byte_at. apply nth_overflow. unfold zlen in H. lia. Qed.
Lemma at_ok : forall i, 0 <= i <= len -> at_ src i = Done (ch i).
Proof. intros i H. unfold at_. replace ((0 <=? i) && (i <=? len)) with true by lia. reflexivity. Qed.
Lemma len_pos : 0 <= len.
Proof. unfold zlen. lia. Qed.
(** a character other than NUL is not the terminator *)
Lemma inside : forall p c, 0 <= p <= len -> ch p = c -> c <> 0 -> p < len.
Proof. intros p c H E N. destruct (Z.eq_dec p len) as [->|Hn]; [rewrite ch_end in E; congruence|lia]. Qed.

(** line and column of a position *)
Definition advance (lc : Z * Z) (c : Z) : Z * Z := if c =? 10 then (fst lc + 1, 1) else (fst lc, snd lc + 1).
Definition lc (p : Z) : Z * Z := fold_left advance (firstn (Z.to_nat p) src) (1, 1).
Definition St (p : Z) (tk : token) (ts : list token) (ms : macros) : lx := Lx p (fst (lc p)) (snd (lc p)) tk ts ms.

Lemma firstn_snoc : forall (l : list Z) n, (n < length l)%nat -> firstn (S n) l = firstn n l ++ [nth n l 0].
Proof. induction l as [|a l IH]; intros n H; [cbn [length] in H; lia|]. destruct n as [|n]; [reflexivity|]. cbn [firstn nth app]. rewrite <- IH by (cbn [length] in H; lia). reflexivity. Qed.
Lemma lc_next : forall p, 0 <= p < len -> lc (p + 1) = advance (lc p) (ch p).
Proof.
  intros p H. unfold lc, byte_at. unfold zlen in H. replace (Z.to_nat (p + 1)) with (S (Z.to_nat p)) by lia.
  rewrite firstn_snoc by lia. rewrite fold_left_app. reflexivity.
Qed.
Lemma lc_spec : forall p, at_line_col src p (fst (lc p)) (snd (lc p)).
Proof.
  intros p. unfold lc, at_line_col. generalize (firstn (Z.to_nat p) src). intros l. induction l as [|c l IH] using rev_ind.
  - exists [], []. cbn. tauto.
  - rewrite fold_left_app. cbn [fold_left]. destruct IH as (b & u & E & Hb & Hu & El & Ec). revert El Ec. generalize (fold_left advance l (1, 1)). intros v El Ec. unfold advance. destruct (Z.eqb_spec c 10) as [->|N]; cbn [fst snd].
    + exists (l ++ [10]), []. rewrite app_nil_r. split; [reflexivity|]. split; [right; exists l; reflexivity|]. split; [tauto|]. split; [|reflexivity].
      assert (En : count_occ Z.eq_dec l 10 = count_occ Z.eq_dec b 10) by (rewrite E, count_occ_app, (proj1 (count_occ_not_In Z.eq_dec u 10) Hu); lia).
      rewrite El, count_occ_app, En. cbn [count_occ]. destruct (Z.eq_dec 10 10); lia.
    + exists b, (u ++ [c]). split; [rewrite E, app_assoc; reflexivity|]. split; [exact Hb|]. split; [intros H; apply in_app_or in H; destruct H as [H|[H|[]]]; [tauto|congruence]|].
      split; [exact El|]. rewrite Ec. unfold zlen. rewrite app_length. cbn [length]. lia.
Qed.

Lemma cur_ok : forall p tk ts ms, 0 <= p <= len -> cur src (St p tk ts ms) = Done (ch p).
Proof. intros. apply at_ok. exact H. Qed.
Lemma left_St : forall p tk ts ms, left src (St p tk ts ms) = len - p.
Proof. reflexivity. Qed.
Lemma move_ok : forall p tk ts ms, 0 <= p < len -> move_forward src (St p tk ts ms) = Done (St (p + 1) tk ts ms).
Proof.
  intros p tk ts ms H. unfold move_forward. rewrite cur_ok by lia. cbn [rbind]. unfold St. rewrite lc_next by exact H. unfold advance.
  destruct (ch p =? 10); reflexivity.
Qed.
Lemma take_ok : forall p tk ts ms, 0 <= p < len -> take src (St p tk ts ms) = Done (St (p + 1) (set_len (t_len tk + 1) tk) ts ms).
Proof. intros. unfold take. rewrite move_ok by exact H. reflexivity. Qed.
Lemma move_if_ok : forall p tk ts ms, 0 <= p < len -> move_if_left src (St p tk ts ms) = Done (St (p + 1) tk ts ms).
Proof. intros. unfold move_if_left. rewrite left_St. replace (len - p =? 0) with false by lia. apply move_ok. exact H. Qed.
Lemma if_cur_yes : forall c f p tk ts ms, 0 <= p <= len -> ch p = c -> if_cur src c f (St p tk ts ms) = f (St p tk ts ms).
Proof. intros. unfold if_cur. rewrite cur_ok by assumption. cbn [rbind]. rewrite H0, Z.eqb_refl. reflexivity. Qed.
Lemma if_cur_no : forall c f p tk ts ms, 0 <= p <= len -> ch p <> c -> if_cur src c f (St p tk ts ms) = Done (St p tk ts ms).
Proof. intros. unfold if_cur. rewrite cur_ok by assumption. cbn [rbind]. replace (ch p =? c) with false by lia. reflexivity. Qed.

(** [q] is where the run of characters satisfying [f] from [p] on ends *)
Definition spans (f : Z -> bool) (p q : Z) := p <= q <= len /\ (forall i, p <= i < q -> f (ch i) = true) /\ (q < len -> f (ch q) = false).
Lemma spans_at : forall f p, p <= len -> p < len -> f (ch p) = true -> forall q, spans f (p + 1) q -> spans f p q.
Proof.
  intros f p H H1 H2 q (A & B & C). split; [lia|]. split; [|exact C]. intros i Hi. destruct (Z.eq_dec i p) as [->|]; [exact H2|apply B; lia].
Qed.
Lemma spans_stop : forall f p, p <= len -> (p < len -> f (ch p) = false) -> spans f p p.
Proof. intros f p H C. split; [lia|]. split; [intros; lia|exact C]. Qed.
Lemma spans_fun : forall f p q q', spans f p q -> spans f p q' -> q = q'.
Proof.
  intros f p q q' (A & B & C) (A' & B' & C'). destruct (Z.lt_trichotomy q q') as [H|[H|H]]; [|exact H|].
  - rewrite (B' q) in C by lia. discriminate C. lia.
  - rewrite (B q') in C' by lia. discriminate C'. lia.
Qed.

Lemma while_move : forall f n p tk ts ms, 0 <= p <= len -> len - p <= Z.of_nat n ->
  exists q, spans f p q /\ while_left src n f (move_forward src) (St p tk ts ms) = Done (St q tk ts ms).
Proof.
  intros f n. induction n as [|n IH]; intros p tk ts ms H Hn; cbn [while_left]; rewrite left_St.
  - replace (len - p =? 0) with true by lia. exists p. split; [apply spans_stop; lia|reflexivity].
  - destruct (len - p =? 0) eqn:E; [exists p; split; [apply spans_stop; lia|reflexivity]|].
    rewrite cur_ok by lia. cbn [rbind]. destruct (f (ch p)) eqn:F.
    + rewrite move_ok by lia. cbn [rbind]. destruct (IH (p + 1) tk ts ms) as (q & S & R); [lia|lia|]. exists q. split; [apply spans_at; [lia|lia|exact F|exact S]|exact R].
    + exists p. split; [apply spans_stop; [lia|]; intros _; exact F|reflexivity].
Qed.
Lemma set_len_set_len : forall a b k, set_len a (set_len b k) = set_len a k.
Proof. reflexivity. Qed.
Lemma set_len_same : forall k, set_len (t_len k) k = k.
Proof. intros []. reflexivity. Qed.
Lemma while_take : forall f n p tk ts ms, 0 <= p <= len -> len - p <= Z.of_nat n ->
  exists q, spans f p q /\ while_left src n f (take src) (St p tk ts ms) = Done (St q (set_len (t_len tk + (q - p)) tk) ts ms).
Proof.
  assert (L : forall p tk ts ms, St p tk ts ms = St p (set_len (t_len tk + (p - p)) tk) ts ms).
  { intros. rewrite Z.sub_diag, Z.add_0_r, set_len_same. reflexivity. }
  intros f n. induction n as [|n IH]; intros p tk ts ms H Hn; cbn [while_left]; rewrite left_St.
  - replace (len - p =? 0) with true by lia. exists p. split; [apply spans_stop; lia|rewrite <- L; reflexivity].
  - destruct (len - p =? 0) eqn:E; [exists p; split; [apply spans_stop; lia|rewrite <- L; reflexivity]|].
    rewrite cur_ok by lia. cbn [rbind]. destruct (f (ch p)) eqn:F.
    + rewrite take_ok by lia. cbn [rbind]. destruct (IH (p + 1) (set_len (t_len tk + 1) tk) ts ms) as (q & S & R); [lia|lia|]. exists q.
      split; [apply spans_at; [lia|lia|exact F|exact S]|]. rewrite R. unfold St. do 2 f_equal. cbn [set_len t_len t_start t_type t_line t_col t_flags]. unfold set_len. f_equal. cbn [t_len]. lia.
    + exists p. split; [apply spans_stop; [lia|]; intros _; exact F|rewrite <- L; reflexivity].
Qed.
Lemma grow_ok : forall f n p l tk ts ms, 0 <= p <= len -> len - p <= Z.of_nat n ->
  exists q, spans f p q /\ grow_while src n f (St p tk ts ms) l = Done (St q tk ts ms, l + (q - p)).
Proof.
  intros f n. induction n as [|n IH]; intros p l tk ts ms H Hn; cbn [grow_while]; rewrite left_St.
  - replace (len - p =? 0) with true by lia. exists p. split; [apply spans_stop; lia|]. do 2 f_equal. lia.
  - destruct (len - p =? 0) eqn:E; [exists p; split; [apply spans_stop; lia|do 2 f_equal; lia]|].
    rewrite cur_ok by lia. cbn [rbind]. destruct (f (ch p)) eqn:F.
    + rewrite move_ok by lia. cbn [rbind]. destruct (IH (p + 1) (l + 1) tk ts ms) as (q & S & R); [lia|lia|]. exists q. split; [apply spans_at; [lia|lia|exact F|exact S]|].
      rewrite R. do 2 f_equal. lia.
    + exists p. split; [apply spans_stop; [lia|]; intros _; exact F|do 2 f_equal; lia].
Qed.
Lemma skip_ok : forall n p tk ts ms, 0 <= p <= len -> len - p <= Z.of_nat n ->
  exists q, spans char_is_space p q /\ skip_whitespace src n (St p tk ts ms) = Done (St q tk ts ms).
Proof. intros. apply while_move; assumption. Qed.
Lemma with_tok_St : forall f p tk ts ms, with_tok f (St p tk ts ms) = St p (f tk) ts ms.
Proof. reflexivity. Qed.
Lemma append_St : forall k p tk ts ms, append k (St p tk ts ms) = St p tk (ts ++ [k]) ms.
Proof. reflexivity. Qed.
Lemma append_tok_St : forall p tk ts ms, append_tok (St p tk ts ms) = St p tk (ts ++ [tk]) ms.
Proof. reflexivity. Qed.
End Scan.
