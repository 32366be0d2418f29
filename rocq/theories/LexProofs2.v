(** The invariant of the token array, and the directives. *)
From Coq Require Import String ZArith List Bool Lia ZifyBool ZifyNat.
From Verif Require Import Common HashModel Text ArrayModel StrOpsModel EnumModel LexModel LexSpec LexProofs.
Import ListNotations.
Close Scope string_scope.
Open Scope Z_scope.

Inductive laid : Z -> list token -> Z -> Prop :=
| laid_nil p q : p <= q -> laid p [] q
| laid_tok p k r q : p <= t_start k -> 0 <= t_len k -> laid (t_end k) r q -> laid p (k :: r) q
| laid_dir p h k r q : p <= t_start h -> whole_directive h k -> laid (t_end k) r q -> laid p (h :: k :: r) q.

Lemma laid_le : forall p ts q, laid p ts q -> p <= q.
Proof. intros p ts q H. induction H; [assumption| |]; unfold t_end, whole_directive in *; lia. Qed.
Lemma laid_more : forall p ts q q', laid p ts q -> q <= q' -> laid p ts q'.
Proof. intros p ts q q' H L. induction H; [apply laid_nil; lia|apply laid_tok; auto|apply laid_dir; auto]. Qed.
Lemma laid_app : forall p a m b q, laid p a m -> laid m b q -> laid p (a ++ b) q.
Proof.
  intros p a m b q H L. induction H as [p m H|p k r m A B C IH|p h k r m A B C IH]; cbn [app].
  - destruct L; [apply laid_nil; lia|apply laid_tok; auto; lia|apply laid_dir; auto; lia].
  - apply laid_tok; auto.
  - apply laid_dir; auto.
Qed.
Lemma laid_order : forall p ts q, laid p ts q -> in_order ts.
Proof.
  unfold in_order. intros p ts q H. induction H as [p m H|p k r m A B C IH|p h k r m A B C IH]; intros a x y b E.
  - destruct a; discriminate E.
  - destruct a as [|k' a]; cbn [app] in E; injection E as Ek Er; [|eapply IH; exact Er].
    subst k r. inversion C; subst; [left; assumption|left; assumption].
  - destruct a as [|k' [|k'' a]]; cbn [app] in E.
    + injection E as -> -> ->. right. exact B.
    + injection E as -> -> ->. left. inversion C; subst; assumption.
    + injection E as -> -> E. apply (IH a x y b E).
Qed.
Lemma laid_source : forall src p ts q, laid p ts q -> 0 <= p -> q <= zlen src -> Forall (in_source src) ts.
Proof.
  intros src p ts q H. induction H as [p m H|p k r m A B C IH|p h k r m A B C IH]; intros P Q; [constructor| |].
  - pose proof (laid_le _ _ _ C). constructor; [unfold in_source; unfold t_end in *; lia|apply IH; [unfold t_end; lia|exact Q]].
  - pose proof (laid_le _ _ _ C). destruct B as (B1 & B2 & B3 & B4 & B5). unfold t_end in *. constructor; [unfold in_source, t_end; lia|]. constructor; [unfold in_source, t_end; lia|].
    apply IH; [lia|exact Q].
Qed.

Section Inv.
Variable src : list Z.
Hypothesis bytes : Forall byte src.
Variable ms0 : macros.
Notation len := (zlen src).
Notation ch := (byte_at src).
Notation St := (St src).

Definition words (ts : list token) := forall a k b, ts = a ++ k :: b -> ordinary a k -> word_first (ch (t_start k)) -> word_token src (table src ms0 a) a k.
Definition acc (ts : list token) (p q : Z) := forall i, p <= i < q -> accounted src ts i.
Definition core (p : Z) (ts : list token) : Prop :=
  0 <= p <= len /\ laid 0 ts p /\ acc ts 0 p /\ Forall (positioned src) ts /\ words ts.

Lemma accounted_more : forall ts new i, accounted src ts i -> accounted src (ts ++ new) i.
Proof.
  intros ts new i [(k & A & B)|[H|[(A & k & B & C)|[(A & k & B & C)|[(A & k & B & C)|[H|H]]]]]].
  - left. exists k. split; [apply in_or_app; now left|exact B].
  - right; left; exact H.
  - right; right; left. split; [exact A|]. exists k. split; [apply in_or_app; now left|exact C].
  - right; right; right; left. split; [exact A|]. exists k. split; [apply in_or_app; now left|exact C].
  - right; right; right; right; left. split; [exact A|]. exists k. split; [apply in_or_app; now left|exact C].
  - right; right; right; right; right; left; exact H.
  - right; right; right; right; right; right; exact H.
Qed.
Lemma acc_app : forall ts p m q, acc ts p m -> acc ts m q -> acc ts p q.
Proof. intros ts p m q A B i Hi. destruct (Z.lt_ge_cases i m); [apply A|apply B]; lia. Qed.
Lemma acc_more : forall ts new p q, acc ts p q -> acc (ts ++ new) p q.
Proof. intros ts new p q A i Hi. apply accounted_more, A, Hi. Qed.
Lemma acc_space : forall ts p q, spans src char_is_space p q -> acc ts p q.
Proof. intros ts p q (_ & A & _) i Hi. right; left. apply space_iff; [apply ch_byte, bytes|apply A, Hi]. Qed.
Lemma acc_one : forall ts p, accounted src ts p -> acc ts p (p + 1).
Proof. intros ts p A i Hi. replace i with p by lia. exact A. Qed.
Lemma acc_tok : forall ts k p q, t_start k <= p -> q <= t_end k -> acc (ts ++ [k]) p q.
Proof. intros ts k p q A B i Hi. left. exists k. split; [apply in_or_app; right; now left|lia]. Qed.
Lemma acc_nil : forall ts p, acc ts p p.
Proof. intros ts p i Hi. lia. Qed.

Definition wordok (ts : list token) (k : token) := ordinary ts k -> word_first (ch (t_start k)) -> word_token src (table src ms0 ts) ts k.
Lemma words_app : forall ts k, words ts -> wordok ts k -> words (ts ++ [k]).
Proof.
  intros ts k W H a x b E. destruct b as [|y b] using rev_ind.
  - apply app_inj_tail in E. destruct E as [<- <-]. exact H.
  - clear IHb. change (ts ++ [k] = a ++ (x :: b) ++ [y]) in E. rewrite app_assoc in E. apply app_inj_tail in E. destruct E as [E _]. apply (W a x b E).
Qed.

Lemma core_skip : forall p q ts, core p ts -> p <= q <= len -> acc ts p q -> core q ts.
Proof.
  intros p q ts (A & B & C & D & E) H G. split; [lia|]. split; [apply (laid_more _ _ p); [exact B|lia]|]. split; [apply (acc_app _ _ p); assumption|]. split; assumption.
Qed.
Lemma core_tok : forall p q ts k, core p ts -> p <= t_start k -> 0 <= t_len k -> t_end k <= q <= len -> positioned src k -> acc (ts ++ [k]) p q -> wordok ts k -> core q (ts ++ [k]).
Proof.
  intros p q ts k (A & B & C & D & E) H1 H2 H3 H4 H5 H6. split; [unfold t_end in *; lia|].
  split; [apply (laid_app _ _ p); [exact B|apply laid_tok; [exact H1|exact H2|apply laid_nil; lia]]|].
  split; [apply (acc_app _ _ p); [apply acc_more, C|exact H5]|].
  split; [apply Forall_app; split; [exact D|constructor; [exact H4|constructor]]|]. apply words_app; assumption.
Qed.
(** a token that runs from [p] to [q] and is positioned at [p] *)
Definition here (p q : Z) (k : token) := t_start k = p /\ t_len k = q - p /\ t_line k = fst (lc src p) /\ t_col k = snd (lc src p).
Lemma here_positioned : forall p q k, 0 <= p -> here p q k -> positioned src k.
Proof.
  intros p q k P (A & B & C & D). exists p. rewrite A, C, D. split; [lia|]. split; [apply lc_spec|]. split; [intros i Hi; lia|auto].
Qed.
Lemma core_here : forall p q ts k, core p ts -> p <= q <= len -> here p q k -> wordok ts k -> core q (ts ++ [k]).
Proof.
  intros p q ts k H L K W. pose proof H as (P & _). assert (E := K). destruct E as (A & B & _). apply (core_tok p); try assumption; unfold t_end; try lia; [apply (here_positioned p q); [lia|exact K]|].
  apply acc_tok; unfold t_end; lia.
Qed.
Lemma preproc_wordok : forall ts k, t_flags k = TF_Preprocess -> wordok ts k.
Proof. intros ts k E (H & _) _. rewrite E in H. discriminate H. Qed.

Lemma table_snoc : forall ts k, table src ms0 (ts ++ [k]) = learn src (table src ms0 ts) k.
Proof. intros. unfold table. rewrite fold_left_app. reflexivity. Qed.
Lemma learn_other : forall ms k, t_type k <> Tok_Identifier -> learn src ms k = ms.
Proof. intros ms k H. unfold learn, defined_name. replace (t_type k =? Tok_Identifier) with false by lia. reflexivity. Qed.
Lemma learn_plain : forall ms k, t_flags k <> TF_Preprocess -> learn src ms k = ms.
Proof. intros ms k H. unfold learn, defined_name. replace (t_flags k =? TF_Preprocess) with false by lia. rewrite andb_false_r. reflexivity. Qed.

Variable fuel : nat.
Hypothesis enough : len + 2 <= Z.of_nat fuel.

Lemma spans_space_acc : forall ts p q, core p ts -> spans src char_is_space p q -> core q ts.
Proof. intros ts p q C S. apply (core_skip p); [exact C| |apply acc_space, S]. destruct S as (A & _). destruct C as (B & _). lia. Qed.

Definition open_paren (ts : list token) (p : Z) := exists k, In k ts /\ t_type k = Tok_Paren_Open /\ t_flags k = TF_Preprocess /\ t_end k <= p.
Lemma open_more : forall ts new p q, open_paren ts p -> p <= q -> open_paren (ts ++ new) q.
Proof. intros ts new p q (k & A & B & C & D) L. exists k. split; [apply in_or_app; now left|]. split; [exact B|]. split; [exact C|lia]. Qed.
Lemma acc_backslash : forall ts p, ch p = 92 -> open_paren ts p -> acc ts p (p + 1).
Proof. intros ts p E H. apply acc_one. right; right; right; right; left. split; assumption. Qed.

Lemma backslashes_ok : forall n p tk ts ms, core p ts -> open_paren ts p -> len - p + 1 <= Z.of_nat n ->
  exists q, skip_backslashes src fuel n (St p tk ts ms) = Done (St q tk ts ms) /\ core q ts /\ p <= q.
Proof.
  induction n as [|n IH]; intros p tk ts ms C O Hn; pose proof C as (P & _); [lia|].
  cbn [skip_backslashes]. rewrite cur_ok by lia. cbn [rbind]. destruct (Z.eqb_spec (ch p) 92) as [E|E]; [|exists p; split; [reflexivity|split; [exact C|lia]]].
  pose proof (inside src _ _ P E ltac:(lia)). rewrite move_ok by lia. cbn [rbind].
  destruct (skip_ok src fuel (p + 1) tk ts ms) as (q & S & R); [lia|lia|]. rewrite R. cbn [rbind].
  assert (C' : core q ts). { apply (spans_space_acc _ (p + 1)); [|exact S]. apply (core_skip p); [exact C|lia|apply acc_backslash; assumption]. }
  pose proof S as ((L & _) & _). destruct (IH q tk ts ms C') as (q' & R' & C'' & L'); [rewrite <- (app_nil_r ts); apply (open_more ts [] p); [exact O|lia]|lia|].
  exists q'. split; [exact R'|]. split; [exact C''|lia].
Qed.

Definition plain_new (new : list token) := Forall (fun k => t_type k <> Tok_Identifier) new.
Lemma table_plain : forall ts new, plain_new new -> table src ms0 (ts ++ new) = table src ms0 ts.
Proof.
  intros ts new. revert ts. induction new as [|k new IH]; intros ts H; [rewrite app_nil_r; reflexivity|].
  replace (ts ++ k :: new) with ((ts ++ [k]) ++ new) by (rewrite <- app_assoc; reflexivity). rewrite IH by exact (Forall_inv_tail H).
  rewrite table_snoc, learn_other by exact (Forall_inv H). reflexivity.
Qed.

(** a whole token in the parameters of a #define *)
Lemma core_local : forall p q ts ty, core p ts -> p <= q <= len -> core q (ts ++ [Tok p (q - p) ty (fst (lc src p)) (snd (lc src p)) TF_Preprocess]).
Proof.
  intros p q ts ty C L. apply (core_here p); [exact C|exact L| |apply preproc_wordok; reflexivity]. split; [reflexivity|]. split; [reflexivity|]. split; reflexivity.
Qed.
Lemma dots_at : forall p, 0 <= p -> slice src p 3 = txt "..." -> ch p = 46 /\ ch (p + 1) = 46 /\ ch (p + 2) = 46 /\ p + 3 <= len.
Proof.
  intros p P E. unfold slice in E. change (txt "...") with [46; 46; 46] in E. unfold byte_at. assert (L : length (firstn (Z.to_nat 3) (skipn (Z.to_nat p) src)) = 3%nat) by (rewrite E; reflexivity).
  rewrite firstn_length, skipn_length in L. unfold zlen. assert (N : forall j, nth j (skipn (Z.to_nat p) src) 0 = nth (Z.to_nat p + j) src 0).
  { intros j. generalize (Z.to_nat p), src. clear. intros m. induction m as [|m IH]; intros l; [reflexivity|]. destruct l; [destruct j; reflexivity|]. cbn [skipn Nat.add nth]. apply IH. }
  assert (F : forall j, (j < 3)%nat -> nth j (skipn (Z.to_nat p) src) 0 = nth j [46; 46; 46] 0).
  { intros j Hj. rewrite <- E. clear E L N. generalize (skipn (Z.to_nat p) src). intros l. change (Z.to_nat 3) with 3%nat. destruct j as [|[|[|j]]]; [| | |lia]; destruct l as [|? [|? [|? ?]]]; reflexivity. }
  pose proof (F 0%nat ltac:(lia)) as F0. pose proof (F 1%nat ltac:(lia)) as F1. pose proof (F 2%nat ltac:(lia)) as F2. rewrite N in F0, F1, F2. cbn [nth] in F0, F1, F2.
  replace (Z.to_nat (p + 1)) with (Z.to_nat p + 1)%nat by lia. replace (Z.to_nat (p + 2)) with (Z.to_nat p + 2)%nat by lia. rewrite Nat.add_0_r in F0. split; [exact F0|]. split; [exact F1|]. split; [exact F2|lia].
Qed.

Lemma params_ok : forall n p tk ts ms, core p ts -> open_paren ts p -> len - p + 1 <= Z.of_nat n ->
  exists q new r, define_params src fuel n (St p tk ts ms) = Done (St q tk (ts ++ new) ms, r) /\
    (r = Lex_Continue -> core q (ts ++ new) /\ p <= q /\ plain_new new).
Proof.
  induction n as [|n IH]; intros p tk ts ms C O Hn; pose proof C as (P & _); [lia|].
  cbn [define_params]. rewrite left_St. destruct (Z.eqb_spec (len - p) 0) as [E|E].
  { exists p, [], Lex_Continue. rewrite app_nil_r. split; [reflexivity|]. intros _. split; [exact C|]. split; [lia|constructor]. }
  rewrite cur_ok by lia. cbn [rbind]. destruct (Z.eqb_spec (ch p) 41) as [E1|E1].
  { exists p, [], Lex_Continue. rewrite app_nil_r. split; [reflexivity|]. intros _. split; [exact C|]. split; [lia|constructor]. }
  destruct (skip_ok src fuel p tk ts ms) as (q & S & R); [lia|lia|]. rewrite R. cbn [rbind]. clear R.
  assert (Cq : core q ts) by (apply (spans_space_acc _ p); assumption). pose proof Cq as (Q & _). pose proof S as ((Lpq & _) & _).
  assert (Oq : open_paren ts q) by (rewrite <- (app_nil_r ts); apply (open_more ts [] p); [exact O|lia]).
  rewrite cur_ok by lia. cbn [rbind]. rewrite left_St. change (l_pos (St q tk ts ms)) with q. change (l_line (St q tk ts ms)) with (fst (lc src q)). change (l_col (St q tk ts ms)) with (snd (lc src q)).
  destruct ((len - q >? 3) && _) eqn:D.
  { destruct (list_eq_dec Z.eq_dec (slice src q 3) (txt "...")) as [Ed|Ed]; [|lia]. destruct (dots_at q ltac:(lia) Ed) as (D1 & D2 & D3 & D4).
    rewrite move_ok by lia. cbn [rbind]. rewrite move_ok by lia. cbn [rbind]. rewrite move_ok by lia. cbn [rbind]. rewrite append_St.
    set (k := Tok q 3 _ _ _ _). assert (Ck : core (q + 3) (ts ++ [k])).
    { unfold k. replace 3 with (q + 3 - q) at 2 by lia. apply core_local; [exact Cq|lia]. }
    replace (q + 1 + 1 + 1) with (q + 3) by lia. destruct (skip_ok src fuel (q + 3) tk (ts ++ [k]) ms) as (q1 & S1 & R1); [lia|lia|]. rewrite R1. cbn [rbind].
    assert (C1 : core q1 (ts ++ [k])) by (apply (spans_space_acc _ (q + 3)); assumption). pose proof S1 as ((L1 & _) & _).
    destruct (backslashes_ok fuel q1 tk (ts ++ [k]) ms C1) as (q2 & R2 & C2 & L2); [apply (open_more ts [k] p); [exact O|lia]|pose proof C1 as (Q1 & _); lia|]. rewrite R2. cbn [rbind].
    pose proof C2 as (Q2 & _). rewrite cur_ok by lia. cbn [rbind]. eexists q2, [k], _. split; [reflexivity|]. intros _. split; [exact C2|]. split; [lia|]. constructor; [discriminate|constructor]. }
  clear D. destruct (Z.eqb_spec (ch q) 92) as [E2|E2].
  { pose proof (inside src _ _ Q E2 ltac:(lia)). rewrite move_ok by lia. cbn [rbind]. destruct (skip_ok src fuel (q + 1) tk ts ms) as (q1 & S1 & R1); [lia|lia|]. rewrite R1. cbn [rbind].
    pose proof S1 as ((L1 & _) & _). destruct (IH q1 tk ts ms) as (q2 & new & r & R2 & K).
    - apply (spans_space_acc _ (q + 1)); [|exact S1]. apply (core_skip q); [exact Cq|lia|apply acc_backslash; assumption].
    - rewrite <- (app_nil_r ts). apply (open_more ts [] p); [exact O|lia].
    - lia.
    - rewrite R2. exists q2, new, r. split; [reflexivity|]. intros Hr. destruct (K Hr) as (K1 & K2 & K3). split; [exact K1|]. split; [lia|exact K3]. }
  destruct (is_word_start (ch q)) eqn:E3.
  2: { exists q, [], Lex_ReturnNull. rewrite app_nil_r. split; [reflexivity|discriminate]. }
  assert (Lq : q < len). { destruct (Z.eq_dec q len) as [->|]; [rewrite ch_end in E3; discriminate E3|lia]. }
  rewrite move_ok by lia. cbn [rbind]. destruct (grow_ok src is_word_char fuel (q + 1) 1 tk ts ms) as (q1 & S1 & R1); [lia|lia|]. rewrite R1. cbn [rbind]. rewrite append_St.
  pose proof S1 as ((L1 & L1') & _). replace (1 + (q1 - (q + 1))) with (q1 - q) by lia. set (k := Tok q _ _ _ _ _). assert (Ck : core q1 (ts ++ [k])) by (apply core_local; [exact Cq|lia]).
  destruct (skip_ok src fuel q1 tk (ts ++ [k]) ms) as (q2 & S2 & R2); [lia|lia|]. rewrite R2. cbn [rbind]. pose proof S2 as ((L2 & L2') & _).
  assert (C2 : core q2 (ts ++ [k])) by (apply (spans_space_acc _ q1); assumption). rewrite cur_ok by lia. cbn [rbind].
  destruct (Z.eqb_spec (ch q2) 41) as [E4|E4].
  { exists q2, [k], Lex_Continue. split; [reflexivity|]. intros _. split; [exact C2|]. split; [lia|]. constructor; [discriminate|constructor]. }
  destruct (Z.eqb_spec (ch q2) 44) as [E5|E5]; cbn [negb].
  2: { exists q2, [k], Lex_ReturnNull. split; [reflexivity|discriminate]. }
  pose proof (inside src q2 44 ltac:(lia) E5 ltac:(lia)). rewrite append_St. rewrite move_ok by lia. cbn [rbind].
  set (k' := Tok _ 1 Tok_Comma _ _ _). assert (C3 : core (q2 + 1) ((ts ++ [k]) ++ [k'])).
  { unfold k'. change (l_pos (St q2 tk (ts ++ [k]) ms)) with q2. replace 1 with (q2 + 1 - q2) at 2 by lia. apply core_local; [exact C2|lia]. }
  destruct (IH (q2 + 1) tk ((ts ++ [k]) ++ [k']) ms C3) as (q4 & new & r & R4 & K).
  - rewrite <- app_assoc. apply (open_more ts _ p); [exact O|lia].
  - lia.
  - rewrite R4. exists q4, (k :: k' :: new), r. split; [rewrite <- !app_assoc; reflexivity|]. intros Hr. destruct (K Hr) as (K1 & K2 & K3).
    split; [rewrite <- !app_assoc in K1; exact K1|]. split; [lia|]. constructor; [discriminate|]. constructor; [discriminate|exact K3].
Qed.
End Inv.
