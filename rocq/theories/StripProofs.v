(** Steps of parser_strip_formatting. *)
From Coq Require Import String ZArith List Bool Lia ZifyBool ZifyNat.
From Verif Require Import Common Text StrOpsModel LexModel LexSpec StripModel StripSpec.
Import ListNotations.
Close Scope string_scope.
Open Scope Z_scope.

Lemma zlen_app : forall A (a b : list A), zlen (a ++ b) = zlen a + zlen b.
Proof. intros. unfold zlen. rewrite app_length. lia. Qed.
Lemma zlen_cons : forall A (a : A) b, zlen (a :: b) = 1 + zlen b.
Proof. intros. unfold zlen. cbn [length]. lia. Qed.
Lemma zlen_nil : forall A, zlen (@nil A) = 0.
Proof. reflexivity. Qed.
Lemma zlen_nn : forall A (a : list A), 0 <= zlen a.
Proof. intros. unfold zlen. lia. Qed.
Lemma firstn_len : forall A (a b : list A), firstn (length a) (a ++ b) = a.
Proof. intros. rewrite firstn_app, Nat.sub_diag, firstn_all. cbn [firstn]. apply app_nil_r. Qed.
Ltac zl := repeat progress (rewrite ?zlen_app, ?zlen_cons, ?zlen_nil in *).

Section P.
Variable raw : list Z.
Variable pn : bool.

Lemma at0 : forall pre c r, raw = pre ++ c :: r -> char_at raw (zlen pre) = Done c.
Proof. intros pre c r ->. unfold char_at. pose proof (zlen_nn _ pre). replace (0 <=? zlen pre) with true by lia. unfold zlen. rewrite Nat2Z.id, nth_error_app2, Nat.sub_diag by lia. reflexivity. Qed.
Lemma at1 : forall pre c d r, raw = pre ++ c :: d :: r -> char_at raw (zlen pre + 1) = Done d.
Proof. intros pre c d r E. rewrite <- (at0 (pre ++ [c]) d r); [zl; f_equal; lia|]. rewrite <- app_assoc. exact E. Qed.
Lemma at2 : forall pre c d e r, raw = pre ++ c :: d :: e :: r -> char_at raw (zlen pre + 2) = Done e.
Proof. intros pre c d e r E. rewrite <- (at0 (pre ++ [c; d]) e r); [zl; f_equal; lia|]. rewrite <- app_assoc. exact E. Qed.
Lemma left0 : forall pre rest, raw = pre ++ rest -> tokleft raw (zlen pre) = zlen rest.
Proof. intros pre rest ->. unfold tokleft. zl. lia. Qed.
Lemma pend_ext : forall cut pre t w r, raw = pre ++ w ++ r -> pending raw cut (zlen pre) = Done t -> pending raw cut (zlen (pre ++ w)) = Done (t ++ w).
Proof.
  intros cut pre t w r E P. unfold pending in *. destruct ((0 <=? cut) && (cut <=? zlen pre) && (zlen pre <=? zlen raw)) eqn:G; [|discriminate]. injection P as <-.
  replace ((0 <=? cut) && (cut <=? zlen (pre ++ w)) && (zlen (pre ++ w) <=? zlen raw)) with true by (rewrite E; zl; pose proof (zlen_nn _ w); pose proof (zlen_nn _ r); lia).
  f_equal. unfold slice. rewrite E. assert (Z.to_nat cut <= length pre)%nat as L by (unfold zlen in G; lia).
  rewrite !skipn_app, app_assoc, <- !app_assoc. replace (Z.to_nat cut - length pre)%nat with 0%nat by lia. cbn [skipn].
  replace (Z.to_nat (zlen pre - cut)) with (length (skipn (Z.to_nat cut) pre)) by (rewrite skipn_length; unfold zlen; lia).
  replace (Z.to_nat (zlen (pre ++ w) - cut)) with (length (skipn (Z.to_nat cut) pre ++ w)) by (rewrite app_length, skipn_length; zl; unfold zlen; lia).
  rewrite firstn_len, app_assoc, firstn_len. reflexivity.
Qed.
Lemma pend_self : forall pre r, raw = pre ++ r -> pending raw (zlen pre) (zlen pre) = Done [].
Proof.
  intros pre r E. unfold pending. replace ((0 <=? zlen pre) && (zlen pre <=? zlen pre) && (zlen pre <=? zlen raw)) with true by (rewrite E; zl; pose proof (zlen_nn _ pre); pose proof (zlen_nn _ r); lia).
  rewrite Z.sub_diag. reflexivity.
Qed.
Lemma pend_range : forall cut p t, pending raw cut p = Done t -> 0 <= cut <= p /\ p <= zlen raw /\ zlen t = p - cut.
Proof.
  intros cut p t P. unfold pending in P. destruct ((0 <=? cut) && (cut <=? p) && (p <=? zlen raw)) eqn:G; [|discriminate]. injection P as <-. split; [lia|split; [lia|]].
  unfold slice, zlen in *. rewrite firstn_length, skipn_length. lia.
Qed.
Lemma flush_ok : forall content cut p t, pending raw cut p = Done t -> flush raw content cut p = Done (content ++ t).
Proof.
  intros content cut p t P. unfold flush. destruct (p >? cut) eqn:G; [rewrite P; reflexivity|]. apply pend_range in P. assert (zlen t = 0) by lia. destruct t; [rewrite app_nil_r; reflexivity|zl; pose proof (zlen_nn _ t); lia].
Qed.

(** the inner loops *)
Lemma line_ok : forall m pre rest, raw = pre ++ rest -> zlen rest <= Z.of_nat m -> exists w r, rest = w ++ r /\ line_end raw m (zlen pre) = Done (zlen (pre ++ w)) /\ ~ In 10 w /\ (r = [] \/ exists r', r = 10 :: r').
Proof.
  induction m as [|m IH]; intros pre rest E L.
  - assert (rest = []) as -> by (destruct rest; [reflexivity|zl; pose proof (zlen_nn _ rest); lia]). exists [], []. cbn [line_end]. rewrite (left0 _ _ E), zlen_nil. rewrite !app_nil_r. split; [reflexivity|]. split; [reflexivity|]. split; [easy|left; reflexivity].
  - cbn [line_end]. rewrite (left0 _ _ E). destruct rest as [|c rest].
    { exists [], []. rewrite zlen_nil, !app_nil_r. split; [reflexivity|]. split; [reflexivity|]. split; [easy|left; reflexivity]. }
    zl. pose proof (zlen_nn _ rest). replace (1 + zlen rest =? 0) with false by lia. rewrite (at0 _ _ _ E). cbn [rbind]. destruct (Z.eqb_spec c 10) as [->|Ne].
    + exists [], (10 :: rest). rewrite app_nil_r. split; [reflexivity|]. split; [reflexivity|]. split; [easy|right; eauto].
    + destruct (IH (pre ++ [c]) rest) as (w & r & E1 & E2 & E3 & E4); [rewrite <- app_assoc; exact E|lia|]. exists (c :: w), r. split; [rewrite E1; reflexivity|]. split; [|split; [|exact E4]].
      * replace (zlen pre + 1) with (zlen (pre ++ [c])) by (zl; lia). rewrite E2. f_equal. zl. lia.
      * intros [H1|H1]; [congruence|contradiction].
Qed.
Lemma space_ok : forall m pre rest, raw = pre ++ rest -> zlen rest <= Z.of_nat m -> exists w r, rest = w ++ r /\ space_end raw m (zlen pre) = Done (zlen (pre ++ w)) /\ Forall (fun c => char_is_space c = true) w /\ (r = [] \/ exists c r', r = c :: r' /\ char_is_space c = false).
Proof.
  induction m as [|m IH]; intros pre rest E L.
  - assert (rest = []) as -> by (destruct rest; [reflexivity|zl; pose proof (zlen_nn _ rest); lia]). exists [], []. cbn [space_end]. rewrite (left0 _ _ E), zlen_nil. rewrite !app_nil_r. split; [reflexivity|]. split; [reflexivity|]. split; [constructor|left; reflexivity].
  - cbn [space_end]. rewrite (left0 _ _ E). destruct rest as [|c rest].
    { exists [], []. rewrite zlen_nil, !app_nil_r. split; [reflexivity|]. split; [reflexivity|]. split; [constructor|left; reflexivity]. }
    zl. pose proof (zlen_nn _ rest). replace (1 + zlen rest =? 0) with false by lia. rewrite (at0 _ _ _ E). cbn [rbind]. destruct (char_is_space c) eqn:Q.
    + destruct (IH (pre ++ [c]) rest) as (w & r & E1 & E2 & E3 & E4); [rewrite <- app_assoc; exact E|lia|]. exists (c :: w), r. split; [rewrite E1; reflexivity|]. split; [|split; [constructor; assumption|exact E4]].
      replace (zlen pre + 1) with (zlen (pre ++ [c])) by (zl; lia). rewrite E2. f_equal. zl. lia.
    + exists [], (c :: rest). rewrite app_nil_r. split; [reflexivity|]. split; [reflexivity|]. split; [constructor|right; eauto].
Qed.
Lemma string_ok : forall m pre rest, raw = pre ++ rest -> pre <> [] -> zlen rest <= Z.of_nat m -> exists w r, rest = w ++ r /\ string_end raw m (zlen pre) = Done (zlen (pre ++ w)).
Proof.
  induction m as [m IH] using lt_wf_ind. intros pre rest E N L.
  destruct rest as [|c rest]. { exists [], []. rewrite !app_nil_r. split; [reflexivity|]. destruct m; cbn [string_end]; rewrite (left0 _ _ E), zlen_nil; reflexivity. }
  destruct m as [|m]; [zl; pose proof (zlen_nn _ rest); lia|]. cbn [string_end]. rewrite (left0 _ _ E). zl. pose proof (zlen_nn _ rest). replace (1 + zlen rest =? 0) with false by lia. rewrite (at0 _ _ _ E). cbn [rbind].
  destruct (exists_last N) as (pre' & d & Ed). assert (char_at raw (zlen pre - 1) = Done d) as ->.
  { rewrite <- (at0 pre' d (c :: rest)); [rewrite Ed; zl; f_equal; lia|]. rewrite E, Ed, <- app_assoc. reflexivity. }
  cbn [rbind]. destruct (negb (c =? 34) || (d =? 92)).
  - destruct ((c =? 92) && (1 + zlen rest >? 1)) eqn:G.
    + destruct rest as [|e rest]; [zl; lia|]. destruct (IH m ltac:(lia) (pre ++ [c; e]) rest) as (w & r & E1 & E2); [rewrite <- app_assoc; exact E|destruct pre; discriminate|zl; lia|].
      exists (c :: e :: w), r. split; [rewrite E1; reflexivity|]. replace (zlen pre + 2) with (zlen (pre ++ [c; e])) by (zl; lia). rewrite E2. f_equal. zl. lia.
    + destruct (IH m ltac:(lia) (pre ++ [c]) rest) as (w & r & E1 & E2); [rewrite <- app_assoc; exact E|destruct pre; discriminate|zl; lia|].
      exists (c :: w), r. split; [rewrite E1; reflexivity|]. replace (zlen pre + 1) with (zlen (pre ++ [c])) by (zl; lia). rewrite E2. f_equal. zl. lia.
  - exists [], (c :: rest). split; [reflexivity|]. rewrite app_nil_r. reflexivity.
Qed.
Lemma char_ok : forall m pre rest, raw = pre ++ rest -> pre <> [] -> zlen rest <= Z.of_nat m -> exists w r, rest = w ++ r /\ char_end raw m (zlen pre) = Done (zlen (pre ++ w)).
Proof.
  induction m as [|m IH]; intros pre rest E N L.
  - assert (rest = []) as -> by (destruct rest; [reflexivity|zl; pose proof (zlen_nn _ rest); lia]). exists [], []. cbn [char_end]. rewrite (left0 _ _ E), zlen_nil, !app_nil_r. split; reflexivity.
  - cbn [char_end]. rewrite (left0 _ _ E). destruct rest as [|c rest]; [exists [], []; rewrite zlen_nil, !app_nil_r; split; reflexivity|].
    zl. pose proof (zlen_nn _ rest). replace (1 + zlen rest =? 0) with false by lia. rewrite (at0 _ _ _ E). cbn [rbind].
    destruct (exists_last N) as (pre' & d & Ed). assert (char_at raw (zlen pre - 1) = Done d) as ->.
    { rewrite <- (at0 pre' d (c :: rest)); [rewrite Ed; zl; f_equal; lia|]. rewrite E, Ed, <- app_assoc. reflexivity. }
    cbn [rbind]. destruct (negb (c =? 39) || (d =? 92)).
    + destruct (IH (pre ++ [c]) rest) as (w & r & E1 & E2); [rewrite <- app_assoc; exact E|destruct pre; discriminate|lia|]. exists (c :: w), r. split; [rewrite E1; reflexivity|]. replace (zlen pre + 1) with (zlen (pre ++ [c])) by (zl; lia). rewrite E2. f_equal. zl. lia.
    + exists [], (c :: rest). split; [reflexivity|]. rewrite app_nil_r. reflexivity.
Qed.
(** the first "*/" *)
Lemma block_ok : forall m pre b y, raw = pre ++ b ++ 42 :: 47 :: y -> zlen b < Z.of_nat m -> exists w r, b ++ 42 :: 47 :: y = w ++ 42 :: 47 :: r /\ block_end raw m (zlen pre) = Done (zlen (pre ++ w)) /\ (forall u v, w ++ [42] <> u ++ 42 :: 47 :: v).
Proof.
  induction m as [|m IH]; intros pre b y E L; [pose proof (zlen_nn _ b); lia|]. cbn [block_end]. rewrite (left0 _ _ E).
  assert (exists c d r, b ++ 42 :: 47 :: y = c :: d :: r) as (c & d & r & Er) by (destruct b as [|c [|d b]]; cbn; eauto).
  rewrite Er in *. zl. pose proof (zlen_nn _ r). replace (1 + (1 + zlen r) >? 1) with true by lia. rewrite (at0 _ _ _ E), (at1 _ _ _ _ E). cbn [rbind]. destruct ((c =? 42) && (d =? 47)) eqn:G.
  - exists [], r. assert (c = 42) as -> by lia. assert (d = 47) as -> by lia. split; [reflexivity|]. rewrite app_nil_r. split; [reflexivity|]. intros u v H0. destruct u as [|? [|? u]]; discriminate.
  - destruct b as [|c0 b]; [injection Er as <- <- <-; discriminate|]. injection Er as <- Er. destruct (IH (pre ++ [c0]) b y) as (w & r' & E1 & E2 & E3); [rewrite <- app_assoc; cbn [app]; rewrite Er; exact E|zl; lia|].
    exists (c0 :: w), r'. split; [cbn [app]; rewrite <- E1, Er; reflexivity|]. split; [replace (zlen pre + 1) with (zlen (pre ++ [c0])) by (zl; lia); rewrite E2; f_equal; zl; lia|].
    intros u v H1. destruct u as [|u0 u]; [|injection H1 as _ H1; apply (E3 u v H1)]. injection H1 as Hc H1. subst c0. rewrite Er in E1. destruct w as [|w0 w]; [discriminate|]. injection H1 as -> H1. injection E1 as -> _. discriminate.
Qed.
End P.
