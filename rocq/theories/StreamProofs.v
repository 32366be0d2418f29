(** Proofs for StreamModel.v. *)
From Coq Require Import ZArith List Bool Lia ZifyBool ZifyNat.
From Verif Require Import Common Text StreamModel StreamSpec.
Import ListNotations.
Open Scope Z_scope.

Lemma overwrite_size c d o : 0 <= o <= size c -> size (overwrite c d o) = Z.max (size c) (o + size d).
Proof. intros H. unfold overwrite, size in *. rewrite !app_length, firstn_length, skipn_length. lia. Qed.
Lemma overwrite_nth c d o i : 0 <= o <= size c -> 0 <= i ->
  nth (Z.to_nat i) (overwrite c d o) 0 = if (o <=? i) && (i <? o + size d) then nth (Z.to_nat (i - o)) d 0 else nth (Z.to_nat i) c 0.
Proof.
  intros H P. unfold overwrite, size in *.
  assert (L : length (firstn (Z.to_nat o) c) = Z.to_nat o) by (rewrite firstn_length; lia).
  destruct (Z_lt_dec i o) as [A|A].
  - replace ((o <=? i) && (i <? o + Z.of_nat (length d))) with false by lia. rewrite app_nth1 by lia.
    rewrite <- (firstn_skipn (Z.to_nat o) c) at 2. rewrite app_nth1 by lia. reflexivity.
  - rewrite app_nth2 by lia. rewrite L. destruct (Z_lt_dec i (o + Z.of_nat (length d))) as [B|B].
    + replace ((o <=? i) && (i <? o + Z.of_nat (length d))) with true by lia. rewrite app_nth1 by lia. f_equal. lia.
    + replace ((o <=? i) && (i <? o + Z.of_nat (length d))) with false by lia. rewrite app_nth2 by lia.
      rewrite <- (firstn_skipn (Z.to_nat o + length d) c) at 2.
      destruct (Z_lt_dec (Z.of_nat (length c)) (o + Z.of_nat (length d))) as [D|D].
      * rewrite !nth_overflow; auto. all: rewrite ?app_length, ?firstn_length, ?skipn_length; lia.
      * rewrite app_nth2 by (rewrite firstn_length; lia). rewrite firstn_length. f_equal. lia.
Qed.
Lemma piece_is (b : Z -> Z) c o n : 0 <= o -> 0 <= n -> o + n <= size c -> (forall i, 0 <= i < size c -> b i = nth (Z.to_nat i) c 0) ->
  map (fun i => b (o + Z.of_nat i)) (seq 0 (Z.to_nat n)) = piece c o n.
Proof.
  intros A B C H. unfold piece, size in *. apply (nth_ext _ _ (b o) 0).
  - rewrite map_length, seq_length, firstn_length, skipn_length. lia.
  - intros k L. rewrite map_length, seq_length in L.
    rewrite (nth_indep _ _ (b (o + Z.of_nat 0))) by (rewrite map_length, seq_length; lia).
    rewrite (map_nth (fun i => b (o + Z.of_nat i))), seq_nth by lia. rewrite H by lia.
    transitivity (nth k (skipn (Z.to_nat o) c) 0).
    + rewrite <- (firstn_skipn (Z.to_nat o) c) at 1. rewrite app_nth2; rewrite firstn_length; [|lia]. f_equal. lia.
    + rewrite <- (firstn_skipn (Z.to_nat n) (skipn (Z.to_nat o) c)) at 1. rewrite app_nth1; [reflexivity|]. rewrite firstn_length, skipn_length. lia.
Qed.

Section Proofs.
Variable junk : Z -> Z.

(** the header of a cloned buffer *)
Definition header_ok (s : stream) : Prop := s_flags s <> READ_ONLY /\ (s_flags s = CLONE_WRITABLE -> s_cap s <= s_capacity s <= s_room s /\ 0 <= s_num s <= s_cap s).

Lemma in_place s c p d o : holds_file s (c, p) -> header_ok s -> 0 <= o -> o + size d <= size c ->
  exists s', memory_write junk s d o = Done (s', true, size d) /\ holds_file s' (overwrite c d o, p) /\ header_ok s' /\ s_flags s' = s_flags s /\ s_num s' = s_num s /\ s_cap s' = s_cap s.
Proof.
  intros (H1 & H2 & H3 & H4 & H5) (W & HC) A B. cbn [fst snd] in *. unfold memory_write. assert (SD : 0 <= size d) by (unfold size; lia).
  assert (N : forall X, match s_flags s with READ_ONLY => Done (s, false, 0) | _ => X end = X) by (intros X; destruct (s_flags s); [reflexivity|reflexivity|contradiction]).
  fold (size d). replace (Z.max 0 (size d - (s_cap s - o))) with 0 by lia.
  assert (P : put_bytes s o d (size d - 0) = Done {| s_bytes := fun i => if (o <=? i) && (i <? o + (size d - 0)) then nth (Z.to_nat (i - o)) d 0 else s_bytes s i; s_room := s_room s; s_cap := s_cap s; s_cursor := s_cursor s; s_flags := s_flags s; s_num := s_num s; s_capacity := s_capacity s |}).
  { unfold put_bytes. fold (size d). assert (0 <= size d) by (unfold size; lia). replace ((size d - 0 <? 0) || (o <? 0) || (s_room s <? o + (size d - 0)) || (size d <? size d - 0)) with false by lia. reflexivity. }
  destruct (s_flags s) eqn:F; [| |contradiction].
  - replace (s_capacity s <? s_cap s + 0) with false by (destruct (HC eq_refl); lia). rewrite P. cbn [rbind]. replace (0 <? 0) with false by lia. eexists. split; [f_equal; f_equal; lia|].
    split; [|split; [split; cbn [s_flags s_cap s_capacity s_room s_num]; auto|cbn; auto]].
    split; cbn [fst snd s_bytes s_cap s_room s_cursor]; rewrite ?overwrite_size by lia; [lia|]. split; [lia|]. split; auto. split; [lia|]. intros i I. rewrite overwrite_nth by lia. replace (size d - 0) with (size d) by lia. destruct ((o <=? i) && (i <? o + size d)); auto. apply H5. lia.
  - rewrite P. cbn [rbind]. eexists. split; [f_equal; f_equal; lia|].
    split; [|split; [split; cbn [s_flags s_cap s_capacity s_room s_num]; auto|cbn; auto]].
    split; cbn [fst snd s_bytes s_cap s_room s_cursor]; rewrite ?overwrite_size by lia; [lia|]. split; [lia|]. split; auto. split; [lia|]. intros i I. rewrite overwrite_nth by lia. replace (size d - 0) with (size d) by lia. destruct ((o <=? i) && (i <? o + size d)); auto. apply H5. lia.
Qed.

(** an extending write: what is kept is the first Num bytes, if the buffer must grow *)
Lemma extending s c p d o : holds_file s (c, p) -> header_ok s -> s_flags s = CLONE_WRITABLE -> 0 <= o <= size c -> size c < o + size d ->
  exists s', memory_write junk s d o = Done (s', true, size d) /\ s_flags s' = CLONE_WRITABLE /\ s_num s' = s_num s /\ s_cap s' = o + size d /\ s_capacity s' = o + size d /\ o + size d <= s_room s' /\ s_cursor s' = p /\
    forall i, 0 <= i < o + size d -> s_bytes s' i = if o <=? i then nth (Z.to_nat (i - o)) d 0 else if (s_capacity s <? o + size d) && (s_num s <=? i) then junk i else nth (Z.to_nat i) c 0.
Proof.
  intros (H1 & H2 & H3 & H4 & H5) (_ & HC) F A B. cbn [fst snd] in *. specialize (HC F). unfold memory_write. rewrite F.
  fold (size d). replace (Z.max 0 (size d - (s_cap s - o))) with (o + size d - s_cap s) by lia. replace (s_cap s + (o + size d - s_cap s)) with (o + size d) by lia.
  set (s1 := if s_capacity s <? o + size d then array_grow junk s (o + size d) else s).
  assert (R1 : o + size d <= s_room s1). { unfold s1. destruct (s_capacity s <? o + size d) eqn:E; cbn; lia. }
  assert (B1 : forall i, 0 <= i < size c -> s_bytes s1 i = if (s_capacity s <? o + size d) && (s_num s <=? i) then junk i else nth (Z.to_nat i) c 0).
  { intros i I. unfold s1. destruct (s_capacity s <? o + size d) eqn:E; cbn [array_grow s_bytes andb]; [|auto]. destruct (i <? s_num s) eqn:E2; [replace (s_num s <=? i) with false by lia; auto|replace (s_num s <=? i) with true by lia; auto]. }
  assert (K1 : s_flags s1 = CLONE_WRITABLE /\ s_num s1 = s_num s /\ s_cursor s1 = p). { unfold s1. destruct (s_capacity s <? o + size d); cbn; auto. }
  unfold put_bytes at 1. fold (size d).
  replace ((size d - (o + size d - s_cap s) <? 0) || (o <? 0) || (s_room s1 <? o + (size d - (o + size d - s_cap s))) || (size d <? size d - (o + size d - s_cap s))) with false by lia.
  cbn [rbind]. replace (0 <? o + size d - s_cap s) with true by lia. unfold put_bytes. cbn [s_room].
  assert (LS : size (skipn (Z.to_nat (size d - (o + size d - s_cap s))) d) = o + size d - s_cap s). { unfold size in *. rewrite skipn_length. lia. }
  fold (size (skipn (Z.to_nat (size d - (o + size d - s_cap s))) d)). rewrite LS.
  replace ((o + size d - s_cap s <? 0) || (o + (size d - (o + size d - s_cap s)) <? 0) || (s_room s1 <? o + (size d - (o + size d - s_cap s)) + (o + size d - s_cap s)) || (o + size d - s_cap s <? o + size d - s_cap s)) with false by lia.
  cbn [rbind s_bytes s_room s_cursor s_flags s_num]. eexists. split; [f_equal; f_equal; lia|]. cbn [s_bytes s_room s_cursor s_flags s_num s_cap s_capacity].
  destruct K1 as (K1 & K2 & K3). split; auto. split; auto. split; auto. split; auto. split; auto. split; auto.
  intros i I. replace (o + (size d - (o + size d - s_cap s))) with (size c) by lia. replace (size d - (o + size d - s_cap s)) with (size c - o) by lia.
  destruct (Z_lt_dec i (size c)) as [L|L].
  - replace ((size c <=? i) && (i <? size c + (o + size d - s_cap s))) with false by lia. destruct (o <=? i) eqn:E.
    + replace (true && (i <? size c)) with true by lia. reflexivity.
    + cbn [andb]. apply B1. lia.
  - replace ((size c <=? i) && (i <? size c + (o + size d - s_cap s))) with true by lia. replace (o <=? i) with true by lia.
    rewrite <- (firstn_skipn (Z.to_nat (size c - o)) d) at 2. assert (LF : length (firstn (Z.to_nat (size c - o)) d) = Z.to_nat (size c - o)) by (rewrite firstn_length; unfold size in *; lia).
    rewrite app_nth2; rewrite LF; [f_equal; lia|lia].
Qed.
Lemma first_growth s c p d o : holds_file s (c, p) -> header_ok s -> s_flags s = CLONE_WRITABLE -> s_num s = s_cap s -> 0 <= o <= size c ->
  exists s', memory_write junk s d o = Done (s', true, size d) /\ holds_file s' (overwrite c d o, p) /\ header_ok s' /\ s_flags s' = s_flags s.
Proof.
  intros H HO F N A. destruct (Z_lt_dec (size c) (o + size d)) as [L|L].
  - destruct (extending s c p d o H HO F A L) as (s' & W & E1 & E2 & E3 & E4 & E5 & E6 & E7). exists s'. split; auto.
    destruct H as (H1 & H2 & H3 & H4 & H5). destruct HO as (_ & HC). specialize (HC F). cbn [fst snd] in *.
    assert (0 <= size d) by (unfold size; lia).
    split; [|split; [split; [congruence|intros _; lia]|congruence]].
    unfold holds_file. cbn [fst snd]. rewrite overwrite_size by lia. split; [lia|]. split; [lia|]. split; [auto|]. split; [lia|]. intros i I. rewrite overwrite_nth by lia. rewrite E7 by lia. replace (Z.max (size c) (o + size d)) with (o + size d) in I by lia. replace (i <? o + size d) with true by lia. destruct (o <=? i) eqn:E; cbn [andb]; auto. replace (s_num s <=? i) with false by lia. rewrite andb_false_r. reflexivity.
  - destruct (in_place s c p d o H HO) as (s' & W & E1 & E2 & E3 & _); try lia. exists s'. auto.
Qed.

Lemma seek_ok s c p o : holds_file s (c, p) -> header_ok s -> 0 <= o <= size c ->
  exists s', file_seek s o = (s', o) /\ holds_file s' (c, o) /\ header_ok s' /\ s_flags s' = s_flags s /\ s_num s' = s_num s /\ s_cap s' = s_cap s.
Proof.
  intros (H1 & H2 & H3 & H4 & H5) (W & HC) A. cbn [fst snd] in *. unfold file_seek, memory_seek. cbn [Z.eqb]. rewrite H1. replace (Z.max 0 (Z.min (Z.max (0 + o) 0) (size c))) with o by lia.
  eexists. split; [reflexivity|]. split; [|split; [split; auto|cbn; auto]]. split; cbn; auto.
Qed.
Lemma tell_ok s c p : holds_file s (c, p) -> header_ok s ->
  exists s', file_tell s = (s', p) /\ holds_file s' (c, p) /\ header_ok s' /\ s_flags s' = s_flags s /\ s_num s' = s_num s /\ s_cap s' = s_cap s.
Proof.
  intros (H1 & H2 & H3 & H4 & H5) (W & HC). cbn [fst snd] in *. unfold file_tell, memory_seek. change (1 =? 0) with false. change (1 =? 2) with false. cbv iota zeta. rewrite H1, H3. replace (Z.max 0 (Z.min (Z.max (p + 0) 0) (size c))) with p by lia.
  eexists. split; [reflexivity|]. split; [|split; [split; auto|cbn; auto]]. split; cbn; auto.
Qed.
Lemma read_ok s c p n o : holds_file s (c, p) -> 0 <= o -> 0 <= n -> o + n <= size c -> memory_read s n o = Done (piece c o n).
Proof.
  intros (H1 & H2 & H3 & H4 & H5) A B D. cbn [fst snd] in *. unfold memory_read, bytes_at. replace ((n <? 0) || (o <? 0) || (s_room s <? o + n)) with false by lia. f_equal. apply piece_is; auto.
Qed.

(** the steps that do not write *)
Definition is_write (o : stream_op) : bool := match o with SWrite _ | SWriteAt _ _ => true | _ => false end.
Lemma quiet_step s f o f' a : holds_file s f -> header_ok s -> file_step f o f' a -> is_write o = false ->
  exists s', stream_step junk s o = Done (s', a) /\ holds_file s' f' /\ header_ok s' /\ s_flags s' = s_flags s /\ s_num s' = s_num s /\ s_cap s' = s_cap s /\ size (fst f') = size (fst f).
Proof.
  intros H HO ST Q. destruct ST as [c p d o A|c p n o A B D|c p o A|c p|c p|c p n A B|c p d]; try discriminate; cbn [stream_step].
  - rewrite (read_ok s c p n o H) by lia. eexists. repeat (split; [reflexivity || eassumption|]). auto.
  - destruct (seek_ok s c p o H HO A) as (s' & -> & E). exists s'. tauto.
  - destruct (tell_ok s c p H HO) as (s' & -> & E). exists s'. tauto.
  - unfold file_size. destruct (tell_ok s c p H HO) as (s1 & -> & E1 & E2 & E3 & E4 & E5).
    assert (K : exists s2, memory_seek s1 0 2 = (s2, size c) /\ holds_file s2 (c, size c) /\ header_ok s2 /\ s_flags s2 = s_flags s1 /\ s_num s2 = s_num s1 /\ s_cap s2 = s_cap s1).
    { destruct E1 as (H1 & H2 & H3 & H4 & H5). cbn [fst snd] in *. unfold memory_seek. change (2 =? 0) with false. change (2 =? 2) with true. cbv iota. rewrite H1. replace (Z.max 0 (Z.min (Z.max (size c + 0) 0) (size c))) with (size c) by lia.
      eexists. split; [reflexivity|]. split; [|split; [destruct E2; split; auto|cbn; auto]]. split; [exact H1|]. split; [exact H2|]. split; [reflexivity|]. cbn [fst snd]. split; [lia|]. exact H5. }
    destruct K as (s2 & -> & K1 & K2 & K3 & K4 & K5). destruct (tell_ok s2 c (size c) K1 K2) as (s3 & -> & L1 & L2 & L3 & L4 & L5).
    assert (PR : 0 <= p <= size c) by (destruct H as (_ & _ & _ & X & _); exact X).
    destruct (seek_ok s3 c (size c) p L1 L2 PR) as (s4 & -> & M1 & M2 & M3 & M4 & M5). exists s4. split; [reflexivity|]. split; auto. split; auto. split; [congruence|]. split; [congruence|]. split; [congruence|reflexivity].
  - assert (PR : 0 <= p <= size c) by (destruct H as (_ & _ & _ & X & _); exact X). unfold file_read. destruct (tell_ok s c p H HO) as (s1 & -> & E1 & E2 & E3 & E4 & E5). destruct (tell_ok s1 c p E1 E2) as (s2 & -> & F1 & F2 & F3 & F4 & F5).
    rewrite (read_ok s2 c p n p F1) by lia. cbn [rbind]. destruct (seek_ok s2 c p (p + n) F1 F2 ltac:(lia)) as (s3 & -> & G1 & G2 & G3 & G4 & G5). exists s3. split; [reflexivity|]. split; auto. split; auto. split; [congruence|]. split; [congruence|]. split; [congruence|reflexivity].
Qed.
Lemma write_step s f o f' a : holds_file s f -> header_ok s -> file_step f o f' a ->
  size (fst f') = size (fst f) \/ (s_flags s = CLONE_WRITABLE /\ s_num s = s_cap s) ->
  exists s', stream_step junk s o = Done (s', a) /\ holds_file s' f' /\ header_ok s' /\ s_flags s' = s_flags s /\ (size (fst f') = size (fst f) -> s_num s' = s_num s /\ s_cap s' = s_cap s).
Proof.
  intros H HO ST GR. destruct (is_write o) eqn:Q.
  2: { destruct (quiet_step s f o f' a H HO ST Q) as (s' & E1 & E2 & E3 & E4 & E5 & E6 & _). exists s'. auto 10. }
  assert (KEY : forall s c p d o, holds_file s (c, p) -> header_ok s -> 0 <= o <= size c -> size (overwrite c d o) = size c \/ (s_flags s = CLONE_WRITABLE /\ s_num s = s_cap s) ->
    exists s', memory_write junk s d o = Done (s', true, size d) /\ holds_file s' (overwrite c d o, p) /\ header_ok s' /\ s_flags s' = s_flags s /\ (size (overwrite c d o) = size c -> s_num s' = s_num s /\ s_cap s' = s_cap s)).
  { clear. intros s c p d o H HO A G. rewrite overwrite_size in * by lia. destruct (Z_lt_dec (size c) (o + size d)) as [L|L].
    - destruct G as [G|(G1 & G2)]; [lia|]. destruct (first_growth s c p d o H HO G1 G2 A) as (s' & E1 & E2 & E3 & E4). exists s'. split; auto. split; auto. split; auto. split; auto. lia.
    - destruct (in_place s c p d o H HO) as (s' & E1 & E2 & E3 & E4 & E5 & E6); try lia. exists s'. auto 10. }
  destruct ST as [c p d o A|c p n o A B D|c p o A|c p|c p|c p n A B|c p d]; try discriminate; cbn [stream_step fst] in *.
  - destruct (KEY s c p d o H HO A GR) as (s' & -> & E). exists s'. cbn [rbind]. tauto.
  - assert (PR : 0 <= p <= size c) by (destruct H as (_ & _ & _ & X & _); exact X). unfold file_write. destruct (tell_ok s c p H HO) as (s1 & -> & E1 & E2 & E3 & E4 & E5). destruct (tell_ok s1 c p E1 E2) as (s2 & -> & F1 & F2 & F3 & F4 & F5).
    destruct (KEY s2 c p d p F1 F2 PR) as (s3 & -> & G1 & G2 & G3 & G4). { destruct GR as [GR|(X & Y)]; [auto|right; split; congruence]. }
    cbn [rbind]. fold (size d). assert (0 <= size d) by (unfold size; lia). destruct (seek_ok s3 (overwrite c d p) p (p + size d) G1 G2) as (s4 & -> & K1 & K2 & K3 & K4 & K5). { rewrite overwrite_size by lia. lia. }
    exists s4. cbn [rbind fst]. split; [reflexivity|]. split; auto. split; auto. split; [congruence|]. intros SZ. destruct (G4 SZ) as (X & Y). split; congruence.
Qed.

Lemma step_functional f o f1 a1 f2 a2 : file_step f o f1 a1 -> file_step f o f2 a2 -> f1 = f2 /\ a1 = a2.
Proof. intros A B. destruct A; inversion B; subst; auto. Qed.
Lemma run_no_growth : forall ops f f' l s, holds_file s f -> header_ok s -> file_run f ops f' l -> no_growth f ops ->
  exists s', stream_run junk s ops = Done (s', l) /\ holds_file s' f' /\ header_ok s' /\ s_flags s' = s_flags s /\ s_num s' = s_num s /\ s_cap s' = s_cap s.
Proof.
  induction ops as [|o r IH]; intros f f' l s H HO R N; inversion R; subst.
  - exists s. cbn. auto 10.
  - inversion N as [|f0 o0 f1 a1 r0 S1 SZ N1]; subst. match goal with X : file_step f o ?g ?a |- _ => destruct (step_functional _ _ _ _ _ _ X S1) as (-> & ->) end.
    destruct (write_step s f o f1 a1 H HO S1 (or_introl SZ)) as (s1 & E1 & E2 & E3 & E4 & E5). destruct (E5 SZ) as (E6 & E7).
    match goal with X : file_run f1 r f' ?l0 |- _ => destruct (IH f1 f' l0 s1 E2 E3 X N1) as (s2 & F1 & F2 & F3 & F4 & F5 & F6) end.
    exists s2. cbn [stream_run]. rewrite E1. cbn [rbind]. rewrite F1. cbn [rbind]. split; auto. split; auto. split; auto. split; [congruence|]. split; congruence.
Qed.
Lemma run_one_growth : forall ops f, one_growth f ops -> forall f' l s, holds_file s f -> header_ok s -> s_flags s = CLONE_WRITABLE -> s_num s = s_cap s -> file_run f ops f' l ->
  exists s', stream_run junk s ops = Done (s', l) /\ holds_file s' f' /\ header_ok s'.
Proof.
  induction 1 as [f ops N|f o f1 a1 r S1 SZ N IH|f o f1 a1 r S1 N]; intros f' l s H HO F NC R.
  - destruct (run_no_growth ops f f' l s H HO R N) as (s' & E1 & E2 & E3 & _). exists s'. auto.
  - inversion R; subst. match goal with X : file_step f o ?g ?a |- _ => destruct (step_functional _ _ _ _ _ _ X S1) as (-> & ->) end.
    destruct (write_step s f o f1 a1 H HO S1 (or_introl SZ)) as (s1 & E1 & E2 & E3 & E4 & E5). destruct (E5 SZ) as (E6 & E7).
    match goal with X : file_run f1 r f' ?l0 |- _ => destruct (IH f' l0 s1 E2 E3 ltac:(congruence) ltac:(congruence) X) as (s2 & F1 & F2 & F3) end.
    exists s2. cbn [stream_run]. rewrite E1. cbn [rbind]. rewrite F1. cbn [rbind]. auto.
  - inversion R; subst. match goal with X : file_step f o ?g ?a |- _ => destruct (step_functional _ _ _ _ _ _ X S1) as (-> & ->) end.
    destruct (write_step s f o f1 a1 H HO S1 (or_intror (conj F NC))) as (s1 & E1 & E2 & E3 & E4 & E5).
    match goal with X : file_run f1 r f' ?l0 |- _ => destruct (run_no_growth r f1 f' l0 s1 E2 E3 X N) as (s2 & F1 & F2 & F3 & _) end.
    exists s2. cbn [stream_run]. rewrite E1. cbn [rbind]. rewrite F1. cbn [rbind]. auto.
Qed.
End Proofs.
