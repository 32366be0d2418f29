(** C60: a memory stream behaves as a file: what is read is what was written. [file_run] (StreamSpec.v) is a file,
    [stream_run] the calls on a stream, with their answers; [junk] is what fresh memory contains. *)
From Coq Require Import ZArith List Bool Lia ZifyBool ZifyNat.
From Verif Require Import Common Text StreamModel StreamSpec StreamProofs.
Import ListNotations.
Open Scope Z_scope.

Lemma new_holds junk cursor : exists s, file_seek (file_stream_new junk cursor) 0 = (s, 0) /\ holds_file s ([], 0) /\ header_ok s /\ s_flags s = CLONE_WRITABLE /\ s_num s = s_cap s.
Proof.
  eexists. split; [reflexivity|]. split; [|split; [|cbn; auto]].
  - split; [reflexivity|]. split; [cbn; lia|]. split; [reflexivity|]. split; [cbn; lia|]. cbn. intros i I. change (size []) with 0 in I. lia.
  - split; [discriminate|]. cbn. unfold grow_formula. lia.
Qed.
Lemma open_holds junk cursor buffer fl s : file_stream_open junk cursor buffer fl = Done s -> fl <> READ_ONLY ->
  exists s', file_seek s 0 = (s', 0) /\ holds_file s' (buffer, 0) /\ header_ok s' /\ s_flags s' = fl /\ (fl = CLONE_WRITABLE -> s_num s' = s_cap s').
Proof.
  unfold file_stream_open. fold (size buffer). intros E NR. destruct fl; [| |contradiction].
  - destruct (size buffer <=? 0) eqn:Z0; [discriminate|]. injection E as <-. unfold file_seek, memory_seek. cbn [Z.eqb s_cap]. replace (Z.max 0 (Z.min (Z.max (0 + 0) 0) (size buffer))) with 0 by lia.
    eexists. split; [reflexivity|]. split; [|split; [|cbn; auto]].
    + split; [reflexivity|]. split; [cbn; lia|]. split; [reflexivity|]. split; [cbn; lia|]. cbn. intros i I. replace (i <? size buffer) with true by lia. reflexivity.
    + split; [discriminate|]. cbn. lia.
  - injection E as <-. assert (0 <= size buffer) by (unfold size; lia). unfold file_seek, memory_seek. cbn [Z.eqb s_cap]. replace (Z.max 0 (Z.min (Z.max (0 + 0) 0) (size buffer))) with 0 by lia.
    eexists. split; [reflexivity|]. split; [|split; [|split; [reflexivity|discriminate]]].
    + split; [reflexivity|]. split; [cbn; lia|]. split; [reflexivity|]. split; [cbn; lia|]. cbn. auto.
    + split; [discriminate|]. discriminate.
Qed.

(** A new stream, for any history of calls of which at most one makes it longer: every answer is that of a file, and the
    stream then holds that file. (partial: one growth; the position must be set first; reads stay inside: see below) *)
Theorem c60_new_partial : forall junk cursor ops f' l, file_run ([], 0) ops f' l -> one_growth ([], 0) ops ->
  exists s, stream_run junk (file_stream_new junk cursor) (SSeek 0 :: ops) = Done (s, APos 0 :: l) /\ holds_file s f'.
Proof.
  intros junk cursor ops f' l R N. destruct (new_holds junk cursor) as (s & E1 & E2 & E3 & E4 & E5).
  destruct (run_one_growth junk ops ([], 0) N f' l s E2 E3 E4 E5 R) as (s' & F1 & F2 & _). exists s'. cbn [stream_run stream_step]. rewrite E1. cbn [rbind]. rewrite F1. auto.
Qed.
Print Assumptions c60_new_partial.
(** A stream over a copy of a buffer, likewise. *)
Theorem c60_clone_partial : forall junk cursor buffer s0 ops f' l, file_stream_open junk cursor buffer CLONE_WRITABLE = Done s0 -> file_run (buffer, 0) ops f' l -> one_growth (buffer, 0) ops ->
  exists s, stream_run junk s0 (SSeek 0 :: ops) = Done (s, APos 0 :: l) /\ holds_file s f'.
Proof.
  intros junk cursor buffer s0 ops f' l O R N. destruct (open_holds junk cursor buffer _ s0 O ltac:(discriminate)) as (s & E1 & E2 & E3 & E4 & E5).
  destruct (run_one_growth junk ops (buffer, 0) N f' l s E2 E3 E4 (E5 eq_refl) R) as (s' & F1 & F2 & _). exists s'. cbn [stream_run stream_step]. rewrite E1. cbn [rbind]. rewrite F1. auto.
Qed.
Print Assumptions c60_clone_partial.
(** A stream over the caller's buffer, for histories that do not make it longer. *)
Theorem c60_in_place_partial : forall junk cursor buffer s0 ops f' l, file_stream_open junk cursor buffer WRITABLE = Done s0 -> file_run (buffer, 0) ops f' l -> no_growth (buffer, 0) ops ->
  exists s, stream_run junk s0 (SSeek 0 :: ops) = Done (s, APos 0 :: l) /\ holds_file s f'.
Proof.
  intros junk cursor buffer s0 ops f' l O R N. destruct (open_holds junk cursor buffer _ s0 O ltac:(discriminate)) as (s & E1 & E2 & E3 & E4 & _).
  destruct (run_no_growth junk ops (buffer, 0) f' l s E2 E3 R N) as (s' & F1 & F2 & _). exists s'. cbn [stream_run stream_step]. rewrite E1. cbn [rbind]. rewrite F1. auto.
Qed.
Print Assumptions c60_in_place_partial.

(** ** What fails *)
(** Two appends: the second loses everything the first wrote, whatever was written: growing keeps the first Num bytes,
    and no write sets Num. *)
Theorem c60_second_append_refuted : forall junk cursor a b, a <> [] -> b <> [] ->
  exists s, stream_run junk (file_stream_new junk cursor) [SSeek 0; SWrite a; SWrite b; SReadAt (size a + size b) 0] =
    Done (s, [APos 0; AOk true; AOk true; ABytes (map (fun i => junk (Z.of_nat i)) (seq 0 (length a)) ++ b)]).
Proof.
  intros junk cursor a b NA NB. assert (LA : 0 < size a) by (destruct a; [contradiction|unfold size; cbn; lia]). assert (LB : 0 < size b) by (destruct b; [contradiction|unfold size; cbn; lia]).
  destruct (new_holds junk cursor) as (s & E1 & E2 & E3 & E4 & E5). cbn [stream_run stream_step]. rewrite E1. cbn [rbind].
  unfold file_write at 1. destruct (tell_ok junk s [] 0 E2 E3) as (s1 & -> & T1 & T2 & T3 & T4 & T5). destruct (tell_ok junk s1 [] 0 T1 T2) as (s2 & -> & U1 & U2 & U3 & U4 & U5).
  assert (SN : s_num s2 = 0). { destruct E2 as (X & _). change (s_cap s = 0) in X. congruence. }
  destruct (extending junk s2 [] 0 a 0 U1 U2 ltac:(congruence) ltac:(change (size []) with 0; lia) ltac:(change (size []) with 0; lia)) as (s3 & -> & V1 & V2 & V3 & V4 & V5 & V6 & V7). cbn [rbind].
  assert (H3 : holds_file s3 (a, 0)). { split; [cbn [fst]; lia|]. cbn [fst snd]. split; [lia|]. split; [auto|]. split; [lia|]. intros i I. rewrite V7 by lia. replace (0 <=? i) with true by lia. f_equal. lia. }
  assert (O3 : header_ok s3) by (split; [congruence|intros _; lia]). fold (size a).
  pose proof (eq_refl : s_capacity (fst (file_seek s3 (0 + size a))) = s_capacity s3) as C4.
  destruct (seek_ok junk s3 a 0 (0 + size a) H3 O3 ltac:(lia)) as (s4 & S4 & W1 & W2 & W3 & W4 & W5). rewrite S4 in C4 |- *. cbn [fst rbind] in C4 |- *.
  unfold file_write. pose proof (eq_refl : s_capacity (fst (file_tell s4)) = s_capacity s4) as C5. destruct (tell_ok junk s4 a (0 + size a) W1 W2) as (s5 & S5 & X1 & X2 & X3 & X4 & X5). rewrite S5 in C5 |- *. cbn [fst] in C5.
  pose proof (eq_refl : s_capacity (fst (file_tell s5)) = s_capacity s5) as C6. destruct (tell_ok junk s5 a (0 + size a) X1 X2) as (s6 & S6 & Y1 & Y2 & Y3 & Y4 & Y5). rewrite S6 in C6 |- *. cbn [fst] in C6.
  destruct (extending junk s6 a (0 + size a) b (0 + size a) Y1 Y2 ltac:(congruence) ltac:(lia) ltac:(lia)) as (s7 & -> & Z1 & Z2 & Z3 & Z4 & Z5 & Z6 & Z7). cbn [rbind fst].
  unfold memory_read, bytes_at. change (s_room (fst (file_seek s7 (0 + size a + Z.of_nat (length b))))) with (s_room s7).
  replace ((size a + size b <? 0) || (0 <? 0) || (s_room s7 <? 0 + (size a + size b))) with false by lia. cbn [rbind]. eexists. match goal with |- context [ABytes (map ?f ?l)] => enough (EB : map f l = map (fun i => junk (Z.of_nat i)) (seq 0 (length a)) ++ b) by (rewrite EB; reflexivity) end.
  change (s_bytes (fst (file_seek s7 (0 + size a + Z.of_nat (length b))))) with (s_bytes s7).
  replace (Z.to_nat (size a + size b)) with (length a + length b)%nat by (unfold size; lia). rewrite seq_app, map_app. f_equal.
  - apply map_ext_in. intros i I. apply in_seq in I. unfold size in *. rewrite Z7 by lia. replace (0 + Z.of_nat (length a) <=? 0 + Z.of_nat i) with false by lia.
    replace (s_capacity s6 <? 0 + Z.of_nat (length a) + Z.of_nat (length b)) with true by lia. replace (s_num s6 <=? 0 + Z.of_nat i) with true by lia. reflexivity.
  - apply (nth_ext _ _ 0 0); [rewrite map_length, seq_length; reflexivity|]. intros k L. rewrite map_length, seq_length in L. unfold size in *.
    rewrite (nth_indep _ 0 (s_bytes s7 (0 + Z.of_nat 0))) by (rewrite map_length, seq_length; lia). rewrite (map_nth (fun i => s_bytes s7 (0 + Z.of_nat i))), seq_nth by lia.
    rewrite Z7 by lia. replace (0 + Z.of_nat (length a) <=? 0 + Z.of_nat (0 + length a + k)) with true by lia. f_equal. lia.
Qed.
Print Assumptions c60_second_append_refuted.
(** The position of a stream is not initialised: the first question for it is answered with whatever memory held. *)
Theorem c60_position_refuted : forall junk buffer garbage s0, file_stream_open junk garbage buffer CLONE_WRITABLE = Done s0 -> 0 <= garbage <= size buffer ->
  exists s, stream_run junk s0 [STell] = Done (s, [APos garbage]).
Proof.
  intros junk buffer garbage s0 O H. unfold file_stream_open in O. fold (size buffer) in O. destruct (size buffer <=? 0); [discriminate|]. injection O as <-. eexists. cbn [stream_run stream_step]. unfold file_tell, memory_seek. cbn [s_cap s_cursor]. change (1 =? 0) with false. change (1 =? 2) with false. cbv iota zeta.
  replace (Z.max 0 (Z.min (Z.max (garbage + 0) 0) (size buffer))) with garbage by lia. reflexivity.
Qed.
Print Assumptions c60_position_refuted.
(** A write behind the end is undefined (a negative length is copied). *)
Theorem c60_write_behind_end_refuted : forall junk s d o, s_flags s <> READ_ONLY -> s_cap s < o -> stream_step junk s (SWriteAt d o) = Undefined.
Proof.
  intros junk s d o NR L. cbn [stream_step]. unfold memory_write. destruct (s_flags s) eqn:F; [| |contradiction].
  - fold (size d). replace (size d - Z.max 0 (size d - (s_cap s - o)) ) with (Z.min (size d) (s_cap s - o)) by lia. unfold put_bytes. replace (Z.min (size d) (s_cap s - o) <? 0) with true by lia. reflexivity.
  - fold (size d). replace (size d - Z.max 0 (size d - (s_cap s - o)) ) with (Z.min (size d) (s_cap s - o)) by lia. unfold put_bytes. replace (Z.min (size d) (s_cap s - o) <? 0) with true by lia. reflexivity.
Qed.
Print Assumptions c60_write_behind_end_refuted.
(** A write that does not fit the caller's buffer is cut off, and success is answered; a read behind the end of a new
    stream answers with the content of fresh memory. *)
Definition noise (i : Z) : Z := 200 + i.
Definition answers (r : run (stream * list answer)) : option (list answer) := match r with Done (_, l) => Some l | _ => None end.
Theorem c60_cut_off_refuted :
  answers (rbind (file_stream_open noise 0 [1; 2; 3] WRITABLE) (fun s => stream_run noise s [SSeek 1; SWrite [7; 8; 9]; SSize; SReadAt 3 0])) = Some [APos 1; AOk true; APos 3; ABytes [1; 7; 8]] /\
  answers (stream_run noise (file_stream_new noise 0) [SSeek 0; SRead 2]) = Some [APos 0; ABytes [200; 201]].
Proof. vm_compute. auto. Qed.
Print Assumptions c60_cut_off_refuted.

(** witnesses *)
Definition some_calls := [SWrite [1; 2; 3]; SSeek 1; SRead 2; SSize; SWriteAt [9] 0; SReadAt 3 0].
Example c60_hypotheses_met : file_run ([], 0) some_calls ([9; 2; 3], 3) [AOk true; APos 1; ABytes [2; 3]; APos 3; AOk true; ABytes [9; 2; 3]] /\ one_growth ([], 0) some_calls /\
  file_run ([1; 2; 3], 0) (tl some_calls) ([9; 2; 3], 3) [APos 1; ABytes [2; 3]; APos 3; AOk true; ABytes [9; 2; 3]] /\ no_growth ([1; 2; 3], 0) (tl some_calls).
Proof.
  assert (S1 : file_step ([], 0) (SWrite [1; 2; 3]) ([1; 2; 3], 3) (AOk true)) by apply (f_write [] 0 [1; 2; 3]).
  assert (S2 : file_step ([1; 2; 3], 3) (SSeek 1) ([1; 2; 3], 1) (APos 1)) by (apply f_seek; unfold size; cbn; lia).
  assert (S2' : file_step ([1; 2; 3], 0) (SSeek 1) ([1; 2; 3], 1) (APos 1)) by (apply f_seek; unfold size; cbn; lia).
  assert (S3 : file_step ([1; 2; 3], 1) (SRead 2) ([1; 2; 3], 3) (ABytes [2; 3])) by (apply (f_read [1; 2; 3] 1 2); unfold size; cbn; lia).
  assert (S4 : file_step ([1; 2; 3], 3) SSize ([1; 2; 3], 3) (APos 3)) by apply (f_size [1; 2; 3] 3).
  assert (S5 : file_step ([1; 2; 3], 3) (SWriteAt [9] 0) ([9; 2; 3], 3) (AOk true)) by (apply (f_write_at [1; 2; 3] 3 [9] 0); unfold size; cbn; lia).
  assert (S6 : file_step ([9; 2; 3], 3) (SReadAt 3 0) ([9; 2; 3], 3) (ABytes [9; 2; 3])) by (apply (f_read_at [9; 2; 3] 3 3 0); unfold size; cbn; lia).
  assert (NG : no_growth ([1; 2; 3], 1) (tl (tl some_calls))) by (repeat (eapply ng_cons; [eassumption|reflexivity|]); apply ng_nil).
  split; [repeat (eapply fr_cons; [eassumption|]); apply fr_nil|]. split; [eapply og_grow; [exact S1|]; eapply ng_cons; [exact S2|reflexivity|exact NG]|].
  split; [repeat (eapply fr_cons; [eassumption|]); apply fr_nil|]. eapply ng_cons; [exact S2'|reflexivity|exact NG].
Qed.
