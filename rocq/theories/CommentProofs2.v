From Coq Require Import String ZArith List Bool Lia ZifyBool ZifyNat.
From Verif Require Import Common Text ArrayModel StrOpsModel StrModel StrOpsSpec CommonProofs ArrayProofs StrOpsProofs StrOpsProofs2 StrOpsProofs3 FmtModel FmtSpec FmtProofs CommentModel CommentSpec CommentProofs.
Import ListNotations.
Open Scope Z_scope.

(** ** the line scanner: it stops at [k] when [k] is the first newline, or one past the end *)
Lemma scan_steps m s e : forall (d : nat) k fuel, 1 <= k -> (forall i, k <= i < k + Z.of_nat d -> m (s + i) <> 10 /\ s + i - 1 <> e) ->
  (m (s + (k + Z.of_nat d)) = 10 \/ s + (k + Z.of_nat d) - 1 = e) -> (d <= fuel)%nat ->
  while fuel (fun '(next, length) => negb (next =? e) && negb (m (s + length) =? 10))
             (fun '(next, length) => (s + length, length + 1)) (s + k - 1, k) = Some (s + (k + Z.of_nat d) - 1, k + Z.of_nat d).
Proof.
  induction d as [|d IH]; intros k fuel Hk HI HE HF.
  - replace (k + Z.of_nat 0) with k in * by lia. replace (s + k - 1) with (s + k - 1) by lia.
    destruct fuel; cbn [while]; replace (negb (s + k - 1 =? e) && negb (m (s + k) =? 10)) with false by lia; auto.
  - destruct fuel as [|fuel]; [lia|]. cbn [while]. destruct (HI k ltac:(lia)) as [A B].
    replace (negb (s + k - 1 =? e) && negb (m (s + k) =? 10)) with true by lia.
    replace (s + k) with (s + (k + 1) - 1) by lia. rewrite (IH (k + 1) fuel); try lia.
    + do 2 f_equal; lia.
    + intros i Hi. apply HI. lia.
    + replace (k + 1 + Z.of_nat d) with (k + Z.of_nat (S d)) by lia. auto.
Qed.
Lemma scan_line m s e (d : nat) fuel : s <> e -> (forall i, 0 <= i < Z.of_nat d -> m (s + i) <> 10 /\ (1 <= i -> s + i - 1 <> e)) ->
  (m (s + Z.of_nat d) = 10 \/ (1 <= Z.of_nat d /\ s + Z.of_nat d - 1 = e)) -> (d <= fuel)%nat -> line_length fuel m s e = Some (Z.of_nat d + 1).
Proof.
  intros Hse HI HE HF. unfold line_length. destruct d as [|d].
  - replace (s + Z.of_nat 0) with (s + 0) in HE by lia. destruct fuel; cbn [while]; replace (negb (s =? e) && negb (m (s + 0) =? 10)) with false by lia; auto.
  - destruct fuel as [|fuel]; [lia|]. cbn [while]. destruct (HI 0 ltac:(lia)) as [A _]. replace (negb (s =? e) && negb (m (s + 0) =? 10)) with true by lia.
    replace (s + 0) with (s + (0 + 1) - 1) by lia. rewrite (scan_steps m s e d (0 + 1) fuel); try lia.
    + f_equal. lia.
    + intros i Hi. destruct (HI i ltac:(lia)). split; auto. lia.
    + replace (0 + 1 + Z.of_nat d) with (Z.of_nat (S d)) by lia. destruct HE as [|[_ HE]]; auto.
Qed.
Lemma scan_empty m s fuel : line_length fuel m s s = Some 1.
Proof. unfold line_length. destruct fuel; cbn [while]; rewrite Z.eqb_refl; auto. Qed.

Lemma no_nl_at m s l : load_bytes m s (length l) = l -> ~ In 10 l -> forall i, 0 <= i < zlen l -> m (s + i) <> 10.
Proof. intros H N i Hi E. rewrite (load_bytes_at _ _ _ H i Hi) in E. apply N. rewrite <- E. apply nth_In. unfold zlen in *. lia. Qed.

(** a line that ends in a newline *)
Lemma length_nl m s l r fuel : load_bytes m s (length (l ++ 10 :: r)) = l ++ 10 :: r -> ~ In 10 l -> (length l <= fuel)%nat ->
  line_length fuel m s (s + zlen (l ++ 10 :: r)) = Some (zlen l + 1).
Proof.
  intros HL HN HF. apply load_app_inv in HL as [H1 H2]. apply load_bytes_cons_inv in H2 as [H2 _].
  rewrite zlen_app, zlen_cons. pose proof (zlen_nonneg l). pose proof (zlen_nonneg r).
  replace (zlen l) with (Z.of_nat (length l)) in * by auto. apply scan_line; auto; try lia.
  intros i Hi. split; [apply (no_nl_at m s l); auto|lia].
Qed.
(** the last line *)
Lemma length_last m s r fuel : load_bytes m s (length r) = r -> ~ In 10 r -> (length r + 1 <= fuel)%nat ->
  line_length fuel m s (s + zlen r) = Some (if (m (s + zlen r) =? 10) || (zlen r =? 0) then zlen r + 1 else zlen r + 2).
Proof.
  intros HL HN HF. pose proof (zlen_nonneg r). destruct (Z.eqb_spec (zlen r) 0) as [E|E].
  - rewrite E. replace (s + 0) with s by lia. rewrite scan_empty, orb_true_r. auto.
  - rewrite orb_false_r. replace (zlen r) with (Z.of_nat (length r)) in * by auto. destruct (Z.eqb_spec (m (s + Z.of_nat (length r))) 10) as [E1|E1].
    + apply scan_line; auto; try lia. intros i Hi. split; [apply (no_nl_at m s r); auto|lia].
    + replace (Z.of_nat (length r) + 2) with (Z.of_nat (length r + 1) + 1) by lia. apply scan_line; try lia.
      intros i Hi. split; [|lia]. destruct (Z.eq_dec i (Z.of_nat (length r))) as [->|]; auto. apply (no_nl_at m s r); auto. unfold zlen. lia.
Qed.

(** ** the loop *)
Lemma split_nl (t : list Z) : ~ In 10 t \/ exists l r, t = l ++ 10 :: r /\ ~ In 10 l.
Proof.
  induction t as [|b t IH]; [left; auto|]. destruct (Z.eq_dec b 10) as [->|N].
  - right. exists [], t. split; auto.
  - destruct IH as [H|(l & r & -> & H)].
    + left. intros [E|E]; auto.
    + right. exists (b :: l), r. split; auto. intros [E|E]; auto.
Qed.

Definition close (acc : list Z) : list Z := if last acc 0 =? 10 then acc else acc ++ [10].
Lemma close_nl a : close (a ++ [10]) = a ++ [10].
Proof. unfold close. rewrite last_last. auto. Qed.
Lemma close_open a : last a 0 <> 10 -> close a = a ++ [10].
Proof. intros H. unfold close. replace (last a 0 =? 10) with false by lia. auto. Qed.
Lemma last_app_ne {A} (a b : list A) d : b <> [] -> last (a ++ b) d = last b d.
Proof.
  intros H. destruct (exists_last H) as (b' & x & ->). rewrite app_assoc, !last_last. auto.
Qed.

(** one full line *)
Lemma comments_line l r leak out : ~ In 10 l -> comments (r ++ leak) out -> comments ((l ++ 10 :: r) ++ leak) (txt "//" ++ l ++ [10] ++ out).
Proof.
  intros HN (ls & [E F] & ->). exists (l :: ls). split; [split; [|constructor; auto]|].
  - cbn [map concat]. rewrite <- E. rewrite <- !app_assoc. reflexivity.
  - cbn [map concat]. rewrite <- !app_assoc. reflexivity.
Qed.
Lemma comments_last r : ~ In 10 r -> comments r (txt "//" ++ r ++ [10]).
Proof. intros H. exists [r]. split; [split; [cbn; rewrite app_nil_r; auto|constructor; auto]|]. cbn [map concat]. rewrite app_nil_r. auto. Qed.

Definition leak_of (m : mem) (e k : Z) : list Z := to_eol (load_bytes m e (Z.to_nat k)).

Lemma comment_loop_ok : forall (t : list Z) n fuel m num buf fmt s acc, place m num buf fmt -> 0 < s -> chars t -> load_bytes m s (length t) = t ->
  (forall x, s <= x <= s + zlen t + 2 -> ~ (buf <= x < buf + PRINTF_MAXLEN)) -> short_lines (PRINTF_MAXLEN - 6) t ->
  (length t + 2 <= fuel)%nat -> (length t < n)%nat ->
  exists res out, comment_loop n fuel m num buf fmt s (s + zlen t) acc = Done res /\ close res = acc ++ out /\
    comments (t ++ leak_of m (s + zlen t) (if (zlen t =? 0) || (last t 0 =? 10) then 1 else 2)) out.
Proof.
  intros t. remember (length t) as sz. revert t Heqsz. induction sz as [sz IH] using (well_founded_induction lt_wf).
  intros t -> n fuel m num buf fmt s acc HP Hs HC HL HD HSL HF Hn.
  assert (PM : PRINTF_MAXLEN = 131072) by reflexivity. destruct fuel as [|[|fuel]]; try lia. destruct n as [|n]; [lia|].
  pose proof (zlen_nonneg t) as HT. cbn [comment_loop].
  destruct (split_nl t) as [N|(l & r & -> & N)].
  - (* last line *)
    rewrite (length_last m s t) by (auto; lia). cbn [of_opt rbind].
    assert (SL : zlen t < PRINTF_MAXLEN - 6) by (apply (HSL [] t []); [cbn; rewrite app_nil_r; auto|auto]).
    set (e0 := m (s + zlen t)). set (e1 := m (s + zlen t + 1)).
    pose proof (pl_bytes _ _ _ _ HP (s + zlen t)) as Be0. fold e0 in Be0. pose proof (pl_bytes _ _ _ _ HP (s + zlen t + 1)) as Be1. fold e1 in Be1.
    assert (NL : (zlen t =? 0) || (last t 0 =? 10) = (zlen t =? 0)).
    { destruct t as [|b t']; auto. replace (last (b :: t') 0 =? 10) with false; [apply orb_false_r|]. symmetry. apply Z.eqb_neq. intros E. apply N. rewrite <- E.
      destruct (exists_last (l := b :: t') ltac:(discriminate)) as (a & x & ->). rewrite last_last. apply in_or_app. right; left; auto. }
    rewrite NL.
    (* the piece of text printed: w *)
    assert (K : forall len w, (if (e0 =? 10) || (zlen t =? 0) then zlen t + 1 else zlen t + 2) = len ->
       load_bytes m s (length w) = w -> chars w -> zlen w <= len -> (zlen w < len -> m (s + zlen w) = 0) -> zlen w <= zlen t + 2 ->
       rbind (append_fmt (S (S fuel)) m num buf fmt [AInt len; APtr s] acc) (fun '(m, acc) =>
         if s + len <=? s + zlen t then comment_loop n (S (S fuel)) m num buf fmt (s + len) (s + zlen t) acc else Done acc) = Done (acc ++ txt "//" ++ w) /\ (len >=? 2 ^ 31) = false).
    { intros len w EL HLw HCw Hw HZ Hw2. assert (LB : zlen t + 1 <= len <= zlen t + 2) by (rewrite <- EL; destruct ((e0 =? 10) || (zlen t =? 0)); lia).
      destruct (append_line fuel m num buf fmt s len w acc) as (m1 & E & _ & _); auto; try lia; try (intros x Hx; apply HD; lia).
      rewrite E. cbn [rbind]. replace (s + len <=? s + zlen t) with false by lia. split; auto. lia. }
    assert (Ld : forall k w, load_bytes m (s + zlen t) k = w -> length w = k -> load_bytes m s (length (t ++ w)) = t ++ w).
    { intros k w Hw <-. rewrite app_length, load_bytes_app, HL. f_equal. auto. }
    assert (L1 : load_bytes m (s + zlen t) 1 = [e0]) by (rewrite load_bytes_cons; auto).
    assert (L2 : load_bytes m (s + zlen t) 2 = [e0; e1]) by (rewrite !load_bytes_cons; auto).
    assert (FIN : forall w leak, (if (e0 =? 10) || (zlen t =? 0) then zlen t + 1 else zlen t + 2) >= zlen t ->
       (close (acc ++ txt "//" ++ w) = acc ++ txt "//" ++ (t ++ leak) ++ [10]) -> ~ In 10 leak -> leak_of m (s + zlen t) (if zlen t =? 0 then 1 else 2) = leak ->
       exists out, close (acc ++ txt "//" ++ w) = acc ++ out /\ comments (t ++ leak_of m (s + zlen t) (if zlen t =? 0 then 1 else 2)) out).
    { intros w leak _ Hc HNl ->. exists (txt "//" ++ (t ++ leak) ++ [10]). split; auto. apply comments_last. intros HI. apply in_app_or in HI as [|]; auto. }
    assert (CO : forall w, last (47 :: w) 0 <> 10 -> close (acc ++ txt "//" ++ w) = acc ++ txt "//" ++ w ++ [10]).
    { intros w Hw. rewrite close_open; [rewrite <- !app_assoc; auto|]. rewrite last_app_ne by discriminate. change (txt "//" ++ w) with ([47] ++ 47 :: w). rewrite last_app_ne by discriminate. auto. }
    assert (Lt : forall x, last (47 :: t ++ [x]) 0 = x) by (intros x; change (47 :: t ++ [x]) with ((47 :: t) ++ [x]); apply last_last).
    assert (Lt0 : last (47 :: t) 0 <> 10).
    { destruct t as [|b t']; [cbn; lia|]. intros E. apply N. rewrite <- E. change (47 :: b :: t') with ([47] ++ b :: t'). rewrite last_app_ne by discriminate.
      destruct (exists_last (l := b :: t') ltac:(discriminate)) as (a & x & ->). rewrite last_last. apply in_or_app. right; left; auto. }
    destruct (Z.eq_dec e0 10) as [E0|E0].
    { (* newline follows *)
      destruct (K (zlen t + 1) (t ++ [10])) as [Q QL]; try (rewrite zlen_app; change (zlen [10]) with 1; lia).
      - replace (e0 =? 10) with true by lia. auto.
      - rewrite E0 in L1. apply (Ld 1%nat); auto.
      - apply Forall_app. split; auto. constructor; [lia|constructor].
      - replace (e0 =? 10) with true by lia. cbn [orb]. rewrite QL, Q.
        destruct (FIN (t ++ [10]) []) as (out & A & B).
        + replace (e0 =? 10) with true by lia. cbn [orb]. lia.
        + rewrite !app_assoc. rewrite close_nl, app_nil_r. auto.
        + auto.
        + unfold leak_of. destruct (zlen t =? 0); [change (Z.to_nat 1) with 1%nat; rewrite L1|change (Z.to_nat 2) with 2%nat; rewrite L2]; cbn [to_eol]; rewrite E0; auto.
        + exists (acc ++ txt "//" ++ t ++ [10]), out. auto. }
    destruct (Z.eq_dec e0 0) as [E1|E1].
    { (* NUL follows *)
      destruct (K (if zlen t =? 0 then zlen t + 1 else zlen t + 2) t) as [Q QL]; auto; try (destruct (zlen t =? 0); lia).
      - replace (e0 =? 10) with false by lia. auto.
      - replace (e0 =? 10) with false by lia. cbn [orb]. rewrite QL, Q.
        destruct (FIN t []) as (out & A & B).
        + destruct ((e0 =? 10) || (zlen t =? 0)); lia.
        + rewrite CO by auto. rewrite app_nil_r. auto.
        + auto.
        + unfold leak_of. destruct (zlen t =? 0); [change (Z.to_nat 1) with 1%nat; rewrite L1|change (Z.to_nat 2) with 2%nat; rewrite L2]; cbn [to_eol]; rewrite E1; auto.
        + exists (acc ++ txt "//" ++ t), out. auto. }
    destruct (Z.eqb_spec (zlen t) 0) as [EZ|EZ].
    { (* empty last line, one byte read *)
      assert (t = []) by (destruct t; auto; rewrite zlen_cons in EZ; pose proof (zlen_nonneg t); lia). subst t.
      destruct (K (0 + 1) [e0]) as [Q QL]; try (change (zlen [e0]) with 1; lia).
      - replace (e0 =? 10) with false by lia. auto.
      - change [e0] with ([] ++ [e0]). apply (Ld 1%nat); auto.
      - constructor; [lia|constructor].
      - change (zlen []) with 0 in *. replace (e0 =? 10) with false in * by lia. cbn [orb]. rewrite QL, Q.
        destruct (FIN [e0] [e0]) as (out & A & B).
        + cbn [orb]; destruct ((e0 =? 10) || true); lia.
        + rewrite CO by (cbn; lia). auto.
        + intros [|[]]; lia.
        + unfold leak_of. change (Z.to_nat 1) with 1%nat. rewrite L1. cbn [to_eol]. replace ((e0 =? 0) || (e0 =? 10)) with false by lia. auto.
        + exists (acc ++ txt "//" ++ [e0]), out. auto. }
    assert (LE : leak_of m (s + zlen t) 2 = if (e1 =? 0) || (e1 =? 10) then [e0] else [e0; e1]).
    { unfold leak_of. change (Z.to_nat 2) with 2%nat. rewrite L2. cbn [to_eol]. replace ((e0 =? 0) || (e0 =? 10)) with false by lia. destruct ((e1 =? 0) || (e1 =? 10)); auto. }
    replace (e0 =? 10) with false in * by lia. cbn [orb] in *.
    destruct (Z.eq_dec e1 0) as [E2|E2].
    + destruct (K (zlen t + 2) (t ++ [e0])) as [Q QL]; try (rewrite zlen_app; change (zlen [e0]) with 1; lia); auto.
      * apply (Ld 1%nat); auto.
      * apply Forall_app. split; auto. constructor; [lia|constructor].
      * intros _. rewrite zlen_app. change (zlen [e0]) with 1. rewrite Z.add_assoc. auto.
      * rewrite QL, Q. destruct (FIN (t ++ [e0]) [e0]) as (out & A & B); try lia.
        -- rewrite CO by (rewrite Lt; auto). auto.
        -- intros [|[]]; lia.
        -- rewrite LE, E2. auto.
        -- exists (acc ++ txt "//" ++ t ++ [e0]), out. auto.
    + destruct (K (zlen t + 2) (t ++ [e0; e1])) as [Q QL]; try (rewrite zlen_app; change (zlen [e0; e1]) with 2; lia); auto.
      * apply (Ld 2%nat); auto.
      * apply Forall_app. split; auto. constructor; [lia|constructor; [lia|constructor]].
      * rewrite QL, Q. destruct (Z.eq_dec e1 10) as [E3|E3].
        -- destruct (FIN (t ++ [e0; e1]) [e0]) as (out & A & B); try lia.
           ++ rewrite E3. change [e0; 10] with ([e0] ++ [10]). rewrite !app_assoc, close_nl. auto.
           ++ intros [|[]]; lia.
           ++ rewrite LE, E3. auto.
           ++ exists (acc ++ txt "//" ++ t ++ [e0; e1]), out. auto.
        -- destruct (FIN (t ++ [e0; e1]) [e0; e1]) as (out & A & B); try lia.
           ++ rewrite CO; auto. change [e0; e1] with ([e0] ++ [e1]). rewrite app_assoc. change (last ([47] ++ (t ++ [e0]) ++ [e1]) 0 <> 10). rewrite app_assoc, last_last. auto.
           ++ intros [|[|[]]]; lia.
           ++ rewrite LE. replace ((e1 =? 0) || (e1 =? 10)) with false by lia. auto.
           ++ exists (acc ++ txt "//" ++ t ++ [e0; e1]), out. auto.
  - (* a line that ends in a newline *)
    rewrite (length_nl m s l r) by (auto; rewrite app_length in HF; cbn [length] in HF; lia). cbn [of_opt rbind].
    pose proof (zlen_nonneg l). pose proof (zlen_nonneg r).
    assert (ZT : zlen (l ++ 10 :: r) = zlen l + 1 + zlen r) by (rewrite zlen_app, zlen_cons; lia). rewrite ZT in *.
    assert (SL : zlen l < PRINTF_MAXLEN - 6) by (apply (HSL [] l (10 :: r)); auto).
    replace (zlen l + 1 >=? 2 ^ 31) with false by lia.
    replace (l ++ 10 :: r) with ((l ++ [10]) ++ r) in HL by (rewrite <- app_assoc; auto).
    apply load_app_inv in HL as [HL1 HL2]. assert (ZL : zlen (l ++ [10]) = zlen l + 1) by (rewrite zlen_app; auto). rewrite ZL in HL2.
    apply Forall_app in HC as [HC1 HC2].
    destruct (append_line fuel m num buf fmt s (zlen l + 1) (l ++ [10]) acc) as (m1 & E & O & B1); auto; try lia; try (intros x Hx; apply HD; lia).
    { apply Forall_app. split; auto. constructor; [lia|constructor]. }
    rewrite E. cbn [rbind]. replace (s + (zlen l + 1) <=? s + (zlen l + 1 + zlen r)) with true by lia.
    rewrite app_length in HF, Hn. cbn [length] in HF, Hn.
    destruct (IH (length r)) with (t := r) (n := n) (fuel := S (S fuel)) (m := m1) (num := num) (buf := buf) (fmt := fmt) (s := s + (zlen l + 1)) (acc := acc ++ txt "//" ++ l ++ [10]) as (res & out & R1 & R2 & R3); auto; try lia.
    + rewrite app_length. cbn [length]. lia.
    + destruct HP as [_ P2 P3 P4]. split; auto. destruct P3 as (X1 & X2 & X3). split; [|split; auto].
      * rewrite <- X1 at 2. apply load_bytes_ext. intros x Hx. apply O, P4. change (length FMT) with 6%nat in Hx. lia.
      * change (zlen FMT) with 6. rewrite O by (apply P4; lia). auto.
    + apply (Forall_inv_tail HC2).
    + rewrite <- HL2 at 2. apply load_bytes_ext. intros x Hx. apply O, HD. unfold zlen in *. lia.
    + intros a l' b Er Hl'. apply (HSL (l ++ 10 :: a) l' b); auto. rewrite Er, <- app_assoc. auto.
    + exists res, (txt "//" ++ l ++ [10] ++ out). replace (s + (zlen l + 1 + zlen r)) with (s + (zlen l + 1) + zlen r) by lia. split; auto. split.
      * rewrite R2, <- !app_assoc. auto.
      * apply comments_line; auto. replace (zlen l + 1 + zlen r =? 0) with false by lia. rewrite orb_false_l.
        assert (LL : (zlen r =? 0) || (last r 0 =? 10) = (last (l ++ 10 :: r) 0 =? 10)).
        { rewrite last_app_ne by discriminate. destruct r as [|b r']; auto. }
        rewrite <- LL. replace (leak_of m (s + (zlen l + 1) + zlen r) (if (zlen r =? 0) || (last r 0 =? 10) then 1 else 2))
          with (leak_of m1 (s + (zlen l + 1) + zlen r) (if (zlen r =? 0) || (last r 0 =? 10) then 1 else 2)); auto.
        unfold leak_of. f_equal. apply load_bytes_ext. intros x Hx. apply O, HD. destruct ((zlen r =? 0) || (last r 0 =? 10)); lia.
Qed.
