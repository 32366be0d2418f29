From Coq Require Import String ZArith List Bool Lia ZifyBool ZifyNat.
From Verif Require Import Common CommonProofs Text ArrayModel ArrayProofs StrOpsModel StrOpsSpec.
Import ListNotations.
Open Scope Z_scope.

(** ** characters, by sweep over the 256 byte values *)
Lemma byte_sweep (f : Z -> bool) : forallb f (zrange 256) = true -> forall b, 0 <= b < 256 -> f b = true.
Proof. intros H b Hb. apply (zrange_forallb 256 f H). lia. Qed.
Definition mem_z (b : Z) (l : list Z) : bool := existsb (Z.eqb b) l.
Lemma mem_z_In b l : mem_z b l = true <-> In b l.
Proof. unfold mem_z. rewrite existsb_exists. split; [intros (x & H & E); apply Z.eqb_eq in E; subst; auto | intros H; exists b; split; auto; apply Z.eqb_refl]. Qed.
Lemma class_sweep (f : Z -> bool) l : forallb (fun b => eqb (f b) (mem_z b l)) (zrange 256) = true ->
  forall b, 0 <= b < 256 -> (f b = true <-> In b l).
Proof. intros H b Hb. rewrite <- mem_z_In. apply byte_sweep with (b := b) in H; auto. apply eqb_prop in H. rewrite H. tauto. Qed.

Lemma p21_alpha b : 0 <= b < 256 -> (char_is_alpha b = true <-> In b (UPPER ++ LOWER)).
Proof. apply class_sweep. vm_compute. reflexivity. Qed.
Lemma p21_digit b : 0 <= b < 256 -> (char_is_digit b = true <-> In b DIGITS).
Proof. apply class_sweep. vm_compute. reflexivity. Qed.
Lemma p21_alnum b : 0 <= b < 256 -> (char_is_alphanumeric b = true <-> In b (UPPER ++ LOWER ++ DIGITS)).
Proof. apply class_sweep. vm_compute. reflexivity. Qed.
Lemma p21_hex b : 0 <= b < 256 -> (char_is_hex_digit b = true <-> In b (HEX_LOWER ++ HEX_UPPER)).
Proof. apply class_sweep. vm_compute. reflexivity. Qed.
Lemma p21_space b : 0 <= b < 256 -> (char_is_space b = true <-> In b BLANKS).
Proof. apply class_sweep. vm_compute. reflexivity. Qed.

Lemma p21_case : length UPPER = 26%nat /\ length LOWER = 26%nat /\
  forall i, (i < 26)%nat -> char_to_lower (nth i UPPER 0) = nth i LOWER 0 /\ char_to_upper (nth i LOWER 0) = nth i UPPER 0.
Proof.
  split; [reflexivity|]. split; [reflexivity|]. intros i Hi.
  assert (H : forallb (fun i => (char_to_lower (nth i UPPER 0) =? nth i LOWER 0) && (char_to_upper (nth i LOWER 0) =? nth i UPPER 0)) (seq 0 26) = true) by (vm_compute; reflexivity).
  rewrite forallb_forall in H. specialize (H i (proj2 (in_seq _ _ _) (conj (Nat.le_0_l _) Hi))). cbv beta in H. rewrite ?andb_true_iff, ?Z.eqb_eq in H. tauto.
Qed.
Lemma p21_case_other b : 0 <= b < 256 -> (~ In b UPPER -> char_to_lower b = b) /\ (~ In b LOWER -> char_to_upper b = b).
Proof.
  intros Hb. assert (H : forallb (fun b => (mem_z b UPPER || (char_to_lower b =? b)) && (mem_z b LOWER || (char_to_upper b =? b))) (zrange 256) = true) by (vm_compute; reflexivity).
  apply byte_sweep with (b := b) in H; auto. cbv beta in H. rewrite <- !mem_z_In.
  rewrite ?andb_true_iff, ?orb_true_iff, ?Z.eqb_eq in H. tauto.
Qed.
Lemma p21_hexval : forall i, (i < 16)%nat -> hex_digit_to_int (nth i HEX_LOWER 0) = Z.of_nat i /\
  hex_digit_to_int (nth i HEX_UPPER 0) = Z.of_nat i /\ digit_to_int (nth i HEX_LOWER 0) = Z.of_nat i.
Proof.
  intros i Hi.
  assert (H : forallb (fun i => (hex_digit_to_int (nth i HEX_LOWER 0) =? Z.of_nat i) && (hex_digit_to_int (nth i HEX_UPPER 0) =? Z.of_nat i) && (digit_to_int (nth i HEX_LOWER 0) =? Z.of_nat i)) (seq 0 16) = true) by (vm_compute; reflexivity).
  rewrite forallb_forall in H. specialize (H i (proj2 (in_seq _ _ _) (conj (Nat.le_0_l _) Hi))). cbv beta in H. rewrite ?andb_true_iff, ?Z.eqb_eq in H. tauto.
Qed.
Lemma p21_hexnone b : 0 <= b < 256 -> ~ In b (HEX_LOWER ++ HEX_UPPER) -> hex_digit_to_int b = -1.
Proof.
  intros Hb. assert (H : forallb (fun b => mem_z b (HEX_LOWER ++ HEX_UPPER) || (hex_digit_to_int b =? -1)) (zrange 256) = true) by (vm_compute; reflexivity).
  apply byte_sweep with (b := b) in H; auto. cbv beta in H. rewrite <- !mem_z_In.
  rewrite ?andb_true_iff, ?orb_true_iff, ?Z.eqb_eq in H. tauto.
Qed.
Lemma p21_digit_upper_refuted : digit_to_int (nth 10 HEX_UPPER 0) <> 10.
Proof. vm_compute. discriminate. Qed.

(** ** byte strings in memory *)
Lemma load_bytes_len m a n : length (load_bytes m a n) = n.
Proof. unfold load_bytes. rewrite map_length, seq_length. auto. Qed.
Lemma load_bytes_cons m a n : load_bytes m a (S n) = m a :: load_bytes m (a + 1) n.
Proof.
  unfold load_bytes. cbn [seq map]. f_equal; [f_equal; lia|]. rewrite <- seq_shift, map_map. apply map_ext. intros i. f_equal. lia.
Qed.
Lemma load_bytes_cons_inv m a b t : load_bytes m a (length (b :: t)) = b :: t -> m a = b /\ load_bytes m (a + 1) (length t) = t.
Proof. cbn [length]. rewrite load_bytes_cons. intros H. injection H. auto. Qed.
Lemma load_bytes_at m a t : load_bytes m a (length t) = t -> forall i, 0 <= i < zlen t -> m (a + i) = nth (Z.to_nat i) t 0.
Proof.
  revert a. induction t as [|b t IH]; intros a H i Hi; unfold zlen in Hi; cbn [length] in Hi; [lia|].
  apply load_bytes_cons_inv in H as [H1 H2]. destruct (Z.eq_dec i 0) as [->|N]; [replace (a + 0) with a by lia; auto|].
  replace (Z.to_nat i) with (S (Z.to_nat (i - 1))) by lia. cbn [nth]. rewrite <- (IH (a + 1) H2) by (unfold zlen; lia). f_equal. lia.
Qed.
Lemma load_bytes_intro m a t : (forall i, 0 <= i < zlen t -> m (a + i) = nth (Z.to_nat i) t 0) -> load_bytes m a (length t) = t.
Proof.
  revert a. induction t as [|b t IH]; intros a H; [reflexivity|]. cbn [length]. rewrite load_bytes_cons. f_equal.
  - specialize (H 0). unfold zlen in H. cbn [length] in H. replace (a + 0) with a in H by lia. apply H. lia.
  - apply IH. intros i Hi. specialize (H (i + 1)). unfold zlen in *. cbn [length] in *.
    replace (a + 1 + i) with (a + (i + 1)) by lia. rewrite H by lia. replace (Z.to_nat (i + 1)) with (S (Z.to_nat i)) by lia. reflexivity.
Qed.
Lemma load_bytes_app m a n k : load_bytes m a (n + k) = load_bytes m a n ++ load_bytes m (a + Z.of_nat n) k.
Proof.
  revert a. induction n as [|n IH]; intros a; [replace (a + Z.of_nat 0) with a by lia; reflexivity|].
  cbn [Nat.add]. rewrite !load_bytes_cons, IH. cbn [app]. replace (a + 1 + Z.of_nat n) with (a + Z.of_nat (S n)) by lia. reflexivity.
Qed.

Lemma cstr_cons m s b t : cstr m s (b :: t) -> m s = b /\ 1 <= b < 256 /\ cstr m (s + 1) t.
Proof.
  intros (H1 & H2 & H3). apply load_bytes_cons_inv in H1 as [H1 H1']. inversion H2; subst.
  repeat split; auto; try lia. unfold zlen in *. cbn [length] in *. replace (s + 1 + Z.of_nat (length t)) with (s + Z.of_nat (S (length t))) by lia. auto.
Qed.
Lemma cstr_nil m s : cstr m s [] -> m s = 0.
Proof. intros (_ & _ & H). unfold zlen in H. cbn in H. replace (s + 0) with s in H by lia. auto. Qed.
Lemma cstr_at m s t : cstr m s t -> forall i, 0 <= i < zlen t -> m (s + i) = nth (Z.to_nat i) t 0 /\ 1 <= m (s + i) < 256.
Proof.
  intros (H1 & H2 & H3) i Hi. rewrite (load_bytes_at _ _ _ H1 i Hi). split; auto.
  rewrite Forall_forall in H2. apply H2, nth_In. unfold zlen in Hi. lia.
Qed.
Lemma cstr_ext m m' s t : cstr m s t -> (forall x, s <= x <= s + zlen t -> m' x = m x) -> cstr m' s t.
Proof.
  intros (H1 & H2 & H3) H. repeat split; auto.
  - rewrite <- H1 at 2. apply load_bytes_ext. intros. apply H. unfold zlen. lia.
  - rewrite H; auto. unfold zlen. lia.
Qed.

(** a pointer-advancing loop stops after exactly the [k] positions where its condition holds *)
Lemma while_ptr (cond : Z -> bool) k : forall fuel s, (k <= fuel)%nat ->
  (forall i, 0 <= i < Z.of_nat k -> cond (s + i) = true) -> cond (s + Z.of_nat k) = false ->
  while fuel cond (fun s => s + 1) s = Some (s + Z.of_nat k).
Proof.
  induction k as [|k IH]; intros fuel s Hf H1 H2.
  - replace (s + Z.of_nat 0) with s in * by lia. destruct fuel; cbn; rewrite H2; auto.
  - destruct fuel as [|fuel]; [lia|]. cbn [while]. replace (cond s) with true.
    + rewrite IH; [f_equal; lia|lia| |].
      * intros i Hi. replace (s + 1 + i) with (s + (i + 1)) by lia. apply H1. lia.
      * replace (s + 1 + Z.of_nat k) with (s + Z.of_nat (S k)) by lia. auto.
    + symmetry. replace s with (s + 0) by lia. apply H1. lia.
Qed.

(** ** C46 *)
Lemma run_length_range f l : 0 <= run_length f l <= zlen l.
Proof. unfold zlen. induction l as [|b l IH]; cbn [run_length length]; [lia|]. destruct (f b); lia. Qed.
Lemma run_length_spec f l : forall i, 0 <= i < run_length f l -> f (nth (Z.to_nat i) l 0) = true.
Proof.
  induction l as [|b l IH]; intros i Hi; cbn [run_length] in Hi; [lia|]. destruct (f b) eqn:E; [|lia].
  destruct (Z.eq_dec i 0) as [->|]; [auto|]. replace (Z.to_nat i) with (S (Z.to_nat (i - 1))) by lia. cbn. apply IH. lia.
Qed.
Lemma run_length_stop f l : run_length f l < zlen l -> f (nth (Z.to_nat (run_length f l)) l 0) = false.
Proof.
  unfold zlen. induction l as [|b l IH]; cbn [run_length length]; [lia|]. destruct (f b) eqn:E; [|intros; cbn; rewrite E; auto].
  intros H. pose proof (run_length_range f l). replace (Z.to_nat (1 + run_length f l)) with (S (Z.to_nat (run_length f l))) by lia. apply IH. lia.
Qed.

(** scanning a C string while a property of the (non-NUL) char holds *)
Lemma scan_cstr (m : mem) (cond : Z -> bool) (f : Z -> bool) s t fuel :
  cstr m s t -> (length t <= fuel)%nat ->
  (forall p, 1 <= m p < 256 -> cond p = f (m p)) -> (forall p, m p = 0 -> cond p = false) ->
  while fuel cond (fun s => s + 1) s = Some (s + run_length f t).
Proof.
  intros Hc Hf H1 H2. pose proof (run_length_range f t) as HR. unfold zlen in HR.
  rewrite (while_ptr cond (Z.to_nat (run_length f t))); [f_equal; lia|lia| |].
  - intros i Hi. destruct (cstr_at _ _ _ Hc i) as [E R]; [unfold zlen; lia|]. rewrite H1, E by auto. apply run_length_spec. lia.
  - replace (s + Z.of_nat (Z.to_nat (run_length f t))) with (s + run_length f t) by lia.
    destruct (Z.eq_dec (run_length f t) (zlen t)) as [E|N].
    + apply H2. rewrite E. apply Hc.
    + destruct (cstr_at _ _ _ Hc (run_length f t)) as [E R]; [unfold zlen in *; lia|]. rewrite H1, E by auto. apply run_length_stop. unfold zlen in *. lia.
Qed.
Lemma run_length_all f l : (forall b, In b l -> f b = true) -> run_length f l = zlen l.
Proof. unfold zlen. induction l as [|b l IH]; intros H; cbn [run_length length]; auto. rewrite H by (left; auto). rewrite IH; [lia|]. intros; apply H; right; auto. Qed.

Lemma p46_len m s t fuel : s <> 0 -> cstr m s t -> (length t <= fuel)%nat -> c_str_len fuel m s = Some (zlen t).
Proof.
  intros Hs Hc Hf. unfold c_str_len. replace (s =? 0) with false by lia.
  rewrite (scan_cstr m _ (fun _ => true) s t fuel Hc Hf); [|intros; lia|intros p E; rewrite E; auto].
  rewrite run_length_all by auto. cbn. f_equal. lia.
Qed.
Lemma p46_len_null m fuel : c_str_len fuel m 0 = Some 0. Proof. reflexivity. Qed.

Lemma p46_skip m s t c fuel : cstr m s t -> (length t <= fuel)%nat ->
  c_str_skip fuel m s c = Some (s + run_length (fun b => negb (b =? c)) t).
Proof. intros Hc Hf. apply (scan_cstr m _ (fun b => negb (b =? c))); auto; intros; lia. Qed.

Lemma p46_trim m s t nl fuel : cstr m s t -> (length t <= fuel)%nat ->
  c_str_trim fuel m s nl = Some (s + run_length (fun b => char_is_space b && negb (nl && (b =? 10))) t).
Proof.
  intros Hc Hf. apply (scan_cstr m _ (fun b => char_is_space b && negb (nl && (b =? 10)))); auto; intros p Hp.
  - replace (m p =? 0) with false by lia. cbn. destruct nl, (m p =? 10), (char_is_space (m p)); auto.
  - rewrite Hp. auto.
Qed.

Lemma p46_first m s t c fuel : cstr m s t -> (length t <= fuel)%nat ->
  char_first_occurence fuel m s c =
  Some (if (c =? 0) || mem_z c t then Some (s + run_length (fun b => negb (b =? c)) t) else None).
Proof.
  intros Hc Hf. unfold char_first_occurence.
  rewrite (scan_cstr m _ (fun b => negb (b =? c)) s t fuel Hc Hf); [|intros; lia|intros; lia].
  f_equal. pose proof (run_length_range (fun b => negb (b =? c)) t) as HR.
  destruct (Z.eq_dec (run_length (fun b => negb (b =? c)) t) (zlen t)) as [E|N].
  - assert (HN : mem_z c t = false).
    { destruct (mem_z c t) eqn:M; auto. apply mem_z_In in M. apply In_nth with (d := 0) in M as (i & Hi & Hn).
      pose proof (run_length_spec (fun b => negb (b =? c)) t (Z.of_nat i)) as H. rewrite E in H. unfold zlen in H. rewrite Nat2Z.id, Hn in H. lia. }
    rewrite HN, orb_false_r, E. replace (m (s + zlen t)) with 0 by (symmetry; apply Hc). rewrite Z.eqb_sym. auto.
  - pose proof (run_length_stop (fun b => negb (b =? c)) t ltac:(lia)) as H.
    destruct (cstr_at _ _ _ Hc (run_length (fun b => negb (b =? c)) t)) as [E2 R]; [lia|]. rewrite E2.
    replace (mem_z c t) with true; [rewrite orb_true_r; replace (_ =? c) with true by lia; auto|].
    symmetry. apply mem_z_In. replace c with (nth (Z.to_nat (run_length (fun b => negb (b =? c)) t)) t 0) at 1 by lia. apply nth_In. unfold zlen in *. lia.
Qed.

(** compare *)
Lemma lex_lt_irrefl a b : lex_lt a b -> a <> b.
Proof. induction 1; try congruence. intros E. injection E. lia. Qed.
Lemma compare_loop m : forall t1 t2 s1 s2 fuel, cstr m s1 t1 -> cstr m s2 t2 -> (length t1 <= fuel)%nat ->
  exists c, c_str_compare fuel m s1 s2 = Some c /\ (c < 0 <-> lex_lt t1 t2) /\ (c = 0 <-> t1 = t2) /\ (c > 0 <-> lex_lt t2 t1).
Proof.
  unfold c_str_compare. induction t1 as [|a t1 IH]; intros t2 s1 s2 fuel H1 H2 Hf.
  - pose proof (cstr_nil _ _ H1) as E1. exists (0 - m s2).
    assert (W : while fuel (fun '(a, b) => negb (m a =? 0) && (m a =? m b)) (fun '(a, b) => (a + 1, b + 1)) (s1, s2) = Some (s1, s2)).
    { destruct fuel; cbn [while]; rewrite E1; cbn; auto. }
    rewrite W, E1. split; auto. destruct t2 as [|b t2].
    + pose proof (cstr_nil _ _ H2) as E2. rewrite E2. repeat split; intros H; try lia; inversion H.
    + destruct (cstr_cons _ _ _ _ H2) as (E2 & R2 & _). repeat split; intros H; try (constructor; fail); try lia; try inversion H.
  - destruct (cstr_cons _ _ _ _ H1) as (E1 & R1 & H1').
    destruct t2 as [|b t2].
    + pose proof (cstr_nil _ _ H2) as E2. exists (a - 0).
      assert (W : while fuel (fun '(a, b) => negb (m a =? 0) && (m a =? m b)) (fun '(a, b) => (a + 1, b + 1)) (s1, s2) = Some (s1, s2)).
      { destruct fuel; cbn [while]; rewrite E1, E2; replace (a =? 0) with false by lia; auto. }
      rewrite W, E1, E2. split; auto. repeat split; intros H; try (constructor; fail); try lia; try inversion H.
    + destruct (cstr_cons _ _ _ _ H2) as (E2 & R2 & H2').
      destruct (Z.eq_dec a b) as [->|N].
      * destruct fuel as [|fuel]; [cbn in Hf; lia|]. cbn [while]. rewrite E1, E2. replace (negb (b =? 0) && (b =? b)) with true by lia.
        destruct (IH t2 (s1 + 1) (s2 + 1) fuel H1' H2' ltac:(cbn in Hf; lia)) as (c & W & C1 & C2 & C3).
        exists c. split; auto. repeat split; intros H.
        -- apply lex_tail; tauto. -- inversion H; subst; [lia|tauto]. -- f_equal; tauto.
        -- injection H; tauto. -- apply lex_tail; tauto. -- inversion H; subst; [lia|tauto].
      * exists (a - b).
        assert (W : while fuel (fun '(a, b) => negb (m a =? 0) && (m a =? m b)) (fun '(a, b) => (a + 1, b + 1)) (s1, s2) = Some (s1, s2)).
        { destruct fuel; cbn [while]; rewrite E1, E2; replace (a =? b) with false by lia; rewrite andb_false_r; auto. }
        rewrite W, E1, E2. split; auto. repeat split; intros H; try lia.
        -- apply lex_head; lia. -- inversion H; subst; [lia|congruence]. -- congruence.
        -- apply lex_head; lia. -- inversion H; subst; [lia|congruence].
Qed.

Lemma compare_len_loop m : forall n s1 s2 fuel, (n <= fuel)%nat ->
  exists a b l, while fuel (fun '(a, b, l) => (l >? 0) && (m a =? m b) && negb (m a =? 0))
          (fun '(a, b, l) => (a + 1, b + 1, l - 1)) (s1, s2, Z.of_nat n) = Some (a, b, l) /\ a - b = s1 - s2 /\
  ((if l >? 0 then if negb (m a =? m b) then (if a <? b then -1 else 1) else 0 else 0) = 0 <->
   until_nul (load_bytes m s1 n) = until_nul (load_bytes m s2 n)).
Proof.
  induction n as [|n IH]; intros s1 s2 fuel Hf.
  - exists s1, s2, 0. destruct fuel; cbn; tauto.
  - destruct ((m s1 =? m s2) && negb (m s1 =? 0)) eqn:E.
    + destruct fuel as [|fuel]; [lia|]. cbn [while]. replace ((Z.of_nat (S n) >? 0) && (m s1 =? m s2) && negb (m s1 =? 0)) with true by lia.
      destruct (IH (s1 + 1) (s2 + 1) fuel ltac:(lia)) as (a & b & l & W & D & I). exists a, b, l.
      replace (Z.of_nat (S n) - 1) with (Z.of_nat n) by lia. split; auto. split; [lia|]. rewrite I, !load_bytes_cons. cbn [until_nul].
      replace (m s1 =? 0) with false by lia. replace (m s2 =? 0) with false by lia. split; [intros ->; f_equal; lia|intros H; injection H; auto].
    + exists s1, s2, (Z.of_nat (S n)). split.
      { destruct fuel; cbn [while]; rewrite <- andb_assoc, E, andb_false_r; auto. }
      split; [lia|]. replace (Z.of_nat (S n) >? 0) with true by lia. rewrite !load_bytes_cons. cbn [until_nul].
      destruct (Z.eq_dec (m s1) (m s2)) as [Q|N].
      * rewrite Q in *. replace (m s2 =? m s2) with true in * by lia. replace (m s2 =? 0) with true by lia. cbn. tauto.
      * replace (negb (m s1 =? m s2)) with true by lia. split; [destruct (s1 <? s2); lia|].
        destruct (m s1 =? 0) eqn:A, (m s2 =? 0) eqn:B; intros H; try discriminate; try lia. injection H. lia.
Qed.
Lemma p46_compare_len m s1 s2 n : 0 <= n -> exists c, c_str_compare_len m s1 s2 n = Some c /\
  (c = 0 <-> until_nul (load_bytes m s1 (Z.to_nat n)) = until_nul (load_bytes m s2 (Z.to_nat n))) /\
  (c <> 0 -> c = if s1 <? s2 then -1 else 1).
Proof.
  intros Hn. unfold c_str_compare_len. destruct (compare_len_loop m (Z.to_nat n) s1 s2 (Z.to_nat n) ltac:(lia)) as (a & b & l & W & D & I).
  rewrite Z2Nat.id in W by lia. rewrite W. eexists. split.
  { instantiate (1 := if l >? 0 then if negb (m a =? m b) then if a <? b then -1 else 1 else 0 else 0). destruct (l >? 0), (negb (m a =? m b)); auto. }
  split; auto. intros H. destruct (l >? 0), (negb (m a =? m b)); try lia. replace (s1 <? s2) with (a <? b) by lia. auto.
Qed.

(** skip_any *)
Lemma skip_any_loop_spec m s t lst fuel : cstr m s t -> (length t <= fuel)%nat ->
  forall cs i closest, load_bytes m (lst + i) (length cs) = cs ->
  skip_any_loop fuel m s lst (length cs) i closest =
  Some (fold_left (fun acc c => Z.min acc (s + run_length (fun b => negb (b =? c)) t)) cs closest).
Proof.
  intros Hc Hf. induction cs as [|c cs IH]; intros i closest H; [reflexivity|].
  apply load_bytes_cons_inv in H as [H1 H2]. cbn [length skip_any_loop fold_left]. rewrite H1, (p46_skip _ _ _ _ _ Hc Hf).
  apply IH. rewrite <- H2 at 2. f_equal. lia.
Qed.
Lemma run_length_min f g l : Z.min (run_length f l) (run_length g l) = run_length (fun b => f b && g b) l.
Proof. induction l as [|b l IH]; cbn [run_length]; auto. pose proof (run_length_range f l). pose proof (run_length_range g l). destruct (f b), (g b); cbn [andb]; lia. Qed.
Lemma run_length_ext f g l : (forall b, f b = g b) -> run_length f l = run_length g l.
Proof. intros H. induction l as [|b l IH]; cbn; auto. rewrite H, IH. auto. Qed.
Lemma skip_any_fold s t cs : forall f, fold_left (fun acc c => Z.min acc (s + run_length (fun b => negb (b =? c)) t)) cs (s + run_length f t) =
  s + run_length (fun b => f b && negb (mem_z b cs)) t.
Proof.
  induction cs as [|c cs IH]; intros f; cbn [fold_left].
  - f_equal. apply run_length_ext. intros b. cbn. rewrite andb_true_r. auto.
  - rewrite <- Z.add_min_distr_l || idtac. replace (Z.min (s + run_length f t) (s + run_length (fun b => negb (b =? c)) t)) with (s + run_length (fun b => f b && negb (b =? c)) t).
    + rewrite IH. f_equal. apply run_length_ext. intros b. unfold mem_z. cbn. destruct (f b), (b =? c); cbn; auto.
    + rewrite <- run_length_min. lia.
Qed.
Lemma p46_skip_any m s t lst cs fuel : s <> 0 -> lst <> 0 -> cstr m s t -> cstr m lst cs ->
  (length t <= fuel)%nat -> (length cs <= fuel)%nat ->
  c_str_skip_any fuel m s lst = Some (s + run_length (fun b => negb (mem_z b cs)) t).
Proof.
  intros Hs Hl Hc Hcs Hf Hf2. unfold c_str_skip_any. rewrite (p46_len m s t), (p46_len m lst cs) by auto.
  unfold zlen at 1. rewrite Nat2Z.id. rewrite (skip_any_loop_spec m s t lst fuel Hc Hf cs).
  - f_equal. rewrite <- (run_length_all (fun _ => true) t) by auto. rewrite skip_any_fold. f_equal. 
  - replace (lst + 0) with lst by lia. apply Hcs.
Qed.
