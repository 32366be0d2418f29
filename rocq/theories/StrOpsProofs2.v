From Coq Require Import String ZArith List Bool Lia ZifyBool ZifyNat.
From Verif Require Import Common CommonProofs Text ArrayModel ArrayProofs StrOpsModel StrOpsSpec StrOpsProofs.
Import ListNotations.
Open Scope Z_scope.
Ltac eqz := repeat match goal with |- (_, _) = (_, _) => apply f_equal2 | |- Some _ = Some _ => apply f_equal | |- @eq Z _ _ => lia | |- _ => reflexivity end.

(** memory with the bytes [t] placed at [d] *)
Definition put (m : mem) (d : Z) (t : list Z) : mem :=
  fun x => if (d <=? x) && (x <? d + zlen t) then nth (Z.to_nat (x - d)) t 0 else m x.
Lemma put_out m d t x : ~ (d <= x < d + zlen t) -> put m d t x = m x.
Proof. intros H. unfold put. replace ((d <=? x) && (x <? d + zlen t)) with false by lia. auto. Qed.
Lemma put_in m d t i : 0 <= i < zlen t -> put m d t (d + i) = nth (Z.to_nat i) t 0.
Proof. intros H. unfold put. replace ((d <=? d + i) && (d + i <? d + zlen t)) with true by lia. f_equal. lia. Qed.
Lemma zlen_cons {A} (a : A) l : zlen (a :: l) = 1 + zlen l.
Proof. unfold zlen. cbn [length]. lia. Qed.
Lemma zlen_app {A} (a b : list A) : zlen (a ++ b) = zlen a + zlen b.
Proof. unfold zlen. rewrite app_length. lia. Qed.
Lemma zlen_nonneg {A} (l : list A) : 0 <= zlen l. Proof. unfold zlen. lia. Qed.
Lemma put_nil m d x : put m d [] x = m x.
Proof. apply put_out. unfold zlen. cbn. lia. Qed.
Lemma put_step m d b t x : 0 <= b < 256 -> put (store8 m d b) (d + 1) t x = put m d (b :: t) x.
Proof.
  intros Hb. unfold put. rewrite zlen_cons. pose proof (zlen_nonneg t).
  destruct (Z.eq_dec x d) as [->|N].
  - replace ((d + 1 <=? d) && (d <? d + 1 + zlen t)) with false by lia.
    replace ((d <=? d) && (d <? d + (1 + zlen t))) with true by lia.
    replace (Z.to_nat (d - d)) with 0%nat by lia. rewrite store8_eq. cbn. apply Z.mod_small. lia.
  - replace ((d + 1 <=? x) && (x <? d + 1 + zlen t)) with ((d <=? x) && (x <? d + (1 + zlen t))) by lia.
    destruct ((d <=? x) && (x <? d + (1 + zlen t))) eqn:E.
    + replace (Z.to_nat (x - d)) with (S (Z.to_nat (x - (d + 1)))) by lia. auto.
    + unfold store8. replace (x =? d) with false by lia. auto.
Qed.
Lemma put_app m d a b x : put (put m d a) (d + zlen a) b x = put m d (a ++ b) x.
Proof.
  unfold put. rewrite zlen_app. pose proof (zlen_nonneg a). pose proof (zlen_nonneg b).
  destruct ((d + zlen a <=? x) && (x <? d + zlen a + zlen b)) eqn:E.
  - replace ((d <=? x) && (x <? d + (zlen a + zlen b))) with true by lia.
    rewrite app_nth2 by (unfold zlen in *; lia). f_equal. unfold zlen. lia.
  - destruct ((d <=? x) && (x <? d + zlen a)) eqn:E2.
    + replace ((d <=? x) && (x <? d + (zlen a + zlen b))) with true by lia. rewrite app_nth1 by (unfold zlen in *; lia). auto.
    + replace ((d <=? x) && (x <? d + (zlen a + zlen b))) with false by lia. auto.
Qed.
Lemma put_ext m m' d t x : m x = m' x -> put m d t x = put m' d t x.
Proof. intros H. unfold put. destruct (_ && _); auto. Qed.
Lemma load_put m d t : load_bytes (put m d t) d (length t) = t.
Proof. apply load_bytes_intro. intros. apply put_in. auto. Qed.
Lemma load_of_ext m m' a n : (forall x, m x = m' x) -> load_bytes m a n = load_bytes m' a n.
Proof. intros. apply load_bytes_ext. auto. Qed.

(** ** copy *)
Lemma copy_loop1 : forall t (m m0 : mem) d s l fuel,
  (forall x, m0 x = m x) ->
  load_bytes m s (length t) = t -> Forall (fun b => 1 <= b < 256) t -> zlen t <= l ->
  (zlen t < l -> m (s + zlen t) = 0) ->
  (forall x, d <= x < d + l -> ~ (s <= x <= s + zlen t)) -> (Z.to_nat l <= fuel)%nat ->
  exists m1, while fuel (fun '(m, d, s, l) => (l >? 0) && negb (m s =? 0))
          (fun '(m, d, s, l) => (store8 m d (m s), d + 1, s + 1, l - 1)) (m0, d, s, l)
     = Some (m1, d + zlen t, s + zlen t, l - zlen t) /\ forall x, m1 x = put m d t x.
Proof.
  induction t as [|b t IH]; intros m m0 d s l fuel Hm Hl HF Hle Hz Hd Hfu.
  - exists m0. unfold zlen in *. cbn [length] in *. replace (d + Z.of_nat 0) with d by lia. replace (s + Z.of_nat 0) with s in * by lia.
    replace (l - Z.of_nat 0) with l by lia. split; [|intros; rewrite put_nil; auto].
    destruct (Z.eq_dec l 0) as [->|N].
    + destruct fuel; reflexivity.
    + assert (E : m0 s = 0) by (rewrite Hm; apply Hz; lia).
      assert (C : (l >? 0) && negb (m0 s =? 0) = false) by (rewrite E; lia). destruct fuel; cbn [while]; rewrite C; auto.
  - apply load_bytes_cons_inv in Hl as [E1 E2]. pose proof (Forall_inv HF) as HFb; pose proof (Forall_inv_tail HF) as HFt; cbv beta in HFb. rewrite zlen_cons in *. pose proof (zlen_nonneg t).
    destruct fuel as [|fuel]; [lia|]. cbn [while].
    assert (C : (l >? 0) && negb (m0 s =? 0) = true) by (rewrite Hm; lia). rewrite C.
    destruct (IH (store8 m d b) (store8 m0 d (m0 s)) (d + 1) (s + 1) (l - 1) fuel) as (m1 & W & P).
    + intros x. unfold store8. rewrite !Hm, E1. auto.
    + rewrite <- E2 at 2. apply load_bytes_ext. intros x Hx. unfold store8. destruct (Z.eqb_spec x d) as [->|]; auto.
      exfalso. apply (Hd d); unfold zlen in *; lia.
    + auto.
    + lia.
    + intros Hlt. unfold store8. destruct (Z.eqb_spec (s + 1 + zlen t) d) as [E|].
      * exfalso. apply (Hd d); lia.
      * rewrite <- Hz by lia. f_equal. lia.
    + intros x Hx. specialize (Hd x ltac:(lia)). lia.
    + lia.
    + exists m1. split; [etransitivity; [exact W|]; eqz|]. intros x. rewrite P. apply put_step. lia.
Qed.
Lemma copy_loop2 : forall n (m : mem) d fuel, (n <= fuel)%nat ->
  exists m1, while fuel (fun '(m, d, l) => l >? 0) (fun '(m, d, l) => (store8 m d 0, d + 1, l - 1)) (m, d, Z.of_nat n)
     = Some (m1, d + Z.of_nat n, 0) /\ forall x, m1 x = put m d (repeat 0 n) x.
Proof.
  induction n as [|n IH]; intros m d fuel Hf.
  - exists m. split; [destruct fuel; cbn; eqz|]. intros. rewrite put_nil. auto.
  - destruct fuel as [|fuel]; [lia|]. cbn [while]. replace (Z.of_nat (S n) >? 0) with true by lia.
    destruct (IH (store8 m d 0) (d + 1) fuel ltac:(lia)) as (m1 & W & P). exists m1.
    replace (Z.of_nat (S n) - 1) with (Z.of_nat n) by lia. split; [etransitivity; [exact W|]; eqz|].
    intros x. rewrite P. cbn [repeat]. apply put_step. lia.
Qed.
Lemma copy_loops_spec m d s l t : load_bytes m s (length t) = t -> Forall (fun b => 1 <= b < 256) t -> zlen t <= l ->
  (zlen t < l -> m (s + zlen t) = 0) -> (forall x, d <= x < d + l -> ~ (s <= x <= s + zlen t)) ->
  exists m1, copy_loops m d s l = Some (m1, s + zlen t) /\
    forall x, m1 x = put m d (t ++ repeat 0 (Z.to_nat (l - zlen t))) x.
Proof.
  intros H1 H2 H3 H4 H5. unfold copy_loops. pose proof (zlen_nonneg t).
  destruct (copy_loop1 t m m d s l (Z.to_nat l) ltac:(auto) H1 H2 H3 H4 H5 ltac:(lia)) as (m1 & W & P). rewrite W.
  destruct (copy_loop2 (Z.to_nat (l - zlen t)) m1 (d + zlen t) (Z.to_nat l) ltac:(lia)) as (m2 & W2 & P2).
  rewrite Z2Nat.id in W2 by lia. unfold mem in *. rewrite W2. exists m2. split; auto. intros x. rewrite P2. rewrite <- put_app. apply put_ext. auto.
Qed.
Lemma zlen_repeat {A} (a : A) n : zlen (repeat a n) = Z.of_nat n.
Proof. unfold zlen. rewrite repeat_length. auto. Qed.
Lemma p46_copy m d s l t : s <> 0 -> load_bytes m s (length t) = t -> Forall (fun b => 1 <= b < 256) t -> zlen t <= l ->
  (zlen t < l -> m (s + zlen t) = 0) -> (forall x, d <= x < d + l -> ~ (s <= x <= s + zlen t)) ->
  exists m1, c_str_copy m d s l = Some (m1, d) /\ c_str_copy_nulpad m d s l = Some (m1, zlen t) /\
    load_bytes m1 d (Z.to_nat l) = t ++ repeat 0 (Z.to_nat (l - zlen t)) /\ same_outside m m1 d l.
Proof.
  intros Hs H1 H2 H3 H4 H5. destruct (copy_loops_spec m d s l t H1 H2 H3 H4 H5) as (m1 & W & P). exists m1.
  unfold c_str_copy, c_str_copy_nulpad. replace (s =? 0) with false by lia. rewrite W. cbn [option_map]. pose proof (zlen_nonneg t).
  repeat split; auto.
  - eqz.
  - rewrite (load_of_ext _ _ _ _ P). replace (Z.to_nat l) with (length (t ++ repeat 0 (Z.to_nat (l - zlen t)))); [apply load_put|].
    rewrite app_length, repeat_length. unfold zlen in *. lia.
  - intros x Hx. rewrite P. apply put_out. rewrite zlen_app, zlen_repeat. lia.
Qed.

(** ** map over a C string *)
Lemma map_loop f : (forall b, 1 <= b < 256 -> 0 <= f b < 256) -> forall t (m m0 : mem) s fuel,
  (forall x, m0 x = m x) -> cstr m s t -> (length t <= fuel)%nat ->
  exists m1, while fuel (fun '(m, s) => negb (m s =? 0)) (fun '(m, s) => (store8 m s (f (m s)), s + 1)) (m0, s) = Some (m1, s + zlen t) /\
    forall x, m1 x = put m s (map f t) x.
Proof.
  intros Hf. induction t as [|b t IH]; intros m m0 s fuel Hm Hc Hfu.
  - pose proof (cstr_nil _ _ Hc) as E. exists m0. unfold zlen. cbn [length map]. replace (s + Z.of_nat 0) with s by lia.
    split; [|intros; rewrite put_nil; auto]. destruct fuel; cbn [while]; rewrite Hm, E; auto.
  - destruct (cstr_cons _ _ _ _ Hc) as (E & R & Hc'). destruct fuel as [|fuel]; [cbn in Hfu; lia|]. cbn [while].
    rewrite Hm, E. replace (negb (b =? 0)) with true by lia.
    destruct (IH (store8 m s (f b)) (store8 m0 s (f b)) (s + 1) fuel) as (m1 & W & P).
    + intros x. unfold store8. rewrite Hm. auto.
    + apply (cstr_ext m); auto. intros x Hx. unfold store8. replace (x =? s) with false by lia. auto.
    + cbn in Hfu. lia.
    + exists m1. rewrite zlen_cons. split; [etransitivity; [exact W|]; eqz|]. intros x. rewrite P. cbn [map]. apply put_step. auto.
Qed.
Lemma case_range b : 1 <= b < 256 -> 1 <= char_to_lower b < 256 /\ 1 <= char_to_upper b < 256.
Proof.
  intros Hb. assert (H : forallb (fun b => (b =? 0) || ((1 <=? char_to_lower b) && (char_to_lower b <? 256) && (1 <=? char_to_upper b) && (char_to_upper b <? 256))) (zrange 256) = true) by (vm_compute; reflexivity).
  apply byte_sweep with (b := b) in H; [|lia]. cbv beta in H. rewrite ?orb_true_iff, ?andb_true_iff, ?Z.leb_le, ?Z.ltb_lt, ?Z.eqb_eq in H. lia.
Qed.
Lemma p46_case f s t m fuel : f = char_to_lower \/ f = char_to_upper -> s <> 0 -> cstr m s t -> (length t <= fuel)%nat ->
  exists m1, c_str_map f fuel m s = Some m1 /\ cstr m1 s (map f t) /\ same_outside m m1 s (zlen t).
Proof.
  intros Hf Hs Hc Hfu. assert (HF : forall b, 1 <= b < 256 -> 1 <= f b < 256) by (intros b Hb; destruct Hf as [-> | ->]; apply case_range; auto).
  destruct (map_loop f ltac:(intros b Hb; specialize (HF b Hb); lia) t m m s fuel ltac:(auto) Hc Hfu) as (m1 & W & P).
  exists m1. unfold c_str_map. replace (s =? 0) with false by lia. rewrite W. cbn [option_map fst].
  assert (L : zlen (map f t) = zlen t) by (unfold zlen; rewrite map_length; auto).
  split; auto. split; [split; [|split]|].
  - rewrite (load_of_ext _ _ _ _ P). apply load_put.
  - rewrite Forall_map. destruct Hc as (_ & HFt & _). revert HFt. apply Forall_impl. auto.
  - rewrite P, put_out by lia. rewrite L. apply Hc.
  - intros x Hx. rewrite P. apply put_out. lia.
Qed.

(** ** reverse *)
Lemma reverse_loop (m : mem) s n : byte_mem m -> 0 <= n -> forall (l : nat) (k : Z) (m0 : mem) fuel,
  0 <= k -> Z.of_nat l + k = n / 2 -> (l <= fuel)%nat -> byte_mem m0 ->
  (forall i, 0 <= i < n -> m0 (s + i) = if (i <? k) || (n - k <=? i) then m (s + (n - 1 - i)) else m (s + i)) ->
  (forall x, ~ (s <= x < s + n) -> m0 x = m x) ->
  exists m1 a b, while fuel (fun '(m, a, b, l) => negb (l =? 0))
                  (fun '(m, a, b, l) => (swap8 m a b, a + 1, b - 1, l - 1)) (m0, s + k, s + n - 1 - k, Z.of_nat l) = Some (m1, a, b, 0) /\
   (forall i, 0 <= i < n -> m1 (s + i) = m (s + (n - 1 - i))) /\ (forall x, ~ (s <= x < s + n) -> m1 x = m x).
Proof.
  intros Hb Hn. pose proof (Z.div_mod n 2 ltac:(lia)) as DM. pose proof (Z.mod_pos_bound n 2 ltac:(lia)) as MB.
  induction l as [|l IH]; intros k m0 fuel Hk E Hf Hb0 HI HO.
  - exists m0, (s + k), (s + n - 1 - k). split; [destruct fuel; reflexivity|]. split; auto.
    intros i Hi. rewrite HI by auto. destruct ((i <? k) || (n - k <=? i)) eqn:C; auto. f_equal. lia.
  - destruct fuel as [|fuel]; [lia|]. cbn [while]. replace (negb (Z.of_nat (S l) =? 0)) with true by lia.
    replace (Z.of_nat (S l) - 1) with (Z.of_nat l) by lia.
    replace (s + k + 1) with (s + (k + 1)) by lia. replace (s + n - 1 - k - 1) with (s + n - 1 - (k + 1)) by lia.
    apply IH; try lia.
    + unfold swap8. intros x. apply store8_byte, store8_byte. auto.
    + intros i Hi. unfold swap8, store8. rewrite !(Z.mod_small _ 256) by apply Hb0.
      destruct (Z.eqb_spec (s + i) (s + n - 1 - k)) as [E1|N1].
      * replace ((i <? k + 1) || (n - (k + 1) <=? i)) with true by lia. rewrite HI by lia.
        replace ((k <? k) || (n - k <=? k)) with false by lia. f_equal. lia.
      * destruct (Z.eqb_spec (s + i) (s + k)) as [E2|N2].
        -- replace ((i <? k + 1) || (n - (k + 1) <=? i)) with true by lia.
           replace (s + n - 1 - k) with (s + (n - 1 - k)) by lia. rewrite HI by lia.
           replace ((n - 1 - k <? k) || (n - k <=? n - 1 - k)) with false by lia. f_equal. lia.
        -- rewrite HI by lia. replace ((i <? k + 1) || (n - (k + 1) <=? i)) with ((i <? k) || (n - k <=? i)) by lia. auto.
    + intros x Hx. unfold swap8, store8. replace (x =? s + n - 1 - k) with false by lia. replace (x =? s + k) with false by lia. auto.
Qed.
Lemma rev_nth_z (t : list Z) i : 0 <= i < zlen t -> nth (Z.to_nat i) (rev t) 0 = nth (Z.to_nat (zlen t - 1 - i)) t 0.
Proof. intros H. unfold zlen in *. rewrite rev_nth by lia. f_equal. lia. Qed.
Lemma p46_reverse m s t fuel : byte_mem m -> s <> 0 -> cstr m s t -> (length t <= fuel)%nat ->
  exists m1, c_str_reverse fuel m s = Some m1 /\ cstr m1 s (rev t) /\ same_outside m m1 s (zlen t).
Proof.
  intros Hb Hs Hc Hf. unfold c_str_reverse. rewrite (p46_len m s t) by auto. pose proof (zlen_nonneg t) as NN.
  pose proof (Z.div_le_upper_bound (zlen t) 2 (zlen t) ltac:(lia) ltac:(lia)).
  pose proof (Z.div_pos (zlen t) 2 NN ltac:(lia)).
  destruct (reverse_loop m s (zlen t) Hb NN (Z.to_nat (zlen t / 2)) 0 m fuel) as (m1 & a & b & W & P & O); auto; try lia.
  { unfold zlen in *. lia. }
  { intros i Hi. replace ((i <? 0) || (zlen t - 0 <=? i)) with false by lia. auto. }
  rewrite Z2Nat.id in W by lia. replace (s + 0) with s in W by lia. replace (s + zlen t - 1 - 0) with (s + zlen t - 1) in W by lia.
  rewrite Z.quot_div_nonneg by lia. rewrite W. cbn [option_map]. exists m1. split; auto.
  assert (L : zlen (rev t) = zlen t) by (unfold zlen; rewrite rev_length; auto).
  split; [split; [|split]|].
  - apply load_bytes_intro. intros i Hi. rewrite L in Hi. rewrite P, rev_nth_z by auto. apply cstr_at; auto. lia.
  - apply Forall_rev. apply Hc.
  - rewrite L, O by lia. apply Hc.
  - intros x Hx. apply O. auto.
Qed.
