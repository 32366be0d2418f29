From Coq Require Import ZArith List Bool Lia ZifyBool ZifyNat.
From Verif Require Import Common CommonProofs MemModel.
Import ListNotations.
Open Scope Z_scope.
Ltac Zify.zify_post_hook ::= Z.div_mod_to_equations.

(** ** mem_move *)

Section Move.
Variables (m : mem) (dst src n : Z).
Hypothesis Hm : byte_mem m.
Hypothesis Hn : 0 <= n.

Definition moved (k : Z) (x : Z) : Z :=
  if (dst <=? x) && (x <? dst + k) then m (src + (x - dst)) else m x.

Definition FInv (s : mv_st) : Prop :=
  let '(mc, d, sr, k) := s in
  0 <= k <= n /\ d = dst + (n - k) /\ sr = src + (n - k) /\ byte_mem mc /\
  forall x, mc x = moved (n - k) x.

Lemma fwd_byte_inv s : dst < src -> FInv s -> (let '(_,_,_,k) := s in k <> 0) ->
  FInv (fwd_byte s) /\ 0 <= (let '(_,_,_,k) := fwd_byte s in k) < (let '(_,_,_,k) := s in k).
Proof.
  intros Hlt. destruct s as [[[mc d] sr] k]. cbn [FInv fwd_byte]. intros (Hk & -> & -> & Hb & Hx) Hne.
  split; [|lia]. repeat split; try lia; try (apply store8_byte; auto).
  intros x. unfold copy1, store8.
  rewrite (Hx (src + (n - k))). unfold moved at 1.
  replace ((dst <=? src + (n - k)) && (src + (n - k) <? dst + (n - k))) with false by lia.
  destruct (x =? dst + (n - k)) eqn:E.
  - rewrite Z.mod_small by apply Hm. unfold moved.
    replace ((dst <=? x) && (x <? dst + (n - (k - 1)))) with true by lia.
    f_equal. lia.
  - rewrite Hx. unfold moved.
    destruct ((dst <=? x) && (x <? dst + (n - k))) eqn:E1.
    + replace ((dst <=? x) && (x <? dst + (n - (k - 1)))) with true by lia. reflexivity.
    + replace ((dst <=? x) && (x <? dst + (n - (k - 1)))) with false by lia. reflexivity.
Qed.

Lemma fwd_word_inv s : dst < src -> src mod 8 = dst mod 8 -> FInv s -> word_cond s = true ->
  FInv (fwd_word s) /\ 0 <= (let '(_,_,_,k) := fwd_word s in k) < (let '(_,_,_,k) := s in k).
Proof.
  intros Hlt Hmod. destruct s as [[[mc d] sr] k]. cbn [FInv fwd_word word_cond].
  intros (Hk & -> & -> & Hb & Hx) Hc. apply Z.leb_le in Hc.
  split; [|lia]. repeat split; try lia; try (apply store_le_bytes; auto).
  assert (Hge : src - dst >= 8) by lia.
  intros x. unfold copy8. rewrite copy_le_spec by auto. change (Z.of_nat 8) with 8.
  destruct ((dst + (n - k) <=? x) && (x <? dst + (n - k) + 8)) eqn:E.
  - rewrite Hx. unfold moved.
    replace ((dst <=? src + (n - k) + (x - (dst + (n - k)))) && (src + (n - k) + (x - (dst + (n - k))) <? dst + (n - k)))
      with false by lia.
    replace ((dst <=? x) && (x <? dst + (n - (k - 8)))) with true by lia. f_equal; lia.
  - rewrite Hx. unfold moved.
    destruct ((dst <=? x) && (x <? dst + (n - k))) eqn:E1.
    + replace ((dst <=? x) && (x <? dst + (n - (k - 8)))) with true by lia. reflexivity.
    + replace ((dst <=? x) && (x <? dst + (n - (k - 8)))) with false by lia. reflexivity.
Qed.

(** backward: bytes [k,n) already moved *)
Definition bmoved (k x : Z) : Z :=
  if (dst + k <=? x) && (x <? dst + n) then m (src + (x - dst)) else m x.
Definition BInv (s : mv_st) : Prop :=
  let '(mc, d, sr, k) := s in
  0 <= k <= n /\ d = dst /\ sr = src /\ byte_mem mc /\ forall x, mc x = bmoved k x.

Lemma bwd_byte_inv s : src < dst -> BInv s -> (let '(_,_,_,k) := s in k <> 0) ->
  BInv (bwd_byte s) /\ 0 <= (let '(_,_,_,k) := bwd_byte s in k) < (let '(_,_,_,k) := s in k).
Proof.
  intros Hlt. destruct s as [[[mc d] sr] k]. cbn [BInv bwd_byte]. intros (Hk & -> & -> & Hb & Hx) Hne.
  split; [|lia]. repeat split; try lia; try (apply store8_byte; auto).
  intros x. unfold copy1, store8.
  rewrite (Hx (src + (k - 1))). unfold bmoved at 1.
  replace ((dst + k <=? src + (k - 1)) && (src + (k - 1) <? dst + n)) with false by lia.
  destruct (x =? dst + (k - 1)) eqn:E.
  - rewrite Z.mod_small by apply Hm. unfold bmoved.
    replace ((dst + (k - 1) <=? x) && (x <? dst + n)) with true by lia. f_equal. lia.
  - rewrite Hx. unfold bmoved.
    destruct ((dst + k <=? x) && (x <? dst + n)) eqn:E1.
    + replace ((dst + (k - 1) <=? x) && (x <? dst + n)) with true by lia. reflexivity.
    + replace ((dst + (k - 1) <=? x) && (x <? dst + n)) with false by lia. reflexivity.
Qed.

Lemma bwd_word_inv s : src < dst -> src mod 8 = dst mod 8 -> BInv s -> word_cond s = true ->
  BInv (bwd_word s) /\ 0 <= (let '(_,_,_,k) := bwd_word s in k) < (let '(_,_,_,k) := s in k).
Proof.
  intros Hlt Hmod. destruct s as [[[mc d] sr] k]. cbn [BInv bwd_word word_cond].
  intros (Hk & -> & -> & Hb & Hx) Hc. apply Z.leb_le in Hc.
  split; [|lia]. repeat split; try lia; try (apply store_le_bytes; auto).
  assert (Hge : dst - src >= 8) by lia.
  intros x. unfold copy8. rewrite copy_le_spec by auto. change (Z.of_nat 8) with 8.
  destruct ((dst + (k - 8) <=? x) && (x <? dst + (k - 8) + 8)) eqn:E.
  - rewrite Hx. unfold bmoved.
    replace ((dst + k <=? src + (k - 8) + (x - (dst + (k - 8)))) && (src + (k - 8) + (x - (dst + (k - 8))) <? dst + n))
      with false by lia.
    replace ((dst + (k - 8) <=? x) && (x <? dst + n)) with true by lia. f_equal; lia.
  - rewrite Hx. unfold bmoved.
    destruct ((dst + k <=? x) && (x <? dst + n)) eqn:E1.
    + replace ((dst + (k - 8) <=? x) && (x <? dst + n)) with true by lia. reflexivity.
    + replace ((dst + (k - 8) <=? x) && (x <? dst + n)) with false by lia. reflexivity.
Qed.

Definition cnt (s : mv_st) : Z := let '(_,_,_,k) := s in k.

Lemma mem_move_correct : dst <> 0 ->
  exists m', mem_move m dst src n = Some m' /\
  forall x, m' x = if (dst <=? x) && (x <? dst + n) then m (src + (x - dst)) else m x.
Proof.
  intros Hd0. unfold mem_move.
  replace (dst =? 0) with false by lia.
  destruct (dst =? src) eqn:Eds.
  { apply Z.eqb_eq in Eds. subst. exists m. split; auto. intros x.
    destruct ((src <=? x) && (x <? src + n)); [f_equal; lia|reflexivity]. }
  destruct ((src + n <=? dst) || (dst + n <=? src)) eqn:Eov.
  { exists (mem_copy m dst src n). split; auto. intros x. unfold mem_copy, copy_region.
    replace (dst =? 0) with false by lia. reflexivity. }
  destruct (dst <? src) eqn:Elt; cbv zeta.
  - apply Z.ltb_lt in Elt.
    assert (Hinit : FInv (m, dst, src, n)).
    { cbn. repeat split; try lia; try apply Hm. intros x. unfold moved.
      replace ((dst <=? x) && (x <? dst + (n - n))) with false by lia. reflexivity. }
    assert (Hrest : forall s, FInv s -> exists s', while (Z.to_nat n) rest_cond fwd_byte s = Some s'
              /\ FInv s' /\ rest_cond s' = false).
    { intros s Hs. apply (while_inv FInv cnt); auto.
      - intros s0 Hs0 Hc. apply fwd_byte_inv; auto. destruct s0 as [[[? ?] ?] ?]. cbn in Hc. lia.
      - intros _. destruct s as [[[? ?] ?] ?]. cbn in *. lia. }
    assert (Hfin : forall s, FInv s -> rest_cond s = false ->
       forall x, st_mem s x = if (dst <=? x) && (x <? dst + n) then m (src + (x - dst)) else m x).
    { intros [[[mc d] sr] k] (?&?&?&?&Hx) Hc x. cbn in Hc |- *. assert (k = 0) by lia. subst k.
      rewrite Hx. unfold moved. replace (n - 0) with n by lia. reflexivity. }
    destruct (src mod 8 =? dst mod 8) eqn:Emod.
    + apply Z.eqb_eq in Emod.
      destruct (while_inv FInv cnt fwd_align_cond fwd_byte) with (fuel := Z.to_nat n) (s := (m, dst, src, n))
        as (s1 & W1 & I1 & C1); auto.
      { intros [[[? ?] ?] ?] Hs0 Hc. apply fwd_byte_inv; auto. cbn in Hc. lia. }
      { intros _. cbn. lia. }
      rewrite W1. destruct s1 as [[[m1 d1] sr1] n1].
      destruct (negb (d1 mod 8 =? 0)) eqn:Ea.
      * exists m1. split; auto. cbn in C1. assert (n1 = 0) by lia. subst n1.
        intros x. destruct I1 as (?&?&?&?&Hx). rewrite Hx. unfold moved.
        replace (n - 0) with n by lia. reflexivity.
      * destruct (while_inv FInv cnt word_cond fwd_word) with (fuel := Z.to_nat n) (s := (m1, d1, sr1, n1))
          as (s2 & W2 & I2 & C2); auto.
        { intros s0 Hs0 Hc. apply fwd_word_inv; auto. }
        { intros _. cbn in *. lia. }
        rewrite W2. destruct (Hrest s2 I2) as (s3 & W3 & I3 & C3).
        rewrite W3. exists (st_mem s3). split; auto.
    + destruct (Hrest _ Hinit) as (s3 & W3 & I3 & C3).
      rewrite W3. exists (st_mem s3). split; auto.
  - assert (Elt' : src < dst) by lia.
    assert (Hinit : BInv (m, dst, src, n)).
    { cbn. repeat split; try lia; try apply Hm. intros x. unfold bmoved.
      replace ((dst + n <=? x) && (x <? dst + n)) with false by lia. reflexivity. }
    assert (Hrest : forall s, BInv s -> exists s', while (Z.to_nat n) rest_cond bwd_byte s = Some s'
              /\ BInv s' /\ rest_cond s' = false).
    { intros s Hs. apply (while_inv BInv cnt); auto.
      - intros s0 Hs0 Hc. apply bwd_byte_inv; auto. destruct s0 as [[[? ?] ?] ?]. cbn in Hc. lia.
      - intros _. destruct s as [[[? ?] ?] ?]. cbn in *. lia. }
    assert (Hfin : forall s, BInv s -> rest_cond s = false ->
       forall x, st_mem s x = if (dst <=? x) && (x <? dst + n) then m (src + (x - dst)) else m x).
    { intros [[[mc d] sr] k] (?&?&?&?&Hx) Hc x. cbn in Hc |- *. assert (k = 0) by lia. subst k.
      rewrite Hx. unfold bmoved. replace (dst + 0) with dst by lia. reflexivity. }
    destruct (src mod 8 =? dst mod 8) eqn:Emod.
    + apply Z.eqb_eq in Emod.
      destruct (while_inv BInv cnt bwd_align_cond bwd_byte) with (fuel := Z.to_nat n) (s := (m, dst, src, n))
        as (s1 & W1 & I1 & C1); auto.
      { intros [[[? ?] ?] ?] Hs0 Hc. apply bwd_byte_inv; auto. cbn in Hc. lia. }
      { intros _. cbn. lia. }
      rewrite W1. destruct s1 as [[[m1 d1] sr1] n1].
      destruct (negb ((d1 + n1) mod 8 =? 0)) eqn:Ea.
      * exists m1. split; auto. cbn in C1. assert (n1 = 0) by lia. subst n1.
        intros x. destruct I1 as (?&?&?&?&Hx). rewrite Hx. unfold bmoved.
        replace (dst + 0) with dst by lia. reflexivity.
      * destruct (while_inv BInv cnt word_cond bwd_word) with (fuel := Z.to_nat n) (s := (m1, d1, sr1, n1))
          as (s2 & W2 & I2 & C2); auto.
        { intros s0 Hs0 Hc. apply bwd_word_inv; auto. }
        { intros _. cbn in *. lia. }
        rewrite W2. destruct (Hrest s2 I2) as (s3 & W3 & I3 & C3).
        rewrite W3. exists (st_mem s3). split; auto.
    + destruct (Hrest _ Hinit) as (s3 & W3 & I3 & C3).
      rewrite W3. exists (st_mem s3). split; auto.
Qed.
End Move.

(** ** mem_set *)
Lemma land3 x : Z.land x 3 = x mod 4.
Proof. change 3 with (Z.ones 2). rewrite Z.land_ones by lia. reflexivity. Qed.
Lemma land_m4 x : Z.land x (-4) = x - x mod 4.
Proof.
  change (-4) with (Z.lnot (Z.ones 2)). rewrite <- Z.ldiff_land, Z.ldiff_ones_r by lia.
  rewrite Z.shiftl_mul_pow2, Z.shiftr_div_pow2 by lia. change (2 ^ 2) with 4. lia.
Qed.
Lemma land4 x : Z.land x 4 = 0 \/ Z.land x 4 = 4.
Proof.
  change 4 with (2 ^ 2). destruct (Z.testbit x 2) eqn:E.
  - right. apply Z.bits_inj'. intros k Hk. rewrite Z.land_spec, Z.pow2_bits_eqb by lia.
    destruct (Z.eqb_spec 2 k) as [<-|]; [now rewrite E|]. now rewrite andb_false_r.
  - left. apply Z.bits_inj'. intros k Hk. rewrite Z.land_spec, Z.pow2_bits_eqb, Z.bits_0 by lia.
    destruct (Z.eqb_spec 2 k) as [<-|]; [now rewrite E|]. now rewrite andb_false_r.
Qed.

Definition setw (c : Z) (m : mem) (lo hi : Z) (x : Z) : Z :=
  if (lo <=? x) && (x <? hi) then c else m x.

Lemma fill_word_small c : 0 <= c < 256 -> fill_word c = 16843009 * c.
Proof. intros. unfold fill_word. change (4294967295 / 255) with 16843009. rewrite Z.mod_small; lia. Qed.

Lemma fill_word_bytes c i : 0 <= c < 256 -> 0 <= i < 4 -> (fill_word c / 256 ^ i) mod 256 = c.
Proof.
  intros Hc Hi. rewrite fill_word_small by auto.
  assert (i = 0 \/ i = 1 \/ i = 2 \/ i = 3) as [->|[->|[->| ->]]] by lia.
  - change (256 ^ 0) with 1. lia.
  - change (256 ^ 1) with 256. lia.
  - change (256 ^ 2) with 65536. lia.
  - change (256 ^ 3) with 16777216. lia.
Qed.


Lemma fill_dword_bytes c i : 0 <= c < 256 -> 0 <= i < 8 -> (fill_doubleword c / 256 ^ i) mod 256 = c.
Proof.
  intros Hc Hi.
  assert (forallb (fun c => forallb (fun i => (fill_doubleword (Z.of_nat c) / 256 ^ (Z.of_nat i)) mod 256 =? Z.of_nat c)
             (seq 0 8)) (seq 0 256) = true) as H by (vm_compute; reflexivity).
  rewrite forallb_forall in H. specialize (H (Z.to_nat c)).
  rewrite forallb_forall in H. specialize (fun a => H a (Z.to_nat i)). cbv beta in H.
  rewrite !Z2Nat.id in H by lia. apply Z.eqb_eq, H; apply in_seq; lia.
Qed.

Lemma store4_set c m a x : 0 <= c < 256 ->
  store_le 4 m a (fill_word c) x = setw c m a (a + 4) x.
Proof.
  intros Hc. rewrite store_le_spec. change (Z.of_nat 4) with 4. unfold setw.
  destruct ((a <=? x) && (x <? a + 4)) eqn:E; auto. apply fill_word_bytes; lia.
Qed.
Lemma store8_set c m a x : 0 <= c < 256 ->
  store_le 8 m a (fill_doubleword c) x = setw c m a (a + 8) x.
Proof.
  intros Hc. rewrite store_le_spec. change (Z.of_nat 8) with 8. unfold setw.
  destruct ((a <=? x) && (x <? a + 8)) eqn:E; auto. apply fill_dword_bytes; lia.
Qed.
Lemma store1_set c m a x : 0 <= c < 256 -> store8 m a c x = setw c m a (a + 1) x.
Proof.
  intros Hc. unfold store8, setw. rewrite Z.mod_small by auto.
  destruct (x =? a) eqn:E.
  - replace ((a <=? x) && (x <? a + 1)) with true by lia. auto.
  - replace ((a <=? x) && (x <? a + 1)) with false by lia. auto.
Qed.

(** a memory that agrees with "some of the bytes of [lo,hi) are set to c" *)
Definition part (m : mem) (c lo hi : Z) (P : Z -> bool) (mc : mem) : Prop :=
  forall x, mc x = if P x then c else m x.

Lemma part_step m c lo hi P mc a b : 0 <= c < 256 -> lo <= a -> b <= hi ->
  part m c lo hi P mc ->
  part m c lo hi (fun x => P x || ((a <=? x) && (x <? b))) (setw c mc a b).
Proof.
  intros Hc Ha Hb H x. unfold setw. rewrite H. destruct (P x), ((a <=? x) && (x <? b)); reflexivity.
Qed.
Lemma part_ext m c lo hi P mc mc' : part m c lo hi P mc -> (forall x, mc' x = mc x) -> part m c lo hi P mc'.
Proof. intros H E x. rewrite E. apply H. Qed.

Lemma set_loop c m : 0 <= c < 256 ->
  forall mc d n P, part m c 0 0 P mc -> 0 <= n ->
  exists m' d' n', while (Z.to_nat n) set_cond (set_body c) (mc, d, n) = Some (m', d', n') /\
    0 <= n' <= 31 /\ n' mod 4 = n mod 4 /\ d' + n' = d + n /\ d <= d' /\
    part m c 0 0 (fun x => P x || ((d <=? x) && (x <? d'))) m'.
Proof.
  intros Hc mc d n P HP Hn.
  destruct (while_inv (fun s => let '(m', d', n') := s in
      0 <= n' /\ n' mod 4 = n mod 4 /\ d' + n' = d + n /\ d <= d' /\
      part m c 0 0 (fun x => P x || ((d <=? x) && (x <? d'))) m') (fun s => let '(_,_,k) := s in k)
      set_cond (set_body c)) with (fuel := Z.to_nat n) (s := (mc, d, n)) as (s' & W & I & C).
  - intros [[m' d'] n'] (H0 & H0' & H1 & H2 & H3) Hcond. unfold set_cond in Hcond. cbn [set_body].
    split; [|lia]. split; [lia|]. split; [lia|]. split; [lia|]. split; [lia|].
    intros x. unfold part in H3. rewrite !store8_set by auto. unfold setw.
    rewrite ?store8_set by auto. unfold setw. rewrite ?store8_set by auto. unfold setw.
    rewrite ?store8_set by auto. unfold setw. rewrite H3.
    destruct (P x); cbn [orb]; [repeat (destruct (_ && _)); reflexivity|].
    destruct ((d <=? x) && (x <? d')) eqn:E1.
    + replace ((d <=? x) && (x <? d' + 32)) with true by lia.
      repeat match goal with |- context [if ?b then _ else _] => destruct b end; reflexivity.
    + destruct ((d <=? x) && (x <? d' + 32)) eqn:E2.
      * destruct ((d' + 24 <=? x) && (x <? d' + 24 + 8)) eqn:E3; auto.
        destruct ((d' + 16 <=? x) && (x <? d' + 16 + 8)) eqn:E4; auto.
        destruct ((d' + 8 <=? x) && (x <? d' + 8 + 8)) eqn:E5; auto.
        replace ((d' + 0 <=? x) && (x <? d' + 0 + 8)) with true by lia. auto.
      * replace ((d' + 24 <=? x) && (x <? d' + 24 + 8)) with false by lia.
        replace ((d' + 16 <=? x) && (x <? d' + 16 + 8)) with false by lia.
        replace ((d' + 8 <=? x) && (x <? d' + 8 + 8)) with false by lia.
        replace ((d' + 0 <=? x) && (x <? d' + 0 + 8)) with false by lia. auto.
  - split; [lia|]. split; [lia|]. split; [lia|]. split; [lia|]. intros x. rewrite HP.
    replace ((d <=? x) && (x <? d)) with false by lia. now rewrite orb_false_r.
  - intros _. lia.
  - destruct s' as [[m' d'] n']. exists m', d', n'. unfold set_cond in C.
    destruct I as (?&?&?&?&?). repeat split; auto; lia.
Qed.

Lemma mem_set_correct m dst c n : dst <> 0 -> 0 <= c < 256 -> 0 <= n ->
  exists m', mem_set m dst c n = Some m' /\
  forall x, m' x = if (dst <=? x) && (x <? dst + n) then c else m x.
Proof.
  intros Hd Hc Hn. unfold mem_set. replace (dst =? 0) with false by lia.
  destruct (n =? 0) eqn:En0.
  { exists m. split; auto. intros x. replace ((dst <=? x) && (x <? dst + n)) with false by lia. auto. }
  cbv zeta.
  assert (Hpart : forall P mc, part m c 0 0 P mc ->
     (forall x, P x = (dst <=? x) && (x <? dst + n)) ->
     exists m', Some mc = Some m' /\ forall x, m' x = if (dst <=? x) && (x <? dst + n) then c else m x).
  { intros P mc H HP. exists mc. split; auto. intros x. rewrite H, HP. auto. }
  assert (Hst1 : forall P mc a, part m c 0 0 P mc ->
     part m c 0 0 (fun x => P x || ((a <=? x) && (x <? a + 1))) (store8 mc a c)).
  { intros P mc a H x. rewrite store1_set by auto. unfold setw. rewrite H.
    destruct (P x), ((a <=? x) && (x <? a + 1)); reflexivity. }
  assert (Hst4 : forall P mc a, part m c 0 0 P mc ->
     part m c 0 0 (fun x => P x || ((a <=? x) && (x <? a + 4))) (store_le 4 mc a (fill_word c))).
  { intros P mc a H x. rewrite store4_set by auto. unfold setw. rewrite H.
    destruct (P x), ((a <=? x) && (x <? a + 4)); reflexivity. }
  assert (H0 : part m c 0 0 (fun _ => false) m) by (intros x; reflexivity).
  apply Hst1 with (a := dst + (n - 1)) in H0. apply Hst1 with (a := dst + 0) in H0.
  destruct (n <? 3) eqn:E3.
  { eapply Hpart; [exact H0|]. intros x. cbv beta. cbn [orb]. lia. }
  apply Hst1 with (a := dst + (n - 2)) in H0. apply Hst1 with (a := dst + 1) in H0.
  apply Hst1 with (a := dst + (n - 3)) in H0. apply Hst1 with (a := dst + 2) in H0.
  destruct (n <? 7) eqn:E7.
  { eapply Hpart; [exact H0|]. intros x. cbv beta. cbn [orb]. lia. }
  apply Hst1 with (a := dst + (n - 4)) in H0. apply Hst1 with (a := dst + 3) in H0.
  destruct (n <? 9) eqn:E9.
  { eapply Hpart; [exact H0|]. intros x. cbv beta. cbn [orb]. lia. }
  rewrite land3, land_m4.
  set (off := (- dst) mod 4). set (d := dst + off).
  set (k := n - off - (n - off) mod 4).
  assert (Hoff : 0 <= off < 4) by (unfold off; lia).
  assert (Hk : k mod 4 = 0 /\ n - off - 3 <= k <= n - off) by (unfold k; lia).
  clearbody k. 
  assert (Hd' : d = dst + off) by reflexivity. clearbody d off.
  (* normalise what is known so far: the first and last four bytes *)
  match type of H0 with part _ _ _ _ _ ?mm =>
  assert (H1 : part m c 0 0 (fun x => ((dst <=? x) && (x <? dst + 4)) || ((dst + n - 4 <=? x) && (x <? dst + n)))
     mm) by (intros x; rewrite H0; cbv beta; cbn [orb];
       match goal with |- (if ?a then _ else _) = (if ?b then _ else _) => replace a with b by lia; reflexivity end)
  end.
  clear H0. revert H1.
  match goal with |- part _ _ _ _ _ ?mm -> _ => generalize mm end. intros mc H1.
  apply Hst4 with (a := d + 0) in H1. apply Hst4 with (a := d + k - 4) in H1.
  destruct (k <? 9) eqn:K9.
  { eapply Hpart; [exact H1|]. intros x. cbv beta. cbn [orb]. lia. }
  apply Hst4 with (a := d + 4) in H1. apply Hst4 with (a := d + 8) in H1.
  apply Hst4 with (a := d + k - 12) in H1. apply Hst4 with (a := d + k - 8) in H1.
  destruct (k <? 25) eqn:K25.
  { eapply Hpart; [exact H1|]. intros x. cbv beta. cbn [orb]. lia. }
  apply Hst4 with (a := d + 12) in H1. apply Hst4 with (a := d + 16) in H1.
  apply Hst4 with (a := d + 20) in H1. apply Hst4 with (a := d + 24) in H1.
  apply Hst4 with (a := d + k - 28) in H1. apply Hst4 with (a := d + k - 24) in H1.
  apply Hst4 with (a := d + k - 20) in H1. apply Hst4 with (a := d + k - 16) in H1.
  match type of H1 with part _ _ _ _ _ ?mm =>
  assert (H2 : part m c 0 0 (fun x => ((dst <=? x) && (x <? d + 28)) || ((d + k - 28 <=? x) && (x <? dst + n)))
     mm) by (intros x; rewrite H1; cbv beta;
       match goal with |- (if ?a then _ else _) = (if ?b then _ else _) => replace a with b by lia; reflexivity end)
  end.
  clear H1. revert H2.
  match goal with |- part _ _ _ _ _ ?mm -> _ => generalize mm end. intros mc2 H2.
  assert (Hl4 : Z.land (24 + d) 4 = 0 \/ Z.land (24 + d) 4 = 4) by apply land4.
  set (o2 := Z.land (24 + d) 4) in *. clearbody o2.
  destruct (set_loop c m Hc mc2 (d + o2) (k - o2) _ H2) as (m' & d' & n' & W & Hn' & Hn4 & Hs & Hd2 & HP); [lia|].
  rewrite W. eapply Hpart; [exact HP|]. intros x. cbv beta. clear - Hs Hd2 Hn' Hn4 Hl4 Hk K25 Hd' Hoff E9.
  assert (n' <= 28) by (destruct Hl4; lia).
  apply eq_true_iff_eq. rewrite !orb_true_iff, !andb_true_iff. lia.
Qed.
