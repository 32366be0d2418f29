From Coq Require Import ZArith List Bool Lia ZifyBool ZifyNat Permutation.
From Verif Require Import Common CommonProofs MemModel MemProofs MemFindProofs AllocModel MemSpec.
Import ListNotations.
Open Scope Z_scope.

(** ** Arena *)
Section ArenaInv.
Variables (start size lim : Z).
Hypothesis Hstart : 0 < start.
Hypothesis Hov : start + size + lim <= 2 ^ 64.

Definition AInv (cur : option Z) (st : mem * arena * list block) : Prop :=
  let '(m, ar, live) := st in
  ar_start ar = start /\ ar_size ar = size /\ 0 <= ar_used ar <= size /\
  match cur with None => ar_used ar = 0 | Some c => (c | start + ar_used ar) end /\
  (forall p s a, In (p, s, a) live -> start <= p /\ p + s <= start + ar_used ar /\ (a | p)) /\
  ForallOrdPairs disjoint live.

Lemma arena_alloc_ok m ar sz a : ar_start ar = start -> ar_size ar = size -> 0 <= ar_used ar <= size ->
  0 <= sz -> is_power_of_two a = true -> a <= lim -> (a | start + ar_used ar) ->
  let tot := (sz + a - 1) / a * a in
  (ar_used ar + tot > size /\ arena_alloc m ar sz a = Fatal) \/
  (ar_used ar + tot <= size /\ exists m',
     arena_alloc m ar sz a = Ok (m', {| ar_start := start; ar_size := size; ar_used := ar_used ar + tot |}, start + ar_used ar) /\
     forall x, m' x = if (start + ar_used ar <=? x) && (x <? start + ar_used ar + sz) then 0 else m x).
Proof.
  intros Hs Hz Hu Hsz Hp Hlim Hdiv tot. unfold arena_alloc. cbv zeta. rewrite Hs, Hz.
  assert (Ha : 0 < a). { apply is_pow2_spec in Hp as (k & Hk & ->). apply Z.pow_pos_nonneg; lia. }
  rewrite align_s64_eq by lia. fold tot.
  destruct (ar_used ar + tot >? size) eqn:E; [left; split; [lia|auto]|right].
  split; [lia|].
  assert (Haf : align_forward (start + ar_used ar) a = Some (start + ar_used ar)).
  { destruct (proj1 (is_pow2_spec a) Hp) as (k & Hk & ->). rewrite align_forward_eq by lia.
    f_equal. destruct Hdiv as [z Hdz]. rewrite Hdz.
    replace ((z * 2 ^ k + 2 ^ k - 1) / 2 ^ k) with z; [lia|].
    apply Z.div_unique with (r := 2 ^ k - 1); lia. }
  rewrite Haf. unfold zero_size.
  destruct (mem_set_correct m (start + ar_used ar) 0 sz) as (m' & -> & Hm'); try lia.
  exists m'. split; auto.
Qed.

Lemma arena_run_inv ops : forall cur st st', AInv cur st -> descending start lim cur ops ->
  arena_run st ops = Ok st' -> exists cur', AInv cur' st'.
Proof.
  induction ops as [|o r IH]; intros cur st st' HI HD HR; cbn [arena_run] in HR.
  - injection HR as <-. eauto.
  - destruct st as [[m ar] live]. destruct HI as (Hs & Hz & Hu & Hc & Hl & Hdj).
    destruct o as [sz a|]; cbn [arena_step descending] in *.
    + destruct HD as (Hsz & Hp & Hdst & Hlim & Hcur & HD).
      assert (Ha : 0 < a). { apply is_pow2_spec in Hp as (k & Hk & ->). apply Z.pow_pos_nonneg; lia. }
      assert (Hdiv : (a | start + ar_used ar)).
      { destruct cur as [c|]. - eapply Z.divide_trans; eauto. - rewrite Hc, Z.add_0_r. auto. }
      destruct (align_up_least sz a Ha) as (Ht1 & Ht2 & _).
      destruct (arena_alloc_ok m ar sz a Hs Hz Hu Hsz Hp Hlim Hdiv) as [[_ E]|[Hle (m' & E & _)]];
        rewrite E in HR; [discriminate|].
      eapply IH; [|exact HD|exact HR]. unfold AInv. cbn [ar_start ar_size ar_used].
      split; [auto|]. split; [auto|]. split; [lia|]. split; [|split].
      * replace (start + (ar_used ar + (sz + a - 1) / a * a)) with ((start + ar_used ar) + (sz + a - 1) / a * a) by lia.
        apply Z.divide_add_r; auto.
      * intros p s a0 [H|H]; [injection H as <- <- <-; split; [lia|split; [lia|auto]]|].
        apply Hl in H as (H1 & H2 & H3). split; [lia|split; [lia|auto]].
      * constructor; auto. apply Forall_forall. intros [[p s] a'] Hin. cbn [disjoint].
        apply Hl in Hin. lia.
    + eapply IH; [|exact HD|exact HR]. cbn. repeat split; auto; try lia; try contradiction.
      constructor.
Qed.

Lemma arena_run_ok ops m m' ar' live :
  0 <= size -> descending start lim None ops ->
  arena_run (m, arena_init_from_memory start size, []) ops = Ok (m', ar', live) ->
  arena_ok start size live.
Proof.
  intros Hsz HD HR. eapply arena_run_inv in HR; [|..|exact HD].
  - destruct HR as (cur & _ & _ & Hu & _ & Hl & Hdj). split; auto.
    intros p s a Hin. apply Hl in Hin as (? & ? & ?). repeat split; auto; lia.
  - cbn. repeat split; try lia; try contradiction. constructor.
Qed.
End ArenaInv.

(** ** Pool *)
Lemma load_store_le n : forall m a v, load_le n (store_le n m a v) a = v mod 256 ^ Z.of_nat n.
Proof.
  induction n as [|n IH]; intros m a v.
  - cbn. now rewrite Z.mod_1_r.
  - cbn [load_le store_le]. rewrite IH. rewrite store_le_spec.
    replace ((a + 1 <=? a) && (a <? a + 1 + Z.of_nat n)) with false by lia.
    unfold store8. rewrite Z.eqb_refl.
    rewrite Nat2Z.inj_succ, Z.pow_succ_r by lia.
    rewrite Z.rem_mul_r; [reflexivity|lia|]. apply Z.pow_pos_nonneg; lia.
Qed.

Inductive chain (m : mem) : Z -> list Z -> Prop :=
| chain_nil : chain m 0 []
| chain_cons a l : a <> 0 -> chain m (load64 m a) l -> chain m a (a :: l).

Lemma chain_ext m m' : forall l a, chain m a l ->
  (forall b i, In b l -> 0 <= i < 8 -> m' (b + i) = m (b + i)) -> chain m' a l.
Proof.
  induction l as [|b l IH]; intros a H E; inversion H; subst; constructor; auto.
  replace (load64 m' b) with (load64 m b).
  - apply IH; auto. intros; apply E; auto. now right.
  - unfold load64. apply load_le_ext. intros i Hi. symmetry. apply E; [now left|auto].
Qed.

Section Pool.
Variables (start num bsize balign : Z).
Let stride := bsize + balign.
Hypothesis Hstart : 0 < start.
Hypothesis Hnum : 1 <= num.
Hypothesis Hbs : 0 <= bsize.
Hypothesis Hba : 0 <= balign.
Hypothesis Hroom : 8 <= stride.
Hypothesis Hov : start + num * stride <= 2 ^ 64.

Fixpoint blocks_from (k : nat) (curr : Z) : list Z :=
  match k with O => [curr] | S k' => curr :: blocks_from k' (curr + stride) end.
Definition blocks : list Z := blocks_from (Z.to_nat (num - 1)) start.

Lemma blocks_from_in k : forall c b, In b (blocks_from k c) <-> exists i, 0 <= i <= Z.of_nat k /\ b = c + i * stride.
Proof.
  induction k as [|k IH]; intros c b; cbn [blocks_from].
  - split.
    + intros [<-|[]]. exists 0. lia.
    + intros (i & Hi & ->). left. assert (i = 0) by lia. subst. lia.
  - split.
    + intros [<-|H]; [exists 0; lia|]. apply IH in H as (i & Hi & ->). exists (i + 1). lia.
    + intros (i & Hi & ->). destruct (Z.eq_dec i 0) as [->|]; [left; lia|right].
      apply IH. exists (i - 1). lia.
Qed.
Lemma blocks_in b : In b blocks <-> exists i, 0 <= i < num /\ b = start + i * stride.
Proof. unfold blocks. rewrite blocks_from_in. split; intros (i & Hi & ->); exists i; split; auto; lia. Qed.
Lemma blocks_from_nodup k : forall c, NoDup (blocks_from k c).
Proof.
  induction k as [|k IH]; intros c; cbn [blocks_from]; constructor; auto; try constructor.
  intros H. apply blocks_from_in in H as (i & Hi & E). assert (stride + i * stride = 0) by lia. nia.
Qed.
Lemma blocks_from_len k : forall c, length (blocks_from k c) = S k.
Proof. induction k as [|k IH]; intros c; cbn; auto. Qed.
Lemma blocks_len : Z.of_nat (length blocks) = num.
Proof. unfold blocks. rewrite blocks_from_len. lia. Qed.

Lemma blocks_apart b1 b2 : In b1 blocks -> In b2 blocks -> b1 <> b2 -> b1 + stride <= b2 \/ b2 + stride <= b1.
Proof.
  intros H1 H2 Hne. apply blocks_in in H1 as (i & Hi & ->). apply blocks_in in H2 as (j & Hj & ->).
  assert (i <> j) by congruence.
  assert (i < j \/ j < i) as [?|?] by lia; [left|right]; nia.
Qed.
Lemma blocks_bound b : In b blocks -> start <= b /\ b + stride <= start + num * stride.
Proof. intros H. apply blocks_in in H as (i & Hi & ->). nia. Qed.

Lemma link_frame k : forall m c x, x < c -> link_blocks k m c stride x = m x.
Proof.
  induction k as [|k IH]; intros m c x Hx; cbn [link_blocks].
  - unfold store64. rewrite store_le_spec. replace (c <=? x) with false by lia. reflexivity.
  - rewrite IH by lia. unfold store64. rewrite store_le_spec. replace (c <=? x) with false by lia. reflexivity.
Qed.
Lemma link_chain k : forall m c, 0 < c -> c + (Z.of_nat k + 1) * stride <= 2 ^ 64 ->
  chain (link_blocks k m c stride) c (blocks_from k c).
Proof.
  induction k as [|k IH]; intros m c Hc Hb; cbn [link_blocks blocks_from].
  - constructor; [lia|]. unfold load64, store64. rewrite load_store_le. rewrite Z.mod_small by (cbn; lia). constructor.
  - constructor; [lia|].
    replace (load64 _ c) with (c + stride).
    + apply IH; lia.
    + unfold load64. rewrite (load_le_ext 8 _ (store64 m c (c + stride))).
      * unfold store64. rewrite load_store_le. change (256 ^ Z.of_nat 8) with (2 ^ 64). rewrite Z.mod_small; [auto|nia].
      * intros i Hi. rewrite link_frame by lia. reflexivity.
Qed.

Definition pgeom (p : pool) : Prop :=
  pl_start p = start /\ pl_num p = num /\ pl_bsize p = bsize /\ pl_balign p = balign.
Definition PInv (st : pstate) : Prop :=
  let '(m, p, live) := st in
  pgeom p /\ exists fl, chain m (pl_free p) fl /\ Permutation (live ++ fl) blocks.

Lemma perm_nodup l : Permutation l blocks -> NoDup l.
Proof. intros H. eapply Permutation_NoDup; [symmetry; exact H|]. apply blocks_from_nodup. Qed.

Lemma chain_in_blocks m fl live a : chain m a fl -> Permutation (live ++ fl) blocks ->
  a = 0 \/ (In a blocks /\ In a fl).
Proof.
  intros H Hp. inversion H; subst; auto. right. split; [|now left].
  eapply Permutation_in; [exact Hp|]. apply in_or_app. right. now left.
Qed.

Lemma pool_alloc_spec m p live : PInv (m, p, live) ->
  (Z.of_nat (length live) = num /\ pool_alloc m p bsize balign = AssertFail) \/
  (Z.of_nat (length live) < num /\ exists m' p' b,
     pool_alloc m p bsize balign = Ok (m', p', b) /\ b = pl_free p /\ In b blocks /\ ~ In b live /\
     (forall x, m' x = if (b <=? x) && (x <? b + bsize) then 0 else m x) /\
     PInv (m', p', b :: live)).
Proof.
  intros ((Hs & Hn & Hz & Ha) & fl & Hch & Hperm). unfold pool_alloc.
  rewrite Hz, Ha, !Z.eqb_refl. cbn [negb].
  inversion Hch as [E1 E2|a l Hne Hch' E1 E2]; subst fl.
  - left. split; [|reflexivity]. apply Permutation_length in Hperm. rewrite app_nil_r in Hperm.
    rewrite Hperm. apply blocks_len.
  - right. subst a. pose proof (perm_nodup _ Hperm) as Hnd.
    assert (Hinb : In (pl_free p) blocks).
    { eapply Permutation_in; [exact Hperm|]. apply in_or_app. right. now left. }
    assert (Hnl : ~ In (pl_free p) live).
    { intros Hin. apply NoDup_remove_2 in Hnd. apply Hnd, in_or_app. now left. }
    split.
    { pose proof blocks_len. apply Permutation_length in Hperm. rewrite app_length in Hperm. cbn in Hperm. lia. }
    replace (pl_free p =? 0) with false by lia. unfold zero_size.
    destruct (mem_set_correct m (pl_free p) 0 bsize) as (m' & -> & Hm'); try lia.
    eexists m', _, _. split; [reflexivity|]. do 4 (split; [now auto|]).
    split; [unfold pgeom; cbn; auto|]. exists l. cbn [pl_free]. split.
    + eapply chain_ext; [exact Hch'|]. intros b i Hb Hi. rewrite Hm'.
      assert (Hbb : In b blocks) by (eapply Permutation_in; [exact Hperm|]; apply in_or_app; right; now right).
      assert (Hnb : b <> pl_free p).
      { intros ->. apply NoDup_remove_2 in Hnd. apply Hnd, in_or_app. now right. }
      destruct (blocks_apart b (pl_free p) Hbb Hinb Hnb);
        replace ((pl_free p <=? b + i) && (b + i <? pl_free p + bsize)) with false; auto; unfold stride in *; lia.
    + rewrite <- Hperm. cbn. apply Permutation_middle.
Qed.

Lemma remove_perm (b : Z) l : NoDup l -> In b l -> Permutation l (b :: remove Z.eq_dec b l).
Proof.
  induction l as [|x l IH]; intros Hnd Hin; [contradiction|]. inversion Hnd; subst. cbn.
  destruct (Z.eq_dec b x) as [->|Hne].
  - rewrite notin_remove; auto.
  - destruct Hin as [->|Hin]; [congruence|]. transitivity (x :: b :: remove Z.eq_dec b l); [constructor; auto|apply perm_swap].
Qed.

Lemma existsb_in b l : existsb (Z.eqb b) l = true <-> In b l.
Proof.
  rewrite existsb_exists. split.
  - intros (x & Hx & E). apply Z.eqb_eq in E. now subst.
  - intros H. exists b. split; auto. apply Z.eqb_refl.
Qed.

Lemma pool_free_inv m p live b m' p' : PInv (m, p, live) -> In b live -> pool_free_block m p b = (m', p') ->
  PInv (m', p', remove Z.eq_dec b live) /\ pl_free p' = b /\
  (forall x, x < b \/ b + 8 <= x -> m' x = m x).
Proof.
  intros ((Hs & Hn & Hz & Ha) & fl & Hch & Hperm) Hin HF. unfold pool_free_block in HF.
  pose proof (perm_nodup _ Hperm) as Hnd.
  assert (Hinb : In b blocks) by (eapply Permutation_in; [exact Hperm|]; apply in_or_app; now left).
  pose proof (blocks_bound b Hinb).
  replace (b =? 0) with false in HF by lia. injection HF as <- <-. cbn [pl_free].
  assert (Hfr : forall x, x < b \/ b + 8 <= x -> store64 m b (pl_free p) x = m x).
  { intros x Hx. unfold store64. rewrite store_le_spec. change (Z.of_nat 8) with 8.
    replace ((b <=? x) && (x <? b + 8)) with false by lia. auto. }
  split; [|split; auto].
  split; [unfold pgeom; cbn; auto|]. exists (b :: fl). split.
  - constructor; [lia|].
    assert (Hld : load64 (store64 m b (pl_free p)) b = pl_free p mod 2 ^ 64)
      by (unfold load64, store64; apply load_store_le).
    rewrite Hld, Z.mod_small.
    + eapply chain_ext; [exact Hch|]. intros c i Hc Hi. apply Hfr.
      assert (Hcb : In c blocks) by (eapply Permutation_in; [exact Hperm|]; apply in_or_app; now right).
      assert (c <> b). { intros ->.
        assert (Hnd2 := perm_nodup _ Hperm). clear - Hnd2 Hin Hc.
        induction live as [|y live IH]; [contradiction|]. cbn in Hnd2. inversion Hnd2; subst.
        destruct Hin as [->|Hin]; auto. apply H1, in_or_app. now right. }
      destruct (blocks_apart c b Hcb Hinb H0); unfold stride in *; lia.
    + destruct (chain_in_blocks _ _ _ _ Hch Hperm) as [->|[Hb _]]; [lia|].
      apply blocks_bound in Hb. lia.
  - rewrite <- Hperm. assert (HndL : NoDup live).
    { clear - Hnd. induction live as [|y live IH]; constructor; inversion Hnd; subst; auto.
      intros Hy. apply H1, in_or_app. now left. }
    rewrite (remove_perm b live HndL Hin) at 2. cbn. symmetry. apply Permutation_middle.
Qed.

Lemma relink_inv m p m' : pgeom p -> pl_free p = start ->
  m' = link_blocks (Z.to_nat (num - 1)) m start stride -> PInv (m', p, []).
Proof.
  intros Hg Hf ->. split; auto. exists blocks. rewrite Hf. split; [|reflexivity].
  apply link_chain; [lia|]. rewrite Z2Nat.id by lia. replace (num - 1 + 1) with num by lia. exact Hov.
Qed.

Lemma pool_step_inv st o st' : PInv st -> pool_step st o = Ok st' -> PInv st'.
Proof.
  destruct st as [[m p] live]. intros HI HS. destruct o as [sz al|b| | |b i v]; cbn [pool_step] in HS.
  - destruct (pool_alloc m p sz al) as [[[m1 p1] b1]| |] eqn:E; try discriminate. injection HS as <-.
    assert (sz = bsize /\ al = balign) as [-> ->].
    { destruct HI as ((Hs & Hn & Hz & Ha) & _). unfold pool_alloc in E. rewrite Hz, Ha in E.
      destruct (sz =? bsize) eqn:?; cbn in E; [|discriminate].
      destruct (al =? balign) eqn:?; cbn in E; [|discriminate]. lia. }
    destruct (pool_alloc_spec m p live HI) as [[_ E']|(_ & m2 & p2 & b2 & E' & _ & _ & _ & _ & HI')];
      rewrite E' in E; [discriminate|]. injection E as <- <- <-. exact HI'.
  - destruct (existsb (Z.eqb b) live) eqn:E; [|discriminate].
    destruct (pool_free_block m p b) as [m1 p1] eqn:EF. injection HS as <-.
    apply existsb_in in E. apply (pool_free_inv _ _ _ _ _ _ HI E EF).
  - cbn in HS. injection HS as <-. destruct HI as ((Hs & Hn & Hz & Ha) & _).
    eapply relink_inv; [unfold pgeom; cbn; auto|exact Hs|]. rewrite Hs, Hn, Hz, Ha. reflexivity.
  - cbn in HS. injection HS as <-. destruct HI as ((Hs & Hn & Hz & Ha) & _).
    eapply relink_inv; [unfold pgeom; cbn; auto|exact Hs|]. rewrite Hs, Hn, Hz, Ha. reflexivity.
  - destruct (existsb (Z.eqb b) live && (0 <=? i) && (i <? pl_bsize p)) eqn:E; [|discriminate].
    injection HS as <-. apply andb_true_iff in E as [E E3]. apply andb_true_iff in E as [E1 E2].
    apply existsb_in in E1. destruct HI as ((Hs & Hn & Hz & Ha) & fl & Hch & Hperm).
    split; [unfold pgeom; auto|]. exists fl. split; auto.
    eapply chain_ext; [exact Hch|]. intros c j Hc Hj. unfold store8.
    assert (Hcb : In c blocks) by (eapply Permutation_in; [exact Hperm|]; apply in_or_app; now right).
    assert (Hbb : In b blocks) by (eapply Permutation_in; [exact Hperm|]; apply in_or_app; now left).
    assert (c <> b). { intros ->. assert (Hnd2 := perm_nodup _ Hperm). clear - Hnd2 E1 Hc.
        induction live as [|y live IH]; [contradiction|]. cbn in Hnd2. inversion Hnd2; subst.
        destruct E1 as [->|Hin]; auto. apply H1, in_or_app. now right. }
    destruct (blocks_apart c b Hcb Hbb H); replace (c + j =? b + i) with false; auto; unfold stride in *; lia.
Qed.

Lemma pool_run_inv ops : forall st st', PInv st -> pool_run st ops = Ok st' -> PInv st'.
Proof.
  induction ops as [|o r IH]; intros st st' HI HR; cbn [pool_run] in HR.
  - injection HR as <-. auto.
  - destruct (pool_step st o) as [s1| |] eqn:E; try discriminate.
    eapply IH; [eapply pool_step_inv; eauto|auto].
Qed.

Definition pool_start (m : mem) : pstate :=
  let '(m', p) := pool_init_align m start num bsize balign in (m', p, []).

Lemma pool_reachable m ops st : pool_run (pool_start m) ops = Ok st -> PInv st.
Proof.
  intros H. eapply pool_run_inv; [|exact H]. unfold pool_start. cbn.
  eapply relink_inv; [unfold pgeom; cbn; auto|reflexivity|reflexivity].
Qed.

Lemma PInv_live m p live : PInv (m, p, live) -> NoDup live /\ (forall b, In b live -> In b blocks).
Proof.
  intros (_ & fl & _ & Hperm). split.
  - assert (Hnd := perm_nodup _ Hperm). clear - Hnd. induction live as [|y live IH]; constructor; inversion Hnd; subst; auto.
    intros Hy. apply H1, in_or_app. now left.
  - intros b Hb. eapply Permutation_in; [exact Hperm|]. apply in_or_app. now left.
Qed.
End Pool.

(** ** default_resize_align *)
Lemma resize_correct al fr m old old_size new_size a :
  byte_mem m -> old <> 0 -> 0 <= old_size ->
  (* the allocator returns NULL without touching memory, or a block apart from the old one,
     changing only that block *)
  (forall n, let '(m1, p) := al m n a in
     byte_mem m1 /\ (p = 0 \/ ((p + n <= old \/ old + old_size <= p) /\
       forall x, ~ (p <= x < p + n) -> m1 x = m x))) ->
  (* free changes only the freed block *)
  (forall mm x, ~ (old <= x < old + old_size) -> fr mm old x = mm x) ->
  exists m' p, default_resize_align al fr m old old_size new_size a = Some (m', p) /\
    (new_size = 0 -> p = 0) /\
    (0 < new_size <= old_size -> p = old /\ m' = m) /\
    (old_size < new_size -> p <> 0 -> forall i, 0 <= i < old_size -> m' (p + i) = m (old + i)) /\
    (old_size < new_size -> p <> 0 -> forall x, ~ (p <= x < p + new_size) -> ~ (old <= x < old + old_size) -> m' x = m x).
Proof.
  intros Hm Hold Hos Hal Hfr. unfold default_resize_align. replace (old =? 0) with false by lia.
  destruct (new_size =? 0) eqn:E0.
  { eexists _, _. split; [reflexivity|]. repeat split; intros; try lia. }
  cbv zeta. destruct (new_size <? old_size) eqn:E1.
  { rewrite Z.eqb_refl. eexists _, _. split; [reflexivity|]. repeat split; intros; try lia. }
  destruct (old_size =? new_size) eqn:E2.
  { eexists _, _. split; [reflexivity|]. repeat split; intros; try lia. }
  specialize (Hal new_size). destruct (al m new_size a) as [m1 p]. destruct Hal as (Hb1 & Hal).
  destruct (p =? 0) eqn:Ep.
  { eexists _, _. split; [reflexivity|]. repeat split; intros; try lia. }
  destruct Hal as [?|[Hd Hfr1]]; [lia|].
  rewrite Z.min_r by lia.
  destruct (mem_move_correct m1 p old old_size Hb1 Hos) as (m2 & -> & Hm2); [lia|].
  eexists _, _. split; [reflexivity|]. repeat split; intros; try lia.
  - rewrite Hfr by lia. rewrite Hm2. replace ((p <=? p + i) && (p + i <? p + old_size)) with true by lia.
    rewrite Hfr1 by lia. f_equal. lia.
  - rewrite Hfr by lia. rewrite Hm2. replace ((p <=? x) && (x <? p + old_size)) with false by lia.
    apply Hfr1. lia.
Qed.
