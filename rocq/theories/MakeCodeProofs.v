From Coq Require Import ZArith List Bool Lia Permutation.
From Coq Require Import ZifyBool ZifyNat.
From Verif Require Import Common MemModel CommonProofs MemProofs AllocModel AllocProofs ArrayModel HashtableModel StrOpsModel StrModel InternModel InternProofs MakeCodeModel MakeCodeSpec.
Import ListNotations.
Open Scope Z_scope.

Notation pinv num p m live := (PInv (pl_start p) num 128 16 (m, p, live)).
Definition pool_ok (num : Z) (p : pool) : Prop := pl_num p = num /\ pl_bsize p = 128 /\ pl_balign p = 16 /\ 0 < pl_start p /\ pl_start p + num * 144 <= 2 ^ 64.
Definition apart_pools (p q : pool) : Prop := forall x, in_pool p x -> in_pool q x -> False.

(** invariant: the last pool's free list is intact; every code is a block of a pool *)
Definition CInv (num : Z) (m : mem) (pools : list pool) (codes : list Z) : Prop :=
  1 <= num /\ Forall (pool_ok num) pools /\ ForallOrdPairs apart_pools pools /\
  NoDup codes /\
  (forall c, In c codes -> exists p, In p pools /\ In c (blocks (pl_start p) num 128 16)) /\
  exists pre last live, pools = pre ++ [last] /\ pinv num last m live /\
    (forall c, In c live -> In c codes) /\
    (forall c, In c codes -> In c (blocks (pl_start last) num 128 16) -> In c live).

Lemma block_in_pool num p c x : 1 <= num -> pool_ok num p -> In c (blocks (pl_start p) num 128 16) -> c <= x < c + 144 -> in_pool p x.
Proof.
  intros Hn (H1 & H2 & H3 & H4 & H5) Hc Hx. apply blocks_bound in Hc; try lia. unfold in_pool. lia.
Qed.
Lemma apart_sym l p q : ForallOrdPairs apart_pools l -> In p l -> In q l -> p = q \/ apart_pools p q.
Proof.
  intros H. induction H as [|a l Ha Hl IH]; intros Hp Hq; [destruct Hp|].
  destruct Hp as [E1|Hp], Hq as [E2|Hq].
  - left. congruence.
  - right. subst a. rewrite Forall_forall in Ha. auto.
  - right. subst a. rewrite Forall_forall in Ha. intros x Hx1 Hx2. exact (Ha _ Hp x Hx2 Hx1).
  - auto.
Qed.
Lemma in_pool_eq p q : pl_start p = pl_start q -> pl_num p = pl_num q -> forall x, in_pool p x <-> in_pool q x.
Proof. unfold in_pool. intros -> ->. tauto. Qed.
Lemma fop_app {A} (R : A -> A -> Prop) l x : ForallOrdPairs R l -> Forall (fun a => R a x) l -> ForallOrdPairs R (l ++ [x]).
Proof.
  intros H. induction H as [|a l Ha Hl IH]; intros HF; cbn; [repeat constructor|].
  inversion HF; subst. constructor; auto. apply Forall_app. auto.
Qed.
Lemma fop_last {A} (R : A -> A -> Prop) l x : ForallOrdPairs R (l ++ [x]) -> ForallOrdPairs R l /\ Forall (fun a => R a x) l.
Proof.
  induction l as [|a l IH]; cbn; intros H; [split; constructor|]. inversion H as [|? ? Ha Hl]; subst.
  apply Forall_app in Ha as [H1 H2]. destruct (IH Hl) as [H3 H4]. inversion H2; subst. split; constructor; auto.
Qed.

Lemma pool_init_inv m data num m1 p : 1 <= num -> 0 < data -> data + num * 144 <= 2 ^ 64 -> pool_init m data num 128 = (m1, p) ->
  pool_ok num p /\ pl_start p = data /\ pl_free p = data /\ pinv num p m1 [] /\ (forall x, ~ (data <= x < data + num * 144) -> m1 x = m x).
Proof.
  intros Hn Hd Hb H. unfold pool_init, pool_init_align in H. injection H as H1 H2. subst p.
  split; [unfold pool_ok; cbn; unfold DEFAULT_ALIGNMENT; lia|]. split; auto. split; auto. split.
  - eapply relink_inv; cbn [pl_start]; try lia; [split; auto|reflexivity|]. rewrite <- H1. reflexivity.
  - intros x Hx. rewrite <- H1. assert (G : forall k m c, ~ (c <= x < c + (Z.of_nat k + 1) * 144) -> link_blocks k m c 144 x = m x).
    { clear. induction k as [|k IH]; intros m c Hx; cbn [link_blocks].
      - unfold store64. rewrite store_le_spec. replace ((c <=? x) && (x <? c + Z.of_nat 8)) with false by lia. reflexivity.
      - rewrite IH by lia. unfold store64. rewrite store_le_spec. replace ((c <=? x) && (x <? c + Z.of_nat 8)) with false by lia. reflexivity. }
    apply G. lia.
Qed.

(** the core: allocating from a last pool that has a free block *)
Lemma alloc_last num m p live : 1 <= num -> pool_ok num p -> pinv num p m live -> pl_free p <> 0 ->
  exists m1 p1, pool_alloc m p AST_SIZE DEFAULT_ALIGNMENT = Ok (m1, p1, pl_free p) /\
    pool_ok num p1 /\ pl_start p1 = pl_start p /\ In (pl_free p) (blocks (pl_start p) num 128 16) /\ ~ In (pl_free p) live /\
    pinv num p1 m1 (pl_free p :: live) /\
    (forall x, m1 x = if (pl_free p <=? x) && (x <? pl_free p + 128) then 0 else m x).
Proof.
  intros Hn Hok HI Hf. destruct Hok as (H1 & H2 & H3 & H4 & H5).
  destruct (pool_alloc_spec (pl_start p) num 128 16 Hn ltac:(lia) ltac:(lia) ltac:(lia) ltac:(lia) m p live HI) as [[Hl E]|(Hl & m1 & p1 & b & E & Eb & Hb & Hnl & Hm & HI')].
  - exfalso. unfold pool_alloc in E. destruct HI as ((_ & _ & Hz & Ha) & _). rewrite Hz, Ha in E. cbn [Z.eqb Pos.eqb negb] in E.
    replace (pl_free p =? 0) with false in E by lia. unfold zero_size in E.
    destruct (mem_set_correct m (pl_free p) 0 128) as (m' & Es & _); try lia. rewrite Es in E. discriminate.
  - subst b. exists m1, p1. unfold AST_SIZE, DEFAULT_ALIGNMENT. split; [exact E|].
    destruct HI' as ((G1 & G2 & G3 & G4) & HI''). split; [unfold pool_ok; lia|]. split; [exact G1|]. split; auto. split; auto. split; auto.
    rewrite G1. split; [split; auto|exact HI''].
Qed.

Lemma make_code_spec num m pools codes bk : CInv num m pools codes -> pool_backing_ok m pools num bk ->
  exists m1 pools1 c, make_code bk m pools num = Ok (m1, pools1, c) /\ CInv num m1 pools1 (c :: codes) /\
    (forall x, in_node c x -> m1 x = 0) /\
    (forall c', In c' codes -> c' + 144 <= c \/ c + 144 <= c') /\
    (forall c' x, In c' codes -> in_node c' x -> m1 x = m x).
Proof.
  intros (Hn & Hok & Hap & Hnd & Hin & pre & last & live & EP & HI & Hl1 & Hl2) Hbk. unfold make_code. rewrite EP, back_snoc.
  assert (Hlok : pool_ok num last) by (rewrite EP in Hok; apply Forall_app in Hok as [_ Hok]; now inversion Hok).
  assert (Happend : forall np p, In p pools -> pl_start np + pl_num np * 144 <= 2 ^ 64 -> True) by auto. clear Happend.
  destruct (pl_free last =? 0) eqn:Ef.
  - (* a new pool *)
    unfold pool_backing_ok in Hbk. unfold pool_bytes, AST_SIZE, DEFAULT_ALIGNMENT. change (128 + 16) with 144.
    destruct (bk m (num * 144)) as [mb data]. destruct Hbk as (Hd & Hdb & Hfr).
    destruct (pool_init mb data num 128) as [mi np] eqn:EI.
    destruct (pool_init_inv mb data num mi np Hn Hd Hdb EI) as (Nok & Ns & Nf & NI & Nfr).
    destruct (alloc_last num mi np [] Hn Nok NI ltac:(lia)) as (m1 & p1 & EA & P1 & P2 & P3 & _ & P5 & P6).
    unfold AST_SIZE, DEFAULT_ALIGNMENT in EA. rewrite EA. cbn [bind].
    destruct (mem_set_correct m1 (pl_free np) 0 128) as (m2 & Es & Hm2); try lia. rewrite Es. cbn [of_option bind].
    assert (Nsep : forall p, In p pools -> apart_pools p np).
    { intros p Hp x Hx Hx2. destruct (Hfr p x Hp Hx) as [_ G]. unfold in_pool in Hx2. destruct Nok as (Nn & _). rewrite Ns, Nn in Hx2. lia. }
    assert (Hm2m : forall x, ~ (data <= x < data + num * 144) -> m2 x = mb x).
    { intros x Hx. rewrite Hm2, P6. rewrite Nf. replace ((data <=? x) && (x <? data + 128)) with false by lia. apply Nfr. lia. }
    assert (Ecn : In (pl_free np) (blocks (pl_start np) num 128 16)) by exact P3.
    assert (Hfree : forall c', In c' codes -> exists p, In p pools /\ in_pool p c' /\ (forall x, in_node c' x -> in_pool p x)).
    { intros c' Hc'. destruct (Hin c' Hc') as (p & Hp & Hb). exists p. rewrite Forall_forall in Hok. split; auto. split.
      - eapply block_in_pool; eauto. lia.
      - intros x Hx. eapply block_in_pool; eauto. unfold in_node in Hx. lia. }
    rewrite <- EP. eexists _, _, _. split; [reflexivity|]. rewrite set_back_snoc. split; [|split; [|split]].
    + split; auto. split; [apply Forall_app; split; [exact Hok|constructor; [exact P1|constructor]]|].
      assert (Es1 : forall x, in_pool p1 x <-> in_pool np x).
      { apply in_pool_eq; [exact P2|]. destruct P1 as (G1 & _), Nok as (G2 & _). lia. }
      split; [apply fop_app; auto; apply Forall_forall; intros p Hp x Hx Hx2; apply (Nsep p Hp x Hx); apply Es1; exact Hx2|].
      split; [constructor; auto; intros Hc; destruct (Hfree _ Hc) as (p & Hp & Hx & _); apply (Nsep p Hp _ Hx); eapply block_in_pool; eauto; lia|].
      split.
      { intros c [<-|Hc]; [exists p1; split; [apply in_or_app; right; now left|rewrite P2; exact P3]|].
        destruct (Hin c Hc) as (p & Hp & Hb). exists p. split; auto. apply in_or_app. now left. }
      exists pools, p1, [pl_free np]. split; auto. split.
      { rewrite P2. rewrite P2 in P5. destruct P5 as (Pg & fl & Hch & Hpm). split; auto. exists fl. split; auto.
        eapply chain_ext; [exact Hch|]. intros b i Hb Hi. rewrite Hm2.
        assert (Hbb : In b (blocks (pl_start np) num 128 16)) by (eapply Permutation_in; [exact Hpm|]; apply in_or_app; now right).
        assert (b <> pl_free np). { intros ->. destruct Nok as (? & ? & ? & ? & ?). apply (perm_nodup (pl_start np) num 128 16) in Hpm; try lia. inversion Hpm; subst. auto. }
        destruct Nok as (? & ? & ? & ? & ?). destruct (blocks_apart (pl_start np) num 128 16 ltac:(lia) ltac:(lia) _ _ Hbb P3 H); replace ((pl_free np <=? b + i) && (b + i <? pl_free np + 128)) with false; auto; lia. }
      split; [intros c [<-|[]]; now left|].
      intros c [<-|Hc] Hb; [now left|]. exfalso. destruct (Hfree _ Hc) as (p & Hp & Hx & _). apply (Nsep p Hp _ Hx). rewrite P2 in Hb. eapply block_in_pool; eauto. lia.
    + intros x Hx. rewrite Hm2. unfold in_node in Hx. replace ((pl_free np <=? x) && (x <? pl_free np + 128)) with true by lia. reflexivity.
    + intros c' Hc'. destruct (Hin c' Hc') as (p & Hp & Hb). rewrite Forall_forall in Hok. pose proof (Hok _ Hp) as (G1 & G2 & G3 & G4 & G5).
      assert (A1 : ~ (c' <= pl_free np < c' + 144)).
      { intros Hx. apply (Nsep p Hp (pl_free np)); [eapply block_in_pool; eauto|eapply block_in_pool; eauto; lia]. }
      assert (A2 : ~ (pl_free np <= c' < pl_free np + 144)).
      { intros Hx. apply (Nsep p Hp c'); [eapply block_in_pool; eauto; lia|eapply block_in_pool; eauto]. }
      lia.
    + intros c' x Hc' Hx. destruct (Hfree _ Hc') as (p & Hp & _ & Hx2). specialize (Hx2 _ Hx).
      destruct (Hfr p x Hp Hx2) as [E G]. rewrite Hm2m by lia. exact E.
  - destruct (alloc_last num m last live Hn Hlok HI ltac:(lia)) as (m1 & p1 & EA & P1 & P2 & P3 & Pnl & P5 & P6).
    unfold AST_SIZE, DEFAULT_ALIGNMENT in *. rewrite EA. cbn [bind].
    destruct (mem_set_correct m1 (pl_free last) 0 128) as (m2 & Es & Hm2); try lia. rewrite Es. cbn [of_option bind].
    assert (Em : forall x, m2 x = m1 x).
    { intros x. rewrite Hm2, P6. destruct ((pl_free last <=? x) && (x <? pl_free last + 128)); auto. }
    assert (Esep : forall c', In c' codes -> c' + 144 <= pl_free last \/ pl_free last + 144 <= c').
    { intros c' Hc'. destruct (Hin c' Hc') as (p & Hp & Hb). rewrite Forall_forall in Hok. pose proof (Hok _ Hp) as Hpok.
      assert (Hlin : In last pools) by (rewrite EP; apply in_or_app; right; now left).
      destruct (apart_sym _ _ _ Hap Hp Hlin) as [->|Hpp].
      - assert (c' <> pl_free last) by (intros ->; apply Pnl; auto).
        destruct Hlok as (? & ? & ? & ? & ?). destruct (blocks_apart (pl_start last) num 128 16 ltac:(lia) ltac:(lia) _ _ Hb P3 H); lia.
      - assert (A1 : ~ (c' <= pl_free last < c' + 144)) by (intros Hx; apply (Hpp (pl_free last)); eapply block_in_pool; eauto; lia).
        assert (A2 : ~ (pl_free last <= c' < pl_free last + 144)) by (intros Hx; apply (Hpp c'); eapply block_in_pool; eauto; lia). lia. }
    eexists _, _, _. split; [reflexivity|]. rewrite set_back_snoc. split; [|split; [|split]].
    + split; auto. rewrite EP in Hok, Hap. apply Forall_app in Hok as [Hok1 Hok2]. apply fop_last in Hap as [Ha1 Ha2].
      split; [apply Forall_app; split; auto|].
      assert (Es1 : forall x, in_pool p1 x <-> in_pool last x).
      { apply in_pool_eq; [exact P2|]. destruct P1 as (G1 & _), Hlok as (G2 & _). lia. }
      split; [apply fop_app; auto; rewrite Forall_forall in *; intros p Hp x Hx Hx2; apply (Ha2 p Hp x Hx); apply Es1; exact Hx2|].
      split; [constructor; auto; intros Hc; specialize (Esep _ Hc); lia|]. split.
      { intros c [<-|Hc]; [exists p1; split; [apply in_or_app; right; now left|rewrite P2; exact P3]|].
        destruct (Hin c Hc) as (p & Hp & Hb). rewrite EP in Hp. apply in_app_or in Hp as [Hp|[<-|[]]].
        - exists p. split; auto. apply in_or_app. now left.
        - exists p1. split; [apply in_or_app; right; now left|rewrite P2; exact Hb]. }
      exists pre, p1, (pl_free last :: live). split; auto. split.
      { rewrite P2. rewrite P2 in P5. destruct P5 as (Pg & fl & Hch & Hpm). split; auto. exists fl. split; auto.
        eapply chain_ext; [exact Hch|]. intros b i _ _. apply Em. }
      split; [intros c [<-|Hc]; [now left|right; auto]|]. intros c [<-|Hc] Hb; [now left|right]. apply Hl2; auto. rewrite <- P2. exact Hb.
    + intros x Hx. rewrite Hm2. unfold in_node in Hx. replace ((pl_free last <=? x) && (x <? pl_free last + 128)) with true by lia. reflexivity.
    + exact Esep.
    + intros c' x Hc' Hx. rewrite Em, P6. unfold in_node in Hx. specialize (Esep _ Hc').
      replace ((pl_free last <=? x) && (x <? pl_free last + 128)) with false by lia. reflexivity.
Qed.


Lemma link_frame_all k : forall m c x, ~ (c <= x < c + (Z.of_nat k + 1) * 144) -> link_blocks k m c 144 x = m x.
Proof.
  induction k as [|k IH]; intros m c x Hx; cbn [link_blocks].
  - unfold store64. rewrite store_le_spec. replace ((c <=? x) && (x <? c + Z.of_nat 8)) with false by lia. reflexivity.
  - rewrite IH by lia. unfold store64. rewrite store_le_spec. replace ((c <=? x) && (x <? c + Z.of_nat 8)) with false by lia. reflexivity.
Qed.
Lemma link_word k : forall m c i, 0 <= c -> 0 <= i <= Z.of_nat k -> c + (Z.of_nat k + 1) * 144 <= 2 ^ 64 ->
  load64 (link_blocks k m c 144) (c + i * 144) = if i =? Z.of_nat k then 0 else c + i * 144 + 144.
Proof.
  induction k as [|k IH]; intros m c i Hc Hi Hb; cbn [link_blocks].
  - replace (i =? Z.of_nat 0) with true by lia. replace (c + i * 144) with c by lia.
    unfold load64, store64. rewrite load_store_le. reflexivity.
  - destruct (Z.eq_dec i 0) as [->|Hne].
    + replace (0 =? Z.of_nat (S k)) with false by lia. replace (c + 0 * 144) with c by lia.
      unfold load64. rewrite (load_le_ext 8 _ (store64 m c (c + 144))).
      * unfold store64. rewrite load_store_le. change (256 ^ Z.of_nat 8) with (2 ^ 64). apply Z.mod_small. lia.
      * intros j Hj. apply link_frame_all. lia.
    + replace (c + i * 144) with ((c + 144) + (i - 1) * 144) by lia. rewrite IH by lia.
      replace (i =? Z.of_nat (S k)) with (i - 1 =? Z.of_nat k) by lia. destruct (i - 1 =? Z.of_nat k); lia.
Qed.

Definition cleared (p : pool) : pool :=
  {| pl_start := pl_start p; pl_free := pl_start p; pl_bsize := pl_bsize p; pl_balign := pl_balign p; pl_total := pl_total p; pl_num := pl_num p |}.
Lemma clear_pools_spec num : forall pools m m1 pools1, 1 <= num -> Forall (pool_ok num) pools -> ForallOrdPairs apart_pools pools ->
  clear_pools m pools = (m1, pools1) ->
  pools1 = map cleared pools /\
  (forall x, (forall p, In p pools -> ~ in_pool p x) -> m1 x = m x) /\
  (forall p, In p pools -> pinv num (cleared p) m1 []) /\
  (forall p i, In p pools -> 0 <= i < num ->
    load64 m1 (pl_start p + i * 144) = if i =? num - 1 then 0 else pl_start p + i * 144 + 144).
Proof.
  induction pools as [|p r IH]; intros m m1 pools1 Hn Hok Hap H; cbn [clear_pools] in H.
  - injection H as <- <-. split; [reflexivity|]. split; [auto|]. split; [intros p []|intros p i []].
  - inversion Hok as [|? ? Hp Hr]; subst. inversion Hap as [|? ? Ha Hapr]; subst.
    destruct (pool_clear m p) as [m2 p2] eqn:EC. destruct (clear_pools m2 r) as [m3 r3] eqn:ER. injection H as <- <-.
    destruct (IH m2 m3 r3 Hn Hr Hapr ER) as (E & Hfr & Hinv & Hw).
    pose proof Hp as (G1 & G2 & G3 & G4 & G5).
    assert (E2 : p2 = cleared p /\ m2 = link_blocks (Z.to_nat (num - 1)) m (pl_start p) 144).
    { unfold pool_clear in EC. rewrite G1, G2, G3 in EC. injection EC as <- <-. unfold cleared. rewrite G1, G2, G3. auto. }
    destruct E2 as [-> E2].
    assert (Hkeep : forall x, in_pool p x -> m3 x = m2 x).
    { intros x Hx. apply Hfr. intros q Hq Hx2. rewrite Forall_forall in Ha. exact (Ha q Hq x Hx Hx2). }
    split; [cbn [map]; now rewrite E|]. split; [|split].
    + intros x Hx. rewrite Hfr by (intros q Hq; apply Hx; now right). rewrite E2. apply link_frame_all.
      intros G. apply (Hx p (or_introl eq_refl)). unfold in_pool. lia.
    + intros q [<-|Hq]; [|auto].
      assert (Hi : pinv num (cleared p) m2 []).
      { eapply relink_inv; cbn [pl_start cleared]; try lia; [repeat split; auto|reflexivity|exact E2]. }
      destruct Hi as (Hg & fl & Hch & Hpm). split; auto. exists fl. split; auto.
      eapply chain_ext; [exact Hch|]. intros b i Hb Hi. apply Hkeep.
      assert (Hbb : In b (blocks (pl_start p) num 128 16)) by (eapply Permutation_in; [exact Hpm|exact Hb]).
      eapply block_in_pool; eauto. lia.
    + intros q i [<-|Hq] Hi; [|auto].
      unfold load64. rewrite (load_le_ext 8 _ m2).
      * rewrite E2. rewrite <- (Z2Nat.id (num - 1)) at 2 by lia. apply link_word; lia.
      * intros j Hj. apply Hkeep. unfold in_pool. nia.
Qed.

Lemma CInv_reset num m pools codes m1 pools1 : CInv num m pools codes -> clear_pools m pools = (m1, pools1) -> CInv num m1 pools1 [].
Proof.
  intros (Hn & Hok & Hap & Hnd & Hin & pre & last & live & EP & HI & Hl1 & Hl2) HC.
  destruct (clear_pools_spec num pools m m1 pools1 Hn Hok Hap HC) as (-> & _ & Hinv & _).
  split; auto. split; [apply Forall_map; eapply Forall_impl; [|exact Hok]; intros p Hp; exact Hp|].
  split.
  { clear - Hap. induction Hap as [|p l Hp Hl IH]; cbn; constructor; auto. apply Forall_map. exact Hp. }
  split; [constructor|]. split; [intros c []|].
  exists (map cleared pre), (cleared last), []. rewrite EP, map_app. split; auto. split; [|split; [intros c []|intros c []]].
  apply Hinv. rewrite EP. apply in_or_app. right. now left.
Qed.

Lemma code_history_inv m0 start num m pools codes : pools_start_ok start num -> code_history m0 start num m pools codes -> CInv num m pools codes.
Proof.
  intros (Hs & Hn & Hb) H. induction H as [m p HI|m pools codes m1 H IH HE|m pools codes bk m1 pools1 c H IH Hbk HM|m pools codes m1 pools1 cx cx1 H IH HR].
  - destruct (pool_init_inv _ _ _ _ _ Hn Hs Hb HI) as (P1 & P2 & P3 & P4 & P5). split; auto. split; [constructor; auto|]. split; [repeat constructor|].
    split; [constructor|]. split; [intros c []|]. exists [], p, []. split; [reflexivity|]. split; [exact P4|]. split; intros c [].
  - destruct IH as (_ & Hok & Hap & Hnd & Hin & pre & last & live & EP & (Hg & fl & Hch & Hpm) & Hl1 & Hl2).
    split; auto. split; auto. split; auto. split; auto. split; auto.
    exists pre, last, live. split; auto. split; [|auto]. split; auto. exists fl. split; auto.
    eapply chain_ext; [exact Hch|]. intros b i Hb1 Hi.
    assert (Hlin : In last pools) by (rewrite EP; apply in_or_app; right; now left).
    rewrite Forall_forall in Hok. pose proof (Hok _ Hlin) as Hlok.
    assert (Hbb : In b (blocks (pl_start last) num 128 16)) by (eapply Permutation_in; [exact Hpm|]; apply in_or_app; now right).
    assert (Hx : in_pool last (b + i)) by (eapply block_in_pool; eauto; lia).
    destruct (HE (b + i)) as [E|[(c & Hc & Hxc)|G]]; auto; [exfalso|exfalso; exact (G last Hlin Hx)].
    destruct (Hin c Hc) as (p & Hp & Hcb). pose proof (Hok _ Hp) as Hpok.
    destruct (apart_sym _ _ _ Hap Hp Hlin) as [->|Hpp].
    + pose proof (Hl2 c Hc Hcb) as Hcl. destruct Hlok as (? & ? & ? & ? & ?).
      assert (c <> b).
      { intros ->. assert (Hnd2 := perm_nodup (pl_start last) num 128 16 ltac:(lia) ltac:(lia) ltac:(lia) _ Hpm). clear - Hnd2 Hcl Hb1.
        induction live as [|y live IH]; [contradiction|]. cbn in Hnd2. inversion Hnd2; subst.
        destruct Hcl as [->|Hin]; auto. apply H1, in_or_app. now right. }
      unfold in_node in Hxc. destruct (blocks_apart (pl_start last) num 128 16 ltac:(lia) ltac:(lia) _ _ Hcb Hbb H5); lia.
    + apply (Hpp (b + i)); auto. eapply block_in_pool; eauto. unfold in_node in Hxc. lia.
  - destruct (make_code_spec num m pools codes bk IH Hbk) as (m2 & p2 & c2 & E & HI & _). rewrite E in HM. injection HM as <- <- <-. exact HI.
  - unfold reset in HR. destruct (clear_pools m pools) as [m2 p2] eqn:EC. injection HR as <- <- _. eapply CInv_reset; eauto.
Qed.
Lemma reset_pools m pools cx m1 pools1 cx1 : reset m pools cx = (m1, pools1, cx1) -> clear_pools m pools = (m1, pools1).
Proof. unfold reset. destruct (clear_pools m pools). intros H. injection H as <- <- _. reflexivity. Qed.

Lemma p24_make m0 start num m pools codes bk : pools_start_ok start num -> code_history m0 start num m pools codes ->
  pool_backing_ok m pools num bk ->
  exists m1 pools1 c, make_code bk m pools num = Ok (m1, pools1, c) /\
    (forall x, in_node c x -> m1 x = 0) /\
    (forall c' x, In c' codes -> in_node c' x -> ~ in_node c x /\ m1 x = m x).
Proof.
  intros Hs H Hbk. destruct (make_code_spec num m pools codes bk (code_history_inv _ _ _ _ _ _ Hs H) Hbk) as (m1 & p1 & c & E & _ & Hz & Hd & Hf).
  exists m1, p1, c. split; auto. split; auto. intros c' x Hc Hx. split; [|eapply Hf; eauto]. unfold in_node in *. specialize (Hd _ Hc). lia.
Qed.
Lemma p24_distinct m0 start num m pools codes : pools_start_ok start num -> code_history m0 start num m pools codes ->
  NoDup codes /\
  (forall c1 c2 x, In c1 codes -> In c2 codes -> in_node c1 x -> in_node c2 x -> c1 = c2) /\
  (forall c, In c codes -> c <> 0 /\ exists p, In p pools /\ forall x, in_node c x -> in_pool p x).
Proof.
  intros Hs H. destruct (code_history_inv _ _ _ _ _ _ Hs H) as (Hn & Hok & Hap & Hnd & Hin & _). rewrite Forall_forall in Hok. split; auto. split.
  - intros c1 c2 x H1 H2 X1 X2. destruct (Hin c1 H1) as (p1 & P1 & B1), (Hin c2 H2) as (p2 & P2 & B2).
    destruct (Z.eq_dec c1 c2) as [|Hne]; auto. exfalso. unfold in_node in *. pose proof (Hok _ P1) as O1. pose proof (Hok _ P2) as O2.
    destruct (apart_sym _ _ _ Hap P1 P2) as [->|Hpp].
    + destruct O1 as (? & ? & ? & ? & ?). destruct (blocks_apart (pl_start p2) num 128 16 ltac:(lia) ltac:(lia) _ _ B1 B2 Hne); lia.
    + apply (Hpp x); eapply block_in_pool; eauto; lia.
  - intros c Hc. destruct (Hin c Hc) as (p & P & B). pose proof (Hok _ P) as O. split.
    + destruct O as (? & ? & ? & ? & ?). apply blocks_bound in B; lia.
    + exists p. split; auto. intros x Hx. unfold in_node in Hx. eapply block_in_pool; eauto. lia.
Qed.

(** ** reset *)
Lemma p45_overwritten m0 start num m pools codes cx m1 pools1 cx1 c : pools_start_ok start num -> code_history m0 start num m pools codes ->
  reset m pools cx = (m1, pools1, cx1) -> In c codes -> load64 m1 c = 0 \/ load64 m1 c = c + 144.
Proof.
  intros Hs H HR Hc. apply reset_pools in HR. destruct (code_history_inv _ _ _ _ _ _ Hs H) as (Hn & Hok & Hap & Hnd & Hin & _).
  destruct (clear_pools_spec num pools m m1 pools1 Hn Hok Hap HR) as (_ & _ & _ & Hw).
  destruct (Hin c Hc) as (p & P & B). apply blocks_in in B; [|lia]. destruct B as (i & Hi & ->).
  change (128 + 16) with 144. rewrite (Hw p i P Hi). destruct (i =? num - 1); auto.
Qed.
Lemma make_first num m p bk : 1 <= num -> pool_ok num p -> pl_free p = pl_start p -> pinv num p m [] ->
  exists m1 pools1, make_code bk m [p] num = Ok (m1, pools1, pl_start p).
Proof.
  intros Hn Hok Hf HI. unfold make_code. change (back [p]) with (Some p). cbv iota beta. pose proof Hok as (_ & _ & _ & H4 & _). replace (pl_free p =? 0) with false by lia.
  destruct (alloc_last num m p [] Hn Hok HI ltac:(lia)) as (m1 & p1 & EA & P1 & P2 & P3 & Pnl & P5 & P6). rewrite EA. cbn [bind].
  destruct (mem_set_correct m1 (pl_free p) 0 AST_SIZE) as (m2 & Es & Hm2); try (unfold AST_SIZE; lia). rewrite Es. cbn [of_option bind]. rewrite Hf. eauto.
Qed.
Lemma p45_reused m0 start num m p codes bk0 bk cx m1 pools1 cx1 : pools_start_ok start num ->
  (let '(mi, pi) := pool_init m0 start num 128 in exists m2 pools2, make_code bk0 mi [pi] num = Ok (m2, pools2, start)) /\
  (code_history m0 start num m [p] codes -> reset m [p] cx = (m1, pools1, cx1) ->
   exists m2 pools2, make_code bk m1 pools1 num = Ok (m2, pools2, pl_start p)).
Proof.
  intros Hs. pose proof Hs as (Hs1 & Hn & Hb). split.
  - destruct (pool_init m0 start num 128) as [mi pi] eqn:EI. destruct (pool_init_inv _ _ _ _ _ Hn Hs1 Hb EI) as (P1 & P2 & P3 & P4 & P5).
    rewrite <- P2. apply make_first; auto. congruence.
  - intros H HR. apply reset_pools in HR. destruct (code_history_inv _ _ _ _ _ _ Hs H) as (_ & Hok & Hap & Hnd & Hin & _).
    destruct (clear_pools_spec num [p] m m1 pools1 Hn Hok Hap HR) as (-> & _ & Hinv & _). cbn [map].
    change (pl_start p) with (pl_start (cleared p)). apply make_first; auto; [|apply Hinv; now left]. inversion Hok; subst. assumption.
Qed.
Lemma history_first_pool m0 start num m pools codes : code_history m0 start num m pools codes -> exists p r, pools = p :: r /\ pl_start p = start.
Proof.
  intros H. induction H as [m p HI|m pools codes m1 H IH HE|m pools codes bk m1 pools1 c H IH Hbk HM|m pools codes m1 pools1 cx cx1 H IH HR].
  - exists p, []. split; auto. unfold pool_init, pool_init_align in HI. injection HI as _ <-. reflexivity.
  - exact IH.
  - destruct IH as (p & r & -> & E). unfold make_code in HM. destruct (back (p :: r)) as [last|] eqn:EB; [|discriminate].
    assert (ES : forall (A B : mem * list pool * pool), True) by auto. clear ES.
    destruct (pl_free last =? 0) eqn:Ef.
    + destruct (bk m (pool_bytes num)) as [mb data]. destruct (pool_init mb data num AST_SIZE) as [mi np].
      destruct (pool_alloc mi np AST_SIZE DEFAULT_ALIGNMENT) as [[[m2 p2] c2]| |]; cbn [bind] in HM; try discriminate.
      destruct (mem_set m2 c2 0 AST_SIZE); cbn [of_option bind] in HM; try discriminate. injection HM as _ <- _.
      change (p :: r ++ [np]) with ((p :: r) ++ [np]). rewrite set_back_snoc. exists p, (r ++ [p2]). auto.
    + destruct (pool_alloc m last AST_SIZE DEFAULT_ALIGNMENT) as [[[m2 p2] c2]| |] eqn:EA; cbn [bind] in HM; try discriminate.
      destruct (mem_set m2 c2 0 AST_SIZE); cbn [of_option bind] in HM; try discriminate. injection HM as _ <- _.
      destruct (@exists_last _ (p :: r) ltac:(discriminate)) as (pre & l0 & El). rewrite El in EB |- *. rewrite back_snoc in EB. injection EB as ->.
      rewrite set_back_snoc. destruct pre as [|q pre]; cbn in El |- *; injection El as E1 E2.
      * subst. exists p2, []. split; auto. unfold pool_alloc in EA.
        repeat match type of EA with context [if ?b then _ else _] => destruct b; try discriminate end.
        destruct (zero_size m (pl_free last) AST_SIZE); try discriminate. injection EA as _ <- _. reflexivity.
      * subst. exists q, (pre ++ [p2]). auto.
  - destruct IH as (p & r & -> & E). apply reset_pools in HR. cbn [clear_pools] in HR. destruct (pool_clear m p) as [m2 p2] eqn:EC. destruct (clear_pools m2 r) as [m3 r3]. injection HR as _ <-.
    exists p2, r3. split; auto. unfold pool_clear in EC. injection EC as _ <-. exact E.
Qed.
Lemma p45_first_reused m0 start num m p codes bk0 bk cx m1 pools1 cx1 : pools_start_ok start num ->
  code_history m0 start num m [p] codes -> reset m [p] cx = (m1, pools1, cx1) ->
  (let '(mi, pi) := pool_init m0 start num 128 in exists m2 pools2, make_code bk0 mi [pi] num = Ok (m2, pools2, start)) /\
  (exists m2 pools2, make_code bk m1 pools1 num = Ok (m2, pools2, start)).
Proof.
  intros Hs H HR. destruct (history_first_pool _ _ _ _ _ _ H) as (q & r & Eq & Es). injection Eq as E1 E2. subst q r.
  destruct (p45_reused m0 start num m p codes bk0 bk cx m1 pools1 cx1 Hs) as [A B]. rewrite Es in B. split; auto.
Qed.
