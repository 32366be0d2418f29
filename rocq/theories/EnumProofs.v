From Coq Require Import String ZArith List Bool Lia.
From Coq Require Import ZifyBool ZifyNat.
From Verif Require Import Common Text HashModel HashSpec HashProofs EnumModel EnumSpec.
Import ListNotations.
Open Scope Z_scope.

Lemma hash_find_spec : forall t i h, (exists k, (k < length t)%nat /\ hash_find t i h = i + Z.of_nat k /\ crc32 (nth k t []) = h /\ (forall j, (j < k)%nat -> crc32 (nth j t []) <> h)) \/
  (hash_find t i h = 0 /\ forall x, In x t -> crc32 x <> h).
Proof.
  induction t as [|x t IH]; intros i h; [right; split; [reflexivity|intros x []]|]. cbn [hash_find]. destruct (crc32 x =? h) eqn:E.
  - left. exists 0%nat. cbn [length nth]. repeat split; try lia.
  - destruct (IH (i + 1) h) as [(k & H1 & H2 & H3 & H4)|[H1 H2]].
    + left. exists (S k). cbn [length nth]. split; [lia|]. split; [lia|]. split; [exact H3|]. intros [|j] Hj; [lia|]. apply H4. lia.
    + right. split; [exact H1|]. intros y [<-|Hy]; [lia|auto].
Qed.
Lemma find_sound t text : hash_find t 0 (crc32 text) <> 0 ->
  exists kw, table_at t (hash_find t 0 (crc32 text)) = Done kw /\ crc32 kw = crc32 text.
Proof.
  intros H. destruct (hash_find_spec t 0 (crc32 text)) as [(k & H1 & H2 & H3 & H4)|[H1 _]]; [|contradiction].
  rewrite H2. unfold table_at. replace ((0 <=? 0 + Z.of_nat k) && (0 + Z.of_nat k <? Z.of_nat (length t))) with true by lia.
  replace (Z.to_nat (0 + Z.of_nat k)) with k by lia. eexists. split; [reflexivity|]. exact H3.
Qed.
Lemma find_none t text : (forall x, In x t -> crc32 x <> crc32 text) -> hash_find t 0 (crc32 text) = 0.
Proof.
  intros H. destruct (hash_find_spec t 0 (crc32 text)) as [(k & H1 & H2 & H3 & H4)|[H1 _]]; [|exact H1].
  exfalso. apply (H (nth k t [])); [apply nth_In; auto|auto].
Qed.

Definition spelled (to_str : Z -> run (list Z)) (back : list Z -> Z) (p : Z * string) : bool :=
  match to_str (fst p) with
  | Done t => (if list_eq_dec Z.eq_dec t (txt (snd p)) then true else false) && (back t =? fst p)
  | _ => false
  end.
Lemma spelled_ok to_str back l : forallb (spelled to_str back) l = true -> forall k s, In (k, s) l -> to_str k = Done (txt s) /\ back (txt s) = k.
Proof.
  intros H k s Hi. rewrite forallb_forall in H. specialize (H _ Hi). unfold spelled in H. cbn [fst snd] in H.
  destruct (to_str k) as [t| |]; try discriminate. destruct (list_eq_dec Z.eq_dec t (txt s)) as [->|]; [|discriminate]. cbn in H. split; [reflexivity|lia].
Qed.
Lemma p22_spec : forall k s, In (k, s) specifier_spelling -> spec_to_str k = Done (txt s) /\ str_to_specifier (txt s) = k.
Proof. apply spelled_ok. vm_compute. reflexivity. Qed.
Lemma p22_tok : forall k s, In (k, s) token_spelling -> k <> Tok_Spec_Extern -> toktype_to_str k = Done (txt s) /\ str_to_toktype (txt s) = k.
Proof.
  intros k s Hi Hn. assert (H : forallb (fun p => (fst p =? Tok_Spec_Extern) || spelled toktype_to_str str_to_toktype p) token_spelling = true) by (vm_compute; reflexivity).
  rewrite forallb_forall in H. specialize (H _ Hi). cbn [fst] in H. replace (k =? Tok_Spec_Extern) with false in H by lia. cbn [orb] in H.
  apply (spelled_ok toktype_to_str str_to_toktype [(k, s)]); [cbn [forallb]; rewrite H; reflexivity|now left].
Qed.
Lemma p22_op : forall k s, In (k, s) operator_spelling -> operator_to_str k = Done (txt s).
Proof.
  intros k s Hi. assert (H : forallb (spelled operator_to_str (fun _ => 0)) (map (fun p => (fst p, snd p)) []) = true) by reflexivity. clear H.
  assert (H : forallb (fun p => spelled operator_to_str (fun _ => fst p) p) operator_spelling = true) by (vm_compute; reflexivity).
  rewrite forallb_forall in H. specialize (H _ Hi). cbn [fst] in H.
  apply (spelled_ok operator_to_str (fun _ => k) [(k, s)]); [cbn [forallb]; rewrite H; reflexivity|now left].
Qed.
(** every enumerator is covered by the spelling tables *)
Lemma spec_covered : forall k, 1 <= k < Spec_NumSpecifiers -> In k (map fst specifier_spelling).
Proof.
  intros k Hk. assert (H : forallb (fun i => existsb (Z.eqb (Z.of_nat i)) (map fst specifier_spelling)) (seq 1 27) = true) by (vm_compute; reflexivity).
  rewrite forallb_forall in H. change Spec_NumSpecifiers with 28 in Hk. specialize (H (Z.to_nat k)). rewrite existsb_exists in H. destruct H as (x & Hx & E); [apply in_seq; lia|]. apply Z.eqb_eq in E. replace k with x by lia. exact Hx.
Qed.
Lemma op_covered : forall k, 1 <= k < Op_NumOps -> In k (map fst operator_spelling).
Proof.
  intros k Hk. assert (H : forallb (fun i => existsb (Z.eqb (Z.of_nat i)) (map fst operator_spelling)) (seq 1 46) = true) by (vm_compute; reflexivity).
  rewrite forallb_forall in H. change Op_NumOps with 47 in Hk. specialize (H (Z.to_nat k)). rewrite existsb_exists in H. destruct H as (x & Hx & E); [apply in_seq; lia|]. apply Z.eqb_eq in E. replace k with x by lia. exact Hx.
Qed.

(** short texts: a text of at most four bytes is not confused with a keyword of the same length *)
Lemma table_bytes t : In t toktype_table -> Forall (fun b => 0 <= b < 256) t.
Proof.
  intros Hi. assert (H : forallb (forallb (fun b => (0 <=? b) && (b <? 256))) toktype_table = true) by (vm_compute; reflexivity).
  rewrite forallb_forall in H. specialize (H _ Hi). rewrite forallb_forall in H. apply Forall_forall. intros x Hx. specialize (H _ Hx). lia.
Qed.
Lemma short_gen (t : list (list Z)) text kw : (forall x, In x t -> Forall (fun b => 0 <= b < 256) x) ->
  Forall (fun b => 0 <= b < 256) text -> (length text <= 4)%nat ->
  table_at t (hash_find t 0 (crc32 text)) = Done kw -> hash_find t 0 (crc32 text) <> 0 -> length kw = length text -> kw = text.
Proof.
  intros HT HB HL HK HN HE. destruct (hash_find_spec t 0 (crc32 text)) as [(k & H1 & H2 & H3 & H4)|[H1 _]]; [|contradiction].
  rewrite H2 in HK. unfold table_at in HK.
  replace ((0 <=? 0 + Z.of_nat k) && (0 + Z.of_nat k <? Z.of_nat (length t))) with true in HK by lia. replace (Z.to_nat (0 + Z.of_nat k)) with k in HK by lia.
  injection HK as HK. rewrite HK in H3. apply p14_inj; auto; [|lia]. rewrite <- HK. apply HT, nth_In. exact H1.
Qed.
Lemma p22_short text kw : Forall (fun b => 0 <= b < 256) text -> (length text <= 4)%nat ->
  toktype_to_str (str_to_toktype text) = Done kw -> str_to_toktype text <> Tok_Invalid -> length kw = length text -> kw = text.
Proof. exact (short_gen toktype_table text kw table_bytes). Qed.

Fixpoint nodupb (l : list (list Z)) : bool :=
  match l with [] => true | x :: r => negb (existsb (fun y => if list_eq_dec Z.eq_dec x y then true else false) r) && nodupb r end.
Lemma nodupb_ok l : nodupb l = true -> NoDup l.
Proof.
  induction l as [|x l IH]; intros H; constructor; cbn [nodupb] in H; apply andb_true_iff in H as [H1 H2]; auto.
  intros Hi. apply negb_true_iff in H1. assert (E : existsb (fun y => if list_eq_dec Z.eq_dec x y then true else false) l = true) by (apply existsb_exists; exists x; split; auto; destruct (list_eq_dec Z.eq_dec x x); congruence). congruence.
Qed.
