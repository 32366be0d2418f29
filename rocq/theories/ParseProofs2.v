(** Names with their qualifiers and template arguments. *)
From Coq Require Import String ZArith List Bool Lia ZifyBool ZifyNat.
From Verif Require Import Common Text HashModel StrOpsModel EnumModel EnumSpec LexModel LexSpec NavModel StripModel StripSpec AstModel AstSpec UpfrontModel SerSpec ParseModel ParseSpec ParseProofs.
Import ListNotations.
Close Scope string_scope.
Open Scope Z_scope.

Section P.
Variable src : list Z.
Variable toks beyond : list token.
Variable ms : macros.
Variable e : env.
Variable fuel : nat.
Hypothesis SRC : Forall (in_source src) toks.
Notation upto := (upto src).
Notation word := (word src).

Lemma src_of : forall P k R, toks = P ++ k :: R -> in_source src k.
Proof. intros P k R E. rewrite Forall_forall in SRC. apply SRC. rewrite E. apply in_or_app. right. left. reflexivity. Qed.
Lemma word_text : forall k, word k = text_of src k.
Proof. intros k. unfold ParseSpec.word, ParseSpec.upto, text_of, slice, t_end. replace (t_start k + t_len k - t_start k) with (t_len k) by lia. reflexivity. Qed.
Lemma upto_slice : forall a b, upto a b = slice src (t_start a) (end_of b - t_start a).
Proof. reflexivity. Qed.
Lemma char0 : forall k, char_of src k 0 = first_char src k.
Proof. intros k. unfold char_of, first_char, byte_at. rewrite Z.add_0_r. reflexivity. Qed.
Lemma char1 : forall k, char_of src k 1 = char_behind src k.
Proof. reflexivity. Qed.
Lemma nth_skip : forall (l : list Z) n i, nth i (skipn n l) 0 = nth (n + i) l 0.
Proof. induction l as [|c l IH]; intros [|n] i; cbn; auto; destruct i; reflexivity. Qed.
Lemma word_len : forall k, in_source src k -> zlen (word k) = t_len k.
Proof.
  intros k (A & B & C). rewrite word_text. unfold text_of, slice, t_end, zlen in *. rewrite firstn_length, skipn_length. lia.
Qed.
Lemma word_first : forall k c l, in_source src k -> word k = c :: l -> first_char src k = c.
Proof.
  intros k c l (A & B & C) W. rewrite word_text in W. unfold text_of, slice in W. unfold first_char, byte_at.
  replace (Z.to_nat (t_start k)) with (Z.to_nat (t_start k) + 0)%nat by lia. rewrite <- nth_skip.
  destruct (Z.to_nat (t_len k)); [discriminate|]. destruct (skipn (Z.to_nat (t_start k)) src); [discriminate|]. cbn in W. injection W as -> _. reflexivity.
Qed.
Lemma word_second : forall k c d l, in_source src k -> word k = c :: d :: l -> char_behind src k = d.
Proof.
  intros k c d l (A & B & C) W. rewrite word_text in W. unfold text_of, slice in W. unfold char_behind, byte_at.
  replace (Z.to_nat (t_start k + 1)) with (Z.to_nat (t_start k) + 1)%nat by lia. rewrite <- nth_skip.
  destruct (Z.to_nat (t_len k)) as [|[|]]; [discriminate| |]; destruct (skipn (Z.to_nat (t_start k)) src) as [|x [|y s]]; try discriminate W.
  cbn in W. injection W as _ -> _. reflexivity.
Qed.

Lemma args_split : forall d raw, args src d raw -> exists g r, raw = g ++ r /\ gap g /\ args src d r /\ exists k r', r = k :: r' /\ ~ fmt k.
Proof.
  intros d raw A. induction A as [k K W|k K W|d k r F A IH|d k r K W N A IH|d k r K W N A IH|d k r K N1 N2 N3 A IH].
  - exists [], [k]. split; [reflexivity|]. split; [constructor|]. split; [constructor; auto|]. exists k, []. split; auto. unfold kind in K. unfold fmt. rewrite K. intros [X|X]; discriminate X.
  - exists [], [k]. split; [reflexivity|]. split; [constructor|]. split; [constructor; auto|]. exists k, []. split; auto. unfold kind in K. unfold fmt. rewrite K. intros [X|X]; discriminate X.
  - destruct IH as (g & r' & -> & G & A' & Q). exists (k :: g), r'. split; [reflexivity|]. split; [constructor; auto|]. split; auto.
  - exists [], (k :: r). split; [reflexivity|]. split; [constructor|]. split; [apply a_open; auto|]. exists k, r. split; auto. unfold kind in K. unfold fmt. rewrite K. intros [X|X]; discriminate X.
  - exists [], (k :: r). split; [reflexivity|]. split; [constructor|]. split; [apply a_close; auto|]. exists k, r. split; auto. unfold kind in K. unfold fmt. rewrite K. intros [X|X]; discriminate X.
  - exists [], (k :: r). split; [reflexivity|]. split; [constructor|]. split; [apply a_other; auto|]. exists k, r. split; auto.
Qed.

Definition go level k := negb (char_of src k 0 =? 62) || (level >? 0).
Definition step level k :=
  let level := if char_of src k 0 =? 60 then level + 1 else level in
  let level := if char_of src k 0 =? 62 then level - 1 else level in
  if (t_type k =? Tok_Operator) && (char_of src k 1 =? 62) then level - 1 else level.
Definition loop n := eat_nested src toks beyond ms n (fun level => level >=? 0) go step.

Lemma left_any : forall P raw k R sc h, toks = P ++ raw ++ k :: R ->
  exists l, left toks (Pst (zlen P) sc h) = Done (l, Pst (zlen P) sc h) /\ (l =? 0) = false.
Proof. intros P raw k R sc h E. eexists. split; [reflexivity|]. cbn [p_idx]. unfold num. rewrite E. zl. Qed.

Lemma args_ok : forall n d raw, (length raw <= n)%nat -> args src d raw -> forall P R sc h, toks = P ++ raw ++ R ->
  exists lv Q, loop n (Z.of_nat d) (Pst (zlen P) sc h) = Done (lv, Pst (zlen Q) sc h) /\
    (lv = 0 /\ (exists k, Q ++ [k] = P ++ raw /\ t_type k = Tok_Operator) \/ lv = -1 /\ Q = P ++ raw).
Proof.
  induction n as [|n IH]; intros d raw L A P R sc h E.
  { destruct raw; [inversion A|cbn in L; lia]. }
  destruct (args_split d raw A) as (g & r & -> & G & A' & k & r' & -> & K). clear A. rewrite <- app_assoc in E. cbn [app] in E.
  unfold loop. cbn [eat_nested]. destruct (left_any P g k (r' ++ R) sc h E) as (l & E1 & E2). erewrite bind_ok by exact E1. rewrite E2. cbn [orb].
  destruct (Z.of_nat d >=? 0) eqn:D; [|lia]. cbn [negb].
  erewrite bind_ok by (eapply currtok_ok; [exact E|exact G|exact K]). pose proof (at_gap _ _ _ _ _ E) as E3. pose proof (at_eat _ _ _ _ E3) as E4.
  pose proof (src_of _ _ _ E3) as SK. rewrite app_length in L. cbn [length] in L.
  inversion A' as [k0 KK W|k0 KK W|d0 k0 r0 F A|d0 k0 r0 KK W N A|d0 k0 r0 KK W N A|d0 k0 r0 KK N1 N2 N3 A]; subst.
  - assert (GO : go (Z.of_nat 0) k = false) by (unfold go; rewrite char0, (word_first k _ _ SK W); reflexivity). rewrite GO. cbn [negb]. exists 0, (P ++ g). split; [reflexivity|]. left. split; auto. exists k. split; [rewrite app_assoc; reflexivity|exact KK].
  - change (Z.of_nat 1) with 1. assert (GO : go 1 k = true) by (unfold go; rewrite char0, (word_first k _ _ SK W); reflexivity). rewrite GO. cbn [negb].
    erewrite bind_ok by (eapply eat_ok; [exact E3|reflexivity]).
    assert (ST : step 1 k = -1). { unfold step. rewrite char0, char1, (word_first k _ _ SK W), (word_second k _ _ _ SK W), KK. reflexivity. }
    rewrite ST. exists (-1), ((P ++ g) ++ [k]).
    split; [|right; split; [reflexivity|rewrite <- app_assoc; reflexivity]].
    destruct n; cbn [eat_nested]; unfold left, get_left, bind; cbn [p_idx rbind Z.geb Z.compare negb]; rewrite orb_true_r; reflexivity.
  - contradiction.
  - assert (GO : go (Z.of_nat d) k = true) by (unfold go; rewrite char0, (word_first k _ _ SK W); reflexivity). rewrite GO. cbn [negb].
    erewrite bind_ok by (eapply eat_ok; [exact E3|reflexivity]).
    assert (ST : step (Z.of_nat d) k = Z.of_nat (S d)). { unfold step. rewrite char0, char1, (word_first k _ _ SK W). destruct (char_behind src k =? 62) eqn:X; [lia|]. rewrite andb_false_r. cbn -[Z.of_nat]. lia. }
    rewrite ST. destruct (IH (S d) r' ltac:(lia) A _ R sc h E4) as (lv & Q & E5 & E6). exists lv, Q. split; [exact E5|]. rewrite <- !app_assoc in E6. cbn [app] in E6. exact E6.
  - assert (GO : go (Z.of_nat (S d0)) k = true) by (unfold go; rewrite char0, (word_first k _ _ SK W); reflexivity). rewrite GO. cbn [negb].
    erewrite bind_ok by (eapply eat_ok; [exact E3|reflexivity]).
    assert (ST : step (Z.of_nat (S d0)) k = Z.of_nat d0). { unfold step. rewrite char0, char1, (word_first k _ _ SK W). destruct (char_behind src k =? 62) eqn:X; [lia|]. rewrite andb_false_r. cbn -[Z.of_nat]. lia. }
    rewrite ST. destruct (IH d0 r' ltac:(lia) A _ R sc h E4) as (lv & Q & E5 & E6). exists lv, Q. split; [exact E5|]. rewrite <- !app_assoc in E6. cbn [app] in E6. exact E6.
  - assert (GO : go (Z.of_nat d) k = true) by (unfold go; rewrite char0; replace (first_char src k =? 62) with false by lia; reflexivity). rewrite GO. cbn [negb].
    erewrite bind_ok by (eapply eat_ok; [exact E3|reflexivity]).
    assert (ST : step (Z.of_nat d) k = Z.of_nat d).
    { unfold step. rewrite char0, char1. replace (first_char src k =? 62) with false by lia. replace (first_char src k =? 60) with false by lia.
      destruct (t_type k =? Tok_Operator) eqn:X; [|reflexivity]. apply Z.eqb_eq in X. specialize (N3 X). replace (char_behind src k =? 62) with false by lia. reflexivity. }
    rewrite ST. destruct (IH d r' ltac:(lia) A _ R sc h E4) as (lv & Q & E5 & E6). exists lv, Q. split; [exact E5|]. rewrite <- !app_assoc in E6. cbn [app] in E6. exact E6.
Qed.

Lemma app_last_eq : forall (A : Type) (Q P raw : list A) k d, Q ++ [k] = P ++ raw -> raw <> [] -> last raw d = k /\ exists raw', raw = raw' ++ [k] /\ Q = P ++ raw'.
Proof.
  intros A Q P raw k d E N. destruct (exists_last N) as (raw' & x & ->). rewrite app_assoc in E. apply app_inj_tail in E. destruct E as [-> ->]. rewrite last_last. eauto.
Qed.
Lemma args_nonempty : forall d raw, args src d raw -> raw <> [].
Proof. intros d raw A. destruct A; discriminate. Qed.

(** the name so far, extended to the token [b] *)
Definition extended (name b : token) : token := set_len (end_of b - t_start name) name.

(** behind a name: template arguments, or another token *)
Lemma template_args_ok : forall a P R name sc h, toks = P ++ a ++ R -> template_args src a -> next_is R (ends_name src) -> (length a <= fuel)%nat ->
  exists g R', (a = [] -> R = g ++ R') /\ (a <> [] -> g = []) /\ gap g /\
  parse_template_args src toks beyond ms fuel name (Pst (zlen P) sc h) =
    Done ((if a then name else extended name (last a name)), Pst (zlen (P ++ a ++ g)) sc h).
Proof.
  intros a P R name sc h E T (g & k & r & -> & G & K & (X1 & X2)) L. destruct T as [->|(g' & o & r' & -> & G' & O & W & A)].
  - exists g, (k :: r). split; auto. split; [congruence|]. split; auto. cbn [app] in *. unfold parse_template_args.
    erewrite bind_ok by (eapply currtok_ok; [exact E|exact G|exact K]).
    replace ((t_type k =? Tok_Operator) && (char_of src k 0 =? 60) && (t_len k =? 1)) with false; [reflexivity|].
    symmetry. rewrite char0. apply not_true_iff_false. intros B. rewrite !andb_true_iff, !Z.eqb_eq in B. apply X2. tauto.
  - exists [], (g ++ k :: r). split; [destruct g'; discriminate|]. split; auto. split; [constructor|].
    rewrite <- !app_assoc in E. cbn [app] in E. unfold parse_template_args. assert (F : ~ fmt o). { unfold kind in O. unfold fmt. rewrite O. intros [Y|Y]; discriminate Y. }
    erewrite bind_ok by (eapply currtok_ok; [exact E|exact G'|exact F]). apply at_gap in E. pose proof (src_of _ _ _ E) as SK.
    assert (LN : t_len o = 1) by (rewrite <- word_len, W by exact SK; reflexivity).
    assert (B : (t_type o =? Tok_Operator) && (char_of src o 0 =? 60) && (t_len o =? 1) = true) by (rewrite char0, (word_first o _ _ SK W), LN, O; reflexivity). rewrite B. clear B.
    erewrite bind_ok by (eapply eat_ok; [exact E|exact O]). apply at_eat in E.
    rewrite app_length in L. cbn [length] in L. destruct (args_ok fuel 0 r' ltac:(lia) A _ _ sc h E) as (lv & Q & E1 & E2).
    change (Z.of_nat 0) with 0 in E1. erewrite bind_ok by exact E1. pose proof (args_nonempty _ _ A) as NE.
    assert (F' : toks = (P ++ g' ++ o :: r') ++ g ++ k :: r) by (rewrite E, <- !app_assoc; reflexivity).
    assert (LL : forall d, last (g' ++ o :: r') d = last r' d). { intros d. destruct (exists_last NE) as (x & y & ->). rewrite last_last. replace (g' ++ o :: x ++ [y]) with ((g' ++ o :: x) ++ [y]) by (rewrite <- app_assoc; reflexivity). apply last_last. }
    assert (FIN : exists y z, P ++ g' ++ o :: r' = y ++ [z] /\ last r' name = z). { destruct (exists_last NE) as (x & y & ->). exists (P ++ g' ++ o :: x), y. rewrite last_last. split; auto. rewrite <- !app_assoc. cbn [app]. rewrite <- ?app_assoc. reflexivity. }
    destruct FIN as (y & z & Y1 & Y2).
    assert (END : prevtok toks beyond (Pst (zlen (P ++ g' ++ o :: r')) sc h) = Done (z, Pst (zlen (P ++ g' ++ o :: r')) sc h)) by (rewrite Y1 in *; eapply prevtok_ok; exact F').
    assert (RES : (if g' ++ o :: r' then name else extended name (last (g' ++ o :: r') name)) = extended name z). { rewrite LL, Y2. destruct g'; reflexivity. }
    rewrite RES, app_nil_r.
    destruct E2 as [(-> & q & Q1 & Q2)|(-> & Q1)].
    + cbn [Z.eqb]. assert (Q3 : Q ++ [q] = P ++ g' ++ o :: r') by (rewrite Q1, <- !app_assoc; reflexivity).
      erewrite bind_ok. 2:{ eapply (eat_ok src toks beyond ms Q q (g ++ k :: r)); [rewrite F', <- Q3, <- app_assoc; reflexivity|exact Q2]. }
      rewrite Q3. erewrite bind_ok by exact END. reflexivity.
    + cbn [Z.eqb]. assert (Q3 : Q = P ++ g' ++ o :: r') by (rewrite Q1, <- !app_assoc; reflexivity). rewrite Q3. unfold bind at 1. cbn [ret rbind].
      erewrite bind_ok by exact END. reflexivity.
Qed.

(** ** positions up to formatting tokens: behind [Q] stands [L] *)
Fixpoint trim (l : list token) : list token := match l with [] => [] | k :: r => if is_formatting (t_type k) then trim r else k :: r end.
Definition ahead (Q L : list token) : Prop := exists R0, toks = Q ++ R0 /\ trim R0 = trim L.
Lemma trim_gap : forall g l, gap g -> trim (g ++ l) = trim l.
Proof. induction g as [|k g IH]; intros l G; [reflexivity|]. cbn [app trim]. pose proof (Forall_inv G) as F. apply fmt_b in F. rewrite F. apply IH. exact (Forall_inv_tail G). Qed.
Lemma trim_sig : forall k l, ~ fmt k -> trim (k :: l) = k :: l.
Proof. intros k l K. cbn [trim]. rewrite (fmt_nb k K). reflexivity. Qed.
Lemma trim_inv : forall l k r, trim l = k :: r -> exists g, l = g ++ k :: r /\ gap g /\ ~ fmt k.
Proof.
  induction l as [|f l IH]; intros k r E; [discriminate|]. cbn [trim] in E. destruct (is_formatting (t_type f)) eqn:F.
  - destruct (IH _ _ E) as (g & -> & G & K). exists (f :: g). split; [reflexivity|]. split; [constructor; auto; apply fmt_b; exact F|exact K].
  - injection E as -> ->. exists []. split; [reflexivity|]. split; [constructor|]. intros X. apply fmt_b in X. congruence.
Qed.
Lemma ahead_self : forall Q R, toks = Q ++ R -> ahead Q R.
Proof. intros Q R E. exists R. auto. Qed.
Lemma ahead_sig : forall Q g k r, ahead Q (g ++ k :: r) -> gap g -> ~ fmt k -> exists g', toks = Q ++ g' ++ k :: r /\ gap g'.
Proof. intros Q g k r (R0 & E & T) G K. rewrite trim_gap, trim_sig in T by auto. destruct (trim_inv _ _ _ T) as (g' & -> & G' & _). eauto. Qed.
Lemma ahead_skip : forall Q g k r, toks = Q ++ g ++ k :: r -> ahead (Q ++ g) (k :: r).
Proof. intros Q g k r E. apply ahead_self. rewrite <- app_assoc. exact E. Qed.
(** currtok, check and eat in these terms *)
Lemma a_currtok : forall Q g k r sc h, ahead Q (g ++ k :: r) -> gap g -> ~ fmt k ->
  exists Q', toks = Q' ++ k :: r /\ currtok toks beyond (Pst (zlen Q) sc h) = Done (k, Pst (zlen Q') sc h).
Proof.
  intros Q g k r sc h A G K. destruct (ahead_sig _ _ _ _ A G K) as (g' & E & G'). exists (Q ++ g'). split; [apply at_gap; exact E|].
  eapply currtok_ok; eauto.
Qed.
Lemma a_check : forall Q g k r t sc h, ahead Q (g ++ k :: r) -> gap g -> ~ fmt k ->
  exists Q', toks = Q' ++ k :: r /\ check toks beyond t (Pst (zlen Q) sc h) = Done (t_type k =? t, Pst (zlen Q') sc h).
Proof.
  intros Q g k r t sc h A G K. destruct (ahead_sig _ _ _ _ A G K) as (g' & E & G'). exists (Q ++ g'). split; [apply at_gap; exact E|].
  eapply check_ok; eauto.
Qed.
Lemma a_left : forall Q g k r sc h, ahead Q (g ++ k :: r) -> gap g -> ~ fmt k ->
  exists l, left toks (Pst (zlen Q) sc h) = Done (l, Pst (zlen Q) sc h) /\ (l =? 0) = false.
Proof. intros Q g k r sc h A G K. destruct (ahead_sig _ _ _ _ A G K) as (g' & E & G'). eapply left_any. exact E. Qed.
Lemma a_eat : forall Q k r t sc h, toks = Q ++ k :: r -> t_type k = t ->
  ahead (Q ++ [k]) r /\ eat src toks beyond ms t (Pst (zlen Q) sc h) = Done (true, Pst (zlen (Q ++ [k])) sc h).
Proof. intros Q k r t sc h E T. split; [apply ahead_self, at_eat, E|]. eapply eat_ok; eauto. Qed.

Lemma last_app_ne : forall (A : Type) (a b : list A) d, b <> [] -> last (a ++ b) d = last b d.
Proof. intros A a b d N. destruct (exists_last N) as (x & y & ->). rewrite app_assoc, !last_last. reflexivity. Qed.
Lemma last_dflt : forall (A : Type) (b : list A) d d', b <> [] -> last b d = last b d'.
Proof. intros A b d d' N. destruct (exists_last N) as (x & y & ->). rewrite !last_last. reflexivity. Qed.
Definition extend (name : token) (a : list token) : token := if a then name else extended name (last a name).
Lemma extend_app : forall name a b, extend (extend name a) b = extend name (a ++ b).
Proof.
  intros name a b. destruct b as [|x b]; [rewrite app_nil_r; reflexivity|]. destruct a as [|y a]; [reflexivity|].
  unfold extend at 1 3. change ((y :: a) ++ x :: b) with (y :: (a ++ x :: b)). unfold extend. change (y :: a ++ x :: b) with ((y :: a) ++ x :: b). rewrite last_app_ne by discriminate.
  unfold extended, set_len. cbn [t_start t_type t_line t_col t_flags]. rewrite (last_dflt _ (x :: b) _ name) by discriminate. reflexivity.
Qed.
Lemma extend_cons : forall name i a, extend (extended name i) a = extend name (i :: a).
Proof.
  intros name i a. change (extended name i) with (extend name [i]). rewrite extend_app. reflexivity.
Qed.

Lemma a_template_args : forall a Q R name sc h, ahead Q (a ++ R) -> template_args src a -> next_is R (ends_name src) -> (length toks <= fuel)%nat ->
  exists Q', ahead Q' R /\ parse_template_args src toks beyond ms fuel name (Pst (zlen Q) sc h) = Done (extend name a, Pst (zlen Q') sc h).
Proof.
  intros a Q R name sc h A T N F. destruct T as [->|(g' & o & r' & -> & G' & O & W & AR)].
  - cbn [app] in A. pose proof N as N'. destruct N' as (g & k & r & -> & G & K & X). destruct (ahead_sig _ _ _ _ A G K) as (g1 & E & G1).
    assert (N1 : next_is (g1 ++ k :: r) (ends_name src)) by (exists g1, k, r; auto).
    destruct (template_args_ok [] Q _ name sc h E (or_introl eq_refl) N1 ltac:(cbn; lia)) as (g2 & R' & E1 & _ & G2 & E2).
    exists (Q ++ [] ++ g2). split; [|exact E2]. cbn [app]. specialize (E1 eq_refl). exists R'. split; [rewrite E, E1, <- app_assoc; reflexivity|].
    assert (E3 : trim (g1 ++ k :: r) = trim R') by (rewrite E1; apply trim_gap; exact G2). rewrite (trim_gap g1) in E3 by exact G1. rewrite (trim_gap g) by exact G. symmetry. exact E3.
  - rewrite <- app_assoc in A. cbn [app] in A. assert (FO : ~ fmt o). { unfold kind in O. unfold fmt. rewrite O. intros [Y|Y]; discriminate Y. }
    destruct (ahead_sig _ _ _ _ A G' FO) as (g1 & E & G1). replace (Q ++ g1 ++ o :: r' ++ R) with (Q ++ (g1 ++ o :: r') ++ R) in E by (rewrite <- app_assoc; reflexivity).
    destruct (template_args_ok (g1 ++ o :: r') Q R name sc h E) as (g2 & R' & _ & E1 & G2 & E2); auto.
    { right. exists g1, o, r'. auto. }
    { rewrite E in F. rewrite !app_length in *. lia. }
    rewrite E1, app_nil_r in E2 by (destruct g1; discriminate). exists (Q ++ g1 ++ o :: r'). split; [apply ahead_self; rewrite <- app_assoc; exact E|].
    rewrite E2. do 2 f_equal. unfold extend. rewrite !last_app_ne by discriminate. destruct g1, g'; reflexivity.
Qed.

Lemma qual_next : forall q R, qualifiers src q -> next_is R (ends_name src) -> q = [] \/ exists g1 c r, q = g1 ++ c :: r /\ gap g1 /\ kind Tok_Access_StaticSymbol c.
Proof. intros q R H _. destruct H; [left; reflexivity|right]. eauto 10. Qed.

Lemma kind_sig : forall t k, kind t k -> t <> Tok_NewLine -> t <> Tok_Comment -> ~ fmt k.
Proof. intros t k K A B. unfold fmt. unfold kind in K. rewrite K. tauto. Qed.
Ltac sig := match goal with H : kind _ _ |- ~ fmt _ => apply (kind_sig _ _ H); discriminate end.

(** template arguments when [::] may follow *)
Lemma b_template_args : forall a q Q R name sc h, ahead Q (a ++ q ++ R) -> template_args src a -> qualifiers src q -> next_is R (ends_name src) -> (length toks <= fuel)%nat ->
  exists Q', ahead Q' (q ++ R) /\ parse_template_args src toks beyond ms fuel name (Pst (zlen Q) sc h) = Done (extend name a, Pst (zlen Q') sc h).
Proof.
  intros a q Q R name sc h A T QQ N F. destruct QQ as [|g1 c g2 i a' q' H1 H2 H3 H4 H5 H6].
  - apply a_template_args; auto.
  - destruct T as [->|T].
    + cbn [app] in A. rewrite <- app_assoc in A. cbn [app] in A. assert (K : ~ fmt c) by sig. destruct (a_currtok _ _ _ _ sc h A H1 K) as (Q' & E & C). exists Q'.
      split. { rewrite <- app_assoc. exists ((c :: (g2 ++ i :: a' ++ q') ++ R)). split; [exact E|]. cbn [app]. rewrite trim_gap by exact H1. reflexivity. }
      unfold parse_template_args. erewrite bind_ok by exact C. replace (t_type c =? Tok_Operator) with false by (rewrite H2; reflexivity). reflexivity.
    + destruct T as (g' & o & r' & -> & G' & O & W & AR).
      assert (FO : ~ fmt o) by sig.
      set (q := g1 ++ c :: g2 ++ i :: a' ++ q') in *. rewrite <- app_assoc in A. cbn [app] in A.
      destruct (ahead_sig _ _ _ _ A G' FO) as (g3 & E & G3). apply at_gap in E. pose proof (src_of _ _ _ E) as SK.
      exists (Q ++ g3 ++ o :: r'). split; [apply ahead_self; rewrite E, <- !app_assoc; reflexivity|].
      unfold parse_template_args. erewrite bind_ok by (eapply currtok_ok; [rewrite <- app_assoc in E; exact E|exact G3|exact FO]).
      assert (LN : t_len o = 1) by (rewrite <- word_len, W by exact SK; reflexivity).
      assert (B : (t_type o =? Tok_Operator) && (char_of src o 0 =? 60) && (t_len o =? 1) = true) by (rewrite char0, (word_first o _ _ SK W), LN, O; reflexivity). rewrite B. clear B.
      erewrite bind_ok by (eapply eat_ok; [exact E|exact O]). apply at_eat in E.
      assert (LR : (length r' <= fuel)%nat) by (rewrite E in F; rewrite !app_length in F; lia).
      destruct (args_ok fuel 0 r' LR AR _ _ sc h E) as (lv & Q1 & E1 & E2).
      change (Z.of_nat 0) with 0 in E1. erewrite bind_ok by exact E1. pose proof (args_nonempty _ _ AR) as NE.
      destruct (exists_last NE) as (x & z & XZ).
      assert (F' : toks = ((Q ++ g3 ++ o :: x) ++ [z]) ++ q ++ R) by (rewrite E, XZ, <- !app_assoc; reflexivity).
      assert (Q0 : ((Q ++ g3) ++ [o]) ++ r' = (Q ++ g3 ++ o :: x) ++ [z]) by (rewrite XZ, <- !app_assoc; reflexivity).
      assert (END : prevtok toks beyond (Pst (zlen ((Q ++ g3 ++ o :: x) ++ [z])) sc h) = Done (z, Pst (zlen ((Q ++ g3 ++ o :: x) ++ [z])) sc h)) by (eapply prevtok_ok; exact F').
      replace (Q ++ g3 ++ o :: r') with ((Q ++ g3 ++ o :: x) ++ [z]) by (rewrite XZ, <- !app_assoc; reflexivity).
      assert (RES : extend name (g' ++ o :: r') = extended name z). { unfold extend. rewrite XZ. replace (g' ++ o :: x ++ [z]) with ((g' ++ o :: x) ++ [z]) by (rewrite <- app_assoc; reflexivity). rewrite last_last. destruct g'; reflexivity. }
      rewrite RES. destruct E2 as [(-> & q0 & Q2 & Q3)|(-> & Q2)].
      * cbn [Z.eqb]. rewrite Q0 in Q2. apply app_inj_tail in Q2. destruct Q2 as [-> ->].
        erewrite bind_ok. 2:{ eapply (eat_ok src toks beyond ms _ z (q ++ R)); [rewrite <- app_assoc in F'; exact F'|exact Q3]. }
        erewrite bind_ok by exact END. reflexivity.
      * cbn [Z.eqb]. rewrite Q2, Q0. unfold bind at 1. cbn [ret rbind]. erewrite bind_ok by exact END. reflexivity.
Qed.

Lemma identifier_loop_ok : forall n q Q R name s0 sc h, ahead Q (q ++ R) -> qualifiers src q -> next_is R (ends_name src) -> (length toks <= fuel)%nat -> (length q <= n)%nat ->
  exists Q', toks = Q' ++ trim R /\ identifier_loop src toks beyond ms fuel n name (Pst (zlen Q) (s0 :: sc) h) = Done (Some (extend name q), Pst (zlen Q') sc h).
Proof.
  induction n as [|n IH]; intros q Q R name s0 sc h A QQ N F L.
  - destruct q; [|cbn in L; lia]. cbn [app] in A. destruct N as (g & k & r & -> & G & K & X1 & X2). destruct (a_check _ _ _ _ Tok_Access_StaticSymbol (s0 :: sc) h A G K) as (Q' & E & C).
    cbn [identifier_loop]. erewrite bind_ok by exact C. replace (t_type k =? Tok_Access_StaticSymbol) with false by lia. cbn [negb].
    exists Q'. split; [|reflexivity]. rewrite trim_gap, trim_sig by auto. exact E.
  - destruct QQ as [|g1 c g2 i a q' H1 H2 H3 H4 H5 H6].
    + cbn [app] in A. destruct N as (g & k & r & -> & G & K & X1 & X2). destruct (a_check _ _ _ _ Tok_Access_StaticSymbol (s0 :: sc) h A G K) as (Q' & E & C).
      cbn [identifier_loop]. erewrite bind_ok by exact C. replace (t_type k =? Tok_Access_StaticSymbol) with false by lia. cbn [negb].
      exists Q'. split; [|reflexivity]. rewrite trim_gap, trim_sig by auto. exact E.
    + assert (K : ~ fmt c) by sig. assert (KI : ~ fmt i) by sig. rewrite <- app_assoc in A. cbn [app] in A. rewrite <- app_assoc in A. cbn [app] in A. rewrite <- app_assoc in A.
      cbn [identifier_loop]. destruct (a_check _ _ _ _ Tok_Access_StaticSymbol (s0 :: sc) h A H1 K) as (Q1 & E1 & C1). erewrite bind_ok by exact C1.
      rewrite H2, Z.eqb_refl. cbn [negb]. destruct (a_eat Q1 c _ Tok_Access_StaticSymbol (s0 :: sc) h E1 H2) as (A2 & C2). erewrite bind_ok by exact C2.
      destruct (a_left _ _ _ _ (s0 :: sc) h A2 H3 KI) as (l & E3 & E4). erewrite bind_ok by exact E3. rewrite E4.
      destruct (a_currtok _ _ _ _ (s0 :: sc) h A2 H3 KI) as (Q2 & E5 & C3). erewrite bind_ok by exact C3.
      unfold kind in H4. rewrite H4. cbn [andb].
      replace (Tok_Identifier =? Tok_Operator) with false by reflexivity. cbn [andb]. rewrite Z.eqb_refl. cbn [negb].
      destruct (a_eat Q2 i _ Tok_Identifier (s0 :: sc) h E5 H4) as (A3 & C4). erewrite bind_ok by exact C4.
      destruct (b_template_args a q' _ R (extended name i) (s0 :: sc) h A3 H5 H6 N F) as (Q3 & A4 & C5). unfold extended in C5. erewrite bind_ok by exact C5.
      destruct (IH q' Q3 R (extend (extended name i) a) s0 sc h A4 H6 N F) as (Q4 & A5 & C6).
      { rewrite app_length in L. cbn [length] in L. rewrite app_length in L. cbn [length] in L. rewrite app_length in L. lia. }
      exists Q4. split; [exact A5|]. unfold extended in C6 |- *. rewrite C6. do 3 f_equal.
      change (set_len (end_of i - t_start name) name) with (extended name i). rewrite extend_app, extend_cons.
      unfold extend. destruct (g1 ++ c :: g2 ++ i :: a ++ q') eqn:Z; [destruct g1; discriminate|]. rewrite <- Z. rewrite last_app_ne by discriminate.
      change (c :: g2 ++ i :: a ++ q') with ((c :: g2) ++ i :: a ++ q'). rewrite last_app_ne by discriminate. reflexivity.
Qed.

(** the length of the text *)
Lemma extend_text : forall first a, text_of src (extend first a) = upto first (last a first).
Proof. intros first [|x a]; [rewrite <- word_text; reflexivity|]. reflexivity. Qed.

Lemma identifier_at : forall raw t Q R g sc h, ahead Q (g ++ raw ++ R) -> gap g -> named src raw t -> next_is R (ends_name src) -> (length toks <= fuel)%nat ->
  exists Q' name, toks = Q' ++ trim R /\ parse_identifier src toks beyond ms fuel (Pst (zlen Q) sc h) = Done (Some name, Pst (zlen Q') sc h) /\
    text_of src name = t /\ t_type name = Tok_Identifier /\ (t <> [] -> t_len name <> 0).
Proof.
  intros raw t Q R g sc h A G NM N F. destruct NM as [first a q K TA QQ]. rewrite <- !app_comm_cons in A. assert (KF : ~ fmt first) by sig.
  unfold parse_identifier. unfold push_scope. unfold bind at 1. cbn [rbind p_idx p_scopes p_heap].
  set (sc' := (zlen Q, "parse_identifier"%string) :: sc).
  destruct (a_currtok _ _ _ _ sc' h A G KF) as (Q1 & E1 & C1). erewrite bind_ok by exact C1.
  assert (A1 : ahead Q1 ([] ++ first :: (a ++ q) ++ R)) by (apply ahead_self; exact E1).
  destruct (a_check _ _ _ _ Tok_Identifier sc' h A1 ltac:(constructor) KF) as (Q2 & E2 & C2). erewrite bind_ok by exact C2.
  rewrite K, Z.eqb_refl. cbn [orb]. destruct (a_eat Q2 first _ Tok_Identifier sc' h E2 K) as (A2 & C3). erewrite bind_ok by exact C3.
  rewrite <- app_assoc in A2. destruct (b_template_args a q _ R first sc' h A2 TA QQ N F) as (Q3 & A3 & C4). erewrite bind_ok by exact C4.
  assert (LQ : (length q <= fuel)%nat). { rewrite E2 in F. rewrite app_length in F. cbn [length] in F. rewrite !app_length in F. lia. }
  destruct (identifier_loop_ok fuel q Q3 R (extend first a) (zlen Q, "parse_identifier"%string) sc h A3 QQ N F LQ) as (Q4 & A4 & C5).
  exists Q4, (extend first (a ++ q)). split; [exact A4|]. split; [unfold sc'; rewrite C5, extend_app; reflexivity|]. rewrite extend_text. split; [reflexivity|].
  split. { unfold extend. destruct (a ++ q); exact K. }
  intros NE Z. apply NE. rewrite <- extend_text. unfold text_of, slice. rewrite Z. reflexivity.
Qed.
Lemma identifier_ok : forall raw t Q R g sc h, ahead Q (g ++ raw ++ R) -> gap g -> named src raw t -> next_is R (ends_name src) -> (length toks <= fuel)%nat ->
  exists Q' name, ahead Q' R /\ parse_identifier src toks beyond ms fuel (Pst (zlen Q) sc h) = Done (Some name, Pst (zlen Q') sc h) /\
    text_of src name = t /\ t_type name = Tok_Identifier /\ (t <> [] -> t_len name <> 0).
Proof.
  intros raw t Q R g sc h A G NM N F. destruct (identifier_at raw t Q R g sc h A G NM N F) as (Q' & name & E & X). exists Q', name. split; [|exact X]. exists (trim R). split; [exact E|].
  clear. induction R as [|f l IH]; [reflexivity|]. cbn [trim]. destruct (is_formatting (t_type f)) eqn:F; [exact IH|]. cbn [trim]. rewrite F. reflexivity.
Qed.
End P.
