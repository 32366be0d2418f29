From Coq Require Import String ZArith List Bool Lia ZifyBool ZifyNat.
From Verif Require Import Common CommonProofs Text ArrayModel ArrayProofs MemModel MemSpec MemPropProofs
  StrOpsModel StrOpsSpec StrOpsProofs CsvModel CsvSpec CsvProofs.
Import ListNotations.
Close Scope string_scope. Open Scope Z_scope.

(** the node [it] holds cell [c]; its text lies in [lo, hi) or is the literal *)
Definition item_is (empty : Z) (m : mem) (lo hi : Z) (it : item) (c : cell) : Prop :=
  cstr m (it_str it) (content c) /\ it_quoted it = is_quoted c /\
  ((it_str it = empty /\ content c = []) \/ (lo <= it_str it /\ it_str it + zlen (content c) < hi)).

(** what may follow a field *)
Definition follows (d : Z) (f : field) (tl : list Z) : Prop :=
  (tl = [] /\ after f = [] /\ the f <> Empty) \/ (tl <> [] /\ (hd 0 tl = d \/ (hd 0 tl = 10 /\ the f <> Empty))).

Lemma body_hd d c : delim_ok d -> cell_ok d c -> c <> Empty -> cell_body c <> [] /\ ~ In (hd 0 (cell_body c)) BLANKS.
Proof.
  intros D H N. destruct c as [|t|t]; [contradiction| |].
  - destruct H as ((NE & _) & _ & HD & _). cbn. split; auto. intros HI. apply HD. right. auto.
  - cbn. split; [discriminate|]. lia.
Qed.

Lemma step_field empty d m f tl fuel cols ci tot cur : delim_ok d -> byte_mem m -> 0 < cur -> m empty = 0 -> field_ok d f ->
  cstr m cur (field_text f ++ tl) -> follows d f tl -> (length (field_text f ++ tl) <= fuel)%nat ->
  exists m' it, csv_step fuel empty d (St m cur cols ci tot) =
      place_cell m' it (cur + zlen (field_text f)) (hd 0 tl) d (St m cur cols ci tot) /\
    byte_mem m' /\ (forall x, ~ (cur <= x < cur + zlen (field_text f) + 1) -> m' x = m x) /\
    (m' empty = 0 -> item_is empty m' cur (cur + zlen (field_text f) + 1) it (the f)) /\
    (tl = [] -> m' (cur + zlen (field_text f)) = 0).
Proof.
  intros D BM Hcur HE (CO & PRE & POST & EM) HC HF L.
  unfold follows in HF. destruct f as [pre c post]. unfold field_text in *. cbn [before the after] in *.
  rewrite <- !app_assoc in HC, L.
  pose proof (zlen_pos pre). pose proof (zlen_pos post). pose proof (zlen_pos (cell_body c)).
  assert (HB : cell_body c ++ post ++ tl = [] \/ ~ In (hd 0 (cell_body c ++ post ++ tl)) BLANKS).
  { destruct c as [|t|t].
    - right. rewrite EM by auto. cbn [cell_body app]. destruct HF as [(_ & _ & F)|(NE & [F|[_ F]])]; try contradiction.
      rewrite F. intros HI. destruct D as [_ D]. apply D. right. auto.
    - right. destruct (body_hd d (Plain t) D CO) as [Q1 Q2]; [discriminate|]. destruct (cell_body (Plain t)); [contradiction|]. auto.
    - right. destruct (body_hd d (Quoted t) D CO) as [Q1 Q2]; [discriminate|]. destruct (cell_body (Quoted t)); [contradiction|]. auto. }
  assert (TR : c_str_trim fuel m cur false = Some (cur + zlen pre)) by (apply (trim_before m cur pre (cell_body c ++ post ++ tl)); auto).
  apply cstr_app in HC. destruct HC as (_ & _ & HC). set (b := cur + zlen pre) in *.
  assert (LB : (length (cell_body c ++ post ++ tl) <= fuel)%nat) by (rewrite app_length in L; lia).
  unfold csv_step. cbn [s_mem s_cur]. rewrite TR. cbn [of_opt rbind]. fold b.
  destruct c as [|t|t].
  - (* nothing before the delimiter *)
    rewrite (EM eq_refl) in *. cbn [cell_body app] in *. destruct HF as [(_ & _ & F)|(NE & [F|[_ F]])]; try contradiction.
    pose proof (cstr_hd _ _ _ HC) as Hh. rewrite F in Hh. rewrite Hh. destruct D as [D1 D2].
    assert (d <> 34) by (intros ->; apply D2; left; auto).
    replace (d =? 0) with false by lia. replace (d =? 34) with false by lia. rewrite Z.eqb_refl. cbn [rbind].
    exists m, (Item empty false). rewrite app_nil_r. fold b. rewrite F.
    split; [auto|]. split; [auto|]. split; [auto|]. split.
    + intros Hz. split; [|split]; cbn; auto. split; [|split]; auto. cbn. rewrite Z.add_0_r. auto.
    + intros ->. cbn in F. lia.
  - pose proof CO as CO2. destruct CO2 as ((NE & FB) & PL & HD & _). cbn [cell_body] in *.
    destruct t as [|c t']; [contradiction|]. cbn [hd] in HD.
    pose proof (cstr_hd _ _ _ HC) as Hh. cbn [app hd] in Hh. rewrite Hh. inversion FB; subst. inversion PL; subst.
    assert (m b <> 34) by (intros E; apply HD; left; auto).
    replace (m b =? 0) with false by lia. replace (m b =? 34) with false by lia. replace (m b =? d) with false by lia.
    destruct (plain_ok d m b (m b :: t') post tl fuel) as (m' & P1 & P2 & P3 & P4); auto; [lia| |].
    { destruct HF as [(-> & -> & _)|(NT & [F|[F _]])]; [left; auto|right; auto|right; auto]. }
    rewrite P1. cbn [rbind]. exists m', (Item b false).
    replace (cur + zlen (pre ++ (m b :: t') ++ post)) with (b + zlen (m b :: t') + zlen post) by (unfold b; zl; lia).
    split; [auto|]. split; [auto|]. split; [|split].
    + intros x Hx. apply P4. lia.
    + intros _. split; [|split]; cbn [it_str it_quoted content is_quoted]; auto. right. zl. lia.
    + intros ->. destruct HF as [(_ & -> & _)|(NT & _)]; [|contradiction]. destruct P3 as (_ & _ & P3). zl. rewrite Z.add_0_r. auto.
  - assert (LB' : (length ([34%Z] ++ doubled t ++ [34%Z] ++ post ++ tl) <= fuel)%nat) by (cbn [cell_body] in LB; rewrite <- !app_assoc in LB; auto).
    cbn [cell_body] in HC. rewrite <- !app_assoc in HC.
    pose proof (cstr_hd _ _ _ HC) as Hh. cbn [app hd] in Hh. rewrite Hh. cbn [Z.eqb Pos.eqb].
    assert (HT : tl = [] \/ tail_ok d post tl).
    { destruct HF as [(-> & -> & _)|(NT & [F|[F _]])]; [left; auto|right; right; auto|right; right; auto]. }
    destruct (quoted_ok d m b t post tl fuel) as (m' & P1 & P2 & P3 & P4); auto; [lia|].
    rewrite P1. cbn [rbind]. exists m', (Item (b + 1) true).
    replace (cur + zlen (pre ++ cell_body (Quoted t) ++ post)) with (b + 2 + zlen (doubled t) + zlen post) by (unfold b; cbn [cell_body]; zl; lia).
    pose proof (doubled_len t) as DL. pose proof (zlen_pos t).
    split; [auto|]. split; [auto|]. split; [|split].
    + intros x Hx. apply P4. lia.
    + intros _. split; [|split]; cbn [it_str it_quoted content is_quoted]; auto. right. unfold zlen in *. lia.
    + intros ->. destruct HF as [(_ & -> & _)|(NT & _)]; [|contradiction]. rewrite P4 by (zl; lia). zl.
      apply cstr_cons in HC. destruct HC as (_ & _ & HC). apply cstr_app in HC. destruct HC as (_ & _ & HC). apply cstr_cons in HC. destruct HC as (_ & _ & HC).
      apply cstr_nil in HC. rewrite <- HC. f_equal. lia.
Qed.

(** ** the columns, as lists of cells *)
Definition col_is (empty : Z) (m : mem) (lo hi : Z) (col : column) (cs : list cell) : Prop :=
  col_name col = 0 /\ Forall2 (item_is empty m lo hi) (col_items col) cs.
(** append the cells of a line to the columns, column by column; extra cells open new columns *)
Fixpoint zip_app (abs : list (list cell)) (r : list cell) : list (list cell) :=
  match abs, r with
  | [], r => map (fun c => [c]) r
  | a :: abs, c :: r => (a ++ [c]) :: zip_app abs r
  | abs, [] => abs
  end.

Lemma item_is_mono empty m m' lo hi lo' hi' it c : item_is empty m lo hi it c -> lo' <= lo -> hi <= hi' ->
  (forall x, lo <= x < hi -> m' x = m x) -> m' empty = 0 -> item_is empty m' lo' hi' it c.
Proof.
  intros (H1 & H2 & H3) L1 L2 E Z0. split; [|split]; auto.
  - destruct H3 as [[-> ->]|H3]; [split; [auto|split; [auto|cbn; rewrite Z.add_0_r; auto]]|]. apply (cstr_ext m); auto. intros x Hx. apply E. lia.
  - destruct H3 as [H3|H3]; [auto|right; lia].
Qed.
Lemma col_is_mono empty m m' lo hi lo' hi' col cs : col_is empty m lo hi col cs -> lo' <= lo -> hi <= hi' ->
  (forall x, lo <= x < hi -> m' x = m x) -> m' empty = 0 -> col_is empty m' lo' hi' col cs.
Proof.
  intros (H1 & H2) L1 L2 E Z0. split; auto. induction H2; constructor; auto. eapply item_is_mono; eauto.
Qed.

Lemma zip_app_nil abs : zip_app abs [] = abs. Proof. destruct abs; auto. Qed.
Lemma zip_app_len : forall abs r, length (zip_app abs r) = Nat.max (length abs) (length r).
Proof. induction abs as [|a abs IH]; intros [|c r]; cbn [zip_app length map]; auto; [rewrite map_length; auto|]. rewrite IH. lia. Qed.

Lemma Forall2_length {A B} (P : A -> B -> Prop) l l' : Forall2 P l l' -> length l = length l'.
Proof. induction 1; cbn; auto. Qed.

(** appending the next cell of the line at column [length p] *)
Lemma append_zip empty m lo hi it c : item_is empty m lo hi it c -> forall abs p cols,
  Forall2 (col_is empty m lo hi) cols (zip_app abs p) ->
  exists cols', append_to (length p) it (if Z.of_nat (length p) >=? Z.of_nat (length cols) then cols ++ [Column 0 []] else cols) = Some cols' /\
    Forall2 (col_is empty m lo hi) cols' (zip_app abs (p ++ [c])).
Proof.
  intros HI abs p cols H. pose proof (Forall2_length _ _ _ H) as LE. rewrite zip_app_len in LE. revert p cols H LE. induction abs as [|a abs IH]; intros p cols H LE.
  - cbn [zip_app length] in *. replace (Z.of_nat (length p) >=? Z.of_nat (length cols)) with true by lia.
    clear LE. revert cols H. induction p as [|q p IHp]; intros cols H; cbn [map app length] in *.
    + inversion H; subst. cbn [append_to app]. eexists. split; [reflexivity|]. constructor; auto. split; cbn; auto.
    + inversion H as [|col y r l' HC HR]; subst. cbn [append_to app]. destruct (IHp r HR) as (cols' & E1 & E2). rewrite E1. cbn [option_map].
      eexists. split; [reflexivity|]. constructor; auto.
  - destruct p as [|q p]; cbn [zip_app app length] in *.
    + inversion H as [|col y r l' HC HR]; subst. replace (Z.of_nat 0 >=? Z.of_nat (length (col :: r))) with false by (cbn [length]; lia).
      cbn [append_to]. eexists. split; [reflexivity|]. rewrite zip_app_nil. constructor; auto. destruct HC as [C1 C2]. split; cbn [col_name col_items]; auto.
      apply Forall2_app; auto.
    + inversion H as [|col y r l' HC HR]; subst. cbn [length] in LE. destruct (IH p r HR) as (cols' & E1 & E2); [lia|].
      cbn [length]. destruct (Z.of_nat (length p) >=? Z.of_nat (length r)) eqn:Q.
      * replace (Z.of_nat (S (length p)) >=? Z.of_nat (S (length r))) with true by lia. cbn [app append_to]. rewrite E1. cbn. eexists. split; [reflexivity|]. constructor; auto.
      * replace (Z.of_nat (S (length p)) >=? Z.of_nat (S (length r))) with false by lia. cbn [app append_to]. rewrite E1. cbn. eexists. split; [reflexivity|]. constructor; auto.
Qed.

(** ** the loop *)
Section Loop.
Variables (empty d lo top : Z) (fuel : nat).
Hypothesis D : delim_ok d.
Hypothesis LO : 0 < lo.
Hypothesis EO : ~ (lo <= empty <= top).
(** [m0]: memory before the call *)
Variable m0 : mem.
Definition good (m : mem) : Prop := byte_mem m /\ forall x, ~ (lo <= x <= top) -> m x = m0 x.

(** [R] is what is left of the text; the cells read so far are [abs] plus the partial line [p] *)
Definition inv (s : csv_st) (R : list Z) (abs : list (list cell)) (p : list cell) (tot : Z) : Prop :=
  good (s_mem s) /\ s_mem s empty = 0 /\ lo <= s_cur s /\ s_cur s + zlen R = top /\ cstr (s_mem s) (s_cur s) R /\ (length R <= fuel)%nat /\
  Forall2 (col_is empty (s_mem s) lo (s_cur s)) (s_cols s) (zip_app abs p) /\ s_col s = zlen p /\ s_tot s = tot.


Lemma step_general s f tl abs p tot : inv s (field_text f ++ tl) abs p tot -> field_ok d f -> follows d f tl ->
  exists m' cols' it, csv_step fuel empty d s = place_cell m' it (s_cur s + zlen (field_text f)) (hd 0 tl) d s /\
    append_to (Z.to_nat (s_col s)) it (if s_col s >=? Z.of_nat (length (s_cols s)) then s_cols s ++ [Column 0 []] else s_cols s) = Some cols' /\
    good m' /\ m' empty = 0 /\ (tl = [] -> m' (s_cur s + zlen (field_text f)) = 0) /\
    (tl <> [] -> cstr m' (s_cur s + zlen (field_text f) + 1) (List.tl tl)) /\
    Forall2 (col_is empty m' lo (s_cur s + zlen (field_text f) + 1)) cols' (zip_app abs (p ++ [the f])).
Proof.
  intros (I1 & I2 & I3 & I4 & I5 & I6 & I7 & I8 & I9) FO FL.
  pose proof (zlen_pos (field_text f)). pose proof (zlen_pos tl). rewrite zlen_app in I4.
  destruct s as [m cur cols ci t]. cbn [s_mem s_cur s_cols s_col s_tot] in *.
  destruct (step_field empty d m f tl fuel cols ci t cur) as (m' & it & S1 & S2 & S3 & S4 & S5); auto; [apply I1|lia|].
  assert (ME : m' empty = 0) by (rewrite S3; auto; lia).
  specialize (S4 ME).
  assert (IT : item_is empty m' lo (cur + zlen (field_text f) + 1) it (the f)) by (apply (item_is_mono empty m' m' cur (cur + zlen (field_text f) + 1)); auto; lia).
  destruct (append_zip _ _ _ _ _ _ IT abs p cols) as (cols' & A1 & A2).
  { clear - I7 S3 ME I3 H. induction I7; constructor; auto. apply (col_is_mono empty m m' lo cur); auto; [lia|lia|]. intros z Hz. apply S3. lia. }
  exists m', cols', it. split; [auto|]. split; [subst ci; unfold zlen in *; rewrite Nat2Z.id; auto|].
  split; [split; [auto|]; intros x Hx; rewrite S3 by lia; apply I1; auto|]. split; [auto|]. split; [auto|]. split; [|auto].
  intros HN. apply cstr_app in I5. destruct I5 as (_ & _ & I5). destruct tl as [|c r]; [contradiction|]. apply cstr_cons in I5. destruct I5 as (_ & _ & I5).
  apply (cstr_ext m); auto. intros x Hx. apply S3. lia.
Qed.

Lemma sep_field s f R abs p tot : inv s (field_text f ++ d :: R) abs p tot -> field_ok d f ->
  exists s', csv_step fuel empty d s = Done (Next s') /\ inv s' R abs (p ++ [the f]) tot.
Proof.
  intros I FO. destruct (step_general s f (d :: R) abs p tot I FO) as (m' & cols' & it & S1 & S2 & S3 & S4 & _ & S6 & S7).
  { right. split; [discriminate|]. left. auto. }
  rewrite S1. unfold place_cell. rewrite S2. cbn [hd]. rewrite Z.eqb_refl. eexists. split; [reflexivity|].
  destruct I as (I1 & I2 & I3 & I4 & I5 & I6 & I7 & I8 & I9). cbn [List.tl] in S6. specialize (S6 ltac:(discriminate)).
  pose proof (zlen_pos (field_text f)). zl.
  unfold inv. cbn [s_mem s_cur s_cols s_col s_tot]. split; [auto|]. split; [auto|]. split; [lia|]. split; [lia|]. split; [auto|]. split; [rewrite app_length in I6; cbn in I6; lia|]. split; [auto|]. split; [zl; lia|auto].
Qed.
Lemma nl_field s f R abs p tot : inv s (field_text f ++ 10 :: R) abs p tot -> field_ok d f -> the f <> Empty ->
  if tot <=? zlen p then exists s', csv_step fuel empty d s = Done (Next s') /\ inv s' R (zip_app abs (p ++ [the f])) [] (zlen p)
  else exists s', csv_step fuel empty d s = Done (Fail CSV_MISMATCHED_ROWS s').
Proof.
  intros I FO NE. destruct (step_general s f (10 :: R) abs p tot I FO) as (m' & cols' & it & S1 & S2 & S3 & S4 & _ & S6 & S7).
  { right. split; [discriminate|]. right. auto. }
  rewrite S1. unfold place_cell. rewrite S2. cbn [hd].
  destruct D as [_ D2]. replace (10 =? d) with false. 2:{ symmetry. apply Z.eqb_neq. intros <-. apply D2. cbn. tauto. }
  cbn [Z.eqb Pos.eqb orb negb].
  destruct I as (I1 & I2 & I3 & I4 & I5 & I6 & I7 & I8 & I9). cbn [List.tl] in S6. specialize (S6 ltac:(discriminate)).
  pose proof (zlen_pos (field_text f)). zl. rewrite I8, I9.
  assert (X : forall t, t = zlen p -> inv (St m' (s_cur s + zlen (field_text f) + 1) cols' 0 t) R (zip_app abs (p ++ [the f])) [] (zlen p)).
  { intros t ->. unfold inv. cbn [s_mem s_cur s_cols s_col s_tot]. rewrite zip_app_nil. split; [auto|]. split; [auto|]. split; [lia|]. split; [lia|]. split; [auto|]. split; [rewrite app_length in I6; cbn in I6; lia|]. split; [auto|]. split; [reflexivity|auto]. }
  destruct (tot <? zlen p) eqn:Q1.
  - replace (tot <=? zlen p) with true by lia. eexists. split; [reflexivity|]. apply X. auto.
  - destruct (tot =? zlen p) eqn:Q2.
    + replace (tot <=? zlen p) with true by lia. cbn [negb]. eexists. split; [reflexivity|]. apply X. lia.
    + replace (tot <=? zlen p) with false by lia. cbn [negb]. eexists. reflexivity.
Qed.

(** the end: the columns are [abs] *)
Definition fin (s : csv_st) (abs : list (list cell)) : Prop :=
  s_mem s (s_cur s) = 0 /\ Forall2 (col_is empty (s_mem s) lo (top + 1)) (s_cols s) abs /\ good (s_mem s).
Lemma eof_field s f abs p tot : inv s (field_text f) abs p tot -> field_ok d f -> the f <> Empty -> after f = [] ->
  if tot <=? zlen p then exists s', csv_step fuel empty d s = Done (Next s') /\ fin s' (zip_app abs (p ++ [the f]))
  else exists s', csv_step fuel empty d s = Done (Fail CSV_MISMATCHED_ROWS s').
Proof.
  intros I FO NE AF. rewrite <- (app_nil_r (field_text f)) in I. destruct (step_general s f [] abs p tot I FO) as (m' & cols' & it & S1 & S2 & S3 & S4 & S5 & _ & S7).
  { left. auto. }
  rewrite S1. unfold place_cell. rewrite S2. cbn [hd].
  destruct D as [D1 D2]. replace (0 =? d) with false by lia. cbn [Z.eqb Pos.eqb orb negb].
  destruct I as (I1 & I2 & I3 & I4 & I5 & I6 & I7 & I8 & I9). rewrite app_nil_r in I4. rewrite I4 in S7. rewrite I8, I9.
  specialize (S5 eq_refl).
  assert (X : forall t, fin (St m' (s_cur s + zlen (field_text f)) cols' 0 t) (zip_app abs (p ++ [the f]))) by (intros t; split; auto).
  destruct (tot <? zlen p) eqn:Q1.
  - replace (tot <=? zlen p) with true by lia. eexists. split; [reflexivity|]. apply X.
  - destruct (tot =? zlen p) eqn:Q2.
    + replace (tot <=? zlen p) with true by lia. cbn [negb]. eexists. split; [reflexivity|]. apply X.
    + replace (tot <=? zlen p) with false by lia. cbn [negb]. eexists. reflexivity.
Qed.

(** the loop test, then the loop *)
Definition enter (n : nat) (s : csv_st) : run (Z * csv_st) :=
  if s_mem s (s_cur s) =? 0 then Done (CSV_NONE, s) else csv_loop n fuel empty d s.
Lemma loop_next n s s' : csv_step fuel empty d s = Done (Next s') -> csv_loop (S n) fuel empty d s = enter n s'.
Proof. intros E. cbn [csv_loop]. rewrite E. cbn [rbind]. reflexivity. Qed.
Lemma loop_fail n s e s' : csv_step fuel empty d s = Done (Fail e s') -> csv_loop n fuel empty d s = Done (e, s').
Proof. intros E. destruct n; cbn [csv_loop]; rewrite E; reflexivity. Qed.
Lemma enter_loop n s R abs p tot : inv s R abs p tot -> R <> [] -> enter n s = csv_loop n fuel empty d s.
Proof. intros (_ & _ & _ & _ & I5 & _) N. unfold enter. destruct R; [contradiction|]. apply cstr_cons in I5. replace (_ =? 0) with false by lia. auto. Qed.

Lemma blank_tail n s bs abs tot : inv s bs abs [] tot -> Forall (fun b => In b BLANKS) bs ->
  exists s', enter n s = Done (CSV_NONE, s') /\ fin s' abs.
Proof.
  intros I FB. pose proof I as (I1 & I2 & I3 & I4 & I5 & I6 & I7 & I8 & I9). rewrite zip_app_nil in I7. pose proof (zlen_pos bs).
  assert (FI : forall t m cur c, m = s_mem s -> m cur = 0 -> fin (St m cur (s_cols s) c t) abs).
  { intros t m cur c -> Hm. split; [auto|]. split; auto. cbn. clear - I7 I4 H I2. induction I7; constructor; auto. apply (col_is_mono empty (s_mem s) (s_mem s) lo (s_cur s)); auto; lia. }
  destruct bs as [|b bs].
  - pose proof (cstr_nil _ _ I5) as Z0. unfold enter. rewrite Z0. cbn [Z.eqb]. exists s. split; auto. destruct s. apply (FI s_tot s_mem s_cur s_col); auto.
  - rewrite (enter_loop n s _ _ _ _ I) by discriminate.
    assert (E : csv_step fuel empty d s = Done (Stop (St (s_mem s) top (s_cols s) (s_col s) (s_tot s)))).
    { unfold csv_step. rewrite <- (app_nil_r (b :: bs)) in I5. rewrite (trim_before _ _ (b :: bs) [] fuel I5); auto; [|rewrite app_nil_r; auto].
      cbn [of_opt rbind]. rewrite I4. rewrite app_nil_r in I5. destruct I5 as (_ & _ & I5). rewrite I4 in I5. rewrite I5. reflexivity. }
    eexists. split; [destruct n; cbn [csv_loop]; rewrite E; reflexivity|]. apply FI; auto.
    destruct I5 as (_ & _ & I5). rewrite I4 in I5. auto.
Qed.

Lemma row_text_cons f g r : row_text d (f :: g :: r) = field_text f ++ d :: row_text d (g :: r). Proof. reflexivity. Qed.
Lemma field_nonempty f : field_ok d f -> the f <> Empty -> field_text f <> [].
Proof.
  intros (C & _) N. unfold field_text. destruct (body_hd d _ D C N) as [Q _]. destruct (before f); [|discriminate]. destruct (cell_body (the f)); [contradiction|discriminate].
Qed.
Lemma row_nonempty r : r <> [] -> row_ok d r -> row_text d r <> [].
Proof.
  intros NE [F L]. destruct r as [|f [|g r]]; [contradiction| |].
  - cbn in *. inversion F; subst. apply field_nonempty; auto.
  - rewrite row_text_cons. destruct (field_text f); discriminate.
Qed.

(** one line followed by a newline *)
Lemma row_nl R abs tot : forall r p s n, r <> [] -> row_ok d r -> inv s (row_text d r ++ 10 :: R) abs p tot ->
  (length (row_text d r ++ 10%Z :: R) <= n)%nat ->
  if tot <=? zlen p + zlen r - 1 then exists s' n', csv_loop n fuel empty d s = enter n' s' /\ (length R <= n')%nat /\
        inv s' R (zip_app abs (p ++ map the r)) [] (zlen p + zlen r - 1)
  else exists s', csv_loop n fuel empty d s = Done (CSV_MISMATCHED_ROWS, s').
Proof.
  induction r as [|f [|g r] IH]; intros p s n NE RO I Ln; [contradiction| |].
  - cbn [row_text map] in *. destruct RO as [F L]. inversion F; subst. cbn in L.
    pose proof (nl_field s f R abs p tot I H1 L) as H. zl. replace (zlen p + (1 + zlen (@nil field)) - 1) with (zlen p) by (zl; lia).
    replace (zlen p + (1 + 0) - 1) with (zlen p) by lia.
    destruct (tot <=? zlen p).
    + destruct H as (s' & E & I'). rewrite app_length in Ln. cbn in Ln. destruct n as [|n]; [lia|]. exists s', n. rewrite (loop_next n s s' E). split; [auto|]. split; [lia|auto].
    + destruct H as (s' & E). exists s'. apply loop_fail; auto.
  - rewrite row_text_cons in I, Ln. rewrite <- app_assoc in I, Ln. cbn [app] in I, Ln.
    destruct RO as [F L]. inversion F; subst. destruct (sep_field s f _ abs p tot I H1) as (s1 & E1 & I1').
    assert (RO' : row_ok d (g :: r)) by (split; auto).
    rewrite app_length in Ln. cbn [length] in Ln. destruct n as [|n]; [lia|]. rewrite (loop_next n s s1 E1).
    rewrite (enter_loop n s1 _ _ _ _ I1').
    2:{ pose proof (row_nonempty (g :: r) ltac:(discriminate) RO'). destruct (row_text d (g :: r)); [contradiction|discriminate]. }
    specialize (IH (p ++ [the f]) s1 n ltac:(discriminate) RO' I1' ltac:(lia)).
    zl. replace (zlen p + (1 + 0) + (1 + zlen r) - 1) with (zlen p + (1 + (1 + zlen r)) - 1) in IH by lia.
    rewrite <- app_assoc in IH. exact IH.
Qed.
(** the last line, without newline *)
Lemma row_eof abs tot : forall r p s n, r <> [] -> row_ok d r -> after (last r (Field [] Empty [])) = [] -> inv s (row_text d r) abs p tot ->
  (length (row_text d r) <= n)%nat ->
  if tot <=? zlen p + zlen r - 1 then exists s', csv_loop n fuel empty d s = Done (CSV_NONE, s') /\ fin s' (zip_app abs (p ++ map the r))
  else exists s', csv_loop n fuel empty d s = Done (CSV_MISMATCHED_ROWS, s').
Proof.
  induction r as [|f [|g r] IH]; intros p s n NE RO AF I Ln; [contradiction| |].
  - cbn [row_text map] in *. destruct RO as [F L]. inversion F; subst. cbn in L, AF.
    pose proof (eof_field s f abs p tot I H1 L AF) as H. zl.
    replace (zlen p + (1 + 0) - 1) with (zlen p) by lia.
    destruct (tot <=? zlen p).
    + destruct H as (s' & E & I'). exists s'. split; auto.
      pose proof (field_nonempty f H1 L). destruct (field_text f); [contradiction|]. cbn in Ln. destruct n as [|n]; [lia|].
      rewrite (loop_next n s s' E). unfold enter. destruct I' as [Z0 _]. rewrite Z0. reflexivity.
    + destruct H as (s' & E). exists s'. apply loop_fail; auto.
  - rewrite row_text_cons in I, Ln.
    destruct RO as [F L]. inversion F; subst. destruct (sep_field s f _ abs p tot I H1) as (s1 & E1 & I1').
    assert (RO' : row_ok d (g :: r)) by (split; auto).
    rewrite app_length in Ln. cbn [length] in Ln. destruct n as [|n]; [lia|]. rewrite (loop_next n s s1 E1).
    rewrite (enter_loop n s1 _ _ _ _ I1') by (apply row_nonempty; auto; discriminate).
    specialize (IH (p ++ [the f]) s1 n ltac:(discriminate) RO' AF I1' ltac:(lia)).
    zl. replace (zlen p + (1 + 0) + (1 + zlen r) - 1) with (zlen p + (1 + (1 + zlen r)) - 1) in IH by lia.
    rewrite <- app_assoc in IH. exact IH.
Qed.

(** several lines of [k] cells *)
Definition add_rows (abs : list (list cell)) (rows : list (list field)) : list (list cell) :=
  fold_left (fun a r => zip_app a (map the r)) rows abs.
Lemma rows_nl k R : (0 < k)%nat -> R <> [] -> forall rows abs tot s n, Forall (fun r => row_ok d r /\ length r = k) rows -> tot <= Z.of_nat k - 1 ->
  inv s (lines_text d rows ++ R) abs [] tot -> (length (lines_text d rows ++ R) <= n)%nat ->
  exists s' n', csv_loop n fuel empty d s = csv_loop n' fuel empty d s' /\ (length R <= n')%nat /\
    inv s' R (add_rows abs rows) [] (match rows with [] => tot | _ => Z.of_nat k - 1 end).
Proof.
  intros Hk NR. induction rows as [|r rows IH]; intros abs tot s n F HT I Ln.
  - exists s, n. auto.
  - inversion F as [|? ? [RO LK] F']; subst. cbn [lines_text flat_map] in I, Ln. fold (lines_text d rows) in *.
    rewrite <- !app_assoc in I, Ln. cbn [app] in I, Ln.
    assert (NE : r <> []) by (destruct r; [cbn in Hk; lia|discriminate]).
    pose proof (row_nl _ abs tot r [] s n NE RO I Ln) as H.
    change (zlen (@nil cell) + zlen r - 1) with (Z.of_nat (length r) - 1) in H.
    replace (tot <=? Z.of_nat (length r) - 1) with true in H by lia.
    destruct H as (s1 & n1 & E1 & L1 & I1). cbn [app] in I1.
    assert (RN : lines_text d rows ++ R <> []) by (destruct (lines_text d rows); [auto|discriminate]).
    rewrite (enter_loop n1 s1 _ _ _ _ I1 RN) in E1.
    destruct (IH _ (Z.of_nat (length r) - 1) s1 n1 F' (Z.le_refl _) I1 L1) as (s' & n' & E2 & L2 & I2). exists s', n'. split; [congruence|]. split; [auto|].
    cbn [add_rows fold_left]. destruct rows; auto.
Qed.

Theorem table_run k rows final ending s : (0 < k)%nat -> Forall (fun r => row_ok d r /\ length r = k) rows -> row_ok d final -> length final = k ->
  ending_ok final ending -> inv s (table_text d rows final ending) [] [] 0 ->
  exists s', csv_loop fuel fuel empty d s = Done (CSV_NONE, s') /\ fin s' (add_rows [] (rows ++ [final])).
Proof.
  intros Hk F RO LK EN I. unfold table_text in *.
  assert (NE : final <> []) by (destruct final; [cbn in LK; lia|discriminate]).
  pose proof (row_nonempty final NE RO) as RN.
  assert (RN2 : row_text d final ++ ending <> []) by (destruct (row_text d final); [contradiction|discriminate]).
  pose proof I as (_ & _ & _ & _ & _ & I6 & _).
  destruct (rows_nl k _ Hk RN2 rows [] 0 s fuel F ltac:(lia) I I6) as (s1 & n1 & E1 & L1 & I1).
  assert (TT : forall n, (match rows with [] => 0 | _ => Z.of_nat k - 1 end <=? n + zlen final - 1) = true \/ n < 0).
  { intros n. unfold zlen. destruct rows; lia. }
  unfold add_rows. rewrite fold_left_app. cbn [fold_left]. fold (add_rows [] rows).
  destruct EN as [[-> AF]|(bs & -> & FB)].
  - rewrite app_nil_r in *. pose proof (row_eof _ _ final [] s1 n1 NE RO AF I1 L1) as H.
    destruct (TT (zlen (@nil cell))) as [Q|Q]; [|zl; lia]. rewrite Q in H. cbn [app] in H. rewrite E1. auto.
  - pose proof (row_nl _ _ _ final [] s1 n1 NE RO I1 L1) as H.
    destruct (TT (zlen (@nil cell))) as [Q|Q]; [|zl; lia]. rewrite Q in H. cbn [app] in H.
    destruct H as (s2 & n2 & E2 & L2 & I2). destruct (blank_tail n2 s2 bs _ _ I2 FB) as (s3 & E3 & F3).
    exists s3. split; auto. congruence.
Qed.

(** a line shorter than the lines before it *)
Theorem short_row k rows r R s : (0 < k)%nat -> rows <> [] -> Forall (fun r => row_ok d r /\ length r = k) rows -> row_ok d r -> r <> [] -> (length r < k)%nat ->
  (R = [] /\ after (last r (Field [] Empty [])) = []) \/ (exists R', R = 10 :: R') ->
  inv s (lines_text d rows ++ row_text d r ++ R) [] [] 0 ->
  exists s', csv_loop fuel fuel empty d s = Done (CSV_MISMATCHED_ROWS, s').
Proof.
  intros Hk NR F RO NE LK EN I. pose proof (row_nonempty r NE RO) as RN.
  assert (RN2 : row_text d r ++ R <> []) by (destruct (row_text d r); [contradiction|discriminate]).
  pose proof I as (_ & _ & _ & _ & _ & I6 & _).
  destruct (rows_nl k _ Hk RN2 rows [] 0 s fuel F ltac:(lia) I I6) as (s1 & n1 & E1 & L1 & I1).
  assert (TT : (match rows with [] => 0 | _ => Z.of_nat k - 1 end <=? zlen (@nil cell) + zlen r - 1) = false) by (unfold zlen; destruct rows; [contradiction|cbn [length]; lia]).
  rewrite E1. destruct EN as [[-> AF]|(R' & ->)].
  - rewrite app_nil_r in *. pose proof (row_eof _ _ r [] s1 n1 NE RO AF I1 L1) as H. rewrite TT in H. auto.
  - pose proof (row_nl _ _ _ r [] s1 n1 NE RO I1 L1) as H. rewrite TT in H. auto.
Qed.

(** cells each followed by the delimiter *)
Definition cells_text (fs : list field) : list Z := flat_map (fun f => field_text f ++ [d]) fs.
Lemma cells_run R abs tot : R <> [] -> forall fs p s n, Forall (field_ok d) fs -> inv s (cells_text fs ++ R) abs p tot -> (length (cells_text fs ++ R) <= n)%nat ->
  exists s' n', csv_loop n fuel empty d s = csv_loop n' fuel empty d s' /\ inv s' R abs (p ++ map the fs) tot.
Proof.
  intros NR. induction fs as [|f fs IH]; intros p s n F I Ln.
  - exists s, n. rewrite app_nil_r. auto.
  - inversion F; subst. cbn [cells_text flat_map] in I, Ln. fold (cells_text fs) in *. rewrite <- !app_assoc in I, Ln. cbn [app] in I, Ln.
    destruct (sep_field s f _ abs p tot I H1) as (s1 & E1 & I1). rewrite app_length in Ln. cbn [length] in Ln. destruct n as [|n]; [lia|].
    rewrite (loop_next n s s1 E1). rewrite (enter_loop n s1 _ _ _ _ I1) by (destruct (cells_text fs); [auto|discriminate]).
    destruct (IH _ s1 n H2 I1 ltac:(lia)) as (s' & n' & E2 & I2). exists s', n'. split; auto. rewrite <- app_assoc in I2. auto.
Qed.
(** a quote that is never closed *)
Theorem unterminated k rows fs bs t s : (0 < k)%nat -> Forall (fun r => row_ok d r /\ length r = k) rows -> Forall (field_ok d) fs ->
  Forall (fun b => In b BLANKS) bs -> inv s (lines_text d rows ++ cells_text fs ++ bs ++ [34] ++ doubled t) [] [] 0 ->
  exists s', csv_loop fuel fuel empty d s = Done (CSV_UNEXPECTED_END, s').
Proof.
  intros Hk F FF FB I. pose proof I as (_ & _ & _ & _ & _ & I6 & _).
  assert (N2 : bs ++ [34] ++ doubled t <> []) by (destruct bs; discriminate).
  assert (N1 : cells_text fs ++ bs ++ [34] ++ doubled t <> []) by (destruct (cells_text fs); [auto|discriminate]).
  destruct (rows_nl k _ Hk N1 rows [] 0 s fuel F ltac:(lia) I I6) as (s1 & n1 & E1 & L1 & I1).
  destruct (cells_run _ _ _ N2 fs [] s1 n1 FF I1 L1) as (s2 & n2 & E2 & I2).
  rewrite E1, E2. destruct I2 as (J1 & J2 & J3 & J4 & J5 & J6 & _).
  eexists. apply loop_fail. unfold csv_step.
  rewrite (trim_before _ _ bs ([34] ++ doubled t) fuel J5 FB); auto; [|right; cbn; lia].
  cbn [of_opt rbind]. apply cstr_app in J5. destruct J5 as (_ & _ & J5). cbn [app] in J5. pose proof (cstr_cons _ _ _ _ J5) as (Q1 & _ & Q2). rewrite Q1. cbn [Z.eqb Pos.eqb].
  unfold quoted_cell. rewrite !app_length in J6. cbn [length] in J6. pose proof (doubled_len t). rewrite (find_close_none _ fuel t fuel _ Q2) by lia.
  cbn [rbind]. destruct Q2 as (_ & _ & Q2). rewrite Q2. cbn [Z.eqb rbind]. reflexivity.
Qed.
(** nothing but blanks *)
Theorem blank_text s bs : inv s bs [] [] 0 -> Forall (fun b => In b BLANKS) bs -> bs <> [] ->
  exists s', csv_loop fuel fuel empty d s = Done (CSV_NONE, s') /\ s_cols s' = [].
Proof.
  intros I FB NE. destruct (blank_tail fuel s bs [] 0 I FB) as (s' & E & F). rewrite (enter_loop _ _ _ _ _ _ I NE) in E. exists s'. split; auto.
  destruct F as (_ & F & _). inversion F; auto.
Qed.
Theorem no_text s : inv s [] [] [] 0 -> exists s', csv_loop fuel fuel empty d s = Done (CSV_NONE, s') /\ s_cols s' = [].
Proof.
  intros (J1 & J2 & J3 & J4 & J5 & J6 & J7 & _). apply cstr_nil in J5. eexists. split.
  - assert (E : csv_step fuel empty d s = Done (Stop (St (s_mem s) (s_cur s) (s_cols s) (s_col s) (s_tot s)))).
    { unfold csv_step. unfold c_str_trim. assert (W : while fuel (fun x => negb (s_mem s x =? 0) && char_is_space (s_mem s x) && (negb false || false && negb (s_mem s x =? 10))) (fun x => x + 1) (s_cur s) = Some (s_cur s)).
      { destruct fuel; cbn [while]; rewrite J5; reflexivity. }
      rewrite W. cbn [of_opt rbind]. rewrite J5. reflexivity. }
    destruct fuel; cbn [csv_loop]; rewrite E; reflexivity.
  - cbn. inversion J7; auto.
Qed.
End Loop.
