From Coq Require Import String ZArith List Bool Lia ZifyBool ZifyNat.
From Verif Require Import Common CommonProofs Text ArrayModel ArrayProofs MemModel MemSpec MemPropProofs
  StrOpsModel StrOpsSpec StrOpsProofs CsvModel CsvSpec CsvProofs CsvProofs2.
Import ListNotations.
Close Scope string_scope. Open Scope Z_scope.

(** ** columns of a table *)
Lemma zip_app_nth : forall abs r i, (i < length abs)%nat -> (i < length r)%nat -> nth i (zip_app abs r) [] = nth i abs [] ++ [nth i r Empty].
Proof. induction abs as [|a abs IH]; intros [|c r] [|i] H1 H2; cbn in *; try lia; auto. apply IH; lia. Qed.
Lemma nth_the r i : nth i (map the r) Empty = the (nth i r noF).
Proof. change Empty with (the noF). apply map_nth. Qed.
Lemma add_rows_cols k : forall rows, rows <> [] -> Forall (fun r => length r = k) rows -> add_rows [] rows = map (column_cells rows) (seq 0 k).
Proof.
  induction rows as [|r rows IH] using rev_ind; intros NE F; [contradiction|]. apply Forall_app in F. destruct F as [F1 F2]. inversion F2 as [|? ? LK _]; subst.
  unfold add_rows. rewrite fold_left_app. cbn [fold_left]. fold (add_rows [] rows). destruct rows as [|r0 rows].
  - cbn [add_rows fold_left zip_app]. rewrite map_map. cbn [app]. clear. unfold column_cells. cbn [map].
    apply (nth_ext _ _ [] []); [rewrite !map_length, seq_length; auto|]. intros i Hi. rewrite map_length in Hi.
    rewrite (nth_indep _ [] [the noF]) by (rewrite map_length; auto).
    change [the noF] with ((fun x => [the x]) noF). rewrite map_nth.
    rewrite (nth_indep _ [] ((fun i => [the (nth i r (Field [] Empty []))]) 0%nat)) by (rewrite map_length, seq_length; auto).
    rewrite (map_nth (fun i => [the (nth i r (Field [] Empty []))])). rewrite seq_nth by auto. reflexivity.
  - rewrite IH by (auto; discriminate). remember (r0 :: rows) as rs eqn:ER. clear IH NE F1 F2 ER.
    apply (nth_ext _ _ [] []); [rewrite zip_app_len, !map_length, seq_length; lia|]. intros i Hi.
    rewrite zip_app_len, !map_length, seq_length in Hi. assert (Hi' : (i < length r)%nat) by lia.
    rewrite zip_app_nth by (rewrite ?map_length, ?seq_length; auto). rewrite nth_the.
    assert (X : forall q, nth i (map (column_cells q) (seq 0 (length r))) [] = column_cells q i).
    { intros q. rewrite (nth_indep _ [] (column_cells q 0%nat)) by (rewrite map_length, seq_length; auto). rewrite map_nth, seq_nth; auto. }
    rewrite !X. unfold column_cells. rewrite map_app. reflexivity.
Qed.

(** ** what the caller sees *)

Lemma start_inv d m text empty T fuel : start d m text empty T fuel -> inv empty text (text + zlen T) fuel m (St m text [] 0 0) T [] [] 0.
Proof. intros (D & BM & P & C & E0 & EO & L). unfold inv, good. cbn. auto 15 using Z.le_refl. Qed.


Lemma col_is_shows empty m lo hi col cs : col_is empty m lo hi col cs -> Forall2 (shows m) (col_items col) cs.
Proof. intros (_ & H). induction H; constructor; auto. destruct H as (H1 & H2 & _). split; auto. Qed.


Lemma p43_loop d m text empty k rows final ending fuel : (0 < k)%nat -> rows_ok d k (rows ++ [final]) -> ending_ok final ending ->
  start d m text empty (table_text d rows final ending) fuel ->
  exists s', csv_loop fuel fuel empty d (St m text [] 0 0) = Done (CSV_NONE, s') /\ length (s_cols s') = k /\
    Forall (fun c => col_name c = 0) (s_cols s') /\ columns_show (s_mem s') (s_cols s') (rows ++ [final]) k /\
    forall x, ~ (text <= x <= text + zlen (table_text d rows final ending)) -> s_mem s' x = m x.
Proof.
  intros Hk RO EN ST. apply start_inv in ST as I. destruct ST as (D & BM & P & C & E0 & EO & L).
  apply Forall_app in RO. destruct RO as [RO1 RO2]. inversion RO2 as [|? ? [RF LF] _]; subst.
  destruct (table_run empty d text _ fuel D P EO m (length final) rows final ending _ Hk RO1 RF eq_refl EN I) as (s' & E & Z0 & F & G1 & G2).
  rewrite (add_rows_cols (length final)) in F. 2:{ destruct rows; discriminate. }
  2:{ apply Forall_app. split; auto. apply Forall_forall. intros r Hr. unfold rows_ok in RO1. rewrite Forall_forall in RO1. apply RO1. auto. }
  pose proof (Forall2_length _ _ _ F) as LL. rewrite map_length, seq_length in LL.
  exists s'. split; [auto|]. split; [auto|]. split; [|split; auto].
  - clear - F. apply Forall_forall. intros c Hc. apply In_nth_error in Hc. destruct Hc as [i Hc]. revert i Hc. induction F; intros [|i] Hc; cbn in Hc; try discriminate; [injection Hc as <-; apply H|eauto].
  - unfold columns_show. clear - F. remember (seq 0 (length final)) as q. clear Heqq. revert q F. induction (s_cols s') as [|c cs IH]; intros q F.
    + destruct q; cbn in F; inversion F. constructor.
    + destruct q; cbn in F; inversion F; subst. constructor; [eapply col_is_shows; eauto | apply IH; auto].
Qed.
Lemma p43_parse d m text empty k rows final ending fuel : (0 < k)%nat -> rows_ok d k (rows ++ [final]) -> ending_ok final ending ->
  start d m text empty (table_text d rows final ending) fuel ->
  exists m' cols, csv_parse_delimiter fuel m text empty false d = Done (CSV_NONE, m', cols) /\
    Forall (fun c => col_name c = 0) cols /\ columns_show m' cols (rows ++ [final]) k /\
    forall x, ~ (text <= x <= text + zlen (table_text d rows final ending)) -> m' x = m x.
Proof.
  intros Hk RO EN ST. destruct (p43_loop _ _ _ _ _ _ _ _ _ Hk RO EN ST) as (s' & E & LL & N0 & S & O).
  unfold csv_parse_delimiter. rewrite E. cbn [rbind Z.eqb CSV_NONE negb]. replace (Z.of_nat (length (s_cols s')) =? 0) with false by lia. eauto 10.
Qed.

(** header line *)
Lemma take_header_ok m h rest : forall cols q, Forall2 (fun col i => Forall2 (shows m) (col_items col) (column_cells (h :: rest) i)) cols q ->
  exists cols', take_header cols = Done cols' /\
    Forall2 (fun col i => cstr m (col_name col) (content (the (nth i h noF))) /\ Forall2 (shows m) (col_items col) (column_cells rest i)) cols' q.
Proof.
  induction cols as [|c cols IH]; intros q H; inversion H as [|? i ? q' HC HR]; subst.
  - exists []. split; auto.
  - cbn [take_header]. destruct (IH _ HR) as (cols' & E1 & E2). inversion HC as [|it ? ? ? HI HT]; subst. rewrite E1. cbn [rbind]. eexists. split; [reflexivity|]. constructor; auto.
    cbn [col_name col_items]. split; [apply HI|]. auto.
Qed.
Lemma p43_header d m text empty k h rows final ending fuel : (0 < k)%nat -> rows_ok d k (h :: rows ++ [final]) -> ending_ok final ending ->
  start d m text empty (table_text d (h :: rows) final ending) fuel ->
  exists m' cols, csv_parse_delimiter fuel m text empty true d = Done (CSV_NONE, m', cols) /\
    Forall2 (fun col i => cstr m' (col_name col) (content (the (nth i h noF)))) cols (seq 0 k) /\
    columns_show m' cols (rows ++ [final]) k /\
    forall x, ~ (text <= x <= text + zlen (table_text d (h :: rows) final ending)) -> m' x = m x.
Proof.
  intros Hk RO EN ST. change (h :: rows ++ [final]) with ((h :: rows) ++ [final]) in RO. destruct (p43_loop _ _ _ _ _ _ _ _ _ Hk RO EN ST) as (s' & E & LL & _ & S & O).
  destruct (take_header_ok (s_mem s') h (rows ++ [final]) (s_cols s') _ S) as (cols' & T1 & T2).
  exists (s_mem s'), cols'. split; [|split; [|split; auto]].
  - unfold csv_parse_delimiter. rewrite E. cbn [rbind Z.eqb CSV_NONE negb]. replace (Z.of_nat (length (s_cols s')) =? 0) with false by lia. rewrite T1. reflexivity.
  - clear - T2. induction T2; constructor; tauto.
  - unfold columns_show. clear - T2. induction T2; constructor; tauto.
Qed.

(** a header and nothing else *)
Lemma p43_header_only d m text empty k h ending fuel : (0 < k)%nat -> rows_ok d k [h] -> ending_ok h ending ->
  start d m text empty (table_text d [] h ending) fuel ->
  exists m' cols, csv_parse_delimiter fuel m text empty true d = Done (CSV_NONE, m', cols) /\
    Forall2 (fun col i => cstr m' (col_name col) (content (the (nth i h noF))) /\ col_items col = []) cols (seq 0 k).
Proof.
  intros Hk RO EN ST. change [h] with ([] ++ [h]) in RO. destruct (p43_loop _ _ _ _ _ _ _ _ _ Hk RO EN ST) as (s' & E & LL & _ & S & O).
  destruct (take_header_ok (s_mem s') h [] (s_cols s') _ S) as (cols' & T1 & T2).
  exists (s_mem s'), cols'. split.
  - unfold csv_parse_delimiter. rewrite E. cbn [rbind Z.eqb CSV_NONE negb]. replace (Z.of_nat (length (s_cols s')) =? 0) with false by lia. rewrite T1. reflexivity.
  - clear - T2. induction T2; constructor; auto. destruct H as [H1 H2]. split; auto. inversion H2; auto.
Qed.

(** ** rejected inputs *)
Lemma reject d m text empty hh fuel e s' : e <> CSV_NONE -> csv_loop fuel fuel empty d (St m text [] 0 0) = Done (e, s') ->
  csv_parse_delimiter fuel m text empty hh d = Done (e, s_mem s', s_cols s').
Proof. intros N E. unfold csv_parse_delimiter. rewrite E. cbn [rbind]. replace (e =? CSV_NONE) with false by (unfold CSV_NONE in *; lia). reflexivity. Qed.
Lemma p43_short d m text empty hh k rows r R fuel : (0 < k)%nat -> rows <> [] -> rows_ok d k rows -> row_ok d r -> r <> [] -> (length r < k)%nat ->
  (R = [] /\ after (last r noF) = []) \/ (exists R', R = 10 :: R') ->
  start d m text empty (lines_text d rows ++ row_text d r ++ R) fuel ->
  exists m' cols, csv_parse_delimiter fuel m text empty hh d = Done (CSV_MISMATCHED_ROWS, m', cols).
Proof.
  intros Hk NE RO RO2 NE2 LK EN ST. apply start_inv in ST as I. destruct ST as (D & BM & P & C & E0 & EO & L).
  destruct (short_row empty d text _ fuel D P EO m k rows r R _ Hk NE RO RO2 NE2 LK EN I) as (s' & E). apply reject with (hh := hh) in E; [eauto|unfold CSV_NONE, CSV_MISMATCHED_ROWS; lia].
Qed.
Lemma p43_unterminated d m text empty hh k rows fs bs t fuel : (0 < k)%nat -> rows_ok d k rows -> Forall (field_ok d) fs -> Forall (fun b => In b BLANKS) bs ->
  start d m text empty (lines_text d rows ++ flat_map (fun f => field_text f ++ [d]) fs ++ bs ++ [34] ++ doubled t) fuel ->
  exists m' cols, csv_parse_delimiter fuel m text empty hh d = Done (CSV_UNEXPECTED_END, m', cols).
Proof.
  intros Hk RO FF FB ST. apply start_inv in ST as I. destruct ST as (D & BM & P & C & E0 & EO & L).
  destruct (unterminated empty d text _ fuel D P EO m k rows fs bs t _ Hk RO FF FB I) as (s' & E). apply reject with (hh := hh) in E; [eauto|unfold CSV_NONE, CSV_UNEXPECTED_END; lia].
Qed.
Lemma p43_blank d m text empty hh bs fuel : Forall (fun b => In b BLANKS) bs -> start d m text empty bs fuel ->
  exists m', csv_parse_delimiter fuel m text empty hh d = Done (CSV_UNEXPECTED_END, m', []).
Proof.
  intros FB ST. apply start_inv in ST as I. destruct ST as (D & BM & P & C & E0 & EO & L).
  assert (X : exists s', csv_loop fuel fuel empty d (St m text [] 0 0) = Done (CSV_NONE, s') /\ s_cols s' = []).
  { destruct bs as [|b bs]; [eapply no_text; eauto | eapply blank_text; eauto; discriminate]. }
  destruct X as (s' & E & N). unfold csv_parse_delimiter. rewrite E. cbn [rbind Z.eqb CSV_NONE negb]. rewrite N. cbn. eauto.
Qed.

(** ** writing *)

Lemma print_step m chars p c u n fuel out : p <> 0 -> chars <> 0 -> 0 <= p -> cstr m chars [34] -> cstr m p (c :: u) -> c <> 34 -> (length (c :: u) <= fuel)%nat ->
  print_escaped n fuel m chars p out = print_escaped n fuel m chars (p + 1) (out ++ [c]).
Proof.
  intros Hp Hch Hp0 HC H N L. assert (F1 : (length [34%Z] <= fuel)%nat) by (cbn in *; lia).
  pose proof (cstr_cons _ _ _ _ H) as (E1 & _ & H2).
  pose proof (p46_skip_any m p _ chars [34] fuel Hp Hch H HC L F1) as A. pose proof (p46_skip_any m (p + 1) _ chars [34] fuel ltac:(lia) Hch H2 HC ltac:(cbn in L; lia) F1) as B.
  set (g := run_length (fun b => negb (mem_z b [34])) u) in *.
  pose proof (run_length_range (fun b => negb (mem_z b [34])) u) as GR. fold g in GR.
  cbn [run_length] in A. replace (negb (mem_z c [34])) with true in A by (cbn; lia). fold g in A.
  replace (p + (1 + g)) with (p + 1 + g) in A by lia.
  destruct n; cbn [print_escaped]; rewrite A, B; cbn [of_opt rbind];
    replace (load_bytes m p (Z.to_nat (p + 1 + g - p))) with (c :: load_bytes m (p + 1) (Z.to_nat (p + 1 + g - (p + 1))))
    by (replace (Z.to_nat (p + 1 + g - p)) with (S (Z.to_nat (p + 1 + g - (p + 1)))) by lia; rewrite load_bytes_cons, E1; reflexivity);
    rewrite <- (app_assoc out [c]); reflexivity.
Qed.
Lemma print_ok m chars fuel : chars <> 0 -> cstr m chars [34] -> forall t n p out, 0 < p -> cstr m p t -> (length t < fuel)%nat -> (length t <= n)%nat ->
  print_escaped n fuel m chars p out = Done (out ++ doubled t).
Proof.
  intros Hch HC. induction t as [|c t IH]; intros n p out Hp H L Ln.
  - pose proof (p46_skip_any m p _ chars [34] fuel ltac:(lia) Hch H HC ltac:(cbn in *; lia) ltac:(cbn in *; lia)) as A. cbn [run_length] in A. rewrite Z.add_0_r in A.
    pose proof (cstr_nil _ _ H) as Z0. pose proof (p46_first m chars [34] 0 fuel HC ltac:(cbn in *; lia)) as FO.
    assert (X : exists o, char_first_occurence fuel m chars (m p) = Some o).
    { unfold char_first_occurence. assert (W : exists z, while fuel (fun s => negb (m s =? m p) && negb (m s =? 0)) (fun s => s + 1) chars = Some z).
      { eexists. apply (scan_cstr m _ (fun b => negb (b =? m p)) chars [34]); auto; try (cbn in *; lia); intros q Hq; lia. }
      destruct W as [z W]. rewrite W. eauto. }
    destruct X as [o X]. destruct n; cbn [print_escaped]; rewrite A; cbn [of_opt rbind]; rewrite X; cbn [of_opt rbind]; rewrite Z0; cbn [Z.eqb negb andb]; rewrite Z.sub_diag; cbn; rewrite ?Z0; cbn; rewrite ?app_nil_r; reflexivity.
  - cbn [length] in *. cbn [doubled flat_map]. fold (doubled t). destruct (Z.eqb_spec c 34) as [->|N].
    + pose proof (p46_skip_any m p _ chars [34] fuel ltac:(lia) Hch H HC ltac:(cbn in *; lia) ltac:(cbn in *; lia)) as A. cbn in A. rewrite Z.add_0_r in A.
      pose proof (cstr_cons _ _ _ _ H) as (E1 & _ & H2).
      assert (X : char_first_occurence fuel m chars (m p) = Some (Some chars)).
      { unfold char_first_occurence. pose proof (cstr_cons _ _ _ _ HC) as (Q & _). destruct fuel; cbn [while]; rewrite E1, Q; cbn [Z.eqb Pos.eqb negb andb]; rewrite Q; reflexivity. }
      destruct n as [|n]; [lia|]. cbn [print_escaped]. rewrite A. cbn [of_opt rbind]. rewrite X. cbn [of_opt rbind]. rewrite E1. cbn [Z.eqb Pos.eqb negb andb]. rewrite Z.sub_diag. cbn [Z.to_nat load_bytes map seq].
      rewrite app_nil_r. destruct (m (p + 1) =? 0) eqn:Z0.
      * assert (t = []) as ->. { destruct t; auto. apply cstr_cons in H2. lia. } reflexivity.
      * rewrite IH; auto; [|lia|lia|lia]. rewrite <- app_assoc. reflexivity.
    + rewrite (print_step m chars p c t) by (auto; cbn [length]; lia). apply cstr_cons in H. destruct H as (_ & _ & H).
      rewrite IH; auto; [|lia|lia|lia]. rewrite <- app_assoc. reflexivity.
Qed.

Lemma write_record_ok m chars fuel it c out : chars <> 0 -> cstr m chars [34] -> shows_nz m it c -> (length (content c) < fuel)%nat ->
  write_record fuel m chars it out = Done (out ++ cell_body c).
Proof.
  intros Hch HC [[S1 S2] S3] L. unfold write_record. rewrite S2.
  assert (X : put_s fuel m (it_str it) out = Done (out ++ content c)).
  { unfold put_s. rewrite (p46_len m _ (content c)) by (auto; lia). cbn [of_opt rbind]. unfold zlen. rewrite Nat2Z.id. destruct S1 as [S1 _]. rewrite S1. auto. }
  destruct c as [|t|t]; cbn [is_quoted content cell_body] in *; auto.
  replace (it_str it =? 0) with false by lia. rewrite (print_ok m chars fuel Hch HC t fuel) by (auto; lia). cbn [rbind]. rewrite <- !app_assoc. reflexivity.
Qed.

Lemma write_line_ok d (wr : column -> list Z -> run (list Z)) (f : nat -> cell) : forall cols q out,
  Forall2 (fun col i => forall out, wr col out = Done (out ++ cell_body (f i))) cols q ->
  write_line wr d cols out = Done (out ++ row_text d (map (fun i => bare (f i)) q) ++ [10]).
Proof.
  induction cols as [|c cols IH]; intros q out H; inversion H as [|? i ? q' HC HR]; subst; cbn [write_line map].
  - auto.
  - rewrite HC. cbn [rbind]. rewrite (IH _ _ HR). inversion HR; subst; cbn [map].
    + cbn [row_text]. unfold field_text. cbn [before the after bare app row_text]. rewrite ?app_nil_r, <- ?app_assoc. reflexivity.
    + assert (E : forall g r, row_text d (bare (f i) :: g :: r) = cell_body (f i) ++ d :: row_text d (g :: r)).
      { intros g r. cbn [row_text]. unfold field_text at 1. cbn [bare before the after app]. rewrite app_nil_r. reflexivity. }
      rewrite E. rewrite <- !app_assoc. reflexivity.
Qed.
Lemma map_nth_seq {A B} (g : A -> B) (r : list A) (dflt : A) : map (fun i => g (nth i r dflt)) (seq 0 (length r)) = map g r.
Proof.
  apply (nth_ext _ _ (g dflt) (g dflt)); [rewrite !map_length, seq_length; auto|]. intros i Hi. rewrite map_length, seq_length in Hi.
  rewrite (nth_indep _ _ ((fun i => g (nth i r dflt)) 0%nat)) by (rewrite map_length, seq_length; auto). rewrite (map_nth (fun i => g (nth i r dflt))), seq_nth, map_nth by auto. reflexivity.
Qed.

(** columns holding rows of cells *)
Lemma Forall2_nth_error {A B} (P : A -> B -> Prop) l l' : Forall2 P l l' -> forall i b, nth_error l' i = Some b -> exists a, nth_error l i = Some a /\ P a b.
Proof. induction 1; intros [|i] b E; cbn in *; try discriminate; [injection E as <-; eauto|eauto]. Qed.
Lemma Forall2_impl2 {A B} (P Q : A -> B -> Prop) l l' : (forall a b, P a b -> Q a b) -> Forall2 P l l' -> Forall2 Q l l'.
Proof. induction 2; auto. Qed.

Lemma write_rows_ok d m chars fuel cols k : (0 < fuel)%nat -> chars <> 0 -> cstr m chars [34] -> forall rows rows0 out,
  stored m cols (rows0 ++ rows) k -> Forall (fun r => length r = k /\ Forall (fun c => (length (content c) < fuel)%nat) r) rows ->
  write_rows fuel m chars d cols (length rows) (length rows0) out = Done (out ++ lines_text d (map (map bare) rows)).
Proof.
  intros Hf Hch HC. induction rows as [|r rows IH]; intros rows0 out S F; cbn [length write_rows].
  - cbn. rewrite app_nil_r. auto.
  - inversion F as [|? ? [LK LC] F']; subst.
    rewrite (write_line_ok d _ (fun i => nth i r Empty) cols (seq 0 (length r))).
    + cbn [rbind]. rewrite (map_nth_seq bare). replace (Datatypes.S (length rows0)) with (length (rows0 ++ [r])) by (rewrite app_length; cbn; lia).
      rewrite IH; auto.
      * cbn [map]. unfold lines_text. cbn [flat_map]. rewrite <- !app_assoc. reflexivity.
      * rewrite <- app_assoc. auto.
    + eapply Forall2_impl2; [|exact S]. intros col i H o. cbn beta in *. unfold write_cell.
      assert (NE : nth_error (map (fun r0 => nth i r0 Empty) (rows0 ++ r :: rows)) (length rows0) = Some (nth i r Empty)).
      { rewrite map_app. rewrite nth_error_app2; rewrite map_length; [|lia]. rewrite Nat.sub_diag. reflexivity. }
      destruct (Forall2_nth_error _ _ _ H _ _ NE) as (it & E & SH). rewrite E. apply write_record_ok; auto.
      destruct (Nat.lt_ge_cases i (length r)) as [Hi|Hi]; [|rewrite nth_overflow by lia; cbn; lia].
      rewrite Forall_forall in LC. apply LC. apply nth_In. auto.
Qed.

Lemma p43_write d m chars fuel cols k rows : (0 < fuel)%nat -> (0 < k)%nat -> rows <> [] -> chars <> 0 -> cstr m chars [34] -> stored m cols rows k ->
  Forall (fun c => col_name c = 0) cols -> Forall (fun r => length r = k /\ Forall (fun c => (length (content c) < fuel)%nat) r) rows ->
  csv_write_delimiter fuel m chars d cols = Done (lines_text d (map (map bare) rows)).
Proof.
  intros Hf Hk NE Hch HC S N0 F. unfold csv_write_delimiter. destruct k as [|k]; [lia|]. pose proof S as S'. unfold stored in S'. cbn [seq] in S'. inversion S' as [|c ? cs ? H1 H2]; subst.
  pose proof (Forall2_length _ _ _ H1) as LL. rewrite map_length in LL. rewrite LL. destruct rows as [|r rows]; [contradiction|]. cbn [length].
  inversion N0; subst. rewrite H3. cbn [Z.eqb rbind].
  change (Datatypes.S (length rows)) with (length (r :: rows)). change 0%nat with (length (@nil (list cell))). rewrite (write_rows_ok d m chars fuel _ (Datatypes.S k)); auto.
Qed.
Lemma p43_write_header d m chars fuel cols k names rows : (0 < fuel)%nat -> (0 < k)%nat -> rows <> [] -> chars <> 0 -> cstr m chars [34] -> stored m cols rows k ->
  length names = k -> Forall (fun t => (length t < fuel)%nat) names ->
  Forall2 (fun c i => cstr m (col_name c) (nth i names []) /\ 0 < col_name c) cols (seq 0 k) -> Forall (fun r => length r = k /\ Forall (fun c => (length (content c) < fuel)%nat) r) rows ->
  csv_write_delimiter fuel m chars d cols = Done (lines_text d (map (map bare) (map Quoted names :: rows))).
Proof.
  intros Hf Hk NE Hch HC S LN FN N0 F. unfold csv_write_delimiter. destruct k as [|k]; [lia|]. pose proof S as S'. unfold stored in S'. cbn [seq] in S', N0. inversion S' as [|c ? cs ? H1 H2]; subst.
  pose proof (Forall2_length _ _ _ H1) as LL. rewrite map_length in LL. rewrite LL. destruct rows as [|r rows]; [contradiction|]. cbn [length].
  inversion N0 as [|? ? ? ? [N1 N1'] N2]; subst. replace (col_name c =? 0) with false by lia.
  rewrite (write_line_ok d _ (fun i => Quoted (nth i names [])) (c :: cs) (seq 0 (length names))).
  - cbn [rbind app]. pose proof (fun o => write_rows_ok d m chars fuel (c :: cs) (Datatypes.S k) Hf Hch HC (r :: rows) [] o S F) as W. cbn [length] in W. rewrite W.
    cbn [map]. unfold lines_text. cbn [flat_map]. rewrite (map_nth_seq (fun t => bare (Quoted t))). rewrite map_map, <- !app_assoc. reflexivity.
  - rewrite LN. cbn [seq]. eapply Forall2_impl2; [|exact N0]. intros col i [Q1 Q2] o. unfold write_header. apply write_record_ok; auto.
    + split; [split; auto|auto].
    + cbn [content]. destruct (Nat.lt_ge_cases i (length names)) as [Hi|Hi]; [|rewrite nth_overflow by lia; cbn; lia].
      rewrite Forall_forall in FN. apply FN. apply nth_In. auto.
Qed.

(** ** writing, then reading *)
Lemma bare_cells rows i : column_cells (map (map bare) rows) i = map (fun r => nth i r Empty) rows.
Proof.
  unfold column_cells. rewrite map_map. apply map_ext. intros r. change (Field [] Empty []) with (bare Empty). rewrite map_nth. reflexivity.
Qed.
Lemma bare_last r : r <> [] -> the (last (map bare r) (Field [] Empty [])) = last r Empty.
Proof. intros NE. induction r as [|c [|c2 r] IH]; [contradiction|auto|]. cbn [map] in *. change (last (bare c :: bare c2 :: map bare r) (Field [] Empty [])) with (last (bare c2 :: map bare r) (Field [] Empty [])). rewrite IH by discriminate. auto. Qed.
Lemma bare_ok d k fuel rows : (0 < k)%nat -> cells_ok d k fuel rows -> rows_ok d k (map (map bare) rows).
Proof.
  intros Hk H. unfold rows_ok, cells_ok in *. rewrite Forall_map. eapply Forall_impl; [|exact H]. intros r (L & F & LA & _). split; [split|].
  - rewrite Forall_map. eapply Forall_impl; [|exact F]. intros c Hc. unfold field_ok, bare. cbn. auto.
  - rewrite bare_last; auto. destruct r; [cbn in L; lia|discriminate].
  - rewrite map_length. auto.
Qed.
Lemma lines_table d rows r : lines_text d (rows ++ [r]) = table_text d rows r [10].
Proof. unfold table_text, lines_text. rewrite flat_map_app. cbn. rewrite app_nil_r. auto. Qed.
Lemma ending_nl r : ending_ok r [10]. Proof. right. exists []. auto. Qed.

Lemma columns_cells m cols rows k : columns_show m cols (map (map bare) rows) k -> cells_shown m cols rows k.
Proof. apply Forall2_impl2. intros col i. rewrite bare_cells. auto. Qed.

Lemma p43_roundtrip d m chars fuel cols k rows : (0 < fuel)%nat -> (0 < k)%nat -> rows <> [] -> chars <> 0 -> cstr m chars [34] -> stored m cols rows k ->
  Forall (fun c => col_name c = 0) cols -> cells_ok d k fuel rows ->
  exists T, csv_write_delimiter fuel m chars d cols = Done T /\
    forall m2 text empty fuel2, start d m2 text empty T fuel2 ->
    exists m' cols', csv_parse_delimiter fuel2 m2 text empty false d = Done (CSV_NONE, m', cols') /\ Forall (fun c => col_name c = 0) cols' /\ cells_shown m' cols' rows k.
Proof.
  intros Hf Hk NE Hch HC S N0 CO. eexists. split.
  - apply (p43_write d m chars fuel cols k rows); auto. eapply Forall_impl; [|exact CO]. cbn; tauto.
  - intros m2 text empty fuel2 ST. pose proof (bare_ok _ _ _ _ Hk CO) as RO. destruct (exists_last NE) as (rows1 & r & ->).
    rewrite map_app in ST, RO. cbn [map] in ST, RO. rewrite lines_table in ST. destruct (p43_parse _ _ _ _ _ _ _ _ _ Hk RO (ending_nl _) ST) as (m' & cols' & E & N & SH & _).
    exists m', cols'. split; [auto|]. split; [auto|]. apply columns_cells. rewrite map_app. auto.
Qed.
Lemma p43_roundtrip_header d m chars fuel cols k names rows : (0 < fuel)%nat -> (0 < k)%nat -> rows <> [] -> chars <> 0 -> cstr m chars [34] -> stored m cols rows k ->
  length names = k -> Forall (fun t => nonempty_bytes t /\ (length t < fuel)%nat) names ->
  Forall2 (fun c i => cstr m (col_name c) (nth i names []) /\ 0 < col_name c) cols (seq 0 k) -> cells_ok d k fuel rows ->
  exists T, csv_write_delimiter fuel m chars d cols = Done T /\
    forall m2 text empty fuel2, start d m2 text empty T fuel2 ->
    exists m' cols', csv_parse_delimiter fuel2 m2 text empty true d = Done (CSV_NONE, m', cols') /\
      Forall2 (fun c i => cstr m' (col_name c) (nth i names [])) cols' (seq 0 k) /\ cells_shown m' cols' rows k.
Proof.
  intros Hf Hk NE Hch HC S LN FN N0 CO. eexists. split.
  - apply (p43_write_header d m chars fuel cols k names rows); auto; [eapply Forall_impl; [|exact FN]; cbn; tauto | eapply Forall_impl; [|exact CO]; cbn; tauto].
  - intros m2 text empty fuel2 ST.
    assert (CO2 : cells_ok d k fuel (map Quoted names :: rows)).
    { constructor; auto. split; [rewrite map_length; auto|]. split; [rewrite Forall_map; eapply Forall_impl; [|exact FN]; intros t [Q _]; exact Q|]. split.
      - destruct names as [|t names]; [cbn in LN; lia|]. clear. revert t. induction names as [|u names IH]; intros t; cbn [map]; [discriminate|]. apply IH.
      - rewrite Forall_map. eapply Forall_impl; [|exact FN]. intros t [_ Q]. exact Q. }
    pose proof (bare_ok _ _ _ _ Hk CO2) as RO. destruct (exists_last NE) as (rows1 & r & ->).
    cbn [map] in ST, RO. rewrite map_app in ST, RO. cbn [map] in ST, RO. rewrite app_comm_cons in ST. rewrite lines_table in ST.
    destruct (p43_header _ _ _ _ _ _ _ _ _ _ Hk RO (ending_nl _) ST) as (m' & cols' & E & N & SH & _).
    exists m', cols'. split; [auto|]. split.
    + eapply Forall2_impl2; [|exact N]. intros c i Q. cbn beta in Q. rewrite map_map in Q. change noF with ((fun t => bare (Quoted t)) []) in Q at 1 || idtac.
      destruct (Nat.lt_ge_cases i (length names)) as [Hi|Hi].
      * rewrite (nth_indep _ _ (bare (Quoted []))) in Q by (rewrite map_length; auto). rewrite (map_nth (fun t => bare (Quoted t))) in Q. auto.
      * rewrite nth_overflow in Q by (rewrite map_length; auto). rewrite nth_overflow by auto. auto.
    + apply columns_cells. rewrite map_app. auto.
Qed.
