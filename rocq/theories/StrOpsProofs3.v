From Coq Require Import String ZArith List Bool Lia ZifyBool ZifyNat.
From Verif Require Import Common CommonProofs Text ArrayModel ArrayProofs StrOpsModel StrOpsSpec StrOpsProofs StrOpsProofs2.
Import ListNotations.
Open Scope Z_scope.

Lemma num_to_char_ok d : 0 <= d < 64 -> num_to_char d = Some (digit_char d).
Proof.
  intros Hd. assert (H : forallb (fun d => match num_to_char d with Some c => c =? digit_char d | None => false end) (zrange 64) = true) by (vm_compute; reflexivity).
  pose proof (zrange_forallb 64 _ H d ltac:(lia)) as E. cbv beta in E. destruct (num_to_char d); [|discriminate]. apply Z.eqb_eq in E. congruence.
Qed.
Lemma digit_char_range d : 0 <= d < 64 -> 1 <= digit_char d < 128.
Proof. unfold digit_char. intros. destruct (d <? 10) eqn:?, (d <? 36) eqn:?, (d <? 62) eqn:?, (d =? 62) eqn:?; lia. Qed.

Definition lsb (b : Z) (ds : list Z) : Z := fold_right (fun d a => d + b * a) 0 ds.
Lemma lsb_rev b ds : digits_value b (rev ds) = lsb b ds.
Proof. unfold digits_value, lsb. rewrite <- fold_left_rev_right, rev_involutive. induction ds as [|d ds IH]; cbn; auto. rewrite IH. lia. Qed.

Lemma digits_loop_spec base : 2 <= base <= 64 -> forall fuel m buf v, 0 <= v < 2 ^ Z.of_nat fuel ->
  exists ds m1, digits_loop fuel m buf v base = Done (m1, buf + zlen ds) /\ (forall x, m1 x = put m buf (map digit_char ds) x) /\
    Forall (fun d => 0 <= d < base) ds /\ lsb base ds = v /\ (ds = [] \/ last ds 0 <> 0) /\ (length ds <= fuel)%nat.
Proof.
  intros Hb. induction fuel as [|fuel IH]; intros m buf v Hv.
  - exists [], m. cbn [digits_loop]. replace (v >? 0) with false by (cbn in Hv; lia). unfold zlen. cbn [length map].
    repeat split; auto; try (cbn in *; lia). + f_equal. eqz. + intros. rewrite put_nil. auto.
  - cbn [digits_loop]. destruct (v >? 0) eqn:E.
    + rewrite (Z.mod_small base) by lia. replace (base =? 0) with false by lia.
      pose proof (Z.mod_pos_bound v base ltac:(lia)) as MB. rewrite num_to_char_ok by lia.
      destruct (IH (store8 m buf (digit_char (v mod base))) (buf + 1) (v / base)) as (ds & m1 & W & P & F & V & L & N).
      { split; [apply Z.div_pos; lia|]. apply Z.div_lt_upper_bound; [lia|].
        replace (Z.of_nat (S fuel)) with (Z.of_nat fuel + 1) in Hv by lia. rewrite Z.pow_add_r in Hv by lia.
        assert (2 * 2 ^ Z.of_nat fuel <= base * 2 ^ Z.of_nat fuel) by (apply Z.mul_le_mono_nonneg_r; lia). lia. }
      exists (v mod base :: ds), m1. rewrite W. pose proof (digit_char_range (v mod base) ltac:(lia)) as DR. repeat split.
      * rewrite zlen_cons. f_equal. eqz.
      * intros x. rewrite P. cbn [map]. apply put_step. lia.
      * constructor; auto.
      * cbn [lsb fold_right]. fold (lsb base ds). rewrite V. pose proof (Z.div_mod v base ltac:(lia)). lia.
      * right. destruct L as [->|L]; [|destruct ds; auto; cbn in L; lia].
        cbn. cbn in V. pose proof (Z.div_mod v base ltac:(lia)). rewrite <- V in H. lia.
      * cbn [length]. lia.
    + exists [], m. unfold zlen. cbn [length map]. repeat split; auto; try (cbn in *; lia). * f_equal. eqz. * intros. rewrite put_nil. auto.
Qed.
Lemma digits_range base ds : base <= 64 -> Forall (fun d => 0 <= d < base) ds -> Forall (fun b => 1 <= b < 256) (map digit_char ds).
Proof. intros Hb H. rewrite Forall_map. revert H. apply Forall_impl. intros d Hd. pose proof (digit_char_range d ltac:(lia)). lia. Qed.

Lemma rev_numeral base ds : Forall (fun d => 0 <= d < base) ds -> (ds = [0] \/ (ds <> [] /\ last ds 0 <> 0)) ->
  numeral base (lsb base ds) (map digit_char (rev ds)).
Proof.
  intros F L. exists (rev ds). split; auto. split; [apply Forall_rev; auto|]. split; [apply lsb_rev|].
  destruct L as [->|[L1 L2]]; [split; [discriminate|auto]|]. split.
  - intros E. apply L1. rewrite <- (rev_involutive ds), E. auto.
  - intros H. exfalso. apply L2. destruct (exists_last L1) as (ds' & d & ->). rewrite last_last. rewrite rev_app_distr in H. cbn in H. auto.
Qed.

Lemma cstr_put m m0 s t : (forall x, m0 x = put m s t x) -> Forall (fun b => 1 <= b < 256) t ->
  cstr (store8 m0 (s + zlen t) 0) s t.
Proof.
  intros H F. split; [|split]; auto.
  - transitivity (load_bytes (put m s t) s (length t)); [|apply load_put]. apply load_bytes_ext. intros x Hx. unfold store8. replace (x =? s + zlen t) with false by (unfold zlen; lia). auto.
  - rewrite store8_eq. auto.
Qed.

(** both conversions, from the digits up to the reversed text *)
Lemma to_str_common m m0 s base ds neg fuel : byte_mem m -> s <> 0 -> 2 <= base <= 64 ->
  (forall x, m0 x = put m s (map digit_char ds) x) -> Forall (fun d => 0 <= d < base) ds -> (S (length ds) <= fuel)%nat ->
  (ds = [0] \/ (ds <> [] /\ last ds 0 <> 0)) ->
  exists m1 t, of_opt (c_str_reverse fuel (if neg : bool then store8 (store8 m0 (s + zlen ds) 45) (s + zlen ds + 1) 0 else store8 m0 (s + zlen ds) 0) s) = Done m1 /\
    cstr m1 s t /\ same_outside m m1 s (zlen t + 1) /\
    (exists t', numeral base (lsb base ds) t' /\ t = if neg then 45 :: t' else t').
Proof.
  intros Hm Hs Hb P F Hf L.
  set (t0 := if neg then map digit_char ds ++ [45] else map digit_char ds).
  assert (F0 : Forall (fun b => 1 <= b < 256) t0).
  { pose proof (digits_range base ds ltac:(lia) F). unfold t0. destruct neg; auto. apply Forall_app. split; auto. repeat constructor; lia. }
  assert (LM : zlen (map digit_char ds) = zlen ds) by (unfold zlen; rewrite map_length; auto).
  set (mm := if neg then store8 (store8 m0 (s + zlen ds) 45) (s + zlen ds + 1) 0 else store8 m0 (s + zlen ds) 0).
  assert (C : cstr mm s t0).
  { unfold mm, t0. destruct neg.
    - replace (s + zlen ds + 1) with (s + zlen (map digit_char ds ++ [45])) by (rewrite zlen_app, LM; unfold zlen; cbn [length]; lia).
      apply (cstr_put m); auto.
      intros x. rewrite <- put_app. rewrite LM. rewrite <- put_step by lia. rewrite put_nil.
      unfold store8. destruct (x =? s + zlen ds); auto.
    - rewrite <- LM. apply (cstr_put m); auto. }
  assert (BM : byte_mem m0).
  { intros x. rewrite P. unfold put. destruct (_ && _) eqn:E; [|apply Hm].
    pose proof (digits_range base ds ltac:(lia) F) as FR. rewrite Forall_forall in FR. specialize (FR (nth (Z.to_nat (x - s)) (map digit_char ds) 0)).
    assert (In (nth (Z.to_nat (x - s)) (map digit_char ds) 0) (map digit_char ds)) by (apply nth_In; unfold zlen in *; lia). apply FR in H. lia. }
  assert (BMM : byte_mem mm) by (unfold mm; destruct neg; repeat apply store8_byte; auto).
  assert (OUT : same_outside m mm s (zlen t0 + 1)).
  { intros x Hx. unfold mm, t0 in *. destruct neg; [rewrite zlen_app in Hx; unfold zlen at 2 in Hx; cbn [length] in Hx|]; rewrite LM in Hx; unfold store8.
    - replace (x =? s + zlen ds + 1) with false by (pose proof (zlen_nonneg ds); lia). replace (x =? s + zlen ds) with false by (pose proof (zlen_nonneg ds); lia). rewrite P. apply put_out. lia.
    - replace (x =? s + zlen ds) with false by (pose proof (zlen_nonneg ds); lia). rewrite P. apply put_out. lia. }
  destruct (p46_reverse mm s t0 fuel BMM Hs C) as (m1 & W & C1 & O1).
  { unfold t0. destruct neg; rewrite ?app_length, map_length; cbn [length]; lia. }
  exists m1, (rev t0). rewrite W. cbn [of_opt]. split; auto. split; auto.
  assert (LR : zlen (rev t0) = zlen t0) by (unfold zlen; rewrite rev_length; auto). split.
  - intros x Hx. rewrite LR in Hx. rewrite O1 by lia. apply OUT. lia.
  - exists (map digit_char (rev ds)). split; [apply rev_numeral; auto|]. unfold t0. destruct neg; [rewrite rev_app_distr; cbn; f_equal|]; rewrite map_rev; auto.
Qed.

Lemma p20_u64 m v s base fuel : byte_mem m -> s <> 0 -> 2 <= base <= 64 -> 0 <= v < 2 ^ 64 -> (66 <= fuel)%nat ->
  exists m1 t, u64_to_str fuel m v s base = Done m1 /\ cstr m1 s t /\ numeral base v t /\ same_outside m m1 s (zlen t + 1).
Proof.
  intros Hm Hs Hb Hv Hf. unfold u64_to_str.
  assert (exists m0 ds, (if negb (v =? 0) then digits_loop fuel m s v base else Done (store8 m s 48, s + 1)) = Done (m0, s + zlen ds) /\
     (forall x, m0 x = put m s (map digit_char ds) x) /\ Forall (fun d => 0 <= d < base) ds /\ lsb base ds = v /\ (length ds <= 64)%nat /\ (ds = [0] \/ (ds <> [] /\ last ds 0 <> 0))) as (m0 & ds & -> & P & F & V & L & N).
  { destruct (Z.eq_dec v 0) as [->|NZ].
    - exists (store8 m s 48), [0]. cbn [Z.eqb negb]. split; [reflexivity|].
      split; [intros x; cbn [map]; change (digit_char 0) with 48; rewrite <- put_step by lia; rewrite put_nil; auto|].
      split; [repeat constructor; lia|]. split; [cbn; lia|]. split; [cbn; lia|left; auto].
    - replace (negb (v =? 0)) with true by lia.
      destruct (digits_loop_spec base Hb 64 m s v ltac:(change (Z.of_nat 64) with 64; lia)) as (ds & m1 & W & P & F & V & L & N).
      assert (MONO : forall f1 f2 m s v r, digits_loop f1 m s v base = Done r -> (f1 <= f2)%nat -> digits_loop f2 m s v base = Done r).
      { clear. induction f1 as [|f1 IH]; intros f2 m s v r H Hle.
        - cbn [digits_loop] in H. destruct (v >? 0) eqn:E; [discriminate|]. destruct f2; cbn [digits_loop]; rewrite E; auto.
        - destruct f2 as [|f2]; [lia|]. cbn [digits_loop] in *. destruct (v >? 0); auto. destruct (base mod 2 ^ 64 =? 0); auto.
          destruct (num_to_char (v mod (base mod 2 ^ 64))); auto. apply IH with (1 := H). lia. }
      exists m1, ds. split; [apply (MONO 64%nat); auto; lia|]. repeat split; auto. right. destruct L as [->|L]; [cbn in V; lia|]. split; auto. intros ->. auto. }
  cbn [rbind]. destruct (to_str_common m m0 s base ds false fuel Hm Hs Hb P F ltac:(lia) N) as (m1 & t & W & C & O & t' & NU & ->).
  exists m1, t'. subst v. auto.
Qed.
Lemma p20_i64 m v s base fuel : byte_mem m -> s <> 0 -> 2 <= base <= 64 -> - 2 ^ 63 < v < 2 ^ 63 -> (66 <= fuel)%nat ->
  exists m1 t, i64_to_str fuel m v s base = Done m1 /\ cstr m1 s t /\ signed_numeral base v t /\ same_outside m m1 s (zlen t + 1).
Proof.
  intros Hm Hs Hb Hv Hf. unfold i64_to_str.
  set (u := if v <? 0 then - v else v).
  replace ((v <? 0) && negb (s64_ok (- v))) with false by (unfold s64_ok; lia).
  assert (exists m0 ds, (if negb (u =? 0) then digits_loop fuel m s u base else Done (store8 m s 48, s + 1)) = Done (m0, s + zlen ds) /\
     (forall x, m0 x = put m s (map digit_char ds) x) /\ Forall (fun d => 0 <= d < base) ds /\ lsb base ds = u /\ (length ds <= 64)%nat /\ (ds = [0] \/ (ds <> [] /\ last ds 0 <> 0))) as (m0 & ds & -> & P & F & V & L & N).
  { destruct (Z.eq_dec u 0) as [E0|NZ].
    - rewrite E0. exists (store8 m s 48), [0]. cbn [Z.eqb negb]. split; [reflexivity|].
      split; [intros x; cbn [map]; change (digit_char 0) with 48; rewrite <- put_step by lia; rewrite put_nil; auto|].
      split; [repeat constructor; lia|]. split; [cbn; lia|]. split; [cbn; lia|left; auto].
    - replace (negb (u =? 0)) with true by lia.
      destruct (digits_loop_spec base Hb 64 m s u ltac:(change (Z.of_nat 64) with 64; unfold u; destruct (v <? 0) eqn:?; lia)) as (ds & m1 & W & P & F & V & L & N).
      assert (MONO : forall f1 f2 m s v r, digits_loop f1 m s v base = Done r -> (f1 <= f2)%nat -> digits_loop f2 m s v base = Done r).
      { clear. induction f1 as [|f1 IH]; intros f2 m s v r H Hle.
        - cbn [digits_loop] in H. destruct (v >? 0) eqn:E; [discriminate|]. destruct f2; cbn [digits_loop]; rewrite E; auto.
        - destruct f2 as [|f2]; [lia|]. cbn [digits_loop] in *. destruct (v >? 0); auto. destruct (base mod 2 ^ 64 =? 0); auto.
          destruct (num_to_char (v mod (base mod 2 ^ 64))); auto. apply IH with (1 := H). lia. }
      exists m1, ds. split; [apply (MONO 64%nat); auto; lia|]. repeat split; auto. right. destruct L as [->|L]; [cbn in V; lia|]. split; auto. intros ->. auto. }
  cbn [rbind]. destruct (to_str_common m m0 s base ds (v <? 0) fuel Hm Hs Hb P F ltac:(lia) N) as (m1 & t & W & C & O & t' & NU & E).
  exists m1, t. split; [|split; [exact C|split; [|exact O]]].
  - rewrite <- W. destruct (v <? 0); auto.
  - unfold signed_numeral. rewrite V in NU. unfold u in NU. destruct (v <? 0); [exists t'; auto|subst; auto].
Qed.
Lemma p20_int64_min m s base fuel : i64_to_str fuel m (- 2 ^ 63) s base = Undefined.
Proof. reflexivity. Qed.

(** ** parsing *)
Lemma dec_sweep d : 0 <= d < 10 -> char_is_digit (nth (Z.to_nat d) DIGITS 0) = true /\ sc (nth (Z.to_nat d) DIGITS 0) - 48 = d.
Proof.
  intros Hd. assert (H : forallb (fun d => char_is_digit (nth (Z.to_nat d) DIGITS 0) && (sc (nth (Z.to_nat d) DIGITS 0) - 48 =? d)) (zrange 10) = true) by (vm_compute; reflexivity).
  pose proof (zrange_forallb 10 _ H d ltac:(lia)) as E. cbv beta in E. apply andb_prop in E as [A B]. apply Z.eqb_eq in B. auto.
Qed.
Definition hexv (c : Z) : option Z := if char_is_digit c then Some (sc c - 48) else if char_is_hex_digit c then Some (hex_digit_to_int c) else None.
Lemma hex_sweep d : 0 <= d < 16 -> hexv (nth (Z.to_nat d) HEX_LOWER 0) = Some d /\ hexv (nth (Z.to_nat d) HEX_UPPER 0) = Some d.
Proof.
  intros Hd. assert (H : forallb (fun d => match hexv (nth (Z.to_nat d) HEX_LOWER 0), hexv (nth (Z.to_nat d) HEX_UPPER 0) with Some a, Some b => (a =? d) && (b =? d) | _, _ => false end) (zrange 16) = true) by (vm_compute; reflexivity).
  pose proof (zrange_forallb 16 _ H d ltac:(lia)) as E. cbv beta in E. destruct (hexv (nth (Z.to_nat d) HEX_LOWER 0)), (hexv (nth (Z.to_nat d) HEX_UPPER 0)); try discriminate.
  apply andb_prop in E as [A B]. apply Z.eqb_eq in A, B. subst. auto.
Qed.
Definition scan_digit (base c : Z) : option Z :=
  if char_is_digit c then Some (sc c - 48) else if (base =? 16) && char_is_hex_digit c then Some (hex_digit_to_int c) else None.
Lemma denotes_scan base c d : denotes base c d -> scan_digit base c = Some d.
Proof.
  intros (Hd & [(Hb & ->)|(-> & [-> | ->])]); unfold scan_digit.
  - destruct (dec_sweep d ltac:(lia)) as [-> ->]. auto.
  - cbn [Z.eqb Pos.eqb andb]. apply (hex_sweep d Hd).
  - cbn [Z.eqb Pos.eqb andb]. apply (hex_sweep d Hd).
Qed.
Lemma denotes_range base c d : denotes base c d -> 1 <= c < 128 /\ c <> 120 /\ c <> 45.
Proof.
  intros (Hd & [(Hb & ->)|(-> & H)]).
  - assert (H : forallb (fun d => let c := nth (Z.to_nat d) DIGITS 0 in (1 <=? c) && (c <? 128) && negb (c =? 120) && negb (c =? 45)) (zrange 10) = true) by (vm_compute; reflexivity).
    pose proof (zrange_forallb 10 _ H d ltac:(lia)) as E. cbv beta zeta in E. generalize dependent (nth (Z.to_nat d) DIGITS 0). intros. lia.
  - assert (K : forallb (fun d => let c := nth (Z.to_nat d) HEX_LOWER 0 in let c2 := nth (Z.to_nat d) HEX_UPPER 0 in (1 <=? c) && (c <? 128) && negb (c =? 120) && negb (c =? 45) && (1 <=? c2) && (c2 <? 128) && negb (c2 =? 120) && negb (c2 =? 45)) (zrange 16) = true) by (vm_compute; reflexivity).
    pose proof (zrange_forallb 16 _ K d ltac:(lia)) as E. cbv beta zeta in E. clear K.
    generalize dependent (nth (Z.to_nat d) HEX_LOWER 0). generalize dependent (nth (Z.to_nat d) HEX_UPPER 0). intros. lia.
Qed.

Lemma dv_app base ds d : digits_value base (ds ++ [d]) = digits_value base ds * base + d.
Proof. unfold digits_value. rewrite fold_left_app. auto. Qed.
Lemma fold_mono base ds : 1 <= base -> Forall (fun d => 0 <= d) ds -> forall a, 0 <= a -> a <= fold_left (fun a d => a * base + d) ds a.
Proof.
  intros Hb. induction 1 as [|d ds Hd HF IH]; intros a Ha; cbn [fold_left]; [lia|].
  assert (a * 1 <= a * base) by (apply Z.mul_le_mono_nonneg_l; lia). etransitivity; [|apply IH; lia]. lia.
Qed.
Lemma scan_loop_spec m base : 2 <= base -> forall cs ds text fuel a, Forall2 (denotes base) cs ds -> load_bytes m text (length cs) = cs ->
  scan_digit base (m (text + zlen cs)) = None -> (length cs <= fuel)%nat -> 0 <= a -> fold_left (fun a d => a * base + d) ds a < 2 ^ 63 ->
  scan_loop fuel m base text a = Done (text + zlen cs, fold_left (fun a d => a * base + d) ds a).
Proof.
  intros Hb. induction cs as [|c cs IH]; intros ds text fuel a F L ST Hf Ha Hlt.
  - inversion F; subst. unfold zlen in *. cbn [length] in *. replace (text + Z.of_nat 0) with text in * by lia. cbn [fold_left].
    unfold scan_digit in ST. destruct fuel; cbn [scan_loop]; rewrite ST; auto.
  - inversion F as [|? d ? ds' D F']; subst. apply load_bytes_cons_inv in L as [E L]. destruct fuel as [|fuel]; [cbn in Hf; lia|].
    cbn [scan_loop]. pose proof (denotes_scan _ _ _ D) as SD. unfold scan_digit in SD. rewrite E, SD.
    assert (0 <= d) by apply D. cbn [fold_left] in *.
    assert (HFd : Forall (fun d => 0 <= d) ds').
    { clear -F'. induction F' as [|? ? ? ? D0 F0 IH0]; constructor; auto. apply D0. }
    assert (a * base >= 0) by (assert (0 <= a * base) by (apply Z.mul_nonneg_nonneg; lia); lia).
    pose proof (fold_mono base ds' ltac:(lia) HFd (a * base + d) ltac:(lia)) as M.
    replace (s64_ok (a * base) && s64_ok (a * base + d)) with true by (unfold s64_ok; lia).
    rewrite (IH ds' (text + 1) fuel (a * base + d)); auto; try lia.
    + rewrite zlen_cons. f_equal. eqz.
    + rewrite zlen_cons in ST. replace (text + 1 + zlen cs) with (text + (1 + zlen cs)) by lia. auto.
    + cbn in Hf. lia.
Qed.

Lemma load_app m a t1 t2 : load_bytes m a (length (t1 ++ t2)) = t1 ++ t2 -> load_bytes m a (length t1) = t1 /\ load_bytes m (a + zlen t1) (length t2) = t2.
Proof.
  intros H. rewrite app_length, load_bytes_app in H. unfold zlen.
  assert (LL : length (load_bytes m a (length t1)) = length t1) by (rewrite load_bytes_len; auto).
  apply (f_equal (firstn (length t1))) in H as H1. rewrite <- LL in H1 at 1. rewrite !firstn_app, !firstn_all, LL, !Nat.sub_diag in H1. cbn [firstn] in H1. rewrite !app_nil_r in H1.
  split; auto. rewrite H1 in H. apply app_inv_head in H. auto.
Qed.
Lemma p20_parse m str base (neg hexp : bool) cs ds fuel : base = 16 \/ 2 <= base <= 10 ->
  cs <> [] -> Forall2 (denotes base) cs ds -> (if neg then digits_value base ds <= 2 ^ 63 - 1 else digits_value base ds < 2 ^ 63) ->
  let t := literal_text base neg hexp cs in
  load_bytes m str (length t) = t -> scan_digit base (m (str + zlen t)) = None -> 
  (* a lone digit 0 in front of the letter x would be taken for the prefix *)
  (base = 16 -> m (str + zlen t) <> 120) -> (length cs <= fuel)%nat ->
  c_str_to_i64 fuel m str base = Done (if neg then - digits_value base ds else digits_value base ds, str + zlen t).
Proof.
  intros Hb Hne F V t L ST NX Hf. subst t. unfold literal_text in *. set (sg := if neg then [45] else []) in *. set (px := if hexp && (base =? 16) then [48; 120] else []) in *.
  apply load_app in L as [L1 L2]. apply load_app in L2 as [L2 L3]. unfold c_str_to_i64. replace (base =? 0) with false by lia. cbn [rbind].
  assert (HC : m (str + zlen sg + zlen px) = hd 0 cs /\ (1 < zlen cs -> m (str + zlen sg + zlen px + 1) = nth 1 cs 0)).
  { split; [pose proof (load_bytes_at _ _ _ L3 0)|intros H1; pose proof (load_bytes_at _ _ _ L3 1)]; destruct cs as [|c [|c2 cs]]; try congruence.
    - rewrite zlen_cons in H. replace (str + zlen sg + zlen px + 0) with (str + zlen sg + zlen px) in H by lia. apply H. unfold zlen. cbn. lia.
    - rewrite zlen_cons in H. replace (str + zlen sg + zlen px + 0) with (str + zlen sg + zlen px) in H by lia. apply H. unfold zlen. cbn [length]. lia.
    - unfold zlen in H1. cbn in H1. lia.
    - apply H. lia. }
  destruct HC as [HC1 HC2].
  assert (H0 : 1 <= hd 0 cs < 128 /\ hd 0 cs <> 120 /\ hd 0 cs <> 45).
  { destruct F; [congruence|]. cbn. eapply denotes_range; eauto. }
  assert (H1 : 1 < zlen cs -> nth 1 cs 0 <> 120).
  { destruct F as [|? ? ? ? D F]; [congruence|]. destruct F as [|? ? ? ? D2 F]; [unfold zlen; cbn; lia|]. intros _. cbn. apply (denotes_range _ _ _ D2). }
  assert (NEG : (m str =? 45) = neg).
  { unfold sg, px in *. destruct neg.
    - apply load_bytes_cons_inv in L1 as [L1 _]. lia.
    - unfold zlen in L2. cbn [length] in L2. replace (str + Z.of_nat 0) with str in L2 by lia.
      destruct (hexp && (base =? 16)); [apply load_bytes_cons_inv in L2 as [L2 _]; lia|].
      unfold zlen in HC1. cbn [length] in HC1. replace (str + Z.of_nat 0 + Z.of_nat 0) with str in HC1 by lia. lia. }
  unfold scan_i64. rewrite NEG. replace (if neg then str + 1 else str) with (str + zlen sg) by (unfold sg; destruct neg; unfold zlen; cbn [length]; lia).
  assert (PX : (if (base =? 16) && ((m (str + zlen sg) =? 48) && (m (str + zlen sg + 1) =? 120)) then str + zlen sg + 2 else str + zlen sg) = str + zlen sg + zlen px).
  { unfold px in *. destruct (hexp && (base =? 16)) eqn:EP.
    - apply load_bytes_cons_inv in L2 as [A L2]. apply load_bytes_cons_inv in L2 as [B _]. replace ((base =? 16) && ((m (str + zlen sg) =? 48) && (m (str + zlen sg + 1) =? 120))) with true by lia. unfold zlen. cbn [length]. lia.
    - change (zlen (@nil Z)) with 0 in *. replace (str + zlen sg + 0) with (str + zlen sg) in * by lia.
      destruct (Z.eq_dec base 16) as [B|B]; [|replace (base =? 16) with false by lia; cbn [andb]; lia].
      assert (NX2 : m (str + zlen sg + 1) <> 120).
      { destruct (Z_lt_ge_dec 1 (zlen cs)) as [Hl|Hl]; [rewrite HC2 by auto; auto|].
        specialize (NX B). rewrite zlen_app in NX. cbn [app] in NX. destruct cs as [|c cs]; [congruence|]. rewrite zlen_cons in *. pose proof (zlen_nonneg cs).
        replace (zlen cs) with 0 in NX by lia. replace (str + (zlen sg + (1 + 0))) with (str + zlen sg + 1) in NX by lia. auto. }
      replace ((base =? 16) && ((m (str + zlen sg) =? 48) && (m (str + zlen sg + 1) =? 120))) with false by lia. lia. }
  rewrite PX. unfold digits_value in *.
  rewrite (scan_loop_spec m base ltac:(lia) cs ds (str + zlen sg + zlen px) fuel 0); auto; try lia.
  - cbn [rbind]. rewrite !zlen_app. destruct neg.
    + assert (0 <= fold_left (fun a d => a * base + d) ds 0).
      { apply fold_mono; try lia. clear -F. induction F as [|? ? ? ? D0 F0 IH0]; constructor; auto. apply D0. }
      replace (s64_ok (- fold_left (fun a d => a * base + d) ds 0)) with true by (unfold s64_ok; lia). cbn [rbind]. f_equal. eqz.
    + cbn [rbind]. f_equal. eqz.
  - rewrite !zlen_app in ST. replace (str + zlen sg + zlen px + zlen cs) with (str + (zlen sg + (zlen px + zlen cs))) by lia. auto.
  - destruct neg; lia.
Qed.

Lemma digit_char_denotes base d : base = 16 \/ 2 <= base <= 10 -> 0 <= d < base -> denotes base (digit_char d) d.
Proof.
  intros Hb Hd. split; auto.
  assert (H : forallb (fun d => (digit_char d =? nth (Z.to_nat d) HEX_UPPER 0) && (negb (d <? 10) || (digit_char d =? nth (Z.to_nat d) DIGITS 0))) (zrange 16) = true) by (vm_compute; reflexivity).
  pose proof (zrange_forallb 16 _ H d ltac:(lia)) as E. cbv beta in E. rewrite andb_true_iff, orb_true_iff, !Z.eqb_eq in E. destruct E as [E1 E2].
  destruct Hb as [->|Hb]; [right; auto|]. left. split; [lia|]. destruct E2; auto. lia.
Qed.
Lemma numeral_denotes base v t : base = 16 \/ 2 <= base <= 10 -> numeral base v t -> exists ds, t <> [] /\ Forall2 (denotes base) t ds /\ digits_value base ds = v.
Proof.
  intros Hb (ds & -> & F & V & NE & _). exists ds. split; [destruct ds; cbn; congruence|]. split; auto.
  clear -Hb F. induction F; cbn; constructor; auto. apply digit_char_denotes; auto.
Qed.
Lemma scan_digit_nul base : scan_digit base 0 = None.
Proof. unfold scan_digit. cbn. rewrite andb_false_r. auto. Qed.

Lemma p20_roundtrip m v s base fuel m1 : byte_mem m -> s <> 0 -> base = 16 \/ 2 <= base <= 10 -> - 2 ^ 63 < v < 2 ^ 63 -> (66 <= fuel)%nat ->
  i64_to_str fuel m v s base = Done m1 -> exists t, cstr m1 s t /\
  forall fuel', (length t <= fuel')%nat -> c_str_to_i64 fuel' m1 s base = Done (v, s + zlen t).
Proof.
  intros Hm Hs Hb Hv Hf H. destruct (p20_i64 m v s base fuel Hm Hs ltac:(lia) Hv Hf) as (m1' & t & W & C & N & _). rewrite H in W. injection W as <-.
  exists t. split; auto. intros fuel' Hf'. unfold signed_numeral in N. destruct (v <? 0) eqn:E.
  - destruct N as (t' & -> & N). apply (numeral_denotes base) in N as (ds & NE & F & V); auto.
    rewrite (p20_parse m1 s base true false t' ds fuel'); auto.
    + cbn [literal_text andb app]. rewrite V. f_equal. eqz.
    + lia. + apply C. + cbn [literal_text andb app]. replace (m1 (s + zlen (45 :: t'))) with 0 by (symmetry; apply C). apply scan_digit_nul.
    + intros _. cbn [literal_text andb app]. replace (m1 (s + zlen (45 :: t'))) with 0 by (symmetry; apply C). lia.
    + cbn in Hf'. lia.
  - apply (numeral_denotes base) in N as (ds & NE & F & V); auto.
    rewrite (p20_parse m1 s base false false t ds fuel'); auto.
    + cbn [literal_text andb app]. rewrite V. auto.
    + lia. + apply C. + cbn [literal_text andb app]. replace (m1 (s + zlen t)) with 0 by (symmetry; apply C). apply scan_digit_nul.
    + intros _. cbn [literal_text andb app]. replace (m1 (s + zlen t)) with 0 by (symmetry; apply C). lia.
Qed.

Lemma scan_digit_none base c : 0 <= c < 256 -> ~ In c DIGITS -> (base = 16 -> ~ In c (HEX_LOWER ++ HEX_UPPER)) -> scan_digit base c = None.
Proof.
  intros Hc HD HH. unfold scan_digit. destruct (char_is_digit c) eqn:E; [apply (proj1 (p21_digit c Hc)) in E; contradiction|].
  destruct (base =? 16) eqn:B; cbn [andb]; auto. destruct (char_is_hex_digit c) eqn:E2; auto. apply (proj1 (p21_hex c Hc)) in E2. exfalso. apply HH; auto. lia.
Qed.
Lemma p20_parse_lit m str base (neg hexp : bool) cs ds fuel : byte_mem m -> base = 16 \/ 2 <= base <= 10 ->
  cs <> [] -> Forall2 (denotes base) cs ds -> digits_value base ds < 2 ^ 63 ->
  let t := literal_text base neg hexp cs in
  load_bytes m str (length t) = t -> ~ In (m (str + zlen t)) DIGITS ->
  (base = 16 -> ~ In (m (str + zlen t)) (120 :: HEX_LOWER ++ HEX_UPPER)) -> (length cs <= fuel)%nat ->
  c_str_to_i64 fuel m str base = Done (if neg then - digits_value base ds else digits_value base ds, str + zlen t).
Proof.
  intros Hm Hb NE F V t L D1 D2 Hf. apply (p20_parse m str base neg hexp cs ds fuel); auto.
  - destruct neg; lia.
  - apply scan_digit_none; auto. intros B I. apply (D2 B). right. auto.
  - intros B E. apply (D2 B). left. auto.
Qed.
Lemma p20_auto_base m str t fuel : str <> 0 -> cstr m str t -> (length t <= fuel)%nat ->
  c_str_to_i64 fuel m str 0 =
  c_str_to_i64 fuel m str (if (2 <? zlen t) && (nth 0 t 0 =? 48) && (nth 1 t 0 =? 120) then 16 else 10).
Proof.
  intros Hs C Hf. unfold c_str_to_i64. cbn [Z.eqb]. rewrite (p46_len m str t fuel Hs C Hf). cbn [of_opt rbind].
  assert (E : ((zlen t >? 2) && ((m str =? 48) && (m (str + 1) =? 120))) = ((2 <? zlen t) && (nth 0 t 0 =? 48) && (nth 1 t 0 =? 120))).
  { destruct (Z_lt_ge_dec 2 (zlen t)) as [H|H]; [|lia].
    pose proof (proj1 (cstr_at _ _ _ C 0 ltac:(lia))) as E0. pose proof (proj1 (cstr_at _ _ _ C 1 ltac:(lia))) as E1.
    replace (str + 0) with str in E0 by lia. change (Z.to_nat 0) with 0%nat in E0. change (Z.to_nat 1) with 1%nat in E1. rewrite E0, E1. lia. }
  rewrite E. destruct ((2 <? zlen t) && (nth 0 t 0 =? 48) && (nth 1 t 0 =? 120)); reflexivity.
Qed.
