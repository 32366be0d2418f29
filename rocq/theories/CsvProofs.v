From Coq Require Import String ZArith List Bool Lia ZifyBool ZifyNat.
From Verif Require Import Common CommonProofs Text ArrayModel ArrayProofs MemModel MemSpec MemPropProofs
  StrOpsModel StrOpsSpec StrOpsProofs CsvModel CsvSpec.
Import ListNotations.
Close Scope string_scope. Open Scope Z_scope.

(** ** C strings in pieces *)
Lemma zlen_app {A} (a b : list A) : zlen (a ++ b) = zlen a + zlen b.
Proof. unfold zlen. rewrite app_length. lia. Qed.
Lemma zlen_cons {A} (x : A) l : zlen (x :: l) = 1 + zlen l.
Proof. unfold zlen. cbn [length]. lia. Qed.
Lemma zlen_pos {A} (l : list A) : 0 <= zlen l.
Proof. unfold zlen. lia. Qed.
Lemma zlen_nil {A} : zlen (@nil A) = 0. Proof. reflexivity. Qed.
Ltac zl := repeat rewrite ?zlen_app, ?zlen_cons, ?zlen_nil in *.

Lemma cstr_app m s a b : cstr m s (a ++ b) <-> load_bytes m s (length a) = a /\ Forall (fun x => 1 <= x < 256) a /\ cstr m (s + zlen a) b.
Proof.
  unfold cstr. rewrite app_length, load_bytes_app, Forall_app. zl. change (Z.of_nat (length a)) with (zlen a).
  replace (s + (zlen a + zlen b)) with (s + zlen a + zlen b) by lia.
  assert (E : forall x y : list Z, length x = length a -> (x ++ y = a ++ b <-> x = a /\ y = b)).
  { intros x y L. split; [|intros [-> ->]; auto]. intros H. destruct (app_eq_app _ _ _ _ H) as (l & [[P Q]|[P Q]]); subst.
    - rewrite app_length in L. destruct l; [|cbn in L; lia]. rewrite app_nil_r in *. auto.
    - rewrite app_length in L. destruct l; [|cbn in L; lia]. rewrite app_nil_r in *. auto. }
  rewrite E by apply load_bytes_len. tauto.
Qed.
Lemma cstr_hd m s t : cstr m s t -> m s = hd 0 t.
Proof. destruct t as [|c t]; intros H; [apply cstr_nil in H | apply cstr_cons in H]; cbn; tauto. Qed.

Lemma run_length_app f a b : (forall x, In x a -> f x = true) -> (b = [] \/ f (hd 0 b) = false) -> run_length f (a ++ b) = zlen a.
Proof.
  intros H1 H2. induction a as [|x a IH]; cbn [run_length app].
  - destruct H2 as [->|H2]; auto. destruct b; auto. cbn in *. rewrite H2. auto.
  - rewrite H1 by (left; auto). rewrite IH by (intros; apply H1; right; auto). zl. auto.
Qed.

Lemma store8_cut m s a b : cstr m s (a ++ b) -> cstr (store8 m (s + zlen a) 0) s a.
Proof.
  intros H. apply cstr_app in H. destruct H as (L & F & _). split; [|split]; auto.
  - transitivity (load_bytes m s (length a)); auto. apply load_bytes_ext. intros x Hx. unfold store8, zlen. replace (x =? s + Z.of_nat (length a)) with false by lia. auto.
  - unfold store8. rewrite Z.eqb_refl. auto.
Qed.
Lemma byte_store m a v : byte_mem m -> byte_mem (store8 m a v).
Proof. intros H x. unfold store8. destruct (x =? a); [apply Z.mod_pos_bound; lia | apply H]. Qed.

Lemma while_down (cond : Z -> bool) k : forall fuel s, (k <= fuel)%nat ->
  (forall i, 0 <= i < Z.of_nat k -> cond (s - i) = true) -> cond (s - Z.of_nat k) = false ->
  while fuel cond (fun s => s - 1) s = Some (s - Z.of_nat k).
Proof.
  induction k as [|k IH]; intros fuel s Hf H1 H2.
  - replace (s - Z.of_nat 0) with s in * by lia. destruct fuel; cbn; rewrite H2; auto.
  - destruct fuel as [|fuel]; [lia|]. cbn [while]. replace (cond s) with true.
    + rewrite IH; [f_equal; lia|lia| |].
      * intros i Hi. replace (s - 1 - i) with (s - (i + 1)) by lia. apply H1. lia.
      * replace (s - 1 - Z.of_nat k) with (s - Z.of_nat (S k)) by lia. auto.
    + symmetry. replace s with (s - 0) by lia. apply H1. lia.
Qed.

(** ** blanks *)
Lemma blank_space b : In b BLANKS -> char_is_space b = true.
Proof. intros H. apply p21_space; auto. cbn in H. lia. Qed.
Lemma blank_byte b : In b BLANKS -> 1 <= b < 256.
Proof. intros H. cbn in H. lia. Qed.
Lemma not_blank b : 0 <= b < 256 -> ~ In b BLANKS -> char_is_space b = false.
Proof. intros H1 H2. destruct (char_is_space b) eqn:E; auto. apply p21_space in E; auto. contradiction. Qed.

Lemma trim_before m s bs r fuel : cstr m s (bs ++ r) -> Forall (fun b => In b BLANKS) bs -> (r = [] \/ ~ In (hd 0 r) BLANKS) ->
  (length (bs ++ r) <= fuel)%nat -> c_str_trim fuel m s false = Some (s + zlen bs).
Proof.
  intros Hc Hb Hr Hf. rewrite (p46_trim m s (bs ++ r)) by auto. rewrite run_length_app; auto.
  - intros x Hx. rewrite Forall_forall in Hb. rewrite blank_space by auto. auto.
  - destruct r as [|c r]; [auto|]. right. destruct Hr as [|Hr]; [discriminate|]. cbn [hd] in *.
    apply cstr_app in Hc. destruct Hc as (_ & _ & Hc). apply cstr_cons in Hc. rewrite not_blank by (auto; lia). auto.
Qed.
Lemma trim_after m s bs r fuel : cstr m s (bs ++ r) -> Forall (fun b => In b BLANKS /\ b <> 10) bs -> (r = [] \/ hd 0 r = 10 \/ ~ In (hd 0 r) BLANKS) ->
  (length (bs ++ r) <= fuel)%nat -> c_str_trim fuel m s true = Some (s + zlen bs).
Proof.
  intros Hc Hb Hr Hf. rewrite (p46_trim m s (bs ++ r)) by auto. rewrite run_length_app; auto.
  - intros x Hx. rewrite Forall_forall in Hb. destruct (Hb x Hx). rewrite blank_space by auto. cbn [andb]. lia.
  - destruct r as [|c r]; [auto|]. right. cbn [hd] in *. destruct Hr as [|[->|Hr]]; [discriminate|auto|].
    apply cstr_app in Hc. destruct Hc as (_ & _ & Hc). apply cstr_cons in Hc. rewrite not_blank by (auto; lia). auto.
Qed.

(** ** numbers are never recognised *)
Lemma hex_loop_skips : forall n m p b, hex_loop n m p = Some b -> b = true.
Proof.
  induction n as [|n IH]; intros m p b; cbn [hex_loop].
  - destruct (char_is_hex_digit (m p)) eqn:E; cbn; [|congruence]. destruct (m p =? 0) eqn:Z0; [|discriminate]. apply Z.eqb_eq in Z0. rewrite Z0 in E. discriminate.
  - destruct (char_is_hex_digit (m p)) eqn:E; cbn; [|congruence]. destruct (m p =? 0) eqn:Z0; [apply Z.eqb_eq in Z0; rewrite Z0 in E; discriminate|]. apply IH.
Qed.
Lemma skip_number_skips fuel m p b : skip_number fuel m p = Some b -> b = true.
Proof.
  unfold skip_number. destruct (c_str_len fuel m p); [|discriminate].
  destruct (_ && _); [apply hex_loop_skips | congruence].
Qed.
Lemma hex_loop_done m : forall u n p, cstr m p u -> (length u <= n)%nat -> hex_loop n m p = Some true.
Proof.
  induction u as [|c u IH]; intros n p H L.
  - apply cstr_nil in H. destruct n; cbn [hex_loop]; rewrite H; reflexivity.
  - cbn in L. apply cstr_cons in H. destruct H as (E & B & H). destruct n as [|n]; [lia|]. cbn [hex_loop].
    destruct (negb _); auto. rewrite E. replace (c =? 0) with false by lia. apply IH; auto. lia.
Qed.
Lemma skip_number_done fuel m p u : p <> 0 -> cstr m p u -> (length u <= fuel)%nat -> skip_number fuel m p = Some true.
Proof.
  intros Hp H L. unfold skip_number. rewrite (p46_len m p u) by auto.
  destruct (_ && _) eqn:E; auto. assert (2 < zlen u) by lia. unfold zlen in *.
  destruct u as [|a [|b u]]; cbn in *; try lia. apply cstr_cons in H. destruct H as (_ & _ & H). apply cstr_cons in H. destruct H as (_ & _ & H).
  replace (p + 1 + 1) with (p + 2) in H by lia. apply (hex_loop_done m u); auto. lia.
Qed.

(** ** bare cells *)
Definition tail_ok (d : Z) (post tl : list Z) : Prop := (tl = [] /\ post = []) \/ (tl <> [] /\ (hd 0 tl = d \/ hd 0 tl = 10)).

Lemma plain_ok d m b t post tl fuel : delim_ok d -> byte_mem m -> 0 < b -> cell_ok d (Plain t) -> Forall (fun b => In b BLANKS /\ b <> 10) post ->
  cstr m b (t ++ post ++ tl) -> tail_ok d post tl -> (length (t ++ post ++ tl) <= fuel)%nat ->
  exists m', plain_cell fuel m b d = Done (CellOk m' (Item b false) (b + zlen t + zlen post) (hd 0 tl)) /\
    byte_mem m' /\ cstr m' b t /\ (forall x, ~ (b <= x < b + zlen t + zlen post + 1) -> m' x = m x).
Proof.
  intros [D1 D2] BM Hb (NE & PL & HD & LA) PO HC HT Hf.
  assert (E1 : while fuel (fun e => negb (m e =? 0) && negb (m e =? d) && negb (m e =? 10)) (fun e => e + 1) (b + 1) = Some (b + zlen t + zlen post)).
  { destruct t as [|c t']; [destruct NE; contradiction|]. cbn [app] in HC. pose proof HC as HC'. apply cstr_cons in HC'. destruct HC' as (_ & _ & H1).
    rewrite (scan_cstr m _ (fun x => negb (x =? d) && negb (x =? 10)) _ (t' ++ post ++ tl)); auto.
    - rewrite app_assoc. rewrite run_length_app; [f_equal; zl; lia| |].
      + intros x Hx. apply in_app_or in Hx. inversion PL; subst. rewrite Forall_forall in *. destruct Hx as [Hx|Hx].
        * destruct (H3 x Hx). lia.
        * destruct (PO x Hx). assert (x <> d) by (intros ->; apply D2; right; auto). lia.
      + destruct HT as [[-> _]|[_ HT]]; [auto|right]. destruct HT; lia.
    - rewrite app_length in Hf. cbn in Hf. rewrite !app_length in *. lia.
    - intros p Hp. replace (m p =? 0) with false by lia. cbn. auto.
    - intros p Hp. rewrite Hp. auto. }
  unfold plain_cell. rewrite E1. cbn [of_opt rbind].
  pose proof HC as HC2. rewrite app_assoc in HC2. apply cstr_app in HC2. destruct HC2 as (_ & _ & HTL). rewrite zlen_app in HTL.
  replace (b + (zlen t + zlen post)) with (b + zlen t + zlen post) in HTL by lia.
  pose proof (cstr_hd _ _ _ HTL) as HTH.
  assert (Lt : (length t <= fuel)%nat) by (rewrite app_length in Hf; lia).
  pose proof (zlen_pos t). pose proof (zlen_pos post).
  destruct HT as [[-> ->]|[HN HT]].
  - rewrite HTH. cbn [hd Z.eqb negb rbind]. rewrite !app_nil_r in *. change (zlen (@nil Z)) with 0 in *.
    rewrite (skip_number_done fuel m b t); auto; [|lia]. cbn [of_opt rbind].
    exists m. split; [auto|split; [auto|split; auto]].
  - assert (hd 0 tl <> 0) by lia. rewrite HTH. replace (hd 0 tl =? 0) with false by lia. cbn [negb].
    rewrite (trim_after m _ [] tl); auto.
    2:{ right. destruct HT as [E|E]; [right; intros HI; apply D2; right; congruence | left; auto]. }
    2:{ rewrite !app_length in *. cbn. lia. }
    cbn [of_opt rbind]. change (zlen (@nil Z)) with 0. rewrite Z.add_0_r.
    rewrite (while_down _ (length post)).
    + cbn [of_opt rbind].
      replace (b + zlen t + zlen post - Z.of_nat (length post)) with (b + zlen t) by (unfold zlen; lia).
      pose proof (store8_cut _ _ _ _ HC) as HCUT.
      rewrite (skip_number_done fuel _ b t); auto; [|lia]. cbn [of_opt rbind]. rewrite HTH.
      exists (store8 m (b + zlen t) 0). split; [auto|split; [apply byte_store; auto|split; auto]].
      intros x Hx. unfold store8. replace (x =? b + zlen t) with false; [auto|lia].
    + rewrite !app_length in *. lia.
    + intros i Hi. apply cstr_app in HC. destruct HC as (_ & _ & HC). apply cstr_app in HC. destruct HC as (HL & _ & _).
      rewrite Forall_forall in PO. apply blank_space.
      pose proof (load_bytes_at _ _ _ HL (zlen post - 1 - i)) as HA.
      replace (b + zlen t + zlen post - i - 1) with (b + zlen t + (zlen post - 1 - i)) by lia. rewrite HA by (unfold zlen in *; lia).
      apply PO. apply nth_In. unfold zlen in *. lia.
    + replace (b + zlen t + zlen post - Z.of_nat (length post) - 1) with (b + (zlen t - 1)) by (unfold zlen; lia).
      apply cstr_app in HC. destruct HC as (HL & _ & _). destruct NE as [NE FB].
      assert (0 < zlen t) by (destruct t; [contradiction|unfold zlen; cbn [length]; lia]).
      rewrite (load_bytes_at _ _ _ HL) by lia. apply not_blank.
      * rewrite Forall_forall in FB. assert (H4 : In (nth (Z.to_nat (zlen t - 1)) t 0) t) by (apply nth_In; unfold zlen in *; lia). apply FB in H4. lia.
      * replace (Z.to_nat (zlen t - 1)) with (length t - 1)%nat by (unfold zlen; lia).
        replace (nth (length t - 1) t 0) with (last t 0); auto.
        clear. destruct t as [|c t]; auto. revert c. induction t as [|y t IH]; intros c; auto.
        change (last (c :: y :: t) 0) with (last (y :: t) 0). rewrite IH. cbn [length]. replace (S (length t) - 1)%nat with (length t) by lia.
        replace (S (S (length t)) - 1)%nat with (S (length t)) by lia. auto.
Qed.

(** ** quoted cells *)
Lemma doubled_bytes t : Forall (fun b => 1 <= b < 256) t -> Forall (fun b => 1 <= b < 256) (doubled t).
Proof. induction 1 as [|c t H F IH]; cbn; auto. destruct (c =? 34); cbn; repeat constructor; auto; lia. Qed.
Lemma doubled_len t : (length t <= length (doubled t))%nat.
Proof. induction t as [|c t IH]; auto. cbn [doubled flat_map length]. fold (doubled t). rewrite app_length. destruct (c =? 34); cbn [length]; lia. Qed.

Lemma skip_step m p c u fuel : cstr m p (c :: u) -> c <> 34 -> (length (c :: u) <= fuel)%nat -> c_str_skip fuel m p 34 = c_str_skip fuel m (p + 1) 34.
Proof.
  intros H N L. rewrite (p46_skip m p (c :: u)) by auto. apply cstr_cons in H. cbn in L. rewrite (p46_skip m (p + 1) u); [|tauto|lia].
  cbn [run_length]. replace (c =? 34) with false by lia. cbn [negb]. f_equal. lia.
Qed.
Lemma find_close_step n fuel m p c u : cstr m p (c :: u) -> c <> 34 -> (length (c :: u) <= fuel)%nat -> find_close n fuel m p = find_close n fuel m (p + 1).
Proof. intros H N L. destruct n; cbn [find_close]; rewrite (skip_step m p c u) by auto; auto. Qed.

Lemma find_close_ok m fuel rest : hd 0 rest <> 34 -> forall t n p, cstr m p (doubled t ++ 34 :: rest) ->
  (length (doubled t ++ 34%Z :: rest) <= fuel)%nat -> (length t <= n)%nat ->
  find_close n fuel m p = Done (p + zlen (doubled t)).
Proof.
  intros HR. induction t as [|c t IH]; intros n p H L Ln.
  - cbn [doubled flat_map app] in *. pose proof (p46_skip m p _ 34 fuel H L) as E. cbn [run_length] in E. cbn [Z.eqb Pos.eqb negb] in E. rewrite Z.add_0_r in E.
    pose proof (cstr_cons _ _ _ _ H) as (E1 & _ & H2). apply cstr_hd in H2.
    destruct n; cbn [find_close]; rewrite E; cbn [of_opt rbind]; rewrite E1, H2; replace (hd 0 rest =? 34) with false by lia; rewrite andb_false_r; f_equal; unfold zlen; cbn; lia.
  - cbn [length] in Ln. cbn [doubled flat_map] in *. fold (doubled t) in *. destruct (Z.eqb_spec c 34) as [->|N].
    + cbn [app] in H, L |- *. pose proof (p46_skip m p _ 34 fuel H L) as E. cbn [run_length] in E. cbn [Z.eqb Pos.eqb negb] in E. rewrite Z.add_0_r in E.
      pose proof (cstr_cons _ _ _ _ H) as (E1 & _ & H2). pose proof (cstr_cons _ _ _ _ H2) as (E2 & _ & H3).
      replace (p + 1 + 1) with (p + 2) in H3 by lia.
      destruct n as [|n]; [lia|]. cbn [find_close]. rewrite E. cbn [of_opt rbind]. rewrite E1, E2. cbn [Z.eqb Pos.eqb negb andb].
      assert (Hn : m (p + 2) <> 0).
      { rewrite (cstr_hd _ _ _ H3). destruct H3 as (_ & F & _). destruct (doubled t); cbn in *; [lia|]. inversion F; lia. }
      replace (m (p + 2) =? 0) with false by lia. rewrite IH; [|auto|cbn in L; lia|lia]. f_equal. zl. lia.
    + cbn [app] in H, L |- *. rewrite (find_close_step n fuel m p c _ H N L). apply cstr_cons in H. destruct H as (_ & _ & H).
      rewrite IH; [|auto|cbn in L; lia|lia]. f_equal. zl. lia.
Qed.
(** no closing quote: the search ends at the terminating NUL *)
Lemma find_close_none m fuel : forall t n p, cstr m p (doubled t) -> (length (doubled t) <= fuel)%nat -> (length t <= n)%nat ->
  find_close n fuel m p = Done (p + zlen (doubled t)).
Proof.
  induction t as [|c t IH]; intros n p H L Ln.
  - cbn [doubled flat_map] in *. pose proof (p46_skip m p _ 34 fuel H L) as E. cbn [run_length] in E. rewrite Z.add_0_r in E.
    apply cstr_nil in H. destruct n; cbn [find_close]; rewrite E; cbn [of_opt rbind]; rewrite H; cbn; f_equal; unfold zlen; cbn; lia.
  - cbn [length] in Ln. cbn [doubled flat_map] in *. fold (doubled t) in *. destruct (Z.eqb_spec c 34) as [->|N].
    + cbn [app] in H, L |- *. pose proof (p46_skip m p _ 34 fuel H L) as E. cbn [run_length] in E. cbn [Z.eqb Pos.eqb negb] in E. rewrite Z.add_0_r in E.
      pose proof (cstr_cons _ _ _ _ H) as (E1 & _ & H2). pose proof (cstr_cons _ _ _ _ H2) as (E2 & _ & H3).
      replace (p + 1 + 1) with (p + 2) in H3 by lia.
      destruct n as [|n]; [lia|]. cbn [find_close]. rewrite E. cbn [of_opt rbind]. rewrite E1, E2. cbn [Z.eqb Pos.eqb negb andb].
      destruct (m (p + 2) =? 0) eqn:Z0.
      * assert (doubled t = []) as ->. { destruct (doubled t); auto. apply cstr_cons in H3. lia. } f_equal.
      * rewrite IH; [|auto|cbn in L; lia|lia]. f_equal. zl. lia.
    + cbn [app] in H, L |- *. rewrite (find_close_step n fuel m p c _ H N L). apply cstr_cons in H. destruct H as (_ & _ & H).
      rewrite IH; [|auto|cbn in L; lia|lia]. f_equal. zl. lia.
Qed.

Lemma cstr_cons_intro m s c t : m s = c -> 1 <= c < 256 -> cstr m (s + 1) t -> cstr m s (c :: t).
Proof.
  intros E B (L & F & Z0). split; [|split].
  - cbn [length]. rewrite load_bytes_cons, E, L. auto.
  - constructor; auto.
  - zl. replace (s + (1 + zlen t)) with (s + 1 + zlen t) by lia. auto.
Qed.

Lemma unescape_ok fuel : forall t n m e, 0 < e -> byte_mem m -> t <> [] -> cstr m e (doubled t) -> (length (doubled t) <= fuel)%nat -> (length t <= n)%nat ->
  exists m', unescape n fuel m e = Done m' /\ byte_mem m' /\ cstr m' e t /\ (forall x, ~ (e <= x < e + zlen (doubled t) + 1) -> m' x = m x).
Proof.
  induction t as [|c t IH]; intros n m e He BM NE H L Ln; [contradiction|]. clear NE. cbn [length] in Ln.
  cbn [doubled flat_map] in H, L |- *. fold (doubled t) in *. pose proof (zlen_pos (doubled t)).
  (* after the body of the loop *)
  assert (X : exists m1, (if (m e =? 34) && (m (e + 1) =? 34) then rbind (of_opt (c_str_len fuel m e)) (fun len => of_opt (mem_move m e (e + 1) len)) else Done m) = Done m1 /\
      byte_mem m1 /\ m1 e = c /\ 1 <= c < 256 /\ cstr m1 (e + 1) (doubled t) /\
      (forall x, ~ (e <= x < e + zlen ((if c =? 34 then [34; 34] else [c]) ++ doubled t) + 1) -> m1 x = m x)).
  { destruct (Z.eqb_spec c 34) as [->|N].
    - cbn [app] in *. pose proof (p46_len m e _ fuel ltac:(lia) H L) as EL. pose proof (cstr_cons _ _ _ _ H) as (E1 & B1 & H2). pose proof (cstr_cons _ _ _ _ H2) as (E2 & _ & H3).
      rewrite E1, E2. cbn [Z.eqb Pos.eqb andb]. rewrite EL. cbn [of_opt rbind].
      destruct (p05 m e (e + 1) (zlen (34 :: 34 :: doubled t)) BM) as (m1 & EM & M1 & M2); [apply zlen_pos|lia|].
      zl. rewrite EM. cbn [of_opt]. exists m1. split; [auto|]. split; [|split; [|split; [lia|split]]].
      + intros x. destruct (Z.le_gt_cases e x); [|rewrite M2 by lia; apply BM]. destruct (Z.lt_ge_cases x (e + (1 + (1 + zlen (doubled t))))); [|rewrite M2 by lia; apply BM].
        replace x with (e + (x - e)) by lia. rewrite M1 by lia. apply BM.
      + pose proof (M1 0 ltac:(lia)) as Q. rewrite !Z.add_0_r in Q. congruence.
      + destruct H3 as (L3 & F3 & Z3). split; [|split]; auto.
        * transitivity (load_bytes m (e + 1 + 1) (length (doubled t))); auto. unfold load_bytes. apply map_ext_in. intros i Hi. apply in_seq in Hi. unfold zlen in *.
          replace (e + 1 + Z.of_nat i) with (e + (1 + Z.of_nat i)) by lia. rewrite M1 by lia. f_equal. lia.
        * replace (e + 1 + zlen (doubled t)) with (e + (1 + zlen (doubled t))) by lia. rewrite M1 by lia. rewrite <- Z3. f_equal. lia.
      + intros x Hx. apply M2. lia.
    - cbn [app] in *. pose proof (cstr_cons _ _ _ _ H) as (E1 & B1 & H2). exists m. rewrite E1. replace (c =? 34) with false by lia. cbn [andb]. auto 10. }
  destruct X as (m1 & X1 & X2 & X3 & X4 & X5 & X6).
  assert (LL : (length (doubled t) <= fuel)%nat) by (rewrite app_length in L; lia).
  assert (ZZ : 1 <= zlen (if c =? 34 then [34; 34] else [c])) by (destruct (c =? 34); unfold zlen; cbn; lia).
  destruct t as [|c2 t2].
  - change (doubled []) with (@nil Z) in *. pose proof (cstr_nil _ _ X5) as X7.
    exists m1. split; [|split; [auto|split; auto]].
    + destruct n; cbn [unescape]; rewrite X1; cbn [rbind]; rewrite X7; auto.
    + apply cstr_cons_intro; auto.
  - assert (m1 (e + 1) <> 0). { rewrite (cstr_hd _ _ _ X5). destruct X5 as (_ & F & _). cbn [doubled flat_map] in *. destruct (c2 =? 34); cbn in *; inversion F; lia. }
    destruct n as [|n]; [cbn in Ln; lia|]. destruct (IH n m1 (e + 1)) as (m' & Y1 & Y2 & Y3 & Y4); auto; [lia|discriminate|cbn [length] in *; lia|].
    exists m'. split; [|split; [auto|split]].
    + cbn [unescape]. rewrite X1. cbn [rbind]. replace (m1 (e + 1) =? 0) with false by lia. auto.
    + apply cstr_cons_intro; auto. rewrite Y4; auto. lia.
    + intros x Hx. zl. rewrite Y4, X6; auto; zl; lia.
Qed.

Lemma quoted_ok d m b t post tl fuel : delim_ok d -> byte_mem m -> 0 < b -> cell_ok d (Quoted t) -> Forall (fun b => In b BLANKS /\ b <> 10) post ->
  cstr m b ([34] ++ doubled t ++ [34] ++ post ++ tl) -> (tl = [] \/ tail_ok d post tl) -> (length ([34%Z] ++ doubled t ++ [34%Z] ++ post ++ tl) <= fuel)%nat ->
  exists m', quoted_cell fuel m b = Done (CellOk m' (Item (b + 1) true) (b + 2 + zlen (doubled t) + zlen post) (hd 0 tl)) /\
    byte_mem m' /\ cstr m' (b + 1) t /\ (forall x, ~ (b < x < b + 2 + zlen (doubled t)) -> m' x = m x).
Proof.
  intros [D1 D2] BM Hb [NE FB] PO HC HT Hf. cbn [app] in HC. pose proof (cstr_cons _ _ _ _ HC) as (_ & _ & H1).
  pose proof (doubled_len t) as DL. cbn [app length] in Hf. rewrite app_length in Hf. cbn [length] in Hf.
  assert (HH : hd 0 (post ++ tl) <> 34).
  { destruct post as [|c post]; cbn [app hd].
    - destruct HT as [->|[[-> _]|[_ [E|E]]]]; cbn; try lia. intros Q. apply D2. left. congruence.
    - inversion PO. subst. destruct H2 as [H2 _]. cbn in H2. lia. }
  unfold quoted_cell. rewrite (find_close_ok m fuel (post ++ tl) HH t); auto; [|rewrite app_length; cbn [length]; lia|lia].
  cbn [rbind]. pose proof (zlen_pos (doubled t)).
  apply cstr_app in H1. destruct H1 as (HL & HF & H2). pose proof (cstr_cons _ _ _ _ H2) as (E2 & _ & H3).
  rewrite E2. cbn [Z.eqb Pos.eqb].
  set (en := b + 1 + zlen (doubled t)) in *.
  assert (H3' : cstr (store8 m en 0) (en + 1) (post ++ tl)).
  { apply (cstr_ext m); auto. intros x Hx. unfold store8. replace (x =? en) with false by lia. auto. }
  rewrite (trim_after _ _ post tl fuel H3' PO).
  2:{ destruct HT as [->|[[-> _]|[_ [E|E]]]]; auto. right. right. rewrite E. intros HI. apply D2. right. auto. }
  2:{ lia. }
  cbn [of_opt rbind].
  assert (HD : cstr (store8 m en 0) (b + 1) (doubled t)).
  { split; [|split]; auto.
    - transitivity (load_bytes m (b + 1) (length (doubled t))); auto. apply load_bytes_ext. intros x Hx. unfold store8, en, zlen. replace (x =? _) with false by lia. auto.
    - fold en. unfold store8. rewrite Z.eqb_refl. auto. }
  destruct (unescape_ok fuel t fuel (store8 m en 0) (b + 1)) as (m' & U1 & U2 & U3 & U4); auto; [lia|apply byte_store; auto|lia|lia|].
  rewrite U1. cbn [rbind]. exists m'. split; [|split; [auto|split; auto]].
  - f_equal. f_equal; [unfold en; lia|]. apply cstr_app in H3'. destruct H3' as (_ & _ & H4). apply cstr_hd in H4. auto.
  - intros x Hx. rewrite U4 by lia. unfold store8. replace (x =? en) with false by lia. auto.
Qed.
