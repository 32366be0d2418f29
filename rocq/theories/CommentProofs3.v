From Coq Require Import String ZArith List Bool Lia ZifyBool ZifyNat.
From Verif Require Import Common Text ArrayModel StrOpsModel StrModel StrOpsSpec CommonProofs ArrayProofs StrOpsProofs StrOpsProofs2 StrOpsProofs3 FmtModel FmtSpec FmtProofs CommentModel CommentSpec CommentProofs CommentProofs2.
Import ListNotations.
Open Scope Z_scope.

(** a text has one list of lines, and a comment comments one text *)
Lemma concat_lines_inj : forall ls ls' : list (list Z), Forall (fun l => ~ In 10 l) ls -> Forall (fun l => ~ In 10 l) ls' ->
  concat (map (fun l => l ++ [10]) ls) = concat (map (fun l => l ++ [10]) ls') -> ls = ls'.
Proof.
  assert (X : forall (l l' r r' : list Z), ~ In 10 l -> ~ In 10 l' -> l ++ 10 :: r = l' ++ 10 :: r' -> l = l' /\ r = r').
  { induction l as [|a l IH]; intros [|b l'] r r' N N' E; cbn [app] in E.
    - injection E as E2. auto.
    - injection E as E1 E2. exfalso. apply N'. left; auto.
    - injection E as E1 E2. exfalso. apply N. left; auto.
    - injection E as E1 E2. subst b. destruct (IH l' r r') as [-> ->]; auto; intros HI; [apply N|apply N']; right; auto. }
  induction ls as [|l ls IH]; intros [|l' ls'] F F' E; auto; cbn [map concat] in E; rewrite <- ?app_assoc in E; cbn [app] in E.
  - destruct l'; discriminate.
  - destruct l; discriminate.
  - apply X in E as [-> E]; [|exact (Forall_inv F)|exact (Forall_inv F')]. f_equal. apply IH; auto; eapply Forall_inv_tail; eauto.
Qed.
Lemma comments_inj t t' out : comments t out -> comments t' out -> t = t'.
Proof.
  intros (ls & [E F] & ->) (ls' & [E' F'] & O).
  assert (map (fun l => txt "//" ++ l) ls = map (fun l => txt "//" ++ l) ls').
  { assert (G : forall k : list (list Z), Forall (fun l => ~ In 10 l) k -> Forall (fun l => ~ In 10 l) (map (fun l => txt "//" ++ l) k)).
    { intros k K. apply Forall_forall. intros x Hx. apply in_map_iff in Hx as (y & <- & Hy). rewrite Forall_forall in K. change (txt "//" ++ y) with (47 :: 47 :: y). intros [Q|[Q|HI]]; [lia|lia|]. apply (K y); auto. }
    apply concat_lines_inj; auto. rewrite !map_map.
    assert (Q : forall k : list (list Z), map (fun x => (txt "//" ++ x) ++ [10]) k = map (fun l => txt "//" ++ l ++ [10]) k) by (intros k; apply map_ext; intros; symmetry; apply app_assoc).
    rewrite !Q. exact O. }
  assert (ls = ls').
  { clear - H. revert ls' H. induction ls as [|l ls IH]; intros [|l' ls'] H; auto; try discriminate. cbn [map] in H. injection H as H1 H2. subst. f_equal; auto. }
  subst ls'. rewrite <- E' in E. apply app_inj_tail in E as [-> _]. auto.
Qed.

Lemma p35_comment fuel m num buf fmt s t : place m num buf fmt -> 0 < s -> t <> [] -> chars t -> load_bytes m s (length t) = t ->
  (forall x, s <= x <= s + zlen t + 2 -> ~ (buf <= x < buf + PRINTF_MAXLEN)) -> short_lines (PRINTF_MAXLEN - 6) t ->
  (length t + 2 <= fuel)%nat ->
  exists out, def_comment fuel m num buf fmt s (zlen t) = Done (Some out) /\
    comments (t ++ to_eol (load_bytes m (s + zlen t) (if last t 0 =? 10 then 1 else 2))) out.
Proof.
  intros HP Hs HN HC HL HD HSL HF.
  assert (0 < zlen t) by (destruct t; [congruence|rewrite zlen_cons; pose proof (zlen_nonneg t); lia]).
  unfold def_comment. replace ((zlen t <=? 0) || (s =? 0)) with false by lia.
  destruct (comment_loop_ok t fuel fuel m num buf fmt s []) as (res & out & E & C & G); auto; try lia.
  rewrite E. cbn [rbind]. fold (close res). rewrite C. exists out. split; auto.
  replace (zlen t =? 0) with false in G by lia. cbn [orb] in G. unfold leak_of in G. destruct (last t 0 =? 10); auto.
Qed.

(** ** a line that does not fit the buffer is dropped *)
Lemma append_long fuel m num buf fmt src n acc : place m num buf fmt -> src <> 0 -> PRINTF_MAXLEN <= n ->
  exists m1, append_fmt (S (S fuel)) m num buf fmt [AInt n; APtr src] acc = Done (m1, acc ++ txt "//").
Proof.
  intros [PB PN PF PA] Hs Hn. assert (PM : PRINTF_MAXLEN = 131072) by reflexivity.
  set (m0 := zeroed m buf PRINTF_MAXLEN). assert (B0 : byte_mem m0) by (apply zeroed_bytes; auto).
  assert (F0 : cstr m0 fmt FMT).
  { destruct PF as (A & B & C). change (zlen FMT) with 6 in *. split; [|split; auto].
    - rewrite <- A at 2. apply load_bytes_ext. intros x Hx. change (length FMT) with 6%nat in Hx. apply zeroed_out, PA. lia.
    - unfold m0. change (zlen FMT) with 6. rewrite zeroed_out; auto. apply PA. lia. }
  destruct (fmt_runs fuel m0 num buf fmt n src (put m0 buf (txt "//")) 0) as (m3 & E & X); auto; try lia.
  - intros m1 P1. exists m1. split; auto. unfold print_string. replace (src =? 0) with false by lia. cbn [andb i_precision i_width i_flags].
    replace (n >=? 0) with true by lia. cbn [rbind]. change (has 0 FMT_WIDTH) with false. cbn [Z.eqb andb orb].
    replace (if n >? 0 then if n <? n then n else n else n) with n by (rewrite Z.ltb_irrefl; destruct (n >? 0); auto).
    replace (n >? PRINTF_MAXLEN - 1) with true by lia. reflexivity.
  - intros x Hx. apply put_out. change (zlen (txt "//")) with 2. lia.
  - unfold append_fmt. fold m0. rewrite E. cbn [rbind]. change (0 + 3 - 1 <? 0) with false. cbv zeta iota. change (Z.to_nat (0 + 3 - 1)) with 2%nat.
    exists m3. do 3 f_equal. apply (load_bytes_intro m3 buf (txt "//")). change (zlen (txt "//")) with 2. intros i Hi. rewrite X. unfold store8.
    replace (buf + i =? buf + 2 + 0) with false by lia. apply put_in. auto.
Qed.
Lemma p35_long fuel m num buf fmt s t : place m num buf fmt -> 0 < s -> load_bytes m s (length t) = t -> ~ In 10 t ->
  PRINTF_MAXLEN <= zlen t < 2 ^ 30 -> (length t + 2 <= fuel)%nat ->
  def_comment fuel m num buf fmt s (zlen t) = Done (Some (txt "//" ++ [10])).
Proof.
  intros HP Hs HL HN HZ HF. assert (PM : PRINTF_MAXLEN = 131072) by reflexivity.
  unfold def_comment. replace ((zlen t <=? 0) || (s =? 0)) with false by lia.
  destruct fuel as [|[|fuel]]; try lia. cbn [comment_loop]. rewrite (length_last m s t) by (auto; lia). cbn [of_opt rbind].
  set (n := if (m (s + zlen t) =? 10) || (zlen t =? 0) then zlen t + 1 else zlen t + 2).
  assert (zlen t + 1 <= n <= zlen t + 2) by (unfold n; destruct ((m (s + zlen t) =? 10) || (zlen t =? 0)); lia).
  replace (n >=? 2 ^ 31) with false by lia.
  destruct (append_long fuel m num buf fmt s n [] HP) as (m1 & E); [lia|lia|]. rewrite E. cbn [rbind].
  replace (s + n <=? s + zlen t) with false by lia. reflexivity.
Qed.
