(** Steps of parser_strip_formatting's loop. *)
From Coq Require Import String ZArith List Bool Lia ZifyBool ZifyNat.
From Verif Require Import Common Text StrOpsModel LexModel LexSpec StripModel StripSpec StripProofs.
Import ListNotations.
Close Scope string_scope.
Open Scope Z_scope.

Section P.
Variable raw : list Z.
Variable pn : bool.
Variable fuel : nat.
Notation L n p cut content must := (strip_loop raw pn fuel n p cut content must).

Lemma closing_ok : forall pre x r, raw = pre ++ x ++ r -> closing raw (zlen (pre ++ x)) = zlen (pre ++ x ++ firstn 1 r).
Proof.
  intros pre x r E. unfold closing. rewrite (left0 raw (pre ++ x) r) by (rewrite <- app_assoc; exact E). destruct r as [|c r]; cbn [firstn]; zl; [rewrite Z.eqb_refl; lia|]. pose proof (zlen_nn _ r). replace (1 + zlen r =? 0) with false by lia. lia.
Qed.
Lemma second_ok : forall pre c r, raw = pre ++ c :: r -> second raw (zlen pre) = Done (hd (-1) r).
Proof.
  intros pre c r E. unfold second. rewrite (left0 _ _ _ E). zl. destruct r as [|d r]; [reflexivity|]. zl. pose proof (zlen_nn _ r). replace (1 + (1 + zlen r) >? 1) with true by lia. apply (at1 _ _ _ _ _ E).
Qed.
Lemma loop_open : forall n pre c r cut content must, raw = pre ++ c :: r ->
  L (S n) (zlen pre) cut content must =
    (let keep_to (q : Z) (must : bool) := rbind (pending raw cut q) (fun t => L n q q (content ++ t) must) in
     let replace (k : Z) := rbind (flush raw content cut (zlen pre)) (fun content => L n (zlen pre + k) (zlen pre + k) (spaced content) must) in
     let d := hd (-1) r in
    if c =? 34 then rbind (string_end raw fuel (zlen pre + 1)) (fun q => keep_to (closing raw q) must)
    else if c =? 39 then rbind (char_end raw fuel (zlen pre + 1)) (fun q => keep_to (closing raw q) must)
    else if (c =? 47) && (d =? 42) then rbind (block_end raw fuel (zlen pre)) (fun q => keep_to (q + 2) must)
    else if (c =? 47) && (d =? 47) then rbind (line_end raw fuel (zlen pre + 2)) (fun q => keep_to (closing raw q) true)
    else if c =? 9 then replace 1
    else if (c =? 13) && (d =? 10) then if must || pn then keep_to (zlen pre + 2) false else replace 2
    else if c =? 10 then if must || pn then keep_to (zlen pre + 1) false else replace 1
    else if c =? 92 then
      rbind (pending raw cut (zlen pre)) (fun t =>
      rbind (if d =? 10 then Done 2
             else if (tokleft raw (zlen pre) >? 2) && (d =? 13) then rbind (char_at raw (zlen pre + 2)) (fun e => Done (if e =? 10 then 3 else 1))
             else Done 1) (fun amount_to_skip =>
      let q := if (amount_to_skip >? 1) && (zlen pre =? cut) then zlen pre + amount_to_skip else zlen pre + 1 in
      L n q q (content ++ t) must))
    else if (tokleft raw (zlen pre) >? 1) && char_is_space c && char_is_space d then
      rbind (pending raw cut (zlen pre)) (fun t =>
      rbind (space_end raw fuel (zlen pre + 1)) (fun q => L n q q (spaced (content ++ t)) must))
    else L n (zlen pre + 1) cut content must).
Proof.
  intros n pre c r cut content must E. cbn [strip_loop]. rewrite (left0 _ _ _ E). zl. pose proof (zlen_nn _ r). replace (1 + zlen r =? 0) with false by lia. rewrite (at0 _ _ _ _ E). cbn [rbind]. rewrite (second_ok _ _ _ E). cbn [rbind]. reflexivity.
Qed.

Section Step.
Variables (n : nat) (pre : list Z) (cut : Z) (content t : list Z) (must : bool).
Hypothesis P : pending raw cut (zlen pre) = Done t.
Definition kept_to (w : list Z) (must' : bool) := L (S n) (zlen pre) cut content must = L n (zlen (pre ++ w)) (zlen (pre ++ w)) (content ++ t ++ w) must'.
Definition spaced_to (w : list Z) := L (S n) (zlen pre) cut content must = L n (zlen (pre ++ w)) (zlen (pre ++ w)) (spaced (content ++ t)) must.

Lemma keep_eq : forall w r q must', raw = pre ++ w ++ r -> q = zlen (pre ++ w) ->
  rbind (pending raw cut q) (fun t => L n q q (content ++ t) must') = L n (zlen (pre ++ w)) (zlen (pre ++ w)) (content ++ t ++ w) must'.
Proof. intros w r q must' E ->. rewrite (pend_ext raw cut pre t w r E P). reflexivity. Qed.
Lemma step_string : forall b r, raw = pre ++ 34 :: b ++ r -> string_end raw fuel (zlen (pre ++ [34])) = Done (zlen (pre ++ 34 :: b)) -> kept_to (34 :: b ++ firstn 1 r) must.
Proof.
  intros b r E R. unfold kept_to. rewrite (loop_open _ _ _ _ _ _ _ E). cbv zeta. change (34 =? 34) with true. cbv iota. replace (zlen pre + 1) with (zlen (pre ++ [34])) by (zl; lia). rewrite R. cbn [rbind].
  apply (keep_eq (34 :: b ++ firstn 1 r) (skipn 1 r)); [rewrite E; cbn [app]; rewrite <- app_assoc, firstn_skipn; reflexivity|]. rewrite (closing_ok pre (34 :: b) r E). reflexivity.
Qed.
Lemma step_char : forall b r, raw = pre ++ 39 :: b ++ r -> char_end raw fuel (zlen (pre ++ [39])) = Done (zlen (pre ++ 39 :: b)) -> kept_to (39 :: b ++ firstn 1 r) must.
Proof.
  intros b r E R. unfold kept_to. rewrite (loop_open _ _ _ _ _ _ _ E). cbv zeta. change (39 =? 34) with false. change (39 =? 39) with true. cbv iota. replace (zlen pre + 1) with (zlen (pre ++ [39])) by (zl; lia). rewrite R. cbn [rbind].
  apply (keep_eq (39 :: b ++ firstn 1 r) (skipn 1 r)); [rewrite E; cbn [app]; rewrite <- app_assoc, firstn_skipn; reflexivity|]. rewrite (closing_ok pre (39 :: b) r E). reflexivity.
Qed.
Lemma step_block : forall b r, raw = pre ++ 47 :: 42 :: b ++ 42 :: 47 :: r -> (forall x y, 42 :: b <> x ++ 42 :: 47 :: y) -> (length raw <= fuel)%nat -> kept_to (47 :: 42 :: b ++ [42; 47]) must.
Proof.
  intros b r E N F. unfold kept_to. rewrite (loop_open _ _ _ _ _ _ _ E). cbv zeta. cbn [hd]. change (47 =? 34) with false. change (47 =? 39) with false. change ((47 =? 47) && (42 =? 42)) with true. cbv iota.
  destruct (block_ok raw fuel pre (47 :: 42 :: b) r) as (w & r' & E1 & E2 & E3); [exact E|rewrite E in F; rewrite app_length in F; cbn [length] in F; rewrite app_length in F; cbn [length] in F; zl; unfold zlen; lia|].
  assert (w = 47 :: 42 :: b /\ r' = r) as (-> & ->).
  { destruct w as [|w0 w]; [discriminate|]. cbn [app] in E1. injection E1 as <- E1. destruct w as [|w1 w]; [exfalso; injection E1 as E1; destruct b as [|b0 b]; [discriminate|injection E1 as -> _; apply (N [] b); reflexivity]|]. injection E1 as <- E1. enough (b = w /\ r = r') as (-> & ->) by (split; reflexivity).
    clear E2. revert E1 N E3. clear. intros E1 N E3.
    assert (forall (b w : list Z) u, (forall x y, u ++ b <> x ++ 42 :: 47 :: y) -> (forall x y, (u ++ w) ++ [42] <> x ++ 42 :: 47 :: y) -> b ++ 42 :: 47 :: r = w ++ 42 :: 47 :: r' -> b = w /\ r = r') as G.
    { clear. induction b as [|c b IH]; intros [|d w] u N M E.
      - injection E as ->. auto.
      - exfalso. injection E as <- E. destruct w as [|d w]; [discriminate|]. injection E as <- _. apply (M u (w ++ [42])). rewrite <- !app_assoc. reflexivity.
      - exfalso. injection E as -> E. destruct b as [|c b]; [discriminate|]. injection E as -> _. apply (N u b). reflexivity.
      - injection E as -> E. destruct (IH w (u ++ [d])) as (-> & ->); [intros x y H; apply (N x y); rewrite <- app_assoc in H; exact H|intros x y H; apply (M x y); rewrite <- !app_assoc in *; exact H|exact E|auto]. }
    apply (G b w [42]); [exact N|intros x y H; apply (E3 (47 :: x) y); cbn [app]; rewrite <- H; reflexivity|exact E1]. }
  rewrite E2. cbn [rbind]. apply (keep_eq (47 :: 42 :: b ++ [42; 47]) r); [rewrite E; cbn [app]; rewrite <- app_assoc; reflexivity|zl; lia].
Qed.
Lemma step_block_gen : forall b r, raw = pre ++ 47 :: 42 :: b ++ 42 :: 47 :: r -> (length raw <= fuel)%nat -> exists w r', raw = pre ++ w ++ r' /\ w <> [] /\ kept_to w must.
Proof.
  intros b r E F. unfold kept_to. 
  destruct (block_ok raw fuel pre (47 :: 42 :: b) r) as (w & r' & E1 & E2 & E3); [exact E|rewrite E in F; rewrite app_length in F; cbn [length] in F; rewrite app_length in F; cbn [length] in F; zl; unfold zlen; lia|].
  assert (raw = pre ++ (w ++ [42; 47]) ++ r') as E4 by (rewrite <- app_assoc; cbn [app]; rewrite <- E1; exact E).
  exists (w ++ [42; 47]), r'. split; [exact E4|]. split; [destruct w; discriminate|]. rewrite (loop_open _ _ _ _ _ _ _ E). cbv zeta. cbn [hd]. change (47 =? 34) with false. change (47 =? 39) with false. change ((47 =? 47) && (42 =? 42)) with true. cbv iota.
  rewrite E2. cbn [rbind]. apply (keep_eq _ r' _ _ E4). zl. lia.
Qed.
Lemma step_line : forall b r, raw = pre ++ 47 :: 47 :: b ++ r -> line_end raw fuel (zlen (pre ++ [47; 47])) = Done (zlen (pre ++ 47 :: 47 :: b)) -> kept_to (47 :: 47 :: b ++ firstn 1 r) true.
Proof.
  intros b r E R. unfold kept_to. rewrite (loop_open _ _ _ _ _ _ _ E). cbv zeta. cbn [hd]. change (47 =? 34) with false. change (47 =? 39) with false. change ((47 =? 47) && (47 =? 42)) with false. change ((47 =? 47) && (47 =? 47)) with true. cbv iota.
  replace (zlen pre + 2) with (zlen (pre ++ [47; 47])) by (zl; lia). rewrite R. cbn [rbind].
  apply (keep_eq (47 :: 47 :: b ++ firstn 1 r) (skipn 1 r)); [rewrite E; cbn [app]; rewrite <- app_assoc, firstn_skipn; reflexivity|]. rewrite (closing_ok pre (47 :: 47 :: b) r E). reflexivity.
Qed.
(** white space that is not a single blank: kept or replaced *)
Lemma repl_eq : forall w r k, raw = pre ++ w ++ r -> k = zlen w ->
  rbind (flush raw content cut (zlen pre)) (fun content => L n (zlen pre + k) (zlen pre + k) (spaced content) must) = L n (zlen (pre ++ w)) (zlen (pre ++ w)) (spaced (content ++ t)) must.
Proof. intros w r k E ->. rewrite (flush_ok raw content cut (zlen pre) t P). cbn [rbind]. replace (zlen pre + zlen w) with (zlen (pre ++ w)) by (zl; lia). reflexivity. Qed.
Lemma step_tab : forall r, raw = pre ++ 9 :: r -> spaced_to [9].
Proof. intros r E. unfold spaced_to. rewrite (loop_open _ _ _ _ _ _ _ E). cbv zeta. change (9 =? 34) with false. change (9 =? 39) with false. change (9 =? 47) with false. change (9 =? 9) with true. cbn [andb]. cbv iota. apply (repl_eq [9] r); [exact E|reflexivity]. Qed.
Lemma step_newline : forall r, raw = pre ++ 10 :: r -> kept_to [10] false \/ spaced_to [10].
Proof.
  intros r E. unfold kept_to, spaced_to. rewrite (loop_open _ _ _ _ _ _ _ E). cbv zeta. change (10 =? 34) with false. change (10 =? 39) with false. change (10 =? 47) with false. change (10 =? 9) with false. change (10 =? 13) with false. change (10 =? 10) with true. cbn [andb]. cbv iota.
  destruct (must || pn); [left|right]; [apply (keep_eq [10] r); [exact E|zl; lia]|apply (repl_eq [10] r); [exact E|reflexivity]].
Qed.
Lemma step_crlf : forall r, raw = pre ++ 13 :: 10 :: r -> kept_to [13; 10] false \/ spaced_to [13; 10].
Proof.
  intros r E. unfold kept_to, spaced_to. rewrite (loop_open _ _ _ _ _ _ _ E). cbv zeta. cbn [hd]. change (13 =? 34) with false. change (13 =? 39) with false. change (13 =? 47) with false. change (13 =? 9) with false. change ((13 =? 13) && (10 =? 10)) with true. cbn [andb]. cbv iota.
  destruct (must || pn); [left|right]; [apply (keep_eq [13; 10] r); [exact E|zl; lia]|apply (repl_eq [13; 10] r); [exact E|reflexivity]].
Qed.
Definition dropped (w : list Z) := L (S n) (zlen pre) cut content must = L n (zlen (pre ++ w)) (zlen (pre ++ w)) (content ++ t) must.
Lemma step_backslash : forall r, raw = pre ++ 92 :: r -> exists w r', 92 :: r = w ++ r' /\ (w = [92] \/ w = [92; 10] \/ w = [92; 13; 10]) /\ dropped w.
Proof.
  intros r E. unfold dropped. rewrite (loop_open _ _ _ _ _ _ _ E). cbv zeta. change (92 =? 34) with false. change (92 =? 39) with false. change (92 =? 47) with false. change (92 =? 9) with false. change (92 =? 13) with false. change (92 =? 10) with false. change (92 =? 92) with true. cbn [andb]. cbv iota. rewrite P. cbn [rbind].
  destruct (Z.eqb_spec (hd (-1) r) 10) as [Hd|Hd].
  - cbn [rbind]. change (2 >? 1) with true. cbn [andb]. destruct (zlen pre =? cut).
    + destruct r as [|d r]; [discriminate|]. cbn [hd] in Hd. subst d. exists [92; 10], r. split; [reflexivity|]. split; [tauto|]. replace (zlen (pre ++ [92; 10])) with (zlen pre + 2) by (zl; lia). reflexivity.
    + exists [92], r. split; [reflexivity|]. split; [tauto|]. replace (zlen (pre ++ [92])) with (zlen pre + 1) by (zl; lia). reflexivity.
  - rewrite (left0 _ _ _ E). destruct ((zlen (92 :: r) >? 2) && (hd (-1) r =? 13)) eqn:G.
    + destruct r as [|d r]; [discriminate|]. cbn [hd] in G. assert (d = 13) as -> by lia. destruct r as [|e r]; [zl; lia|]. rewrite (at2 _ _ _ _ _ _ E). cbn [rbind]. destruct (Z.eqb_spec e 10) as [->|].
      * change (3 >? 1) with true. cbn [andb]. destruct (zlen pre =? cut).
        -- exists [92; 13; 10], r. split; [reflexivity|]. split; [tauto|]. replace (zlen (pre ++ [92; 13; 10])) with (zlen pre + 3) by (zl; lia). reflexivity.
        -- exists [92], (13 :: 10 :: r). split; [reflexivity|]. split; [tauto|]. replace (zlen (pre ++ [92])) with (zlen pre + 1) by (zl; lia). reflexivity.
      * exists [92], (13 :: e :: r). split; [reflexivity|]. split; [tauto|]. replace (zlen (pre ++ [92])) with (zlen pre + 1) by (zl; lia). reflexivity.
    + cbn [rbind]. exists [92], r. split; [reflexivity|]. split; [tauto|]. replace (zlen (pre ++ [92])) with (zlen pre + 1) by (zl; lia). reflexivity.
Qed.
Lemma step_spaces : forall c d r, raw = pre ++ c :: d :: r -> char_is_space c = true -> char_is_space d = true -> (length raw <= fuel)%nat -> c <> 9 -> c <> 10 -> ~ (c = 13 /\ d = 10) ->
  exists w r', c :: d :: r = w ++ r' /\ spaced_to w /\ w <> [] /\ Forall (fun c => char_is_space c = true) w /\ (r' = [] \/ exists c r'', r' = c :: r'' /\ char_is_space c = false).
Proof.
  intros c d r E C D F N1 N2 N3. unfold spaced_to. rewrite (loop_open _ _ _ _ _ _ _ E). cbv zeta. cbn [hd]. assert (c <> 34 /\ c <> 39 /\ c <> 47 /\ c <> 92) as (A1 & A2 & A3 & A4) by (repeat split; intros ->; discriminate).
  replace (c =? 34) with false by lia. replace (c =? 39) with false by lia. replace (c =? 47) with false by lia. replace (c =? 9) with false by lia. replace ((c =? 13) && (d =? 10)) with false by lia. replace (c =? 10) with false by lia. replace (c =? 92) with false by lia. cbn [andb]. cbv iota.
  rewrite C, D, (left0 _ _ _ E). zl. pose proof (zlen_nn _ r). replace (1 + (1 + zlen r) >? 1) with true by lia. cbn [andb]. rewrite P. cbn [rbind]. replace (zlen pre + 1) with (zlen (pre ++ [c])) by (zl; lia).
  destruct (space_ok raw fuel (pre ++ [c]) (d :: r)) as (w & r' & E1 & E2 & E3 & E4); [rewrite <- app_assoc; exact E|rewrite E in F; rewrite app_length in F; cbn [length] in F; zl; unfold zlen; lia|].
  rewrite E2. cbn [rbind]. exists (c :: w), r'. split; [rewrite E1; reflexivity|]. rewrite <- app_assoc. cbn [app]. split; [reflexivity|]. split; [discriminate|]. split; [constructor; assumption|exact E4].
Qed.
Lemma step_move : forall c r, raw = pre ++ c :: r -> ~ In c [34; 39; 92; 9; 10] -> ~ (c = 47 /\ In (hd (-1) r) [42; 47]) -> ~ (c = 13 /\ hd (-1) r = 10) -> ~ (char_is_space c = true /\ r <> [] /\ char_is_space (hd (-1) r) = true) ->
  L (S n) (zlen pre) cut content must = L n (zlen (pre ++ [c])) cut content must /\ pending raw cut (zlen (pre ++ [c])) = Done (t ++ [c]).
Proof.
  intros c r E N1 N2 N3 N4. split; [|apply (pend_ext raw cut pre t [c] r E P)]. rewrite (loop_open _ _ _ _ _ _ _ E). cbv zeta. cbn [In] in N1, N2. rewrite (left0 _ _ _ E).
  replace (c =? 34) with false by lia. replace (c =? 39) with false by lia. replace ((c =? 47) && (hd (-1) r =? 42)) with false by lia. replace ((c =? 47) && (hd (-1) r =? 47)) with false by lia. replace (c =? 9) with false by lia. replace ((c =? 13) && (hd (-1) r =? 10)) with false by lia. replace (c =? 10) with false by lia. replace (c =? 92) with false by lia.
  assert ((zlen (c :: r) >? 1) && char_is_space c && char_is_space (hd (-1) r) = false) as ->.
  { apply Bool.not_true_iff_false. intros H. apply N4. apply andb_prop in H. destruct H as (H & H3). apply andb_prop in H. destruct H as (H1 & H2). split; [exact H2|]. split; [|exact H3]. intros ->. discriminate. }
  replace (zlen (pre ++ [c])) with (zlen pre + 1) by (zl; lia). reflexivity.
Qed.
End Step.
End P.
