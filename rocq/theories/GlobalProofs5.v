(** Variables and functions as members of global bodies. *)
From Coq Require Import String ZArith List Bool Lia ZifyBool ZifyNat.
From Verif Require Import Common Text HashModel StrOpsModel EnumModel EnumSpec EnumProofs LexModel LexSpec NavModel StripModel StripSpec StripProofs AstModel AstSpec AstProofs AstProofs4 UpfrontModel UpfrontSpec UpfrontProofs4 SerSpec SerProofs SerProofs2 ParseModel ParseSpec
  ParseProofs ParseProofs2 ParseProofs3 ParseProofs4 ParseProofs5 ParseProofs6 ParseProofs7 ParseProofs8 ParseProofs9 ParseProofs10 ParseProofs11 FnModel FnSpec FnProofs FnProofs2 FnProofs3 FnProofs4 GlobalModel GlobalSpec GlobalProofs GlobalProofs2 GlobalProofs3 GlobalProofs4.
Import ListNotations.
Close Scope string_scope.
Open Scope Z_scope.
Open Scope parse_scope.
Section P.
Variable src : list Z.
Variable toks beyond : list token.
Variable ms : macros.
Variable e : env.
Variable gl : globals.
Variable fuel : nat.
Hypothesis SRC : Forall (in_source src) toks.
Hypothesis FIT : Forall flags_fit toks.
Hypothesis BYTES : Forall (fun c => 0 <= c < 256) src.
Hypothesis FT : (length toks < fuel)%nat.
Hypothesis FS : (length src < fuel)%nat.
Hypothesis NOM : no_macro_spec ms.
Hypothesis BY : (2 <= length beyond)%nat.
Notation member := (member src toks beyond ms e gl fuel).
Notation reads := (reads src toks beyond ms e gl fuel).
Notation ahead := (ahead toks).

(** ** the scans in front of a declaration *)
Lemma angle_level : forall k d, (let l := if char_of src k 0 =? 60 then d + 1 else d in let l := if char_of src k 0 =? 62 then l - 1 else l in
  if (t_type k =? Tok_Operator) && (char_of src k 1 =? 62) then l - 1 else l) = d + angle src k.
Proof. intros k d. rewrite char0, char1. unfold angle. cbv zeta. destruct (first_char src k =? 60), (first_char src k =? 62), ((t_type k =? Tok_Operator) && (char_behind src k =? 62)); lia. Qed.
Lemma tscan : forall l n P nav R c d, toks = P ++ l -> toks ++ beyond = P ++ nav :: R -> (length l <= n)%nat ->
  exists nav', template_scan src toks beyond n (zlen P) nav c d = Done (zlen (P ++ to_paren src true d l), nav') /\ (to_paren src true d l = l \/ t_type nav' = Tok_Paren_Open).
Proof.
  induction l as [|k r IH]; intros n P nav R c d E EB L.
  - exists nav. rewrite app_nil_r in E. split; [|left; reflexivity]. destruct n; cbn [template_scan to_paren]; replace (negb (zlen P <? num toks)) with true by (unfold num; rewrite E; zl); rewrite app_nil_r; reflexivity.
  - assert (nav = k) as ->. { rewrite E, <- app_assoc in EB. apply app_inv_head in EB. cbn in EB. congruence. }
    destruct n as [|n]; [cbn in L; lia|]. cbn [template_scan to_paren]. replace (negb (zlen P <? num toks)) with false by (unfold num; rewrite E; zl). rewrite angle_level. cbn [orb].
    destruct ((t_type k =? Tok_Paren_Open) && (d + angle src k =? 0)) eqn:X; [exists k; rewrite app_nil_r; split; [reflexivity|right; lia]|].
    assert (EX : exists nv R2, r ++ beyond = nv :: R2). { destruct r as [|k2 r2]; [destruct beyond; [cbn in BY; lia|cbn; eauto]|cbn; eauto]. } destruct EX as (nv & R2 & EX).
    assert (EB2 : toks ++ beyond = (P ++ [k]) ++ nv :: R2) by (rewrite E, <- !app_assoc; cbn [app]; rewrite EX; reflexivity).
    replace (zlen P + 1) with (zlen (P ++ [k])) by zl. rewrite (tok_any src toks beyond fuel FT FS _ _ _ EB2). cbn [rbind]. apply at_eat in E. cbn in L.
    destruct (IH n (P ++ [k]) nv R2 (if negb (d + angle src k =? 0) && (t_type k =? Tok_Paren_Close) then (if t_type k =? Tok_Paren_Open then c + 1 else c) - 1 else (if t_type k =? Tok_Paren_Open then c + 1 else c)) (d + angle src k) E EB2 ltac:(lia)) as (nav' & I1 & I2).
    exists nav'. rewrite I1. split; [rewrite <- app_assoc; reflexivity|]. destruct I2 as [I2|I2]; [left; rewrite I2; reflexivity|auto].
Qed.
Lemma pscan : forall l n P nav R, toks = P ++ l -> toks ++ beyond = P ++ nav :: R -> (length l < n)%nat ->
  exists i, paren_scan src toks beyond n (zlen P) nav = Done i /\ (i = zlen (P ++ to_paren src false 0 l) \/ to_paren src false 0 l = l /\ i = zlen (P ++ l) + 1).
Proof.
  induction l as [|k r IH]; intros n P nav R E EB L; (destruct n as [|n]; [lia|]).
  - exists (zlen P). rewrite app_nil_r in E. cbn [paren_scan to_paren]. replace (negb (zlen P <? num toks)) with true by (unfold num; rewrite E; zl). rewrite app_nil_r; auto.
  - assert (nav = k) as ->. { rewrite E, <- app_assoc in EB. apply app_inv_head in EB. cbn in EB. congruence. }
    cbn [paren_scan]. replace (negb (zlen P <? num toks)) with false by (unfold num; rewrite E; zl). rewrite char0.
    destruct (first_char src k =? 60) eqn:C60.
    + assert (TP : to_paren src false 0 (k :: r) = to_paren src true 0 (k :: r)) by (cbn [to_paren]; rewrite C60; reflexivity). rewrite TP.
      destruct (tscan (k :: r) (S n) P k R 0 0 E EB ltac:(cbn in *; lia)) as (nav' & I1 & I2). rewrite I1. cbn [rbind]. destruct (t_type nav' =? Tok_Paren_Open) eqn:X; [eauto|].
      destruct I2 as [I2|I2]; [|lia]. rewrite I2.
      assert (EX : exists n0 n1 R2, beyond = n0 :: n1 :: R2) by (destruct beyond as [|n0 [|n1 R2]]; [cbn in BY; lia|cbn in BY; lia|eauto]). destruct EX as (n0 & n1 & R2 & EX).
      assert (EB2 : toks ++ beyond = (P ++ (k :: r) ++ [n0]) ++ n1 :: R2) by (rewrite E, EX, <- !app_assoc; reflexivity).
      replace (zlen (P ++ k :: r) + 1) with (zlen (P ++ (k :: r) ++ [n0])) by zl. rewrite (tok_any src toks beyond fuel FT FS _ _ _ EB2). cbn [rbind].
      exists (zlen (P ++ (k :: r) ++ [n0])). split; [|right; split; [reflexivity|zl]]. destruct n; cbn [paren_scan]; replace (negb (zlen (P ++ (k :: r) ++ [n0]) <? num toks)) with true by (unfold num; rewrite E; zl); reflexivity.
    + cbn [rbind to_paren]. rewrite C60. cbn [orb]. rewrite Z.eqb_refl, andb_true_r. destruct (t_type k =? Tok_Paren_Open) eqn:X; [exists (zlen P); rewrite app_nil_r; auto|].
      assert (EX : exists nv R2, r ++ beyond = nv :: R2). { destruct r as [|k2 r2]; [destruct beyond; [cbn in BY; lia|cbn; eauto]|cbn; eauto]. } destruct EX as (nv & R2 & EX).
      assert (EB2 : toks ++ beyond = (P ++ [k]) ++ nv :: R2) by (rewrite E, <- !app_assoc; cbn [app]; rewrite EX; reflexivity).
      replace (zlen P + 1) with (zlen (P ++ [k])) by zl. rewrite (tok_any src toks beyond fuel FT FS _ _ _ EB2). cbn [rbind]. apply at_eat in E. cbn in L.
      destruct (IH n _ nv R2 E EB2 ltac:(lia)) as (i & I1 & I2). exists i. split; [exact I1|]. rewrite <- !app_assoc in I2. cbn [app] in I2. destruct I2 as [I2|(I2 & I3)]; [auto|right; rewrite I2; auto].
Qed.
Lemma to_paren_prefix : forall l b d, exists r, l = to_paren src b d l ++ r.
Proof. induction l as [|k l IH]; intros b d; [exists []; reflexivity|]. cbn [to_paren]. destruct (_ && _); [exists (k :: l); reflexivity|]. destruct (IH (b || (first_char src k =? 60)) (if b || (first_char src k =? 60) then d + angle src k else d)) as (r & R). exists r. cbn [app]. rewrite <- R. reflexivity. Qed.
Lemma calm_ok : forall P l, toks = P ++ l -> calm src l -> sees_constructor src toks beyond (zlen P) = Done 0.
Proof.
  intros P l E (NC & LAST). unfold sees_constructor. assert (EX : exists nv R2, l ++ beyond = nv :: R2). { destruct l as [|k2 r2]; [destruct beyond; [cbn in BY; lia|cbn; eauto]|cbn; eauto]. } destruct EX as (nv & R2 & EX).
  assert (EB : toks ++ beyond = P ++ nv :: R2) by (rewrite E, <- app_assoc, EX; reflexivity). rewrite (tok_any src toks beyond fuel FT FS _ _ _ EB). cbn [rbind].
  destruct (pscan l (S (length toks)) P nv R2 E EB ltac:(rewrite E, app_length; lia)) as (i & I1 & I2). rewrite I1. cbn [rbind].
  assert (TK : forall A k C j, toks ++ beyond = A ++ k :: C -> j = zlen A -> tok_at toks beyond j = Done k) by (intros A k C j EA ->; exact (tok_any src toks beyond fuel FT FS _ _ _ EA)).
  destruct I2 as [->|(I2 & ->)].
  - destruct (to_paren_prefix l false 0) as (r & RR). set (F := to_paren src false 0 l) in *. assert (E2 : toks ++ beyond = P ++ F ++ r ++ beyond) by (rewrite E, RR at 1; rewrite <- !app_assoc; reflexivity). clearbody F.
    destruct NC as [p k N|p s n N1 N2|p q s n KQ Q60 Q62 KS NW].
    + erewrite TK by (first [rewrite <- !app_assoc in E2; cbn [app] in E2; rewrite app_assoc in E2; exact E2|zl]). cbn [rbind]. replace (t_type k =? Tok_Identifier) with false by lia. reflexivity.
    + assert (E3 : toks ++ beyond = (P ++ p) ++ s :: n :: r ++ beyond) by (rewrite E2, <- !app_assoc; reflexivity). assert (E4 : toks ++ beyond = (P ++ p ++ [s]) ++ n :: r ++ beyond) by (rewrite E2, <- !app_assoc; reflexivity).
      erewrite TK by (first [exact E4|zl]). cbn [rbind]. destruct (t_type n =? Tok_Identifier); [|reflexivity]. cbn [negb]. erewrite TK by (first [exact E3|zl]). cbn [rbind]. rewrite char0.
      replace ((t_type s =? Tok_Operator) && (first_char src s =? 126)) with false by lia. erewrite TK by (first [exact E3|zl]). cbn [rbind]. replace (t_type s =? Tok_Access_StaticSymbol) with false by lia. reflexivity.
    + assert (E3 : toks ++ beyond = (P ++ p ++ [q]) ++ s :: n :: r ++ beyond) by (rewrite E2, <- !app_assoc; reflexivity). assert (E4 : toks ++ beyond = (P ++ p ++ [q; s]) ++ n :: r ++ beyond) by (rewrite E2, <- !app_assoc; reflexivity). assert (E5 : toks ++ beyond = (P ++ p) ++ q :: s :: n :: r ++ beyond) by (rewrite E2, <- !app_assoc; reflexivity).
      erewrite TK by (first [exact E4|zl]). cbn [rbind]. destruct (t_type n =? Tok_Identifier); [|reflexivity]. cbn [negb]. erewrite TK by (first [exact E3|zl]). cbn [rbind]. unfold kind in KS, KQ. rewrite KS. change (Tok_Access_StaticSymbol =? Tok_Operator) with false. cbn [andb].
      erewrite TK by (first [exact E3|zl]). cbn [rbind]. rewrite KS, Z.eqb_refl. cbn [negb]. erewrite TK by (first [exact E5|zl]). cbn [rbind].
      assert (LS : forall j, left_scan src toks beyond (S (length toks)) (zlen P) j q 0 0 = Done q). { intros j. cbn [left_scan]. destruct (j =? zlen P); [reflexivity|]. rewrite char0, KQ. replace (first_char src q =? 60) with false by lia. replace (first_char src q =? 62) with false by lia. reflexivity. }
      rewrite LS. cbn [rbind]. rewrite KQ, Z.eqb_refl. rewrite word_text in NW. unfold slice. destruct (list_eq_dec _ _ _) as [X|X]; [contradiction|]. reflexivity.
  - destruct (LAST I2) as (p & k & -> & K1 & K2). assert (EX2 : exists n0 R3, beyond = n0 :: R3) by (destruct beyond as [|n0 R3]; [cbn in BY; lia|eauto]). destruct EX2 as (n0 & R3 & EX2).
    assert (E3 : toks ++ beyond = (P ++ p) ++ k :: n0 :: R3) by (rewrite E, EX2, <- !app_assoc; reflexivity). assert (E4 : toks ++ beyond = (P ++ p ++ [k]) ++ n0 :: R3) by (rewrite E, EX2, <- !app_assoc; reflexivity).
    erewrite TK by (first [exact E4|zl]). cbn [rbind]. destruct (t_type n0 =? Tok_Identifier); [|reflexivity]. cbn [negb]. erewrite TK by (first [exact E3|zl]). cbn [rbind]. replace (t_type k =? Tok_Operator) with false by lia. cbn [andb].
    erewrite TK by (first [exact E3|zl]). cbn [rbind]. replace (t_type k =? Tok_Access_StaticSymbol) with false by lia. reflexivity.
Qed.
End P.
