(** The steps of the parser on a token array: single tokens, loops, names. *)
From Coq Require Import String ZArith List Bool Lia ZifyBool ZifyNat.
From Verif Require Import Common Text HashModel StrOpsModel EnumModel EnumSpec LexModel LexSpec NavModel StripModel StripSpec AstModel AstSpec UpfrontModel SerSpec ParseModel ParseSpec.
Import ListNotations.
Close Scope string_scope.
Open Scope Z_scope.

Lemma zlen_app : forall A (a b : list A), zlen (a ++ b) = zlen a + zlen b.
Proof. intros. unfold zlen. rewrite app_length. lia. Qed.
Lemma zlen_cons : forall A (a : A) b, zlen (a :: b) = 1 + zlen b.
Proof. intros. unfold zlen. cbn [length]. lia. Qed.
Lemma zlen_nil : forall A, zlen (@nil A) = 0.
Proof. reflexivity. Qed.
Lemma zlen_nn : forall A (a : list A), 0 <= zlen a.
Proof. intros. unfold zlen. lia. Qed.
Ltac zl := repeat rewrite ?zlen_app, ?zlen_cons, ?zlen_nil in *;
  repeat match goal with |- context [@zlen ?A ?l] => lazymatch goal with H : 0 <= @zlen A l |- _ => fail | _ => pose proof (@zlen_nn A l) end
  | H' : context [@zlen ?A ?l] |- _ => lazymatch goal with H : 0 <= @zlen A l |- _ => fail | _ => pose proof (@zlen_nn A l) end end; try lia.

Lemma bind_ok : forall A B (m : M A) (k : A -> M B) s a s', m s = Done (a, s') -> bind m k s = k a s'.
Proof. intros A B m k s a s' E. unfold bind. rewrite E. reflexivity. Qed.

Lemma fmt_b : forall k, is_formatting (t_type k) = true <-> fmt k.
Proof. intros k. unfold is_formatting, fmt. rewrite orb_true_iff, !Z.eqb_eq. reflexivity. Qed.
Lemma fmt_nb : forall k, ~ fmt k -> is_formatting (t_type k) = false.
Proof. intros k N. destruct (is_formatting (t_type k)) eqn:E; auto. apply fmt_b in E. contradiction. Qed.

Section P.
Variable src : list Z.
Variable toks beyond : list token.
Variable ms : macros.
Notation at_ P R := (toks = P ++ R) (only parsing).
Notation currtok := (currtok toks beyond).
Notation eat := (eat src toks beyond ms).
Notation check := (check toks beyond).

Lemma tok_ok : forall P k R, toks = P ++ k :: R -> tok_at toks beyond (zlen P) = Done k.
Proof.
  intros P k R ->. unfold tok_at. destruct (0 <=? zlen P) eqn:E; [|zl]. unfold zlen. rewrite Nat2Z.id. rewrite <- app_assoc. cbn [app].
  rewrite nth_error_app2, Nat.sub_diag by lia. reflexivity.
Qed.
Lemma skip_ok : forall g P k R n, toks = P ++ g ++ k :: R -> gap g -> ~ fmt k -> (length g <= n)%nat ->
  skip_formatting toks beyond n (zlen P) = Done (zlen (P ++ g)).
Proof.
  induction g as [|f g IH]; intros P k R n E G K L.
  - rewrite app_nil_r. destruct n; cbn [skip_formatting]; rewrite (tok_ok P k R E); cbn [rbind]; rewrite (fmt_nb k K); reflexivity.
  - pose proof (Forall_inv G) as F. pose proof (Forall_inv_tail G) as G'. apply fmt_b in F.
    destruct n as [|n]; [cbn in L; lia|]. cbn [skip_formatting]. rewrite (tok_ok P f (g ++ k :: R) E). cbn [rbind]. rewrite F.
    replace (zlen P + 1) with (zlen (P ++ [f])) by zl. rewrite (IH (P ++ [f]) k R n); auto.
    + rewrite <- app_assoc. reflexivity.
    + rewrite <- app_assoc. exact E.
    + cbn in L. lia.
Qed.
Lemma at_len : forall P g k R, toks = P ++ g ++ k :: R -> (length g <= length toks)%nat.
Proof. intros P g k R ->. rewrite !app_length. lia. Qed.

Lemma currtok_ok : forall g P k R sc h, toks = P ++ g ++ k :: R -> gap g -> ~ fmt k ->
  currtok (Pst (zlen P) sc h) = Done (k, Pst (zlen (P ++ g)) sc h).
Proof.
  intros g P k R sc h E G K. unfold ParseModel.currtok. cbn [p_idx]. rewrite (skip_ok g P k R) by (auto; pose proof (at_len _ _ _ _ E); lia).
  cbn [rbind]. rewrite (tok_ok (P ++ g) k R) by (rewrite <- app_assoc; exact E). reflexivity.
Qed.
Lemma noskip_ok : forall P k R sc h, toks = P ++ k :: R -> currtok_noskip toks beyond (Pst (zlen P) sc h) = Done (k, Pst (zlen P) sc h).
Proof. intros P k R sc h E. unfold currtok_noskip. cbn [p_idx]. rewrite (tok_ok P k R E). reflexivity. Qed.
Lemma prevtok_ok : forall P k R sc h, toks = (P ++ [k]) ++ R -> prevtok toks beyond (Pst (zlen (P ++ [k])) sc h) = Done (k, Pst (zlen (P ++ [k])) sc h).
Proof.
  intros P k R sc h E. unfold prevtok. cbn [p_idx]. replace (zlen (P ++ [k]) - 1) with (zlen P) by zl. rewrite <- app_assoc in E.
  rewrite (tok_ok P k R E). reflexivity.
Qed.
Lemma left_ok : forall P k R sc h, toks = P ++ k :: R ->
  exists l, left toks (Pst (zlen P) sc h) = Done (l, Pst (zlen P) sc h) /\ (l =? 0) = false.
Proof. intros P k R sc h E. eexists. split; [reflexivity|]. cbn [p_idx]. unfold num. rewrite E. zl. Qed.
Lemma check_ok : forall g P k R t sc h, toks = P ++ g ++ k :: R -> gap g -> ~ fmt k ->
  check t (Pst (zlen P) sc h) = Done (t_type k =? t, Pst (zlen (P ++ g)) sc h).
Proof.
  intros g P k R t sc h E G K. unfold ParseModel.check.
  assert (E' : exists l, left toks (Pst (zlen P) sc h) = Done (l, Pst (zlen P) sc h) /\ (l =? 0) = false).
  { destruct g as [|f g]; [apply (left_ok P k R sc h E)|apply (left_ok P f (g ++ k :: R) sc h E)]. }
  destruct E' as (l & E1 & E2). erewrite bind_ok by exact E1. rewrite E2. erewrite bind_ok by (apply (currtok_ok g P k R); auto). reflexivity.
Qed.
Lemma eat_ok : forall P k R t sc h, toks = P ++ k :: R -> t_type k = t ->
  eat t (Pst (zlen P) sc h) = Done (true, Pst (zlen (P ++ [k])) sc h).
Proof.
  intros P k R t sc h E T. unfold ParseModel.eat. cbn [p_idx].
  destruct (num toks - zlen P =? 0) eqn:L. { unfold num in L. rewrite E in L. zl. }
  rewrite (tok_ok P k R E). cbn [rbind]. rewrite T. rewrite Z.eqb_refl. cbn [negb].
  assert (X : ((t =? Tok_NewLine) && negb (t =? Tok_NewLine) || (t =? Tok_Comment) && negb (t =? Tok_Comment)) = false)
    by (destruct (t =? Tok_NewLine), (t =? Tok_Comment); reflexivity).
  rewrite X. unfold at_idx. cbn [p_idx p_scopes p_heap]. do 3 f_equal. zl.
Qed.

(** skip to the next token, then eat it *)
Lemma at_gap : forall P g k R, toks = P ++ g ++ k :: R -> toks = (P ++ g) ++ k :: R.
Proof. intros P g k R E. rewrite <- app_assoc. exact E. Qed.
Lemma at_eat : forall P k R, toks = P ++ k :: R -> toks = (P ++ [k]) ++ R.
Proof. intros P k R E. rewrite <- app_assoc. exact E. Qed.

Lemma at_app : forall P A R, toks = P ++ A ++ R -> toks = (P ++ A) ++ R.
Proof. intros P A R E. rewrite <- app_assoc. exact E. Qed.

(** the next token that is no formatting one, of a list followed by [rest] *)
Lemma next_split : forall rest Pr, next_is rest Pr -> exists g k r, rest = g ++ k :: r /\ gap g /\ ~ fmt k /\ Pr k.
Proof. intros rest Pr (g & k & r & ?). exists g, k, r. auto. Qed.

(** a raw list is gaps and tokens *)
Lemma raw_split : forall raw : list token, gap raw \/ exists g k r, raw = g ++ k :: r /\ gap g /\ ~ fmt k.
Proof.
  induction raw as [|f raw IH]; [left; constructor|]. destruct (is_formatting (t_type f)) eqn:F.
  - apply fmt_b in F. destruct IH as [G|(g & k & r & -> & G & K)].
    + left. constructor; auto.
    + right. exists (f :: g), k, r. split; auto. split; [constructor|]; auto.
  - right. exists [], f, raw. split; auto. split; [constructor|]. intros X. apply fmt_b in X. congruence.
Qed.

(** ** loops *)
Lemma eat_while_ok : forall n raw P k R p sc h g,
  toks = P ++ raw ++ g ++ k :: R -> Forall (fun k => fmt k \/ p k = true) raw -> (raw = [] \/ ~ fmt (last raw k)) -> gap g -> ~ fmt k -> p k = false -> (length raw <= n)%nat ->
  eat_while src toks beyond ms n p (Pst (zlen P) sc h) = Done (tt, Pst (zlen (P ++ raw ++ g)) sc h).
Proof.
  induction n as [|n IH]; intros raw P k R p sc h g E W LS G K PK L.
  - destruct raw; [|cbn in L; lia]. cbn [app] in *. cbn [eat_while].
    assert (E' : exists l, left toks (Pst (zlen P) sc h) = Done (l, Pst (zlen P) sc h) /\ (l =? 0) = false).
    { destruct g as [|f g]; [apply (left_ok P k R sc h E)|apply (left_ok P f (g ++ k :: R) sc h E)]. }
    destruct E' as (l & E1 & E2). erewrite bind_ok by exact E1. rewrite E2. erewrite bind_ok by (apply (currtok_ok g P k R); auto). rewrite PK. reflexivity.
  - destruct (raw_split raw) as [GR|(g' & k' & r' & -> & G' & K')].
    + assert (raw = []). { destruct LS as [|LS]; auto. destruct raw as [|a raw]; auto. exfalso. apply LS. unfold gap in GR. rewrite Forall_forall in GR. apply GR.
        destruct (exists_last (l := a :: raw)) as (x & y & ->); [discriminate|]. rewrite last_last. apply in_or_app. right. left. reflexivity. }
      subst raw. cbn [app] in *. cbn [eat_while].
      assert (E' : exists l, left toks (Pst (zlen P) sc h) = Done (l, Pst (zlen P) sc h) /\ (l =? 0) = false).
      { destruct g as [|f g]; [apply (left_ok P k R sc h E)|apply (left_ok P f (g ++ k :: R) sc h E)]. }
      destruct E' as (l & E1 & E2). erewrite bind_ok by exact E1. rewrite E2. erewrite bind_ok by (apply (currtok_ok g P k R); auto). rewrite PK. reflexivity.
    + rewrite <- !app_assoc in E. cbn [app] in E. cbn [eat_while].
      assert (E' : exists l, left toks (Pst (zlen P) sc h) = Done (l, Pst (zlen P) sc h) /\ (l =? 0) = false).
      { destruct g' as [|f g']; [apply (left_ok P k' _ sc h E)|apply (left_ok P f _ sc h E)]. }
      destruct E' as (l & E1 & E2). erewrite bind_ok by exact E1. rewrite E2. erewrite bind_ok by (eapply (currtok_ok g' P k'); [exact E|auto|auto]).
      assert (PK' : p k' = true). { rewrite Forall_forall in W. assert (I : In k' (g' ++ k' :: r')) by (apply in_or_app; right; left; reflexivity). destruct (W k' I) as [X|X]; [contradiction|exact X]. }
      rewrite PK'. cbn [negb]. apply at_gap in E. erewrite bind_ok by (eapply eat_ok; [exact E|reflexivity]). apply at_eat in E.
      rewrite (IH r' ((P ++ g') ++ [k']) k R p sc h g); auto.
      * do 3 f_equal. rewrite <- !app_assoc. reflexivity.
      * apply Forall_app in W. destruct W as [_ W]. apply Forall_inv_tail in W. exact W.
      * destruct LS as [X|X]; [destruct g'; discriminate X|]. destruct r' as [|a r']; [left; reflexivity|right].
        destruct (exists_last (l := a :: r')) as (x & y & Y); [discriminate|]. rewrite Y in *. rewrite last_last.
        replace (g' ++ k' :: x ++ [y]) with ((g' ++ k' :: x) ++ [y]) in X by (rewrite <- app_assoc; reflexivity). rewrite last_last in X. exact X.
      * rewrite app_length in L. cbn [length] in L. lia.
Qed.
End P.
