(** C38-C40 from the invariant. *)
From Coq Require Import String ZArith List Bool Lia ZifyBool ZifyNat.
From Verif Require Import Common HashModel Text ArrayModel StrOpsModel EnumModel EnumSpec EnumProofs LexModel LexSpec LexProofs LexProofs2 LexProofs7.
Import ListNotations.
Close Scope string_scope.
Open Scope Z_scope.

Lemma p38 : forall src ms fuel, Forall byte src -> ~ runs_off src -> zlen src + 2 <= Z.of_nat fuel ->
  exists r, lex src fuel ms = Done r /\
  match r with
  | Some (toks, _) => toks <> [] /\ Forall (in_source src) toks /\ in_order toks /\ forall i, 0 <= i < zlen src -> accounted src toks i
  | None => In 35 src \/ Forall spacep src
  end.
Proof.
  intros src ms fuel B N F. destruct (lex_ok src B ms fuel F) as [H|(r & R & K)]; [contradiction|]. exists r. split; [exact R|]. destruct r as [(toks, ms')|]; [|exact K].
  destruct K as (K1 & (P & L & A & _) & _). split; [exact K1|]. split; [apply (laid_source src 0 _ (zlen src)); [exact L|lia|lia]|]. split; [apply (laid_order _ _ _ L)|exact A].
Qed.
Lemma run_ok : forall src ms fuel toks ms', Forall byte src -> ~ runs_off src -> zlen src + 2 <= Z.of_nat fuel -> lex src fuel ms = Done (Some (toks, ms')) -> ok src ms (zlen src) toks ms'.
Proof.
  intros src ms fuel toks ms' B N F R. destruct (lex_ok src B ms fuel F) as [H|(r & R' & K)]; [contradiction|]. rewrite R in R'. injection R' as <-. apply K.
Qed.
Lemma p39 : forall src ms fuel toks ms', Forall byte src -> ~ runs_off src -> zlen src + 2 <= Z.of_nat fuel -> lex src fuel ms = Done (Some (toks, ms')) -> Forall (positioned src) toks.
Proof. intros. destruct (run_ok src ms fuel toks ms') as ((_ & _ & _ & P & _) & _); assumption. Qed.
Lemma p39_exact : forall src ms fuel toks ms', Forall byte src -> ~ runs_off src -> zlen src + 2 <= Z.of_nat fuel -> lex src fuel ms = Done (Some (toks, ms')) ->
  forall k, In k toks -> has_bit (t_flags k) TF_Preprocess = true \/ t_start k = 0 \/ (~ spacep (byte_at src (t_start k - 1)) /\ byte_at src (t_start k - 1) <> 35) ->
  at_line_col src (t_start k) (t_line k) (t_col k).
Proof.
  intros src ms fuel toks ms' B N F R k Hk H. pose proof (p39 src ms fuel toks ms' B N F R) as P. rewrite Forall_forall in P. destruct (P k Hk) as (p & L & A & Bt & Ex).
  assert (E : p = t_start k); [|rewrite <- E; exact A]. destruct H as [H|[H|(H1 & H2)]]; [apply Ex, H|lia|]. destruct (Z.eq_dec p (t_start k)) as [|Ne]; [assumption|]. destruct (Bt (t_start k - 1)) as [H|H]; [lia|contradiction|contradiction].
Qed.
Lemma p40 : forall src ms fuel toks ms', Forall byte src -> ~ runs_off src -> zlen src + 2 <= Z.of_nat fuel -> lex src fuel ms = Done (Some (toks, ms')) ->
  forall a k b, toks = a ++ k :: b -> ordinary a k -> word_first (byte_at src (t_start k)) -> word_token src (table src ms a) a k.
Proof. intros src ms fuel toks ms' B N F R. destruct (run_ok src ms fuel toks ms') as ((_ & _ & _ & _ & W) & _); assumption. Qed.
Lemma p40_table : forall src ms fuel toks ms', Forall byte src -> ~ runs_off src -> zlen src + 2 <= Z.of_nat fuel -> lex src fuel ms = Done (Some (toks, ms')) -> ms' = table src ms toks.
Proof. intros. destruct (run_ok src ms fuel toks ms') as (_ & M & _); assumption. Qed.
