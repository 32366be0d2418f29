(** Proofs for BuilderModel.v. *)
From Coq Require Import ZArith List Bool Lia ZifyBool ZifyNat.
From Verif Require Import Common Text ArrayModel StrOpsSpec AstModel SerModel SerSpec SerProps FmtModel FmtSpec FmtProps UntypedModel UntypedProofs BuilderModel BuilderSpec.
Import ListNotations.
Open Scope Z_scope.

Lemma step_adds h k o t : adds h k o t -> exists k1, forall fuel b, (k1 <= fuel)%nat -> builder_step fuel h (Some b) o = Done (Some (b ++ t)).
Proof.
  intros A. destruct A as [c t H F|m num buf fmt segs last out B N1 N2 L F U C AP R Z1 F1 F2 F3|].
  - destruct (c41_text_partial h c t H F) as (k1 & K). exists k1. intros fuel b LE. unfold builder_step, builder_print. rewrite K by exact LE. reflexivity.
  - exists k. intros fuel b LE. unfold builder_step, builder_print_fmt_va.
    assert (E1 : zlen out + 1 <= GEN_PRINTF_MAXLEN - 1) by lia. assert (E2 : (66 <= fuel)%nat) by lia. assert (E3 : (length segs < fuel)%nat) by lia. assert (E4 : (length out <= fuel)%nat) by lia.
    destruct (c37_format_partial m num buf (GEN_PRINTF_MAXLEN - 1) fmt segs last out fuel B N1 N2 ltac:(unfold GEN_PRINTF_MAXLEN; lia) L F U C AP R E1 E2 E3 E4) as (m1 & -> & (L1 & _) & _).
    replace (zlen out + 1 =? GEN_PRINTF_MAXLEN - 1) with false by lia. cbn [rbind]. replace (zlen out + 1 - 1) with (zlen out) by lia. rewrite (str_at_text _ _ _ L1). reflexivity.
  - exists 0%nat. reflexivity.
Qed.
Lemma steps_adds h k : forall ops ts, Forall2 (adds h k) ops ts ->
  exists k1, forall fuel b, (k1 <= fuel)%nat -> builder_steps fuel h (Some b) ops = Done (Some (b ++ concat ts)).
Proof.
  induction 1 as [|o t ops ts A F (k1 & IH)].
  - exists 0%nat. intros fuel b _. cbn. rewrite app_nil_r. reflexivity.
  - destruct (step_adds h k o t A) as (k2 & K). exists (k1 + k2)%nat. intros fuel b LE. cbn [builder_steps]. rewrite K by lia. cbn [rbind]. rewrite IH by lia. cbn [concat]. rewrite app_assoc. reflexivity.
Qed.
Lemma run_adds h k ops ts : Forall2 (adds h k) ops ts ->
  exists k1, forall fuel, (k1 <= fuel)%nat -> forall took, builder_run fuel h true ops took = Done (file_write [] (concat ts) took).
Proof. intros F. destruct (steps_adds h k ops ts F) as (k1 & K). exists k1. intros fuel LE took. unfold builder_run, builder_open. rewrite K by exact LE. reflexivity. Qed.
