(** A function whose return type begins with const. *)
From Coq Require Import String ZArith List Bool Lia ZifyBool ZifyNat.
From Verif Require Import Common Text HashModel StrOpsModel EnumModel EnumSpec EnumProofs LexModel LexSpec NavModel AstModel UpfrontModel ParseModel ParseSpec
  ParseProofs ParseProofs2 ParseProofs3 ParseProofs4 ParseProofs5 ParseProofs7 ParseProofs10 FnProofs FnModel FnSpec.
Import ListNotations.
Close Scope string_scope.
Open Scope Z_scope.
Open Scope parse_scope.

Lemma const_stuck : forall src toks beyond ms k R n found sc h, toks = k :: R -> flags_fit k -> spelled src k Spec_Const ->
  fn_specs_loop src toks beyond ms n found (Pst 0 sc h) = NoFuel.
Proof.
  intros src toks beyond ms k R n found sc h E FK SP. pose proof SP as (SK & t & I & W). pose proof (spec_sig k SK) as KF. assert (A : toks = [] ++ k :: R) by exact E.
  assert (FL : flagged k TF_Specifier). { destruct FK as [M|(X & _)]; [exfalso; revert M SK; clear; tk; lia|]. apply X. exact SK. } apply spec_flag in FL.
  destruct (left_ok toks [] k R sc h A) as (lf & L1 & L2). change (zlen (@nil token)) with 0 in L1. pose proof (cur_here toks beyond [] k R sc h A KF) as C. change (zlen (@nil token)) with 0 in C.
  induction n as [|n IH]; cbn [fn_specs_loop]; erewrite bind_ok by exact L1; rewrite L2; erewrite bind_ok by exact C; rewrite FL; cbn [negb]; rewrite <- word_text, W; destruct (p22_spec _ _ I) as (_ & ->); cbn; [reflexivity|].
  exact IH.
Qed.
Lemma const_never : forall text beyond ms ms' e varadic fuel h k R, Forall macro_fits ms -> lex text fuel ms = Done (Some (k :: R, ms')) -> spelled text k Spec_Const ->
  parse_text (fun src toks beyond ms e fuel => parse_function src toks beyond ms e varadic fuel) text beyond ms e fuel h = NoFuel.
Proof.
  intros text beyond ms ms' e varadic fuel h k R MF L SP. destruct (lex_fits _ _ _ _ _ MF L) as (FF & _). pose proof (Forall_inv FF) as FK. pose proof SP as (SK & _). pose proof (spec_sig k SK) as KF.
  unfold parse_text. destruct text as [|a r] eqn:TE; [clear - L; destruct fuel; vm_compute in L; discriminate L|]. rewrite <- TE in *. rewrite L. cbn [rbind]. unfold parse_function, push_scope. unfold bind at 1. cbn [rbind p_idx p_scopes p_heap].
  set (sc := [(0, "parser_parse_function"%string)]). assert (A : k :: R = [] ++ [] ++ k :: R) by reflexivity.
  assert (CK : forall t sc, check (k :: R) beyond t (Pst 0 sc h) = Done (t_type k =? t, Pst 0 sc h)). { intros t sc0. exact (check_ok (k :: R) beyond [] [] k R t sc0 h A (Forall_nil _) KF). }
  unfold export_flag. rewrite bind_assoc. erewrite bind_ok by (apply CK). replace (t_type k =? Tok_Module_Export) with false by (revert SK; clear; tk; lia). cbv iota. unfold bind at 1. cbn [ret rbind].
  assert (AT : parse_attributes text (k :: R) beyond ms' fuel (Pst 0 sc h) = Done (0, Pst 0 sc h)).
  { pose proof (cur_here (k :: R) beyond [] k R) as C. change (zlen (@nil token)) with 0 in C. 
    unfold parse_attributes. unfold push_scope. unfold bind at 1. cbn [rbind p_idx p_scopes p_heap]. set (sc2 := (0, "parse_attributes"%string) :: sc). erewrite bind_ok by (apply C; [reflexivity|exact KF]).
    assert (NA : tok_is_attribute k = false). { destruct (tok_is_attribute k) eqn:Z; [|reflexivity]. apply attr_flag in Z. exfalso. revert Z. apply not_attr_flag; [exact FK| |]; revert SK; clear; tk; lia. }
    destruct (left_ok (k :: R) [] k R sc2 h eq_refl) as (lf & L1 & L2). change (zlen (@nil token)) with 0 in L1.
    assert (LP : attributes_loop text (k :: R) beyond ms' fuel fuel k 0 (Pst 0 sc2 h) = Done (0, Pst 0 sc2 h)).
    { generalize fuel at 2. intros n. destruct n; cbn [attributes_loop]; erewrite bind_ok by exact L1; rewrite L2; erewrite bind_ok by (apply C; [reflexivity|exact KF]); rewrite NA; reflexivity. }
    erewrite bind_ok by exact LP. reflexivity. }
  erewrite bind_ok by exact AT. unfold bind at 1. rewrite (const_stuck text (k :: R) beyond ms' k R fuel [] sc h eq_refl FK SP). reflexivity.
Qed.
