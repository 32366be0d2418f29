(** Variables and functions as members of global bodies: up to the name. *)
From Coq Require Import String ZArith List Bool Lia ZifyBool ZifyNat.
From Verif Require Import Common Text HashModel StrOpsModel EnumModel EnumSpec EnumProofs LexModel LexSpec NavModel StripModel StripSpec StripProofs AstModel AstSpec AstProofs AstProofs4 UpfrontModel UpfrontSpec UpfrontProofs4 SerSpec SerProofs SerProofs2 ParseModel ParseSpec
  ParseProofs ParseProofs2 ParseProofs3 ParseProofs4 ParseProofs5 ParseProofs6 ParseProofs7 ParseProofs8 ParseProofs9 ParseProofs10 ParseProofs11 FnModel FnSpec FnProofs FnProofs2 FnProofs3 FnProofs4 GlobalModel GlobalSpec GlobalProofs GlobalProofs2 GlobalProofs3 GlobalProofs4 GlobalProofs5.
Import ListNotations.
Close Scope string_scope.
Open Scope Z_scope.
Open Scope parse_scope.
Section P.
Variable src : list Z.
Variable toks beyond : list token.
Variable ms : macros.
Variable e : env.
Variable gl : globals.
Variable fuel : nat.
Hypothesis SRC : Forall (in_source src) toks.
Hypothesis FIT : Forall flags_fit toks.
Hypothesis BYTES : Forall (fun c => 0 <= c < 256) src.
Hypothesis FT : (length toks < fuel)%nat.
Hypothesis FS : (length src < fuel)%nat.
Hypothesis NOM : no_macro_spec ms.
Hypothesis BY : (2 <= length beyond)%nat.
Notation member := (member src toks beyond ms e gl fuel).
Notation reads := (reads src toks beyond ms e gl fuel).
Notation ahead := (ahead toks).

Notation global_decl := (global_decl src toks beyond ms e gl fuel).
Notation global_specs := (global_specs src toks beyond ms e gl fuel).
Notation memb := (memb src toks beyond ms e gl fuel).

Lemma in_num : forall P k R, toks = P ++ k :: R -> negb (zlen P <? num toks) = false. Proof. intros P k R E. unfold num. rewrite E. zl. Qed.
Lemma op_free : forall n L P k R, (length L <= n)%nat -> L <> [] -> Forall (fun k => t_type k <> Tok_Decl_Operator) L -> (forall p k, L = p ++ [k] -> t_type k <> Tok_Access_StaticSymbol) ->
  t_type k <> Tok_Access_StaticSymbol -> toks = P ++ L ++ k :: R -> operator_scan toks beyond (S n) (zlen P) = Done false.
Proof.
  induction n as [|n IH]; intros L P k R LL NE NO LA NK E; [destruct L; [congruence|cbn in LL; lia]|]. destruct L as [|a L]; [congruence|]. cbn [app] in E.
  remember (S n) as m. cbn [operator_scan]. rewrite (in_num _ _ _ E). rewrite (tok_ok toks beyond _ _ _ E). cbn [rbind].
  destruct (t_type a =? Tok_Identifier) eqn:A; [|assert (X : t_type a <> Tok_Decl_Operator) by exact (Forall_inv NO); replace (t_type a =? Tok_Decl_Operator) with false by lia; reflexivity].
  apply at_eat in E. replace (zlen P + 1) with (zlen (P ++ [a])) by zl. destruct L as [|b L]; cbn [app] in E.
  - rewrite (tok_ok toks beyond _ _ _ E). cbn [rbind]. replace (t_type k =? Tok_Access_StaticSymbol) with false by lia. reflexivity.
  - rewrite (tok_ok toks beyond _ _ _ E). cbn [rbind]. destruct (t_type b =? Tok_Access_StaticSymbol) eqn:B; [|reflexivity]. subst m. apply at_eat in E. replace (zlen P + 2) with (zlen ((P ++ [a]) ++ [b])) by zl. cbn in LL.
    destruct L as [|c L]; [exfalso; apply (LA [a] b eq_refl); lia|]. apply (IH (c :: L) _ k R); [cbn in *; lia|discriminate|apply (Forall_inv_tail (Forall_inv_tail NO))| |exact NK|exact E].
    intros p x EX. apply (LA (a :: b :: p)). cbn. rewrite EX. reflexivity.
Qed.
Lemma args_last : forall d r, args src d r -> exists p k, r = p ++ [k] /\ t_type k = Tok_Operator.
Proof.
  intros d r T. induction T as [k K _|k K _|d k r _ T (p & x & -> & X)|d k r _ _ _ T (p & x & -> & X)|d k r _ _ _ T (p & x & -> & X)|d k r _ _ _ _ T (p & x & -> & X)];
    first [exists [], k; split; [reflexivity|exact K]|exists (k :: p), x; auto].
Qed.
Lemma targs_last : forall r, template_args src r -> r = [] \/ exists p k, r = p ++ [k] /\ t_type k = Tok_Operator.
Proof. intros r [->|(g & k & r' & -> & _ & _ & _ & T)]; [auto|right]. destruct (args_last _ _ T) as (p & x & -> & X). exists (g ++ k :: p), x. rewrite <- app_assoc. auto. Qed.
Lemma quals_last : forall r, qualifiers src r -> r = [] \/ exists p k, r = p ++ [k] /\ t_type k <> Tok_Access_StaticSymbol.
Proof.
  intros r T. induction T as [|g1 c g2 i a r _ _ _ KI TA T IH]; [auto|right]. unfold kind in KI. destruct IH as [->|(p & x & -> & X)].
  - rewrite app_nil_r. destruct (targs_last _ TA) as [->|(p & x & -> & X)]; [exists (g1 ++ c :: g2), i; split; [rewrite <- app_assoc; reflexivity|rewrite KI; discriminate]|].
    exists (g1 ++ c :: g2 ++ i :: p), x. split; [rewrite <- app_assoc; cbn; rewrite <- app_assoc; reflexivity|rewrite X; discriminate].
  - exists (g1 ++ c :: g2 ++ i :: a ++ p), x. split; [|exact X]. rewrite <- app_assoc. cbn. rewrite <- app_assoc. cbn. rewrite <- app_assoc. reflexivity.
Qed.
Lemma named_last : forall nm name, named src nm name -> exists p k, nm = p ++ [k] /\ t_type k <> Tok_Access_StaticSymbol.
Proof.
  intros nm name T. destruct T as [first a q KI TA TQ]. unfold kind in KI. destruct (quals_last _ TQ) as [->|(p & x & -> & X)].
  - rewrite app_nil_r. destruct (targs_last _ TA) as [->|(p & x & -> & X)]; [exists [], first; split; [reflexivity|rewrite KI; discriminate]|exists (first :: p), x; split; [reflexivity|rewrite X; discriminate]].
  - exists (first :: a ++ p), x. split; [cbn; rewrite <- app_assoc; reflexivity|exact X].
Qed.
Lemma next_head : forall B (P : token -> Prop), next_is B P -> exists k r, B = k :: r /\ (fmt k \/ P k).
Proof. intros B P (g & k & r & -> & G & K & X). destruct g as [|f g]; [exists k, r; auto|exists f, (g ++ k :: r); split; [reflexivity|left; apply (Forall_inv G)]]. Qed.

(** ** attribute and specifiers *)
Definition decl_in (p : place) : bool -> Z -> Z -> M Z := match p with Outside _ => global_decl | Inside _ name => class_decl src toks beyond ms e gl fuel name end.
Definition specs_in (p : place) : Z -> M (option Z) := match p with Outside _ => global_specs | Inside _ name => class_specs src toks beyond ms e gl fuel name end.
Lemma specs_part : forall inc pre sp g0 ty_ ty B1 R0 a Q sc h, spec_tokens src pre sp -> Forall (fun s => s = Spec_Consteval \/ In s (specifiers_in inc)) sp -> Z.of_nat (length sp) <= SPECS_CAP ->
  gap g0 -> (forall k r, ty_ = k :: r -> ~ fmt k) -> type_tokens src ty_ R0 ty -> ty_attrs ty = None -> ahead Q (pre ++ g0 ++ ty_ ++ B1) -> world e h ->
  exists Q3 cs h2, toks = Q3 ++ ty_ ++ B1 /\ grow h h2 /\ maybe (specs_at h2) cs (some_specs sp) /\ (sp <> [] -> h_top h <= cs) /\
    (forall p, inside p = inc -> specs_in p a (Pst (zlen Q) sc h) = (r <- decl_in p (existsb (Z.eqb Spec_Consteval) sp) a cs ;; ret (Some r)) (Pst (zlen Q3) sc h2)).
Proof.
  intros inc pre sp g0 ty_ ty B1 R0 a Q sc h SP VS CAP G0 HN TY TN A W.
  destruct (type_head src toks fuel FT FS _ _ _ TY TN) as (gh & kh & rh & ETY & GH & FH & HH). pose proof (head_plain src toks fuel FT FS kh HH) as (HM & HA & HX).
  assert (FITH : flags_fit kh). { eapply ahead_fit; [exact FIT|exact A| |exact FH]. rewrite !in_app_iff. right. right. left. rewrite ETY. apply in_or_app. right. left. reflexivity. }
  assert (gh = []) as ->. { destruct gh as [|f gh]; [reflexivity|]. exfalso. apply (HN f (gh ++ kh :: rh)); [rewrite ETY; reflexivity|apply (Forall_inv GH)]. } cbn [app] in ETY.
  assert (LP : (length sp <= fuel)%nat) by (pose proof (spec_sig_len src _ _ SP); pose proof (ahead_sig_len _ _ _ _ A); lia).
  set (ok_ := if inc then class_specifier else global_specifier).
  assert (NS : next_is (g0 ++ ty_ ++ B1) (fun k => ~ flagged k TF_Specifier \/ ok_ (str_to_specifier (text_of src k)) = true /\ (str_to_specifier (text_of src k) =? Spec_Const) = true)).
  { rewrite ETY. cbn [app]. apply next_app; auto. destruct HH as [HH|HH]; [right; rewrite (spelled_spec _ _ _ HH); unfold ok_; destruct inc; split; reflexivity|left]. apply not_spec_flag; auto. apply (starts_plain src toks fuel FT FS). exact HH. }
  destruct (specs_loop_ok src toks beyond ms FIT fuel pre sp Q _ ok_ (fun s => s =? Spec_Const) [] sc h SP A NS) as (Q3 & E3 & C3); [|cbn [app]; change SPECS_CAP with 14 in CAP; unfold zlen; lia|exact LP|].
  { revert VS. apply Forall_impl. intros s [->|I]; [unfold ok_; destruct inc; split; reflexivity|]. unfold ok_, specifiers_in, global_specifiers, class_specifiers in *. destruct inc; cbn [In] in I; repeat (destruct I as [<-|I]; [split; reflexivity|]); contradiction. }
  destruct (specifiers_maybe e h (zlen Q3) sc sp W CAP) as (h2 & cs & C4 & G2 & MS & CS); [eapply spelled_known; eauto|].
  assert (E4 : toks = Q3 ++ ty_ ++ B1) by (rewrite trim_gap, ETY in E3 by exact G0; cbn [app] in E3; rewrite trim_sig in E3 by exact FH; rewrite ETY; exact E3).
  exists Q3, cs, h2. split; [exact E4|]. split; [exact G2|]. split; [exact MS|]. split; [exact CS|]. intros [w|d nm] IP; cbn [inside] in IP; subst inc; cbn [specs_in decl_in ok_] in *.
  - unfold GlobalModel.global_specs. erewrite bind_ok by exact C3. cbn [app]. erewrite bind_ok by exact C4. reflexivity.
  - unfold class_specs. erewrite bind_ok by exact C3. cbn [app]. erewrite bind_ok by exact C4. rewrite ETY in E4. cbn [app] in E4. erewrite bind_ok by (eapply cur_here; [exact E4|exact FH]).
    assert (NA : tok_is_attribute kh = false). { unfold tok_is_attribute, bitfield_is_set. destruct (_ =? _) eqn:X; [|reflexivity]. exfalso. apply (not_attr_flag kh FITH HM HA). unfold flagged. apply Z.eqb_eq. exact X. }
    rewrite NA. assert (NO : (t_type kh =? Tok_Operator) = false /\ (t_type kh =? Tok_Decl_Operator) = false). { clear - HH. destruct HH as [(SK & _)|ST]; [tk; unfold Tok_Decl_Operator; lia|]. unfold starts_type in ST. tk. unfold Tok_Decl_Operator. lia. }
    destruct NO as (-> & ->). reflexivity.
Qed.
Lemma front_ok : forall inc att at_ pre sp g0 ty_ ty B1 R0 k raw Q sc h,
  attribute_word src att (pre ++ g0 ++ ty_ ++ B1) at_ -> spec_tokens src pre sp -> Forall (fun s => s = Spec_Consteval \/ In s (specifiers_in inc)) sp -> Z.of_nat (length sp) <= SPECS_CAP ->
  gap g0 -> (forall k r, ty_ = k :: r -> ~ fmt k) -> type_tokens src ty_ R0 ty -> ty_attrs ty = None -> att ++ pre ++ g0 ++ ty_ ++ B1 = k :: raw -> starts inc at_ sp k ->
  toks = Q ++ att ++ pre ++ g0 ++ ty_ ++ B1 -> world e h ->
  exists Q3 ca cs h2, toks = Q3 ++ ty_ ++ B1 /\ grow h h2 /\ maybe (content_at h2) ca at_ /\ maybe (specs_at h2) cs (some_specs sp) /\ (sp <> [] -> h_top h <= cs) /\ (at_ <> None -> ca <> cs) /\
    forall p n, inside p = inc -> memb p n (t_type k) (Pst (zlen Q) sc h) = (r <- decl_in p (existsb (Z.eqb Spec_Consteval) sp) ca cs ;; ret (Some r)) (Pst (zlen Q3) sc h2).
Proof.
  intros inc att at_ pre sp g0 ty_ ty B1 R0 k raw Q sc h AT SP VS CAP G0 HN TY TN EK ST E W. pose proof (world_top src toks e fuel FT FS h W) as TP. pose proof (ahead_self _ _ _ E) as A.
  destruct (type_head src toks fuel FT FS _ _ _ TY TN) as (gh & kh & rh & ETY & GH & FH & HH). pose proof (head_plain src toks fuel FT FS kh HH) as (HM & HA & HX).
  destruct at_ as [t|].
  - assert (FITH : flags_fit kh). { eapply ahead_fit; [exact FIT|exact A| |exact FH]. rewrite !in_app_iff. right. right. right. left. rewrite ETY. apply in_or_app. right. left. reflexivity. }
    assert (FITP : forall k, In k pre -> spec_kind (t_type k) -> flags_fit k). { intros k' I SK. eapply ahead_fit; [exact FIT|exact A| |apply spec_sig; exact SK]. rewrite !in_app_iff. auto. }
    destruct (attributes_ok src toks beyond ms fuel SRC BYTES att _ (Some t) Q sc h AT A) as (Q2 & ca & h1 & E2 & C2 & G1 & MA & CA); auto.
    { eapply spec_first; [exact SP| |]; [intros k' SK I; apply not_attr_flag; auto; tk; lia|]. rewrite ETY, <- app_assoc. cbn [app]. rewrite app_assoc. apply next_app; [apply Forall_app; auto|exact FH|apply not_attr_flag; auto]. }
    apply stands_ahead in E2. assert (W1 : world e h1) by (eapply world_grow; eauto).
    destruct (specs_part inc pre sp g0 ty_ ty B1 R0 ca Q2 sc h1 SP VS CAP G0 HN TY TN E2 W1) as (Q3 & cs & h2 & E3 & G2 & MS & CS & C).
    exists Q3, ca, cs, h2. split; [exact E3|]. split; [eapply grow_trans; eauto|]. split; [revert MA; apply like_maybe; apply like_content; apply grow_like; exact G2|]. split; [exact MS|]. split; [intros NS; specialize (CS NS); destruct G1; lia|]. split.
    + intros _. cbn in MA. destruct MA as ((V1 & V2) & _). destruct sp as [|s0 sp]; [cbn in MS; lia|]. specialize (CS ltac:(discriminate)). lia.
    + intros p n IP. cbn [starts] in ST. rewrite ST. replace (memb p n Tok_Attribute_GEN_API) with (a <- parse_attributes src toks beyond ms fuel ;; specs_in p a) by (destruct p; reflexivity). erewrite bind_ok by exact C2. exact (C p IP).
  - cbn in AT. subst att. cbn [app] in *. destruct sp as [|s0 sp].
    + inversion SP; subst pre. cbn [app] in *. assert (g0 = []) as ->. { destruct g0 as [|f g0]; [reflexivity|]. exfalso. injection EK as -> _. pose proof (Forall_inv G0) as F. cbn [starts In] in ST. unfold fmt in F. repeat (destruct ST as [ST|ST]; [rewrite <- ST in F; destruct F; discriminate|]). exact ST. }
      exists Q, 0, 0, h. split; [exact E|]. split; [apply grow_refl|]. split; [reflexivity|]. split; [reflexivity|]. split; [congruence|]. split; [congruence|]. intros p n IP. cbn [starts In] in ST. destruct p; repeat (destruct ST as [<-|ST]; [reflexivity|]); contradiction.
    + destruct (specs_part inc pre (s0 :: sp) g0 ty_ ty B1 R0 0 Q sc h SP VS CAP G0 HN TY TN A W) as (Q3 & cs & h2 & E3 & G2 & MS & CS & C). exists Q3, 0, cs, h2. split; [exact E3|]. split; [exact G2|]. split; [reflexivity|]. split; [exact MS|]. split; [exact CS|]. split; [congruence|].
      intros p n IP. assert (M : memb p n (t_type k) = specs_in p 0). { destruct p; cbn [inside] in IP; subst inc; cbn [starts In] in ST; repeat (destruct ST as [<-|ST]; [reflexivity|]); contradiction. } rewrite M. exact (C p IP).
Qed.
End P.
