(** Variables and functions as members of global bodies: what is read. *)
From Coq Require Import String ZArith List Bool Lia ZifyBool ZifyNat.
From Verif Require Import Common Text HashModel StrOpsModel EnumModel EnumSpec EnumProofs LexModel LexSpec NavModel StripModel StripSpec StripProofs AstModel AstSpec AstProofs AstProofs4 UpfrontModel UpfrontSpec UpfrontProofs4 SerSpec SerProofs SerProofs2 ParseModel ParseSpec
  ParseProofs ParseProofs2 ParseProofs3 ParseProofs4 ParseProofs5 ParseProofs6 ParseProofs7 ParseProofs8 ParseProofs9 ParseProofs10 ParseProofs11 FnModel FnSpec FnProofs FnProofs2 FnProofs3 FnProofs4 GlobalModel GlobalSpec GlobalProofs GlobalProofs2 GlobalProofs3 GlobalProofs4 GlobalProofs5 GlobalProofs6 GlobalProofs7.
Import ListNotations.
Close Scope string_scope.
Open Scope Z_scope.
Open Scope parse_scope.
Section P.
Variable src : list Z.
Variable toks beyond : list token.
Variable ms : macros.
Variable e : env.
Variable gl : globals.
Variable fuel : nat.
Hypothesis SRC : Forall (in_source src) toks.
Hypothesis FIT : Forall flags_fit toks.
Hypothesis BYTES : Forall (fun c => 0 <= c < 256) src.
Hypothesis FT : (length toks < fuel)%nat.
Hypothesis FS : (length src < fuel)%nat.
Hypothesis NOM : no_macro_spec ms.
Hypothesis BY : (2 <= length beyond)%nat.
Notation member := (member src toks beyond ms e gl fuel).
Notation reads := (reads src toks beyond ms e gl fuel).
Notation ahead := (ahead toks).

Notation global_decl := (global_decl src toks beyond ms e gl fuel).
Notation global_specs := (global_specs src toks beyond ms e gl fuel).

Lemma starts_not : forall inc at_ sp k, starts inc at_ sp k -> t_type k <> Tok_BraceCurly_Close /\ t_type k <> Tok_Preprocess_Hash /\ t_type k <> Tok_Statement_End.
Proof.
  intros inc at_ sp k S0. destruct at_ as [t|]; cbn [starts] in S0; [rewrite S0; repeat split; discriminate|].
  destruct inc, sp as [|s0 sp]; cbn [In] in S0; repeat (destruct S0 as [<-|S0]; [repeat split; discriminate|]); contradiction.
Qed.
Lemma some_specs_ok : forall sp, some_ok (some_specs sp). Proof. intros [|s sp]; discriminate. Qed.

Lemma variable_read : forall inc att at_ pre sp g0 ty_ ty g nm name sizes ss ini value bits fin rest cmt k raw,
    attribute_word src att (pre ++ g0 ++ ty_ ++ g ++ nm ++ sizes ++ ini ++ fin) at_ ->
    spec_tokens src pre sp -> Forall (fun s => In s (specifiers_in inc)) sp -> Z.of_nat (length sp) <= SPECS_CAP ->
    gap g0 -> (forall k r, ty_ = k :: r -> ~ fmt k) -> type_tokens src ty_ (g ++ nm ++ sizes ++ ini ++ fin) ty -> ty_attrs ty = None -> gap g -> named src nm name -> name <> [] ->
    next_is (sizes ++ ini ++ fin) (ends_name src) -> next_is (ini ++ fin) (no_size src) -> array_sizes src sizes ss -> initial src ini fin value bits ->
    (ss = [] \/ bits = None) -> variable_end src fin rest cmt ->
    att ++ pre ++ g0 ++ ty_ ++ g ++ nm ++ sizes ++ ini ++ fin = k :: raw -> starts inc at_ sp k ->
    unambiguous src inc (ty_ ++ g ++ nm ++ sizes ++ ini ++ fin ++ rest) -> no_operator (ty_ ++ nm) -> next_three (sizes ++ ini ++ fin ++ rest ++ beyond) decides_variable ->
    reads inc (k :: raw) rest (Var false at_ (some_specs sp) ty name ss bits value cmt).
Proof.
  intros inc att at_ pre sp g0 ty_ ty g nm name sizes ss ini value bits fin rest cmt k raw AT SP VS CAP G0 HN TY TN G NM NE NX1 NX2 SZ IN SB VE EK ST CA NO N3.
  destruct (starts_not _ _ _ _ ST) as (S1 & S2 & S3). apply (reads_by src toks beyond ms e gl fuel FT FS); auto. intros Q sc h E W _.
  assert (E0 : toks = Q ++ att ++ pre ++ g0 ++ ty_ ++ g ++ nm ++ sizes ++ ini ++ fin ++ rest). { rewrite E. change (k :: raw ++ rest) with ((k :: raw) ++ rest). rewrite <- EK, <- !app_assoc. reflexivity. }
  set (B0 := sizes ++ ini ++ fin ++ rest) in *. set (B1 := g ++ nm ++ B0) in *.
  assert (AT' : attribute_word src att (pre ++ g0 ++ ty_ ++ B1) at_). { apply (attribute_more _ _ _ rest) in AT. rewrite <- !app_assoc in AT. exact AT. }
  assert (TY' : type_tokens src ty_ B1 ty). { apply (type_more _ _ _ rest) in TY. rewrite <- !app_assoc in TY. exact TY. }
  assert (EK' : att ++ pre ++ g0 ++ ty_ ++ B1 = k :: raw ++ rest). { change (k :: raw ++ rest) with ((k :: raw) ++ rest). rewrite <- EK, <- !app_assoc. reflexivity. }
  assert (VS' : Forall (fun s => s = Spec_Consteval \/ In s (specifiers_in inc)) sp) by (revert VS; apply Forall_impl; auto).
  destruct (front_ok src toks beyond ms e gl fuel SRC FIT BYTES FT FS BY inc att at_ pre sp g0 ty_ ty B1 B1 k (raw ++ rest) Q sc h AT' SP VS' CAP G0 HN TY' TN EK' ST E0 W) as (Q3 & ca & cs & h2 & E3 & G2 & MA & MS & CS & NCA & C1).
  assert (W2 : world e h2) by (eapply world_grow; eauto).
  assert (EF : existsb (Z.eqb Spec_Consteval) sp = false). { apply Bool.not_true_iff_false. intros X. apply existsb_exists in X. destruct X as (s & I & X). apply (proj1 (Forall_forall _ _) VS) in I. unfold specifiers_in, global_specifiers, class_specifiers in I. destruct inc; cbn [In] in I; repeat (destruct I as [<-|I]; [discriminate X|]); exact I. }
  rewrite EF in C1. assert (NX1' : next_is B0 (ends_name src)) by (unfold B0; apply (next_more _ rest) in NX1; rewrite <- !app_assoc in NX1; exact NX1).
  assert (N3' : next_three (B0 ++ beyond) decides_variable) by (unfold B0; rewrite <- !app_assoc; exact N3).
  destruct (decl_ok src toks beyond ms e gl fuel SRC FIT BYTES FT FS BY inc false ty_ ty g nm name B0 false ca cs Q3 sc h2 E3 HN TY' TN G NM NX1' CA NO N3' eq_refl W2) as (Q5 & tyc & h3 & ty' & s0 & E5 & RS & TR & TSB & BN & C2).
  destruct TR as (G3 & TT & (VT & TA') & TK & TRR & TB & TPP). apply stands_ahead in E5. unfold B0 in E5. assert (TP3 : 0 < h_top h3) by (destruct VT; lia).
  assert (NX2' : next_is (ini ++ fin ++ rest) (no_size src)) by (apply (next_more _ rest) in NX2; rewrite <- !app_assoc in NX2; exact NX2).
  destruct (after_ok src toks beyond ms e fuel SRC FIT FT FS (parse_variable_declaration_list src toks beyond ms e fuel) 0 ca cs tyc name sizes ss ini value bits fin rest cmt Q5 (s0 :: sc) h3 SZ NX2' IN VE E5 TP3 VT TB) as (Q6 & c & h4 & cc & v & par & b & E6 & C7 & LK & OT & TC & VC & NC & MC & MB & VA & RW & FR).
  exists Q6, c, h4, (Var false at_ (some_specs sp) ty' name ss bits value cmt). split; [exact E6|]. assert (HC : h_top h <= c) by (destruct G2, G3; lia). pose proof (grow_trans _ _ _ G2 G3) as G03. split.
  - split; [apply tl_respaced, tr_var; exact RS|]. split; [cbn [leaf]; split; [apply some_specs_ok|eapply typ_respaced_ok; [exact RS|eapply type_specs; eauto]]|].
    split; [cbn [clear sized]; rewrite NC; cbn; destruct LK as (LK1 & LK2); split; [rewrite <- TK; exact (f_equal n_type (LK2 tyc VT))|eapply fresh_le; [|exact FR]; destruct G03; lia]|]. split.
    + assert (LK2 : like h2 h4) by (eapply like_trans; [apply grow_like; exact G3|exact LK]).
      cbn [holds]. rewrite NC. unfold var_node. cbn. split; [split; [exact VC|rewrite NC; left; reflexivity]|]. split; [left; reflexivity|]. split; [reflexivity|]. split; [revert MA; apply like_maybe; apply like_content; exact LK2|]. split; [revert MS; apply like_maybe; apply like_specs; exact LK2|].
      split; [eapply like_typ; [exact LK|]; split; [exact VT|exact TA']|]. split; [auto|]. split; [exact RW|]. split; [exact MB|]. split; [exact SB|]. split; [|auto].
      destruct value as [|vv|vv]; destruct VA as (VA & VP); rewrite VP; split; auto. discriminate.
    + split. { destruct LK as (LK & _). split; [destruct G03; lia|]. intros y Y. pose proof Y as (Y1 & Y2). rewrite OT; [apply G03; exact Y|destruct G03; split; lia|destruct G2; lia]. }
      split; [exact VC|]. rewrite NC. split; [reflexivity|]. split; [left; split; [reflexivity|exact HC]|]. exact (world_invalid src toks e fuel FT FS h c W HC).
  - intros p n IP. rewrite (C1 p n IP). unfold bind at 1. rewrite (C2 p IP). cbv iota. erewrite bind_ok by exact C7. reflexivity.
Qed.
Lemma young_le : forall A B h b, A <= B -> young B h b -> young A h b. Proof. intros A B h b L (Y1 & Y2). split; [lia|eapply fresh_le; eauto]. Qed.
Lemma more_typed : forall r rest l, more_params src r rest l -> Forall param_ok l.
Proof.
  intros r rest l T. induction T as [|g c p_ p r rest l G K PT T IH]; constructor; auto. destruct PT as [ty_ ty nm name dv v rest0 TY TN _ _]. exists ty. split; [reflexivity|]. eapply type_specs; eauto.
Qed.
Lemma params_typed : forall r rest l, params_tokens src r rest l -> Forall param_ok l.
Proof.
  intros r rest l T. destruct T as [|g o p_ p r rest l G K PT T]; constructor; [|eapply more_typed; eauto]. destruct PT as [ty_ ty nm name dv v rest0 TY TN _ _]. exists ty. split; [reflexivity|]. eapply type_specs; eauto.
Qed.
Lemma param_respaced_ok : forall l l', Forall2 param_respaced l l' -> Forall param_ok l -> Forall param_ok l'.
Proof.
  intros l l' F. induction F as [|a b l l' (_ & B & _) F IH]; intros O; constructor; [|apply IH; apply (Forall_inv_tail O)]. destruct (Forall_inv O) as (t & T & TO). rewrite T in B. destruct (p_type b) as [t'|] eqn:PB; [|contradiction]. exists t'. split; [exact PB|]. eapply typ_respaced_ok; eauto.
Qed.
Lemma func_leaf : forall f t, func_tree f = Some t -> typ_ok (f_ret f) -> Forall param_ok (f_params f) -> leaf t.
Proof.
  intros f t E T P. unfold func_tree in E. destruct (f_body f) as [l|].
  - destruct (f_export f); [discriminate E|]. injection E as <-. cbn [leaf]. split; [apply some_specs_ok|]. split; [intros y X; injection X as <-; exact T|]. split; [exact P|]. apply Forall_forall. intros x I. apply in_map_iff in I. destruct I as (y & <- & _). eauto.
  - destruct (existsb _ _); [discriminate E|]. injection E as <-. cbn [leaf]. split; [apply some_specs_ok|]. split; [intros y X; injection X as <-; exact T|exact P].
Qed.
Lemma function_read : forall inc att at_ pre sp g0 ty_ ty g nm name ps params suf sp' fin extra body rest cmt k raw t,
    attribute_word src att (pre ++ g0 ++ ty_ ++ g ++ nm ++ ps ++ suf ++ fin) at_ ->
    spec_tokens src pre sp -> Forall (fun s => s = Spec_Consteval \/ In s (specifiers_in inc)) sp ->
    gap g0 -> (forall k r, ty_ = k :: r -> ~ fmt k) -> type_tokens src ty_ (g ++ nm ++ ps ++ suf ++ fin) ty -> ty_attrs ty = None -> gap g -> named src nm name -> name <> [] -> solid name ->
    params_tokens src ps (suf ++ fin) params -> spec_tokens src suf sp' -> function_end src fin (rest ++ beyond) extra body cmt ->
    Z.of_nat (length (sp ++ sp' ++ extra)) <= SPECS_CAP -> func_tree (Func false at_ (sp ++ sp' ++ extra) ty name params body cmt) = Some t ->
    att ++ pre ++ g0 ++ ty_ ++ g ++ nm ++ ps ++ suf ++ fin = k :: raw -> starts inc at_ sp k ->
    unambiguous src inc (ty_ ++ g ++ nm ++ ps ++ suf ++ fin ++ rest) -> no_operator (ty_ ++ nm) -> next_three (ps ++ suf ++ fin ++ rest ++ beyond) decides_function ->
    reads inc (k :: raw) rest t.
Proof.
  intros inc att at_ pre sp g0 ty_ ty g nm name ps params suf sp' fin extra body rest cmt k raw t AT SP VS G0 HN TY TN G NM NE SN PS SU FE CAP FT_ EK ST CA NO N3.
  destruct (starts_not _ _ _ _ ST) as (S1 & S2 & S3). apply (reads_by src toks beyond ms e gl fuel FT FS); auto. intros Q sc h E W _.
  assert (E0 : toks = Q ++ att ++ pre ++ g0 ++ ty_ ++ g ++ nm ++ ps ++ suf ++ fin ++ rest). { rewrite E. change (k :: raw ++ rest) with ((k :: raw) ++ rest). rewrite <- EK, <- !app_assoc. reflexivity. }
  set (B0 := ps ++ suf ++ fin ++ rest) in *. set (B1 := g ++ nm ++ B0) in *.
  assert (AT' : attribute_word src att (pre ++ g0 ++ ty_ ++ B1) at_). { apply (attribute_more _ _ _ rest) in AT. rewrite <- !app_assoc in AT. exact AT. }
  assert (TY' : type_tokens src ty_ B1 ty). { apply (type_more _ _ _ rest) in TY. rewrite <- !app_assoc in TY. exact TY. }
  assert (EK' : att ++ pre ++ g0 ++ ty_ ++ B1 = k :: raw ++ rest). { change (k :: raw ++ rest) with ((k :: raw) ++ rest). rewrite <- EK, <- !app_assoc. reflexivity. }
  change SPECS_CAP with 14 in CAP. assert (CAP' : (length (sp ++ sp' ++ extra) <= 14)%nat) by lia. assert (CSP : Z.of_nat (length sp) <= SPECS_CAP) by (change SPECS_CAP with 14; rewrite app_length in CAP'; lia).
  destruct (front_ok src toks beyond ms e gl fuel SRC FIT BYTES FT FS BY inc att at_ pre sp g0 ty_ ty B1 B1 k (raw ++ rest) Q sc h AT' SP VS CSP G0 HN TY' TN EK' ST E0 W) as (Q3 & ca & cs & h2 & E3 & G2 & MA & MS & CS & NCA & C1).
  assert (W2 : world e h2) by (eapply world_grow; eauto). pose proof (world_top src toks e fuel FT FS h2 W2) as TP2.
  destruct (params_first src _ _ _ PS) as (gp & op & rp & EP & GP & KP).
  assert (NX1' : next_is B0 (ends_name src)) by (unfold B0; rewrite EP, <- app_assoc; cbn [app]; unfold kind in KP; apply next_app; [exact GP|tk; lia|split; tk; lia]).
  assert (NXP : next_is B0 (kind Tok_Paren_Open)) by (unfold B0; rewrite EP, <- app_assoc; cbn [app]; apply next_app; [exact GP|unfold kind in KP; tk; lia|exact KP]).
  assert (N3' : next_three (B0 ++ beyond) decides_function) by (unfold B0; rewrite <- !app_assoc; exact N3).
  destruct (decl_ok src toks beyond ms e gl fuel SRC FIT BYTES FT FS BY inc true ty_ ty g nm name B0 (existsb (Z.eqb Spec_Consteval) sp) ca cs Q3 sc h2 E3 HN TY' TN G NM NX1' CA NO N3' NXP W2) as (Q5 & tyc & h3 & ty' & s0 & E5 & RS & TR & TSB & BN & C2).
  destruct TR as (G3 & TT & TA & TK & TRR & TB & TPP). assert (W3 : world e h3) by (eapply world_grow; eauto).
  assert (CSB : cs < h_top h2). { destruct sp as [|s1 sp]; cbn in MS; [subst cs; lia|]. destruct MS as ((_ & MS) & _). exact MS. }
  assert (TO : typ_own (h_top h2) h3 tyc ty'). { pose proof RS as (_ & X2 & _ & X3 & _). split; [exact TT|]. split; [exact TK|]. split; [congruence|]. split; [|exact TSB]. rewrite X3. eapply type_specs; eauto. }
  assert (MS3 : maybe (specs_at h3) cs (some_specs sp)) by (revert MS; apply like_maybe; apply like_specs; apply grow_like; exact G3).
  assert (MA3 : maybe (content_at h3) ca at_) by (revert MA; apply like_maybe; apply like_content; apply grow_like; exact G3).
  destruct (after_name_ok src toks beyond ms e (g_varadic gl) fuel SRC FIT BYTES FT FS NOM ps params suf sp' fin extra body cmt rest Q5 sp 0 ca at_ cs tyc ty' name (h_top h2) (s0 :: sc) h3 PS SU FE CAP' E5 W3 MS3 CSB ltac:(destruct G3; lia) TA TO MA3 NCA SN NE BN) as (Q6 & c & h4 & params' & E6 & C7 & FP & HC & NBC & FRP & PAR & TO4 & FA).
  specialize (FA false eq_refl). set (f' := Func false at_ (sp ++ sp' ++ extra) ty' name params' body cmt) in *. set (f := Func false at_ (sp ++ sp' ++ extra) ty name params body cmt) in *.
  assert (FR : func_respaced f f') by (unfold func_respaced; cbn; auto 10).
  assert (EX : exists t', func_tree f' = Some t'). { unfold func_tree in *. cbn in *. destruct body; [eauto|]. destruct (existsb _ _); [discriminate FT_|eauto]. } destruct EX as (t' & FT').
  assert (LF : leaf t'). { eapply func_leaf; [exact FT'|cbn; eapply typ_respaced_ok; [exact RS|eapply type_specs; eauto]|cbn; eapply param_respaced_ok; [exact FP|eapply params_typed; eauto]]. }
  pose proof (func_holds h4 c f' t' FA FT') as HO.
  pose proof (grow_trans _ _ _ G2 G3) as G03. assert (LE3 : h_top h <= h_top h3) by (destruct G03; lia). assert (HC0 : h_top h <= c) by lia.
  exists Q6, c, h4, t'. split; [exact E6|]. split.
  - split; [eapply tl_function; eauto|]. split; [exact LF|].
    assert (CLR : clear (h_top h) h4 c t' /\ kind_is h4 c [CT_Function; CT_Function_Fwd]).
    { pose proof FT' as FT2. unfold func_tree in FT2. cbn in FT2. assert (FRP' : fresh (h_top h) h4 (n_params (h_node h4 c)) (length params')) by (eapply fresh_le; [|exact FRP]; lia). destruct body as [l|].
      - injection FT2 as <-. cbn [holds] in HO. destruct HO as ((V & [KT|[]]) & HO). split; [|split; [exact V|rewrite <- KT; cbn; auto]]. cbn [clear]. split; [exact FRP'|].
        destruct HO as (_ & _ & _ & _ & _ & _ & _ & HB). eapply young_le; [|apply NBC]; [exact LE3|]. destruct HB as [((VB & _) & _)|(tt & _ & (VB & _) & _)]; destruct VB; lia.
      - destruct (existsb (fun s => (s =? Spec_Pure) || (s =? Spec_Delete)) (sp ++ sp' ++ extra)); [discriminate FT2|]. injection FT2 as <-. cbn [holds] in HO. destruct HO as ((V & [KT|[]]) & HO). split; [|split; [exact V|rewrite <- KT; cbn; auto]]. cbn [clear]. exact FRP'. }
    destruct CLR as (CLR & V & KI). split; [exact CLR|]. split; [exact HO|]. split.
    { destruct TO4 as (TO4 & TN4). split; [lia|]. intros y Y. pose proof Y as (Y1 & Y2). rewrite TN4; [apply G03; exact Y|split; lia|]. destruct sp as [|s1 sp]; [cbn in MS; lia|]. specialize (CS ltac:(discriminate)). lia. }
    split; [exact V|]. split; [destruct KI as [<-|[<-|[]]]; reflexivity|]. split; [left; split; [exact PAR|exact HC0]|]. exact (world_invalid src toks e fuel FT FS h c W HC0).
  - intros p n IP. rewrite (C1 p n IP). unfold bind at 1. rewrite (C2 p IP). cbv iota. erewrite bind_ok by exact C7. reflexivity.
Qed.
Lemma declared_read : forall inc raw rest t, declared src beyond inc raw rest t -> reads inc raw rest t.
Proof. intros inc raw rest t T. destruct T; [eapply variable_read; eauto|eapply function_read; eauto]. Qed.
End P.
