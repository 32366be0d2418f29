(** Variables: the declaration. *)
From Coq Require Import String ZArith List Bool Lia ZifyBool ZifyNat.
From Verif Require Import Common Text HashModel StrOpsModel EnumModel EnumSpec EnumProofs LexModel LexSpec NavModel StripModel StripSpec AstModel AstSpec UpfrontModel UpfrontSpec SerSpec ParseModel ParseSpec ParseProofs ParseProofs2 ParseProofs3 ParseProofs4 ParseProofs5 ParseProofs6 ParseProofs7.
Import ListNotations.
Close Scope string_scope.
Open Scope Z_scope.

Section P.
Variable src : list Z.
Variable toks beyond : list token.
Variable ms : macros.
Variable e : env.
Variable fuel : nat.
Hypothesis SRC : Forall (in_source src) toks.
Hypothesis FIT : Forall flags_fit toks.
Hypothesis BYTES : Forall (fun c => 0 <= c < 256) src.
Hypothesis FT : (length toks < fuel)%nat.
Hypothesis FS : (length src < fuel)%nat.
Notation ahead := (ahead toks).
Notation a_currtok := (a_currtok toks beyond).
Notation a_left := (a_left toks).
Notation a_eat := (a_eat src toks beyond ms).
Notation a_check := (a_check toks beyond).


Definition last_part (next : M Z) : M (Z * Z) :=
  k <- currtok toks beyond ;;
  next_var <- (if t_type k =? Tok_Comma then next else ret 0) ;;
  stmt_end <- currtok toks beyond ;; eat src toks beyond ms Tok_Statement_End ;;;
  l <- left toks ;;
  if l =? 0 then ret (next_var, 0) else
  k <- currtok_noskip toks beyond ;;
  if (t_type k =? Tok_Comment) && (t_line k =? t_line stmt_end) then c <- parse_comment src toks beyond ms ;; ret (next_var, c) else ret (next_var, 0).
Lemma vend_ok : forall next raw R cmt Q sc h, variable_end src raw R cmt -> ahead Q (raw ++ R) -> 0 < h_top h ->
  exists Q' c h', toks = Q' ++ R /\ last_part next (Pst (zlen Q) sc h) = Done (0, c, Pst (zlen Q') sc h') /\ grow h h' /\ maybe (comment_at h') c cmt.
Proof.
  intros next raw R cmt Q sc h T A TP.
  assert (HEAD : forall g k R', raw ++ R = g ++ k :: R' -> gap g -> kind Tok_Statement_End k -> exists Q1, toks = (Q1 ++ [k]) ++ R' /\
    last_part next (Pst (zlen Q) sc h) =
    (l <- left toks ;; if l =? 0 then ret (0, 0) else k' <- currtok_noskip toks beyond ;;
     if (t_type k' =? Tok_Comment) && (t_line k' =? t_line k) then c <- parse_comment src toks beyond ms ;; ret (0, c) else ret (0, 0)) (Pst (zlen (Q1 ++ [k])) sc h)).
  { intros g k R' E G K. unfold kind in K. assert (FK : ~ fmt k) by (tk; lia). rewrite E in A. destruct (a_currtok _ _ _ _ sc h A G FK) as (Q1 & E1 & C1). exists Q1. split; [apply at_eat; exact E1|]. unfold last_part. erewrite bind_ok by exact C1. rewrite K. change (Tok_Statement_End =? Tok_Comma) with false. cbv iota.
    unfold bind at 1. cbn [ret rbind]. erewrite bind_ok by (eapply cur_here; [exact E1|exact FK]). destruct (a_eat Q1 k _ _ sc h E1 K) as (_ & C2). erewrite bind_ok by exact C2. reflexivity. }
  destruct T as [T|(-> & -> & g & k & -> & G & K)].
  - destruct T as [g k n r G K NC|g k c r G K KC LC NE].
    + destruct (HEAD g k (n :: r)) as (Q1 & E1 & ->); auto; [rewrite <- app_assoc; reflexivity|]. destruct (left_ok toks _ _ _ sc h E1) as (l & L1 & L2). erewrite bind_ok by exact L1. rewrite L2. erewrite bind_ok by (eapply noskip_ok; exact E1).
      replace ((t_type n =? Tok_Comment) && (t_line n =? t_line k)) with false by lia. exists (Q1 ++ [k]), 0, h. split; [exact E1|]. split; [reflexivity|]. split; [apply grow_refl|reflexivity].
    + destruct (HEAD g k (c :: r)) as (Q1 & E1 & ->); auto; [rewrite <- app_assoc; reflexivity|]. destruct (left_ok toks _ _ _ sc h E1) as (l & L1 & L2). erewrite bind_ok by exact L1. rewrite L2. erewrite bind_ok by (eapply noskip_ok; exact E1).
      unfold kind in KC. rewrite KC, LC, !Z.eqb_refl. cbn [andb]. unfold parse_comment, push_scope. rewrite bind_assoc. unfold bind at 1. cbn [rbind p_idx p_scopes p_heap]. set (sc' := (zlen (Q1 ++ [k]), "parse_comment"%string) :: sc). rewrite bind_assoc.
      erewrite bind_ok by (eapply noskip_ok; exact E1). rewrite <- word_text. rewrite bind_assoc.
      destruct (any_make (fun n => set_content (word src c) (AstModel.set_type CT_Comment n)) h (zlen (Q1 ++ [k])) sc') as (h2 & M2 & T2 & N2 & G2). erewrite bind_ok by exact M2. rewrite bind_assoc.
      destruct (a_eat _ c r _ sc' h2 E1 KC) as (_ & C4). erewrite bind_ok by exact C4. apply at_eat in E1.
      exists ((Q1 ++ [k]) ++ [c]), (h_top h), h2. split; [exact E1|]. split; [reflexivity|]. split; [exact G2|]. split; [|exact NE]. split; [split; lia|rewrite N2; reflexivity].
  - destruct (HEAD g k []) as (Q1 & E1 & ->); auto; [rewrite <- app_assoc; reflexivity|]. assert (L : left toks (Pst (zlen (Q1 ++ [k])) sc h) = Done (0, Pst (zlen (Q1 ++ [k])) sc h)).
    { unfold left, get_left, num. cbn [p_idx]. rewrite app_nil_r in E1. rewrite <- E1. rewrite Z.sub_diag. reflexivity. }
    erewrite bind_ok by exact L. exists (Q1 ++ [k]), 0, h. split; [exact E1|]. split; [reflexivity|]. split; [apply grow_refl|reflexivity].
Qed.

Definition var_node (fl : Z) (name : list Z) (attributes specifiers type bits x : Z) (par : bool) (cc : Z) : node :=
  set_num (if par then 1 else 0) (set_inline cc (set_body x (set_specs specifiers (set_attrs attributes (set_params bits (set_ret type
      (AstModel.set_flags fl (set_name name (AstModel.set_type CT_Variable zero_node))))))))).
Lemma after_ok : forall next fl attributes specifiers type name sizes ss ini value bits fin R cmt Q sc h,
  array_sizes src sizes ss -> next_is (ini ++ fin ++ R) (no_size src) -> initial src ini fin value bits -> variable_end src fin R cmt ->
  ahead Q (sizes ++ ini ++ fin ++ R) -> 0 < h_top h -> valid h type -> n_body (h_node h type) = 0 ->
  exists Q' c h' cc x par b, toks = Q' ++ R /\ after_name src toks beyond ms e fuel next fl attributes specifiers type name (Pst (zlen Q) sc h) = Done (c, Pst (zlen Q') sc h') /\
    like h h' /\ (forall y, valid h y -> y <> type -> h_node h' y = h_node h y) /\ h_top h <= c /\ valid h' c /\
    h_node h' c = var_node fl name attributes specifiers type b x par cc /\ maybe (comment_at h') cc cmt /\ maybe (raw_at h') b bits /\ value_at h' x par value /\
    raws_from h' (n_body (h_node h' type)) ss /\ fresh (h_top h) h' (n_body (h_node h' type)) (length ss).
Proof.
  intros next fl attributes specifiers type name sizes ss ini value bits fin R cmt Q sc h SZ NS IN VE A TP VT TB.
  unfold after_name, push_scope. unfold bind at 1. cbn [rbind p_idx p_scopes p_heap]. set (sc' := (zlen Q, "parse_variable_after_name"%string) :: sc).
  assert (SL : (length ss < fuel)%nat). { pose proof (sizes_len src toks fuel FT FS _ _ SZ). pose proof (ahead_sig_len toks _ _ _ A). lia. }
  destruct (arrays_ok src toks beyond ms e fuel FT FS ss fuel sizes (ini ++ fin ++ R) Q sc' h SL SZ A NS TP) as (Q1 & ac & h1 & A1 & C1 & G1 & F1 & _). erewrite bind_ok by exact C1.
  assert (TP1 : 0 < h_top h1) by (destruct G1; lia). destruct (initializer_ok src toks beyond ms e fuel SRC FIT FT FS ini fin R cmt value bits Q1 sc' h1 IN VE A1 TP1) as (Q2 & x & par & b & h2 & A2 & C2 & G2 & MB & VA). erewrite bind_ok by exact C2. cbv iota beta.
  assert (X : (type =? 0) = false) by (destruct VT; lia). rewrite X. assert (TP2 : 0 < h_top h2) by (destruct G2; lia). destruct (vend_ok next fin R cmt Q2 sc' h2 VE A2 TP2) as (Q3 & cc & h3 & E3 & C3 & G3 & MC). unfold last_part in C3. erewrite bind_ok by exact C3. cbv iota beta.
  set (f := fun n => set_inline cc (set_body x (set_specs specifiers (set_attrs attributes (set_params b (set_ret type (AstModel.set_flags fl (set_name name (AstModel.set_type CT_Variable n))))))))). destruct (any_make f h3 (zlen Q3) sc') as (h4 & M4 & T4 & N4 & G4). erewrite bind_ok by exact M4. set (c := h_top h3) in *.
  pose proof (grow_trans _ _ _ G1 (grow_trans _ _ _ G2 G3)) as G03. pose proof (grow_trans _ _ _ G03 G4) as G04. assert (VT4 : valid h4 type) by (destruct G04, VT; split; lia). assert (NT4 : h_node h4 type = h_node h type) by (apply G04; exact VT).
  assert (V4 : valid h4 c) by (destruct G03; split; unfold c; lia). assert (TC : type <> c) by (destruct G03, VT; unfold c; lia).
  destruct (opt_edit type ac set_body h4 (zlen Q3) sc' VT4) as (h5 & M5 & S5); [rewrite NT4; clear - TB; destruct (h_node h type); cbn in *; subst; reflexivity|]. erewrite bind_ok by exact M5. change (0 =? 0) with true. cbv iota. unfold bind at 1. cbn [ret rbind].
  pose proof (stepped_valid _ _ _ _ _ S5 V4) as V5. destruct (any_edit c (set_num (if par then 1 else 0)) h5 (zlen Q3) sc' V5) as (h6 & M6 & S6). erewrite bind_ok by exact M6. pose proof (stepped_valid _ _ _ _ _ S6 V5) as V6.
  pose proof (like_sim h4 h4 h5 type _ (like_refl _) S5 (sim_body ac)) as LK45. assert (LK36 : like h3 h6). { eapply like_new; [|exact S6|apply Z.le_refl]. eapply like_trans; [apply grow_like; exact G4|exact LK45]. }
  pose proof S5 as (T5 & N5 & O5). pose proof S6 as (T6 & N6 & O6). rewrite O5 in N6 by auto. rewrite N4 in N6.
  exists Q3, c, h6, cc, x, par, b. split; [exact E3|]. split; [reflexivity|]. split; [eapply like_trans; [apply grow_like; exact G03|exact LK36]|]. split.
  { intros y Y YT. pose proof Y as (Y1 & Y2). rewrite O6, O5 by (destruct G03; unfold c in *; lia). apply G04. exact Y. }
  split; [destruct G03; unfold c; lia|]. split; [exact V6|]. split; [exact N6|]. split; [revert MC; apply like_maybe; apply like_comment; exact LK36|].
  assert (LK26 : like h2 h6) by (eapply like_trans; [apply grow_like; exact G3|exact LK36]). split; [revert MB; apply like_maybe; apply like_raw; exact LK26|]. split.
  { destruct value as [|v|v]; [exact VA| |]; (destruct VA as (VA & VB); split; [eapply like_raw; [exact LK26|exact VA]|exact VB]). }
  rewrite O6 by auto. rewrite N5. cbn [n_body set_body]. assert (LK16 : like h1 h6) by (eapply like_trans; [apply grow_like; exact G2|exact LK26]). destruct (h_node h4 type). cbn. split; [exact (from_like _ _ _ _ TP F1 LK16)|exact (from_fresh _ _ _ _ _ TP F1 LK16)].
Qed.

Lemma export_ok : forall x ex RR Q sc h, exported x ex -> ahead Q (ex ++ RR) -> next_is RR (fun k => t_type k <> Tok_Module_Export) ->
  exists Q' fl, ahead Q' RR /\ export_flag src toks beyond ms (Pst (zlen Q) sc h) = Done (fl, Pst (zlen Q') sc h) /\ Z.testbit fl 0 = x.
Proof.
  intros x ex RR Q sc h X A N. unfold export_flag. destruct X as [(-> & ->)|(-> & g & k & -> & G & K)].
  - cbn [app] in A. destruct N as (g & k & r & -> & G & FK & NK). destruct (a_check _ _ _ _ Tok_Module_Export sc h A G FK) as (Q1 & E1 & C1). erewrite bind_ok by exact C1. replace (t_type k =? Tok_Module_Export) with false by lia.
    exists Q1, 0. split; [exists (k :: r); split; [exact E1|symmetry; apply trim_gap; exact G]|]. split; reflexivity.
  - rewrite <- app_assoc in A. cbn [app] in A. unfold kind in K. assert (FK : ~ fmt k) by (tk; lia). destruct (a_check _ _ _ _ Tok_Module_Export sc h A G FK) as (Q1 & E1 & C1). erewrite bind_ok by exact C1. rewrite K, Z.eqb_refl.
    destruct (a_eat Q1 k _ _ sc h E1 K) as (A2 & C2). erewrite bind_ok by exact C2. exists (Q1 ++ [k]), ModuleFlag_Export. split; [exact A2|]. split; reflexivity.
Qed.
Lemma type_head : forall raw rest ty, type_tokens src raw rest ty -> ty_attrs ty = None ->
  exists g k r, raw = g ++ k :: r /\ gap g /\ ~ fmt k /\ (spelled src k Spec_Const \/ starts_type k).
Proof.
  intros raw rest ty T AN. destruct T as [att pre raw suf pk rest g at_ tg t sp sp' pack AT S1 C1 G TN N92 CL WT S2 C2 CAP PK]. cbn in AN. subst at_. cbn in AT. subst att. cbn [app].
  destruct S1 as [|gs k s r l GS SP S1].
  - destruct (type_name_first src toks fuel FT FS _ _ _ _ TN) as (k0 & r0 & -> & ST & K0). exists g, k0, (r0 ++ suf ++ pk). split; [reflexivity|]. auto.
  - exists gs, k, (r ++ g ++ raw ++ suf ++ pk). split; [rewrite <- app_assoc; reflexivity|]. split; [exact GS|]. pose proof (Forall_inv C1). subst s. split; [destruct SP as (SK & _); apply spec_sig; exact SK|left; exact SP].
Qed.
Lemma head_plain : forall k, spelled src k Spec_Const \/ starts_type k -> ~ macro_kind (t_type k) /\ t_type k <> Tok_Attribute_GEN_API /\ t_type k <> Tok_Module_Export.
Proof.
  intros k [(SK & _)|ST]; [tk; lia|]. destruct (starts_plain src toks fuel FT FS k ST) as (A & _ & B). split; [exact A|]. split; [exact B|]. unfold starts_type in ST. tk. lia.
Qed.
Lemma spelled_spec : forall k s, spelled src k s -> str_to_specifier (text_of src k) = s.
Proof. intros k s (SK & t & I & W). rewrite <- word_text, W. destruct (p22_spec _ _ I) as (_ & ->). reflexivity. Qed.
Lemma variable_specs : forall sp, Forall (fun s => In s variable_specifiers) sp -> Forall (fun s => variable_specifier s = true /\ (s =? Spec_Const) = false) sp.
Proof.
  intros sp. apply Forall_impl. intros s I. unfold variable_specifiers in I. cbn [In] in I. repeat (destruct I as [<-|I]; [split; reflexivity|]). contradiction.
Qed.

Lemma variable_ok : forall raw R tr Q sc h, variable_tokens src raw R tr -> ahead Q (raw ++ R) -> world e h ->
  exists Q' c h' tr', toks = Q' ++ R /\ parse_variable src toks beyond ms e fuel (Pst (zlen Q) sc h) = Done (c, Pst (zlen Q') sc h') /\
    tree_respaced tr tr' /\ holds h' c tr' /\ grow h h' /\ h_top h <= c.
Proof.
  intros raw R tr Q sc h T A W. pose proof (world_top src toks e fuel FT FS h W) as TP.
  destruct T as [x ex att at_ pre sp ty_ ty g nm name sizes ss ini value bits fin rest cmt XP AT SP VS CAP TY TN G NM NE NX1 NX2 SZ IN SB VE]. rename rest into R.
  unfold parse_variable, push_scope. unfold bind at 1. cbn [rbind p_idx p_scopes p_heap]. set (sc' := (zlen Q, "parser_parse_variable"%string) :: sc).
  rewrite <- !app_assoc in A. set (B0 := sizes ++ ini ++ fin ++ R) in *. set (B1 := g ++ nm ++ B0) in *. set (B2 := pre ++ ty_ ++ B1) in *. change (ahead Q (ex ++ att ++ B2)) in A.
  destruct (type_head _ _ _ TY TN) as (gh & kh & rh & ETY & GH & FH & HH). pose proof (head_plain kh HH) as (HM & HA & HX).
  assert (FITH : flags_fit kh). { eapply ahead_fit; [exact FIT|exact A| |exact FH]. unfold B2. rewrite !in_app_iff. do 3 right. left. rewrite ETY. apply in_or_app. right. left. reflexivity. }
  assert (FITP : forall k, In k pre -> spec_kind (t_type k) -> flags_fit k). { intros k I SK. eapply ahead_fit; [exact FIT|exact A| |apply spec_sig; exact SK]. unfold B2. rewrite !in_app_iff. auto. }
  assert (NXT : forall P : token -> Prop, (forall k, In k pre -> spec_kind (t_type k) -> P k) -> P kh -> next_is B2 P).
  { intros P P1 P2. unfold B2. eapply spec_first; [exact SP| |]; [intros k SK I; auto|]. rewrite ETY, <- app_assoc. cbn [app]. apply next_app; auto. }
  assert (N1 : next_is (att ++ B2) (fun k => t_type k <> Tok_Module_Export)).
  { destruct at_ as [t|].
    - destruct AT as (ga & ka & k' & r & -> & GA & FA & NIN & _). rewrite <- app_assoc. cbn [app]. apply next_app; [exact GA|intros [Y|Y]; apply NIN; rewrite Y; cbn; auto 10|]. intros X.
      assert (FK : flags_fit ka). { eapply ahead_fit; [exact FIT|exact A|rewrite !in_app_iff; right; left; right; left; reflexivity|unfold fmt; rewrite X; intros [Y|Y]; discriminate Y]. } destruct FK as [FK|(_ & FK & _)]; [tk; lia|]. specialize (FK FA). rewrite FK in X. discriminate X.
    - cbn in AT. subst att. cbn [app]. apply NXT; [|exact HX]. intros k _ SK. tk. lia. }
  destruct (export_ok x ex _ Q sc' h XP A N1) as (Q1 & fl & A1 & C1 & X1). erewrite bind_ok by exact C1.
  assert (AT' : attribute_word src att B2 at_). { apply (attribute_more _ _ _ R) in AT. rewrite <- !app_assoc in AT. exact AT. }
  destruct (attributes_ok src toks beyond ms fuel SRC BYTES att B2 at_ Q1 sc' h AT' A1) as (Q2 & ca & h1 & E2 & C2 & G1 & MA & _); auto.
  { apply NXT; [intros k I SK; apply not_attr_flag; auto; tk; lia|apply not_attr_flag; auto]. }
  erewrite bind_ok by exact C2. apply stands_ahead in E2. unfold B2 in E2.
  assert (NS : next_is (ty_ ++ B1) (fun k => ~ flagged k TF_Specifier \/ variable_specifier (str_to_specifier (text_of src k)) = true /\ (str_to_specifier (text_of src k) =? Spec_Const) = true)).
  { rewrite ETY, <- app_assoc. cbn [app]. apply next_app; auto. destruct HH as [HH|HH]; [right; rewrite (spelled_spec _ _ HH); split; reflexivity|left]. apply not_spec_flag; auto. apply (starts_plain src toks fuel FT FS). exact HH. }
  assert (LP : (length sp <= fuel)%nat) by (pose proof (spec_sig_len src _ _ SP); pose proof (ahead_sig_len _ _ _ _ E2); lia).
  destruct (specs_loop_ok src toks beyond ms FIT fuel pre sp Q2 _ variable_specifier (fun s => s =? Spec_Const) [] sc' h1 SP E2 NS) as (Q3 & E3 & C3); [apply variable_specs; exact VS|cbn [app]; change SPECS_CAP with 14 in CAP; unfold zlen; lia|exact LP|].
  erewrite bind_ok by exact C3. cbn [app]. apply stands_ahead in E3. assert (W1 : world e h1) by (eapply world_grow; eauto).
  destruct (specifiers_maybe e h1 (zlen Q3) sc' sp W1 CAP) as (h2 & cs & C4 & G2 & MS & _); [eapply spelled_known; eauto|]. erewrite bind_ok by exact C4. assert (W2 : world e h2) by (eapply world_grow; eauto).
  assert (FN : exists kn rn, nm = kn :: rn /\ kind Tok_Identifier kn) by (destruct NM as [first a q KI _ _]; eauto). destruct FN as (kn & rn & ENM & KN). assert (FKN : ~ fmt kn) by (tk; lia).
  assert (TY' : type_tokens src ty_ B1 ty). { apply (type_more _ _ _ R) in TY. rewrite <- !app_assoc in TY. exact TY. }
  assert (FITN : flags_fit kn). { eapply ahead_fit; [exact FIT|exact E3|unfold B1; rewrite ENM, !in_app_iff; right; right; left; left; reflexivity|exact FKN]. }
  assert (NT : next_is B1 ends_type). { unfold B1. rewrite ENM. cbn [app]. apply next_app; auto. split; [apply not_spec_flag; auto; tk; lia|]. tk. lia. }
  destruct (type_ok src toks beyond ms e fuel SRC FIT BYTES FT FS false ty_ B1 ty Q3 sc' h2 TY' E3 NT ltac:(discriminate) W2) as (Q4 & tyc & h3 & ty' & A4 & C5 & RS & G3 & TT & TA & TK & TR & TB & TPP). erewrite bind_ok by exact C5.
  assert (NI : (tyc =? e_invalid e) = false) by (destruct W2 as ((_ & W2) & _); lia). rewrite NI.
  destruct (identifier_ok src toks beyond ms fuel SRC nm name Q4 B0 g sc' h3 A4 G NM) as (Q5 & nt & A5 & C6 & TX & _ & _); [unfold B0; apply (next_more _ R) in NX1; rewrite <- !app_assoc in NX1; exact NX1|lia|]. erewrite bind_ok by exact C6. cbn [name_text]. rewrite TX.
  destruct TA as (VT & TA'). assert (TP3 : 0 < h_top h3) by (destruct VT; lia). unfold B0 in A5. unfold parse_variable_after_name.
  assert (NX2' : next_is (ini ++ fin ++ R) (no_size src)) by (apply (next_more _ R) in NX2; rewrite <- !app_assoc in NX2; exact NX2).
  destruct (after_ok (parse_variable_declaration_list src toks beyond ms e fuel) fl ca cs tyc name sizes ss ini value bits fin R cmt Q5 sc' h3 SZ NX2' IN VE A5 TP3 VT TB) as (Q6 & c & h4 & cc & v & par & b & E6 & C7 & LK & OT & TC & VC & NC & MC & MB & VA & RW & _).
  erewrite bind_ok by exact C7. exists Q6, c, h4, (Var x at_ (some_specs sp) ty' name ss bits value cmt). split; [exact E6|]. split; [reflexivity|]. split; [apply tr_var; exact RS|].
  pose proof (grow_trans _ _ _ G1 (grow_trans _ _ _ G2 G3)) as G03. split; [|split; [|destruct G03; lia]].
  - assert (LK2 : like h2 h4) by (eapply like_trans; [apply grow_like; exact G3|exact LK]). assert (LK1 : like h1 h4) by (eapply like_trans; [apply grow_like; exact G2|exact LK2]).
    cbn [holds]. rewrite NC. unfold var_node. cbn. split; [split; [exact VC|rewrite NC; left; reflexivity]|]. split; [left; reflexivity|]. split; [exact X1|]. split; [revert MA; apply like_maybe; apply like_content; exact LK1|]. split; [revert MS; apply like_maybe; apply like_specs; exact LK2|].
    split; [eapply like_typ; [exact LK|]; split; [exact VT|exact TA']|]. split; [auto|]. split; [exact RW|]. split; [exact MB|]. split; [exact SB|]. split; [|auto].
    destruct value as [|vv|vv]; destruct VA as (VA & VP); rewrite VP; split; auto. discriminate.
  - destruct LK as (LK & _). split; [destruct G03; lia|]. intros y Y. pose proof Y as (Y1 & Y2). rewrite OT; [apply G03; exact Y|destruct G03; split; lia|destruct G1, G2; lia].
Qed.
End P.
