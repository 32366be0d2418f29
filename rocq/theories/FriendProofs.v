(** Friend declarations: from the tokens to the node. *)
From Coq Require Import String ZArith List Bool Lia ZifyBool ZifyNat.
From Verif Require Import Common Text HashModel StrOpsModel EnumModel EnumSpec EnumProofs LexModel LexSpec NavModel StripModel StripSpec StripProofs AstModel AstSpec AstProofs AstProofs4 UpfrontModel UpfrontSpec SerModel SerSpec SerProofs SerProofs2 ParseModel ParseSpec
  ParseProofs ParseProofs2 ParseProofs3 ParseProofs4 ParseProofs5 ParseProofs7 ParseProofs8 ParseProofs9 ParseProofs10 ParseProofs11 FnModel FnSpec FnProofs FnProofs2 FnProofs3 FnProofs4 FriendModel FriendSpec.
Import ListNotations.
Close Scope string_scope.
Open Scope Z_scope.
Open Scope parse_scope.

Lemma param_grow : forall h h' c p, grow h h' -> param_at h c p -> param_at h' c p.
Proof.
  intros h h' c p G (V & A1 & A2 & A3 & A4 & A5). pose proof G as (T & N). split; [destruct V; split; lia|]. rewrite N by exact V. pose proof (grow_like _ _ G) as L.
  repeat (split; [assumption|]). split; [revert A4; apply like_maybe; apply like_typ; exact L|revert A5; apply like_maybe; apply like_raw; exact L].
Qed.
Lemma params_from_grow : forall h h' l c, grow h h' -> params_from h c l -> params_from h' c l.
Proof.
  intros h h' l. induction l as [|p l IH]; intros c G; [auto|]. intros (P & N1 & F). pose proof G as (T & N). pose proof P as (V & _). cbn [params_from].
  rewrite N by exact V. split; [eapply param_grow; eauto|]. split; [exact N1|apply IH; auto].
Qed.
Lemma params_grow : forall h h' c l, grow h h' -> params_at h c l -> params_at h' c l.
Proof.
  intros h h' c [|p l] G; [auto|]. intros (P & N1 & F). pose proof G as (T & N). pose proof P as (V & _). cbn [params_at]. rewrite N by exact V.
  split; [eapply param_grow; eauto|]. split; [exact N1|]. intros E. eapply params_from_grow; eauto.
Qed.
Lemma func_grow : forall h h' c f, grow h h' -> func_at h c f -> func_at h' c f.
Proof.
  intros h h' c f G ((V & K) & X & MA & MS & TA & NM & NN & PA & SX & BD & MC). pose proof G as (T & N). pose proof (grow_like _ _ G) as L. unfold func_at. cbv zeta. rewrite N by exact V.
  split; [split; [destruct V; split; lia|rewrite N by exact V; exact K]|]. split; [exact X|]. split; [revert MA; apply like_maybe; apply like_content; exact L|]. split; [revert MS; apply like_maybe; apply like_specs; exact L|].
  split; [eapply like_typ; eauto|]. split; [exact NM|]. split; [exact NN|]. split; [eapply params_grow; eauto|]. split; [exact SX|]. split; [|revert MC; apply like_maybe; apply like_comment; exact L].
  destruct (f_body f); [eapply block_grow; eauto|exact BD].
Qed.

Section P.
Variable src : list Z.
Variable toks beyond : list token.
Variable ms : macros.
Variable e : env.
Variable varadic : Z.
Variable fuel : nat.
Hypothesis SRC : Forall (in_source src) toks.
Hypothesis FIT : Forall flags_fit toks.
Hypothesis BYTES : Forall (fun c => 0 <= c < 256) src.
Hypothesis FT : (length toks < fuel)%nat.
Hypothesis FS : (length src < fuel)%nat.
Hypothesis NOM : no_macro_spec ms.
Local Notation ahead := (ahead toks).
Local Notation currtok := (currtok toks beyond).
Local Notation eat := (eat src toks beyond ms).
Local Notation parse_friend := (parse_friend src toks beyond ms e varadic fuel).

Lemma friend_specs : forall sp, Forall (fun s => In s friend_specifiers) sp -> Forall (fun s => friend_specifier s = true /\ (s =? Spec_Const) = false) sp.
Proof. intros sp. apply Forall_impl. intros s I. unfold friend_specifiers in I. cbn [In] in I. repeat (destruct I as [<-|I]; [split; reflexivity|]). contradiction. Qed.

(** friend specifiers type, up to the token behind the type *)
Definition rest_of (specifiers : Z) (type : Z) : M Z :=
  if type =? e_invalid e then parser_pop ;;; ret (e_invalid e) else
  k <- currtok ;;
  function <- (if t_type k =? Tok_Identifier then
                 name <- parse_identifier src toks beyond ms fuel ;;
                 parse_function_after_name src toks beyond ms e varadic fuel 0 0 specifiers type (name_text src name)
               else ret 0) ;;
  k <- currtok ;;
  if t_type k =? Tok_Decl_Operator then unmodelled else
  fwd <- is_declared function ;;
  inline_cmt <- (if fwd then end_statement src toks beyond ms else ret 0) ;;
  result <- on_heap (fun h => Done (make h (AstModel.set_type CT_Friend))) ;;
  edit (fun h => put h result (set_body (if function =? 0 then type else function))) ;;;
  edit (fun h => put h result (fun n => if inline_cmt =? 0 then n else set_inline inline_cmt n)) ;;;
  parser_pop ;;; ret result.

Lemma head_ok : forall kf pre sp ty_ ty B1 Q sc h, kind Tok_Decl_Friend kf -> spec_tokens src pre sp -> Forall (fun s => In s friend_specifiers) sp -> type_tokens src ty_ B1 ty -> ty_attrs ty = None ->
  Z.of_nat (length sp) <= SPECS_CAP -> toks = Q ++ kf :: pre ++ ty_ ++ B1 -> next_is B1 ends_type -> world e h ->
  exists Q' cs h2 tyc h3 ty', ahead Q' B1 /\ parse_friend (Pst (zlen Q) sc h) = rest_of cs tyc (Pst (zlen Q') ((zlen Q, "parser_parse_friend"%string) :: sc) h3) /\
    typ_respaced ty ty' /\ type_result h2 h3 tyc ty' /\ (ty_specs ty' <> None -> h_top h2 <= n_specs (h_node h3 tyc)) /\
    grow h h2 /\ maybe (specs_at h2) cs (some_specs sp) /\ (sp <> [] -> h_top h <= cs) /\ world e h2.
Proof.
  intros kf pre sp ty_ ty B1 Q sc h KF SP VS TY TN CAP E NT W. pose proof (world_top src toks e fuel FT FS h W) as TP. unfold kind in KF.
  unfold FriendModel.parse_friend, push_scope. unfold bind at 1. cbn [rbind p_idx p_scopes p_heap]. set (sc' := (zlen Q, "parser_parse_friend"%string) :: sc).
  destruct (a_eat src toks beyond ms Q kf _ Tok_Decl_Friend sc' h E KF) as (A & C1). erewrite bind_ok by exact C1.
  destruct (type_head src toks fuel FT FS _ _ _ TY TN) as (gh & kh & rh & ETY & GH & FH & HH). pose proof (head_plain src toks fuel FT FS kh HH) as (HM & HA & HX).
  assert (FITH : flags_fit kh). { eapply ahead_fit; [exact FIT|exact A| |exact FH]. rewrite ETY, !in_app_iff. cbn [In]. auto 10. }
  assert (NS : next_is (ty_ ++ B1) (fun k => ~ flagged k TF_Specifier \/ friend_specifier (str_to_specifier (text_of src k)) = true /\ (str_to_specifier (text_of src k) =? Spec_Const) = true)).
  { rewrite ETY, <- app_assoc. cbn [app]. apply next_app; auto. destruct HH as [HH|HH]; [right; rewrite (spelled_spec src _ _ HH); split; reflexivity|left]. apply not_spec_flag; auto. apply (starts_plain src toks fuel FT FS). exact HH. }
  assert (LP : (length sp <= fuel)%nat) by (pose proof (spec_sig_len src _ _ SP); pose proof (ahead_sig_len _ _ _ _ A); lia).
  destruct (specs_loop_ok src toks beyond ms FIT fuel pre sp _ _ friend_specifier (fun s => s =? Spec_Const) [] sc' h SP A NS) as (Q3 & E3 & C3); [apply friend_specs; exact VS|cbn [app]; change SPECS_CAP with 14 in CAP; unfold zlen; lia|exact LP|].
  erewrite bind_ok by exact C3. cbn [app]. apply stands_ahead in E3.
  destruct (specifiers_maybe e h (zlen Q3) sc' sp W CAP) as (h2 & cs & C4 & G2 & MS & CS); [eapply spelled_known; eauto|]. erewrite bind_ok by exact C4. assert (W2 : world e h2) by (eapply world_grow; eauto).
  destruct (type_full src toks beyond ms e fuel SRC FIT BYTES FT FS false ty_ B1 ty Q3 sc' h2 TY E3 NT ltac:(discriminate) W2) as (Q4 & tyc & h3 & ty' & A4 & C5 & RS & TR & TSB & _). erewrite bind_ok by exact C5.
  exists Q4, cs, h2, tyc, h3, ty'. split; [exact A4|]. split; [reflexivity|]. auto 10.
Qed.

Lemma wrap_ok : forall b ic i x sc h, 0 < h_top h -> exists h',
  (result <- on_heap (fun h => Done (make h (AstModel.set_type CT_Friend))) ;;
   edit (fun h => put h result (set_body b)) ;;; edit (fun h => put h result (fun n => if ic =? 0 then n else set_inline ic n)) ;;; parser_pop ;;; ret result) (Pst i (x :: sc) h)
   = Done (h_top h, Pst i sc h') /\ kind_is h' (h_top h) [CT_Friend] /\ n_body (h_node h' (h_top h)) = b /\ n_inline (h_node h' (h_top h)) = ic /\ grow h h'.
Proof.
  intros b ic i x sc h TP. destruct (any_make (AstModel.set_type CT_Friend) h i (x :: sc)) as (h4 & C4 & T4 & N4 & G4). erewrite bind_ok by exact C4. set (c := h_top h) in *. assert (V4 : valid h4 c) by (split; unfold c; lia).
  destruct (any_edit c (set_body b) h4 i (x :: sc) V4) as (h5 & C5 & S5). erewrite bind_ok by exact C5. assert (V5 : valid h5 c) by (eapply stepped_valid; eauto).
  destruct (any_edit c (fun n => if ic =? 0 then n else set_inline ic n) h5 i (x :: sc) V5) as (h6 & C6 & S6). erewrite bind_ok by exact C6. assert (V6 : valid h6 c) by (eapply stepped_valid; eauto).
  assert (G5 : grow h h5) by (eapply stepped_grow; [exact G4| |exact S5]; unfold c; lia). assert (G6 : grow h h6) by (eapply stepped_grow; [exact G5| |exact S6]; unfold c; lia).
  destruct S5 as (_ & N5 & _), S6 as (_ & N6 & _). rewrite N4 in N5. rewrite N5 in N6.
  exists h6. split; [reflexivity|]. split; [split; [exact V6|rewrite N6; destruct (ic =? 0); left; reflexivity]|]. split; [rewrite N6; destruct (ic =? 0); reflexivity|]. split; [|exact G6].
  rewrite N6. destruct (ic =? 0) eqn:Z0; [|reflexivity]. cbn. lia.
Qed.

Lemma type_ok : forall raw R ty Q sc h, friend_type src raw R ty -> toks = Q ++ raw ++ R -> world e h ->
  exists Q' c h' ty', toks = Q' ++ trim R /\ parse_friend (Pst (zlen Q) sc h) = Done (c, Pst (zlen Q') sc h') /\ typ_respaced ty ty' /\ friend_at h' c (FriendType ty') /\ grow h h' /\ h_top h <= c.
Proof.
  intros raw R ty Q sc h T E W. destruct T as [kf ty_ ty rest KF TY TN NX].
  destruct (head_ok kf [] [] ty_ ty rest Q sc h KF ltac:(constructor) ltac:(constructor) TY TN ltac:(cbn; change SPECS_CAP with 14; lia) E) as (Q4 & cs & h2 & tyc & h3 & ty' & A4 & C & RS & (G3 & TT & TA & TK & TR & TB & TPP) & _ & G2 & _ & _ & W2); [|exact W|].
  { destruct NX as (g & k & r & -> & G & K & X & _). exists g, k, r. auto. }
  rewrite C. unfold rest_of. assert (NI : (tyc =? e_invalid e) = false) by (destruct W2 as ((_ & W2) & _); lia). rewrite NI.
  destruct NX as (g & k & r & -> & G & K & _ & NI2). cbn [In] in NI2. destruct (a_currtok toks beyond Q4 g k r ((zlen Q, "parser_parse_friend"%string) :: sc) h3 A4 G K) as (Q5 & E5 & C5). erewrite bind_ok by exact C5.
  destruct (t_type k =? Tok_Identifier) eqn:KI; [exfalso; apply NI2; left; lia|]. unfold bind at 1. cbn [ret rbind]. erewrite bind_ok by (eapply cur_here; eauto).
  destruct (t_type k =? Tok_Decl_Operator) eqn:KO; [exfalso; apply NI2; right; left; lia|]. unfold bind at 1. cbn [is_declared rbind Z.eqb negb andb p_heap]. unfold bind at 1. cbn [ret rbind].
  destruct (wrap_ok tyc 0 (zlen Q5) (zlen Q, "parser_parse_friend"%string) sc h3) as (h4 & C6 & K6 & B6 & I6 & G6); [pose proof (world_top src toks e fuel FT FS h W); destruct G2, G3; lia|].
  exists Q5, (h_top h3), h4, ty'. split; [rewrite trim_gap, trim_sig by auto; exact E5|]. split; [exact C6|]. split; [exact RS|]. split; [|split; [eapply grow_trans; [exact G2|eapply grow_trans; eauto]|destruct G2, G3; lia]].
  split; [exact K6|]. rewrite B6. pose proof TA as (VT & _). split; [split|exact I6].
  - destruct G6 as (T6 & N6). split; [destruct VT; split; lia|]. rewrite N6 by exact VT. left. symmetry. exact TK.
  - eapply like_typ; [apply grow_like; exact G6|exact TA].
Qed.

(** what the parser reads behind a definition: a token of the text, or one left behind the text *)
Definition next_token (R : list token) (P : token -> Prop) : Prop := next_is R P \/ R = [] /\ exists k r, beyond = k :: r /\ ~ fmt k /\ P k.
Lemma behind : forall Q R P sc h, toks = Q ++ R -> next_token R P -> exists Q' k, toks = Q' ++ trim R /\ currtok (Pst (zlen Q) sc h) = Done (k, Pst (zlen Q') sc h) /\ P k.
Proof.
  intros Q R P sc h E [(g & k & r & -> & G & K & X)|(-> & k & r & B & K & X)].
  - destruct (a_currtok toks beyond Q g k r sc h (ahead_self _ _ _ E) G K) as (Q1 & E1 & C1). exists Q1, k. rewrite trim_gap, trim_sig by auto. auto.
  - exists Q, k. split; [exact E|]. split; [|exact X]. rewrite app_nil_r in E.
    assert (TA : tok_at toks beyond (zlen Q) = Done k). { unfold tok_at. replace (0 <=? zlen Q) with true by (pose proof (zlen_nn _ Q); lia). rewrite B, E. unfold zlen. rewrite Nat2Z.id, nth_error_app2, Nat.sub_diag by lia. reflexivity. }
    unfold ParseModel.currtok. cbn [p_idx]. assert (forall n, skip_formatting toks beyond n (zlen Q) = Done (zlen Q)) as ->. { intros n. destruct n; cbn [skip_formatting]; rewrite TA; cbn [rbind]; rewrite (fmt_nb k K); reflexivity. }
    cbn [rbind]. rewrite TA. reflexivity.
Qed.

(** friend specifiers type name(...) ..., up to what is done with the function *)
Definition tail_of (function : Z) : M Z :=
  k <- currtok ;;
  if t_type k =? Tok_Decl_Operator then unmodelled else
  fwd <- is_declared function ;;
  inline_cmt <- (if fwd then end_statement src toks beyond ms else ret 0) ;;
  result <- on_heap (fun h => Done (make h (AstModel.set_type CT_Friend))) ;;
  edit (fun h => put h result (set_body function)) ;;;
  edit (fun h => put h result (fun n => if inline_cmt =? 0 then n else set_inline inline_cmt n)) ;;;
  parser_pop ;;; ret result.

Lemma fn_head : forall raw R f Q sc h, friend_function src raw (R ++ beyond) f -> toks = Q ++ raw ++ R -> world e h ->
  exists Q' h4 c f', toks = Q' ++ R /\ h_top h <= c /\ func_respaced f f' /\ func_at h4 c f' /\ grow h h4 /\
    parse_friend (Pst (zlen Q) sc h) = tail_of c (Pst (zlen Q') ((zlen Q, "parser_parse_friend"%string) :: sc) h4).
Proof.
  intros raw R f Q sc h T E W. pose proof (world_top src toks e fuel FT FS h W) as TP. remember (R ++ beyond) as RB eqn:RBE.
  destruct T as [kf pre sp ty_ ty g nm name ps params suf sp' fin extra body rest cmt KF SP VS TY TN G NM NE SN PS SU FE CAP]. subst rest.
  cbn [app] in E. rewrite <- !app_assoc in E. set (B0 := ps ++ suf ++ fin ++ R) in *. set (B1 := g ++ nm ++ B0) in *.
  assert (FN : exists kn rn, nm = kn :: rn /\ kind Tok_Identifier kn) by (destruct NM as [first a q KI _ _]; eauto). destruct FN as (kn & rn & ENM & KN). assert (FKN : ~ fmt kn) by (tk; lia).
  assert (TY' : type_tokens src ty_ B1 ty). { apply (type_more _ _ _ R) in TY. rewrite <- !app_assoc in TY. exact TY. }
  assert (FITN : flags_fit kn). { eapply ahead_fit; [exact FIT|exact (ahead_self _ _ _ E)|unfold B1; rewrite ENM; right; do 3 (apply in_or_app; right); left; reflexivity|exact FKN]. }
  assert (NT : next_is B1 ends_type). { unfold B1. rewrite ENM. cbn [app]. apply next_app; auto. split; [apply not_spec_flag; auto; tk; lia|]. tk. lia. }
  change SPECS_CAP with 14 in CAP. assert (CAP' : (length (sp ++ sp' ++ extra) <= 14)%nat) by lia. assert (CSP : Z.of_nat (length sp) <= SPECS_CAP) by (change SPECS_CAP with 14; rewrite app_length in CAP'; lia).
  destruct (head_ok kf pre sp ty_ ty B1 Q sc h KF SP VS TY' TN CSP E NT W) as (Q4 & cs & h2 & tyc & h3 & ty' & A4 & C & RS & (G3 & TT & TA & TK & TR & TB & TPP) & TSB & G2 & MS & CS & W2).
  rewrite C. unfold rest_of. assert (NI : (tyc =? e_invalid e) = false) by (destruct W2 as ((_ & W2) & _); lia). rewrite NI. set (sc' := (zlen Q, "parser_parse_friend"%string) :: sc).
  assert (A4' : ahead Q4 (g ++ kn :: rn ++ B0)) by (unfold B1 in A4; rewrite ENM in A4; exact A4).
  destruct (a_currtok toks beyond Q4 g kn _ sc' h3 A4' G FKN) as (Q5 & E5 & C5). erewrite bind_ok by exact C5. unfold kind in KN. rewrite KN, Z.eqb_refl.
  destruct (params_first src _ _ _ PS) as (gp & op & rp & EP & GP & KP). unfold kind in KP.
  assert (A5 : ahead Q5 ([] ++ nm ++ B0)) by (rewrite ENM; apply ahead_self; exact E5).
  destruct (identifier_at src toks beyond ms fuel SRC nm name Q5 B0 [] sc' h3 A5 ltac:(constructor) NM) as (Q6 & nt & E6 & C6 & TX & TI & TL); [unfold B0; rewrite EP, <- app_assoc; cbn [app]; apply next_app; [exact GP|tk; lia|split; tk; lia]|lia|].
  rewrite bind_assoc. erewrite bind_ok by exact C6. cbn [name_text]. rewrite TX.
  assert (W3 : world e h3) by (eapply world_grow; eauto).
  assert (BN : Forall (fun c => 0 <= c < 256) name). { rewrite <- TX, <- word_text. apply upto_bytes. exact BYTES. }
  assert (CSB : cs < h_top h2). { destruct sp as [|s0 sp]; cbn in MS; [subst cs; destruct G2; lia|]. destruct MS as ((_ & MS) & _). exact MS. }
  assert (TO : typ_own (h_top h2) h3 tyc ty'). { destruct RS as (_ & X2 & _ & X3 & _). split; [exact TT|]. split; [exact TK|]. split; [congruence|]. split; [|exact TSB]. rewrite X3. eapply type_specs; eauto. }
  assert (MS3 : maybe (specs_at h3) cs (some_specs sp)) by (revert MS; apply like_maybe; apply like_specs; apply grow_like; exact G3).
  destruct (after_name_ok src toks beyond ms e varadic fuel SRC FIT BYTES FT FS NOM ps params suf sp' fin extra body cmt R Q6 sp 0 0 None cs tyc ty' name (h_top h2) sc' h3 PS SU FE CAP' E6 W3 MS3 CSB ltac:(destruct G3; lia) TA TO ltac:(reflexivity) ltac:(congruence) SN NE BN) as (Q7 & c & h4 & params' & E7 & C7 & FP & HC & NBC & FRP & _ & TO4 & FA).
  erewrite bind_ok by exact C7. pose proof (grow_trans _ _ _ G2 G3) as G23.
  exists Q7, h4, c, (Func false None (sp ++ sp' ++ extra) ty' name params' body cmt). split; [exact E7|]. split; [destruct G23; lia|]. split; [unfold func_respaced; cbn; auto 10|]. split; [apply FA; reflexivity|].
  split.
  - destruct TO4 as (TO4 & TN4). split; [destruct G23; lia|]. intros y Y. pose proof Y as (Y1 & Y2). rewrite TN4; [apply G23; exact Y|destruct G23; split; lia|]. destruct sp as [|s0 sp]; [cbn in MS; lia|]. specialize (CS ltac:(discriminate)). lia.
  - unfold tail_of. assert (Z0 : (c =? 0) = false) by (destruct G23; lia). rewrite Z0. reflexivity.
Qed.

Lemma declared_is : forall c f h i sc, func_at h c f -> is_declared c (Pst i sc h) = Done (match f_body f with Some _ => false | None => true end, Pst i sc h).
Proof.
  intros c f h i sc (((V & V2) & K) & _). unfold is_declared. cbn [p_heap]. replace (negb (c =? 0)) with true by lia. cbn [In] in K. destruct K as [K|[]]. rewrite <- K. destruct (f_body f); reflexivity.
Qed.

Lemma definition_ok : forall raw R f l Q sc h, friend_function src raw (R ++ beyond) f -> f_body f = Some l -> next_token R (fun k => t_type k <> Tok_Decl_Operator) -> toks = Q ++ raw ++ R -> world e h ->
  exists Q' c h' f', toks = Q' ++ trim R /\ parse_friend (Pst (zlen Q) sc h) = Done (c, Pst (zlen Q') sc h') /\ func_respaced f f' /\ friend_at h' c (FriendFn f') /\ grow h h' /\ h_top h <= c.
Proof.
  intros raw R f l Q sc h T FB NX E W. destruct (fn_head raw R f Q sc h T E W) as (Q1 & h4 & c & f' & E1 & HC & RS & FA & G & C). rewrite C. unfold tail_of.
  destruct (behind Q1 R _ ((zlen Q, "parser_parse_friend"%string) :: sc) h4 E1 NX) as (Q2 & k & E2 & C2 & KO). erewrite bind_ok by exact C2. destruct (t_type k =? Tok_Decl_Operator) eqn:X; [lia|].
  erewrite bind_ok by (eapply declared_is; exact FA). assert (FB' : f_body f' = Some l) by (destruct RS as (_ & _ & _ & _ & _ & _ & -> & _); exact FB). rewrite FB'. unfold bind at 1. cbn [ret rbind].
  destruct (wrap_ok c 0 (zlen Q2) (zlen Q, "parser_parse_friend"%string) sc h4) as (h5 & C6 & K6 & B6 & I6 & G6); [pose proof (world_top src toks e fuel FT FS h W); destruct G; lia|].
  exists Q2, (h_top h4), h5, f'. split; [exact E2|]. split; [exact C6|]. split; [exact RS|]. split; [|split; [eapply grow_trans; eauto|destruct G; lia]].
  split; [exact K6|]. split; [rewrite B6; eapply func_grow; eauto|exact I6].
Qed.

(** ** declarations: the [;] is looked for again *)
Lemma tok_here : forall Q k R, toks = Q ++ k :: R -> tok_at toks beyond (zlen Q) = Done k.
Proof. intros Q k R E. unfold tok_at. replace (0 <=? zlen Q) with true by (pose proof (zlen_nn _ Q); lia). unfold zlen. rewrite Nat2Z.id, nth_error_app1 by (rewrite E, app_length; cbn; lia). rewrite E, nth_error_app2, Nat.sub_diag by lia. reflexivity. Qed.
Lemma end_again : forall Q kf M o r name sc h, toks = Q ++ kf :: M ++ o :: r -> ~ fmt o -> t_type o <> Tok_Statement_End -> 2 * t_start o - t_start kf + 2 <= zlen src + 1 ->
  end_statement src toks beyond ms (Pst (zlen (Q ++ kf :: M)) ((zlen Q, name) :: sc) h) = Done (0, Pst (zlen (Q ++ kf :: M)) ((zlen Q, name) :: sc) h).
Proof.
  intros Q kf M o r name sc h E F N RD. assert (E' : toks = (Q ++ kf :: M) ++ o :: r) by (rewrite <- app_assoc; exact E). unfold end_statement.
  erewrite bind_ok by (eapply cur_here; eauto). assert (X1 : eat Tok_Statement_End (Pst (zlen (Q ++ kf :: M)) ((zlen Q, name) :: sc) h) = Done (false, Pst (zlen (Q ++ kf :: M)) ((zlen Q, name) :: sc) h)).
  { unfold ParseModel.eat. cbn [p_idx]. destruct (num toks - zlen (Q ++ kf :: M) =? 0) eqn:L; [unfold num in L; rewrite E' in L; zl|]. rewrite (tok_here _ _ _ E'). cbn [rbind].
      assert (F1 : (t_type o =? Tok_NewLine) = false /\ (t_type o =? Tok_Comment) = false) by (unfold fmt in F; split; apply Z.eqb_neq; tauto). destruct F1 as (-> & ->). cbn [andb orb].
      destruct (t_type o =? Tok_Statement_End) eqn:X; [lia|]. cbn [negb]. erewrite bind_ok by (eapply cur_here; eauto). unfold report. unfold bind at 1. cbn [p_scopes p_idx]. rewrite (tok_here Q kf _ E). cbn [rbind].
      destruct (zlen (Q ++ kf :: M) >=? num toks) eqn:L2; [unfold num in L2; rewrite E' in L2; zl|]. rewrite (cur_here toks beyond _ o r _ h E' F). cbn [rbind].
      destruct (t_start o + (t_start o - t_start kf + 2) <=? zlen src + 1) eqn:L3; [|lia]. cbn [rbind]. reflexivity. }
  erewrite bind_ok by exact X1. erewrite bind_ok by (eapply noskip_ok; eauto). destruct (t_type o =? Tok_Comment) eqn:X; [exfalso; apply F; right; lia|]. reflexivity.
Qed.

Lemma declaration_ok : forall kf M g o r f Q sc h, friend_function src (kf :: M) ((g ++ o :: r) ++ beyond) f -> f_body f = None -> gap g -> ~ fmt o -> ~ In (t_type o) [Tok_Statement_End; Tok_Decl_Operator] ->
  2 * t_start o - t_start kf + 2 <= zlen src + 1 -> toks = Q ++ kf :: M ++ g ++ o :: r -> world e h ->
  exists Q' c h' f', toks = Q' ++ o :: r /\ parse_friend (Pst (zlen Q) sc h) = Done (c, Pst (zlen Q') sc h') /\ func_respaced f f' /\ friend_at h' c (FriendFn f') /\ grow h h' /\ h_top h <= c.
Proof.
  intros kf M g o r f Q sc h T FB G K NO RD E W. cbn [In] in NO. destruct (fn_head (kf :: M) (g ++ o :: r) f Q sc h T E W) as (Q1 & h4 & c & f' & E1 & HC & RS & FA & G4 & C). rewrite C. unfold tail_of.
  set (x := (zlen Q, "parser_parse_friend"%string)) in *.
  erewrite bind_ok by (eapply currtok_ok; [exact E1|exact G|exact K]). destruct (t_type o =? Tok_Decl_Operator) eqn:X; [lia|].
  erewrite bind_ok by (eapply declared_is; exact FA). assert (FB' : f_body f' = None) by (destruct RS as (_ & _ & _ & _ & _ & _ & -> & _); exact FB). rewrite FB'.
  assert (Q1E : Q1 ++ g = Q ++ kf :: M ++ g). { apply (app_inv_tail (o :: r)). rewrite <- !app_assoc. cbn [app]. rewrite <- app_assoc, <- E1. exact E. } rewrite Q1E.
  erewrite bind_ok. 2:{ unfold x. apply (end_again Q kf (M ++ g) o r "parser_parse_friend" sc h4); auto. rewrite <- app_assoc. exact E. }
  destruct (wrap_ok c 0 (zlen (Q ++ kf :: M ++ g)) x sc h4) as (h5 & C6 & K6 & B6 & I6 & G6); [pose proof (world_top src toks e fuel FT FS h W); destruct G4; lia|].
  exists (Q ++ kf :: M ++ g), (h_top h4), h5, f'. split; [rewrite E, <- app_assoc; cbn [app]; rewrite <- app_assoc; reflexivity|]. split; [exact C6|]. split; [exact RS|]. split; [|split; [eapply grow_trans; eauto|destruct G4; lia]].
  split; [exact K6|]. split; [rewrite B6; eapply func_grow; eauto|exact I6].
Qed.

Lemma declaration_past : forall kf M f Q sc h, friend_function src (kf :: M) beyond f -> f_body f = None -> (beyond = [] \/ exists o r, beyond = o :: r /\ ~ fmt o /\ t_type o <> Tok_Decl_Operator) ->
  2 * t_start (last M kf) - t_start kf + 2 > zlen src + 1 -> toks = Q ++ kf :: M -> world e h -> parse_friend (Pst (zlen Q) sc h) = Undefined.
Proof.
  intros kf M f Q sc h T FB BY RD E W. destruct (fn_head (kf :: M) [] f Q sc h T ltac:(rewrite app_nil_r; exact E) W) as (Q1 & h4 & c & f' & E1 & HC & RS & FA & G4 & C). rewrite C. unfold tail_of. rewrite app_nil_r in E1. subst Q1.
  set (x := (zlen Q, "parser_parse_friend"%string)) in *. destruct BY as [BY|(o & r & BY & K & NO)].
  - unfold bind at 1. unfold ParseModel.currtok. cbn [p_idx]. assert (TA : tok_at toks beyond (zlen toks) = Undefined). { unfold tok_at. replace (0 <=? zlen toks) with true by (pose proof (zlen_nn _ toks); lia). rewrite BY, app_nil_r. unfold zlen. rewrite Nat2Z.id. replace (nth_error toks (length toks)) with (@None token) by (symmetry; apply nth_error_None; lia). reflexivity. }
    assert (forall n, skip_formatting toks beyond n (zlen toks) = Undefined) as ->. { intros n. destruct n; cbn [skip_formatting]; rewrite TA; reflexivity. } reflexivity.
  - destruct (behind toks [] (fun k => t_type k <> Tok_Decl_Operator) (x :: sc) h4) as (Q2 & k & E2 & C2 & KO); [rewrite app_nil_r; reflexivity|right; split; [reflexivity|]; exists o, r; auto|].
    cbn [trim] in E2. rewrite app_nil_r in E2. subst Q2. erewrite bind_ok by exact C2. destruct (t_type k =? Tok_Decl_Operator) eqn:X; [lia|].
    erewrite bind_ok by (eapply declared_is; exact FA). assert (FB' : f_body f' = None) by (destruct RS as (_ & _ & _ & _ & _ & _ & -> & _); exact FB). rewrite FB'.
    unfold bind at 1. unfold end_statement. erewrite bind_ok by exact C2. unfold bind at 1. unfold bind at 1.
    assert (X1 : eat Tok_Statement_End (Pst (zlen toks) (x :: sc) h4) = Undefined).
    { unfold ParseModel.eat. cbn [p_idx]. change (num toks) with (zlen toks). rewrite Z.sub_diag. cbn [Z.eqb]. unfold bind at 1, report. cbn [p_scopes p_idx]. unfold x at 1. rewrite (tok_here Q kf M E). cbn [rbind].
      change (num toks) with (zlen toks). replace (zlen toks >=? zlen toks) with true by lia.
      assert (TL : tok_at toks beyond (zlen toks - 1) = Done (last M kf)).
      { destruct (exists_last (l := kf :: M) ltac:(discriminate)) as (A & z & EA). assert (z = last M kf) as ->. { rewrite <- (last_last A z kf), <- EA. destruct M; reflexivity. }
        replace (zlen toks - 1) with (zlen (Q ++ A)) by (rewrite E, EA; unfold zlen; rewrite !app_length; cbn [length]; lia). apply (tok_here (Q ++ A) _ []). rewrite E, EA, <- app_assoc. reflexivity. }
      rewrite TL. cbn [rbind]. destruct (t_start (last M kf) + (t_start (last M kf) - t_start kf + 2) <=? zlen src + 1) eqn:L3; [lia|]. reflexivity. }
    rewrite X1. reflexivity.
Qed.
End P.

(** ** the text of the nodes *)
Lemma friend_holds : forall h c f tr, friend_at h c f -> friend_tree f = Some tr -> holds h c tr.
Proof.
  intros h c [t|f] tr (K & B & I) E; cbn [friend_tree] in E; [discriminate E|]. destruct (f_comment f) eqn:FC; [discriminate E|]. destruct (func_tree f) as [d|] eqn:FT; [|discriminate E]. injection E as <-.
  cbn [holds]. split; [exact K|]. split; [eapply func_holds; eauto|]. split; [exact I|]. unfold func_tree in FT. rewrite FC in FT.
  destruct (f_body f). { destruct (f_export f); [discriminate FT|]. injection FT as <-. exact Logic.I. } destruct (existsb _ _); [discriminate FT|]. injection FT as <-. exact Logic.I.
Qed.
Lemma friend_type_text : forall h c t, friend_at h c (FriendType t) -> ~ In 59 (typ_text t) -> fits (txt "friend " ++ typ_text t ++ txt ";" ++ NL) ->
  exists k, forall n, (k <= n)%nat -> code_to_strbuilder n h c = Done (txt "friend " ++ typ_text t ++ txt ";" ++ NL).
Proof.
  intros h c t (K & (KB & B) & I) NO F. exists 4%nat. intros n Hn. unfold code_to_strbuilder. revert n Hn. begin_. at_kind K. unfold friend_ref.
  pose proof KB as (VT & [KT|[]]).
  assert (T : serialize m h F_code (n_body (h_node h c)) = Done (typ_text t)).
  { destruct m as [|m]; [lia|]. rewrite <- (typename_ok h _ t (S m) B) by (first [fit|lia]). cbn [serialize ser_step]. unfold code_ref. rewrite get_valid by exact VT. cbn [rbind]. rewrite <- KT. reflexivity. }
  rewrite T. cbn [rbind]. rewrite (append_fmt_is _ (txt "friend " ++ typ_text t)); [|parts|fit]. cbn [rbind]. rewrite get_valid by exact VT. cbn [rbind]. rewrite I. cbn [Z.eqb].
  assert (LN : (last (txt "friend " ++ typ_text t) 0 =? 59) = false).
  { apply Z.eqb_neq. intros X. assert (NE : txt "friend " ++ typ_text t <> []) by discriminate. destruct (exists_last NE) as (A & z & EA). rewrite EA, last_last in X. subst z.
    assert (IN : In 59 (txt "friend " ++ typ_text t)) by (rewrite EA; apply in_or_app; right; left; reflexivity). apply in_app_or in IN. destruct IN as [IN|IN]; [|contradiction]. vm_compute in IN. intuition discriminate. }
  rewrite LN. unfold ct_eqb. rewrite <- KT. cbn -[last txt nothing lit typ_text]. fin.
Qed.

Section Text_.
Variables (text : list Z) (toks beyond : list token) (ms ms' : macros) (e : env) (varadic : Z) (fuel : nat) (h : heap).
Hypothesis B : Forall (fun c => 0 <= c < 256) text.
Hypothesis NR : ~ runs_off text.
Hypothesis MF : Forall macro_fits ms.
Hypothesis L : lex text fuel ms = Done (Some (toks, ms')).
Hypothesis F : Z.of_nat (length text) + 2 <= Z.of_nat fuel.
Hypothesis FT : (length toks < fuel)%nat.
Hypothesis W : world e h.
Hypothesis NOM : no_macro_spec ms'.
Local Notation parse := (fun src toks beyond ms e fuel => parse_friend src toks beyond ms e varadic fuel).
Local Notation result f := (exists h' c f', parse_text parse text beyond ms e fuel h = Done (h', c) /\ friend_at h' c f' /\ friend_respaced f f' /\ h_top h <= c /\ grow h h').
Lemma type_text : forall raw R ty, toks = raw ++ R -> friend_type text raw R ty -> result (FriendType ty).
Proof.
  intros raw R ty E T. destruct (text_facts text toks ms ms' fuel B NR MF L F) as (T1 & T2 & _ & _); assert (FS : (length text < fuel)%nat) by lia.
  destruct (type_ok text toks beyond ms' e varadic fuel T1 T2 B FT FS raw R ty [] [] h T E W) as (Q' & c & h' & t' & _ & K & K1 & K2 & K3 & K4).
  exists h', c, (FriendType t'). split; [|auto]. apply (run_text text toks beyond ms ms' e fuel h B NR MF L F parse _ _ K).
Qed.
Lemma definition_text : forall raw R f l, toks = raw ++ R -> friend_function text raw (R ++ beyond) f -> f_body f = Some l -> next_token beyond R (fun k => t_type k <> Tok_Decl_Operator) -> result (FriendFn f).
Proof.
  intros raw R f l E T FB NX. destruct (text_facts text toks ms ms' fuel B NR MF L F) as (T1 & T2 & _ & _); assert (FS : (length text < fuel)%nat) by lia.
  destruct (definition_ok text toks beyond ms' e varadic fuel T1 T2 B FT FS NOM raw R f l [] [] h T FB NX E W) as (Q' & c & h' & f' & _ & K & K1 & K2 & K3 & K4).
  exists h', c, (FriendFn f'). split; [|auto]. apply (run_text text toks beyond ms ms' e fuel h B NR MF L F parse _ _ K).
Qed.
Lemma declaration_text : forall kf M g o r f, toks = kf :: M ++ g ++ o :: r -> friend_function text (kf :: M) ((g ++ o :: r) ++ beyond) f -> f_body f = None -> gap g -> ~ fmt o ->
  ~ In (t_type o) [Tok_Statement_End; Tok_Decl_Operator] -> 2 * t_start o - t_start kf + 2 <= Z.of_nat (length text) + 1 -> result (FriendFn f).
Proof.
  intros kf M g o r f E T FB G K NO RD. destruct (text_facts text toks ms ms' fuel B NR MF L F) as (T1 & T2 & _ & _); assert (FS : (length text < fuel)%nat) by lia.
  destruct (declaration_ok text toks beyond ms' e varadic fuel T1 T2 B FT FS NOM kf M g o r f [] [] h T FB G K NO RD E W) as (Q' & c & h' & f' & _ & C & K1 & K2 & K3 & K4).
  exists h', c, (FriendFn f'). split; [|auto]. apply (run_text text toks beyond ms ms' e fuel h B NR MF L F parse _ _ C).
Qed.
Lemma past_text : forall kf M f, toks = kf :: M -> friend_function text (kf :: M) beyond f -> f_body f = None ->
  (beyond = [] \/ exists o r, beyond = o :: r /\ ~ fmt o /\ t_type o <> Tok_Decl_Operator) -> 2 * t_start (last M kf) - t_start kf + 2 > Z.of_nat (length text) + 1 ->
  parse_text parse text beyond ms e fuel h = Undefined.
Proof.
  intros kf M f E T FB BY RD. destruct (text_facts text toks ms ms' fuel B NR MF L F) as (T1 & T2 & _ & NE); assert (FS : (length text < fuel)%nat) by lia.
  pose proof (declaration_past text toks beyond ms' e varadic fuel T1 T2 B FT FS NOM kf M f [] [] h T FB BY RD E W) as C. change (zlen (@nil token)) with 0 in C.
  unfold parse_text. destruct text as [|a r] eqn:TE; [congruence|]. rewrite L. cbn [rbind]. rewrite C. reflexivity.
Qed.
End Text_.
