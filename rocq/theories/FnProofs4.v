(** Functions: from the tokens to the node. *)
From Coq Require Import String ZArith List Bool Lia ZifyBool ZifyNat.
From Verif Require Import Common Text HashModel StrOpsModel EnumModel EnumSpec EnumProofs LexModel LexSpec NavModel StripModel StripSpec StripProofs AstModel AstSpec AstProofs AstProofs4 UpfrontModel UpfrontSpec UpfrontProofs4 SerSpec SerProofs SerProofs2 ParseModel ParseSpec
  ParseProofs ParseProofs2 ParseProofs3 ParseProofs4 ParseProofs5 ParseProofs7 ParseProofs8 ParseProofs9 ParseProofs10 ParseProofs11 FnModel FnSpec FnProofs FnProofs2 FnProofs3.
Import ListNotations.
Close Scope string_scope.
Open Scope Z_scope.
Open Scope parse_scope.

Lemma block_grow : forall l h h' c, grow h h' -> holds h c (Block (map Raw l)) -> holds h' c (Block (map Raw l)).
Proof.
  intros l h h' c (T & N) ((V & K) & NU & EN). change (block_at h' c (map Raw l)). change (entries_at h (n_front (h_node h c)) (map Raw l)) in EN. split; [split; [destruct V; split; lia|rewrite N by exact V; exact K]|]. rewrite N by exact V. split; [exact NU|].
  revert EN. generalize (n_front (h_node h c)). clear - T N. induction l as [|t l IH]; intros c EN; [exact I|]. destruct EN as (H & EN). cbn [map entries_at].
  assert (V : valid h c) by (destruct H as [((V & _) & _)|((V & _) & _)]; exact V). assert (V' : valid h' c) by (destruct V; split; lia). split; [|rewrite N by exact V; apply IH; exact EN].
  destruct H as [((_ & K) & C)|((_ & K) & C)]; [left|right]; (split; [split; [exact V'|rewrite N by exact V; exact K]|rewrite N by exact V; exact C]).
Qed.
Lemma strip_solid : forall t, solid t -> Forall (fun c => 0 <= c < 256) t -> strip_space t = t.
Proof.
  intros t S B. unfold strip_space. induction t as [|c t IH]; [reflexivity|]. cbn [filter]. pose proof (Forall_inv S) as S1. pose proof (Forall_inv B) as B1. cbv beta in S1.
  assert (char_is_space c = false) as ->. { rewrite StripProofs3.space_eq by exact B1. unfold is_spacep. destruct (existsb _ _) eqn:X; [|reflexivity]. exfalso. apply S1. apply existsb_exists in X. destruct X as (y & I & Y). apply Z.eqb_eq in Y. subst y. change (In c [32; 9; 10; 11; 12; 13]) in I. cbn [In] in I |- *. lia. }
  cbn [negb]. f_equal. apply IH; eapply Forall_inv_tail; eauto.
Qed.

Lemma params_fresh : forall B h h' c l, (forall h'', agrees B h h'' -> params_at h'' c l) -> agrees B h h' -> fresh B h' c (length l).
Proof.
  intros B h h' c l P (T & N). set (h3 := {| h_node := fun y => if y <? B then set_params 1 zero_node else h_node h' y; h_top := h_top h' |}).
  assert (R : params_at h3 c l). { apply P. split; [exact T|]. intros y Y V. cbn. replace (y <? B) with false by lia. auto. }
  assert (Q : forall x p, param_at h3 x p -> B <= x /\ h_node h3 x = h_node h' x).
  { intros x p (_ & K & _). cbn in *. destruct (Z_lt_le_dec x B) as [L|L]; [replace (x <? B) with true in K by lia; discriminate K|]. replace (x <? B) with false by lia. auto. }
  assert (F : forall l x, params_from h3 x l -> fresh B h' x (length l)).
  { induction l0 as [|p r IH]; intros x X; [exact I|]. destruct X as (X1 & _ & X2). destruct (Q _ _ X1) as (Q1 & Q2). rewrite Q2 in X2. cbn [length fresh]. split; [exact Q1|apply IH; exact X2]. }
  destruct l as [|p r]; [exact I|]. destruct R as (X1 & _ & X2). destruct (Q _ _ X1) as (Q1 & Q2). rewrite Q2 in X2. cbn [length fresh]. split; [exact Q1|]. destruct r as [|q r]; [exact I|]. apply F. apply X2. discriminate.
Qed.
Lemma young_grow : forall h h' A B b l, holds h b (Block (map Raw l)) -> young A h b -> grow h h' -> B <= A -> young B h' b.
Proof.
  intros h h' A B b l H (Y1 & Y2) (T & N) L. cbn [holds] in H. destruct H as ((V & _) & NU & H). assert (E : h_node h' b = h_node h b) by (apply N; exact V). split; [lia|]. rewrite E. rewrite NU in *. rewrite Nat2Z.id in *.
  clear NU E Y1. revert H Y2. generalize (n_front (h_node h b)). induction l as [|t l IH]; intros x H Y; [exact I|]. cbn [map length fresh] in *. destruct H as (H & H'), Y as (Y & Y'). cbn [holds] in H. assert (VX : valid h x) by (destruct H as [((VX & _) & _)|((VX & _) & _)]; exact VX).
  split; [lia|]. rewrite (N x VX). apply IH; assumption.
Qed.
Section P.
Variable src : list Z.
Variable toks beyond : list token.
Variable ms : macros.
Variable e : env.
Variable varadic : Z.
Variable fuel : nat.
Hypothesis SRC : Forall (in_source src) toks.
Hypothesis FIT : Forall flags_fit toks.
Hypothesis BYTES : Forall (fun c => 0 <= c < 256) src.
Hypothesis FT : (length toks < fuel)%nat.
Hypothesis FS : (length src < fuel)%nat.
Hypothesis NOM : no_macro_spec ms.
Notation ahead := (ahead toks).
Notation a_currtok := (a_currtok toks beyond).
Notation a_check := (a_check toks beyond).
Notation a_left := (a_left toks).
Notation a_eat := (a_eat src toks beyond ms).

Definition end_part (specifiers : Z) : M (Z * Z * Z) :=
  op <- check toks beyond Tok_Operator ;;
  pure <- (if op then k <- currtok toks beyond ;; ret (char_of src k 0 =? 61) else ret false) ;;
  specifiers <- (if pure then pure_or_delete src toks beyond ms specifiers else ret specifiers) ;;
  cmt <- end_statement src toks beyond ms ;; ret (specifiers, 0, cmt).
Lemma next_here : forall P k x R sc h, toks = P ++ k :: x :: R -> ~ fmt k -> nexttok toks beyond (Pst (zlen P) sc h) = Done (x, Pst (zlen P) sc h).
Proof.
  intros P k x R sc h E K. unfold nexttok. cbn [p_idx]. assert (T1 : tok_at toks beyond (zlen P) = Done k) by (eapply tok_ok; exact E).
  assert (NL : (t_type k =? Tok_NewLine) = false) by (unfold fmt, Tok_NewLine, Tok_Comment in *; lia).
  assert (SK : forall n, skip_lines toks beyond n (zlen P) = Done (zlen P)). { intros n. destruct n; cbn [skip_lines]; rewrite T1; cbn [rbind]; rewrite NL; reflexivity. }
  rewrite SK. cbn [rbind]. replace (zlen P + 1) with (zlen (P ++ [k])) by zl. rewrite (tok_ok toks beyond (P ++ [k]) x R) by (rewrite <- app_assoc; exact E). reflexivity.
Qed.
Lemma sig_end : forall raw R cmt, statement_end src raw R cmt -> exists g k r, raw = g ++ k :: r /\ gap g /\ ~ fmt k /\ t_type k = Tok_Statement_End.
Proof. intros raw R cmt T. destruct T as [g k n r G K NC|g k c r G K KC LC NE]; unfold kind in K; assert (~ fmt k) by (tk; lia); [exists g, k, []|exists g, k, [c]]; auto. Qed.
Lemma end_part_ok : forall fin extra cmt R Q sp c sc h, function_end src fin (R ++ beyond) extra None cmt -> toks = Q ++ trim (fin ++ R) -> maybe (specs_at h) c (some_specs sp) -> (length (sp ++ extra) <= 14)%nat -> 0 < h_top h ->
  exists Q' c' cc h', toks = Q' ++ R /\ end_part c (Pst (zlen Q) sc h) = Done ((c', 0, cc), Pst (zlen Q') sc h') /\
    maybe (specs_at h') c' (some_specs (sp ++ extra)) /\ touched c h h' /\ (c' = c \/ h_top h <= c') /\ maybe (comment_at h') cc cmt.
Proof.
  intros fin extra cmt R Q sp c sc h T E MS L TP. remember (R ++ beyond) as RB eqn:RBE. remember (@None (list (list Z))) as NB eqn:NBE. unfold end_part.
  destruct T as [raw rest l _|raw rest cmt SE|g eq z raw rest cmt k r G KE CE KZ RW WD SE]; [discriminate NBE| |].
  - subst rest. destruct (sig_end _ _ _ SE) as (g & k & r & EF & G & K & KS). assert (E' : toks = Q ++ k :: r ++ R) by (rewrite E, EF, <- app_assoc; cbn [app]; rewrite trim_gap, trim_sig by auto; reflexivity).
    erewrite bind_ok by (rewrite (check_ok toks beyond [] Q k _ Tok_Operator sc h E' (Forall_nil _) K), app_nil_r; reflexivity). rewrite KS. change (Tok_Statement_End =? Tok_Operator) with false. cbv iota. unfold bind at 1. cbn [ret rbind]. cbv iota. unfold bind at 1. cbn [ret rbind].
    assert (A : ahead Q (raw ++ R)) by (apply stands_ahead; exact E).
    destruct (end_ok src toks beyond ms fuel FT FS raw R cmt Q sc h SE A TP) as (Q' & cc & h' & E2 & C2 & G2 & MC & _). erewrite bind_ok by exact C2.
    exists Q', c, cc, h'. split; [exact E2|]. split; [reflexivity|]. rewrite app_nil_r. split; [revert MS; apply like_maybe; apply like_specs; apply grow_like; exact G2|]. split; [apply grow_touched; exact G2|auto].
  - subst rest. unfold kind in KE, KZ. assert (EF : ~ fmt eq) by (tk; lia). assert (ZF : ~ fmt z) by (unfold fmt, Tok_NewLine, Tok_Comment; rewrite KZ; intros [X|X]; discriminate X).
    rewrite <- app_assoc in E. cbn [app] in E. rewrite trim_gap, trim_sig in E by auto.
    erewrite bind_ok by (rewrite (check_ok toks beyond [] Q eq _ Tok_Operator sc h E (Forall_nil _) EF), app_nil_r; reflexivity). rewrite KE. change (Tok_Operator =? Tok_Operator) with true. cbv iota.
    erewrite bind_ok. 2:{ erewrite bind_ok by (eapply cur_here; [exact E|exact EF]). rewrite char0, CE. reflexivity. } cbv iota.
    unfold pure_or_delete. destruct (a_eat Q eq _ Tok_Operator sc h E KE) as (_ & C1). change (61 =? 61) with true. cbv iota. rewrite bind_assoc. erewrite bind_ok by exact C1. apply at_eat in E.
    assert (MK : exists h1 c1, (if c =? 0 then on_heap (fun h => Done (make h (AstModel.set_type CT_Specifiers))) else ret c) (Pst (zlen (Q ++ [eq])) sc h) = Done (c1, Pst (zlen (Q ++ [eq])) sc h1) /\ specs_at h1 c1 sp /\ grow h h1 /\ (c1 = c \/ h_top h <= c1)).
    { destruct sp as [|s0 sp]; cbn [some_specs maybe] in MS.
      - subst c. cbn [Z.eqb]. exists (fst (make h (AstModel.set_type CT_Specifiers))), (h_top h). split; [apply make_ok|]. split; [apply no_specs; exact TP|]. split; [apply grow_make|right; lia].
      - pose proof MS as ((V1 & V2) & _). replace (c =? 0) with false by lia. exists h, c. split; [reflexivity|]. split; [exact MS|]. split; [apply grow_refl|auto]. }
    destruct MK as (h1 & c1 & CM & SA & G1 & OR). rewrite bind_assoc. erewrite bind_ok by exact CM. subst raw. cbn [app] in E.
    rewrite bind_assoc. erewrite bind_ok by (eapply next_here; [exact E|exact ZF]).
    assert (ND : text_of src k <> txt "delete") by (rewrite <- word_text; exact WD). destruct (list_eq_dec Z.eq_dec (text_of src k) (txt "delete")) as [X|_]; [contradiction|].
    rewrite app_length in L. cbn [length] in L. destruct (append_one h1 c1 sp Spec_Pure SA ltac:(lia)) as (h2 & E2 & SA2 & T2 & TO2); [vm_compute; auto 40|].
    rewrite !bind_assoc. erewrite bind_ok by (unfold edit; cbn [p_heap p_idx p_scopes]; rewrite E2; reflexivity).
    destruct (a_eat _ z _ Tok_Number sc h2 E KZ) as (_ & C3). rewrite !bind_assoc || idtac. erewrite bind_ok by exact C3. apply at_eat in E. unfold bind at 1. cbn [ret rbind].
    assert (A : ahead ((Q ++ [eq]) ++ [z]) ((k :: r) ++ R)) by (apply ahead_self; exact E). assert (TP2 : 0 < h_top h2) by (destruct G1; lia).
    destruct (end_ok src toks beyond ms fuel FT FS (k :: r) R cmt _ sc h2 SE A TP2) as (Q' & cc & h' & E4 & C4 & G4 & MC & _). erewrite bind_ok by exact C4.
    exists Q', c1, cc, h'. split; [exact E4|]. split; [reflexivity|]. split; [|split; [|split; [exact OR|exact MC]]].
    + assert (X : specs_at h' c1 (sp ++ [Spec_Pure])) by (apply (like_specs h2 h'); [apply grow_like; exact G4|exact SA2]). destruct sp; exact X.
    + apply (touched_trans c c1 h h2 h'); [|apply grow_touched; exact G4|]; [|destruct OR; auto]. apply (touched_trans c c1 h h1 h2); [apply grow_touched; exact G1|exact TO2|destruct OR; auto].
Qed.
Lemma fin_first : forall fin R extra body cmt, function_end src fin R extra body cmt -> exists g k r, fin = g ++ k :: r /\ gap g /\ ~ fmt k /\ ~ macro_kind (t_type k) /\ ~ spec_kind (t_type k) /\
  (match body with Some _ => t_type k = Tok_BraceCurly_Open | None => t_type k <> Tok_BraceCurly_Open end).
Proof.
  intros fin R extra body cmt T. destruct T as [raw rest l T|raw rest cmt SE|g eq z raw rest cmt k r G KE CE KZ RW WD SE].
  - destruct T as [g o c G O C LE|g o first more c G O IB C NE]; unfold kind in O; [exists g, o, [c]|exists g, o, (first :: more ++ [c])]; (split; [reflexivity|]); (split; [exact G|]); (split; [tk; lia|]); (split; [tk; lia|]); (split; [tk; lia|exact O]).
  - destruct (sig_end _ _ _ SE) as (g & k & r & EF & G & K & KS). exists g, k, r. split; [exact EF|]. split; [exact G|]. split; [exact K|]. split; [tk; lia|]. split; tk; lia.
  - exists g, eq, (z :: raw). unfold kind in KE. split; [reflexivity|]. split; [exact G|]. split; [tk; lia|]. split; [tk; lia|]. split; tk; lia.
Qed.

Lemma after_name_ok : forall ps params suf sp' fin extra body cmt R Q sp fl ca at_ cs tyc ty name hb sc h,
  params_tokens src ps (suf ++ fin) params -> spec_tokens src suf sp' -> function_end src fin (R ++ beyond) extra body cmt -> (length (sp ++ sp' ++ extra) <= 14)%nat ->
  toks = Q ++ trim (ps ++ suf ++ fin ++ R) -> world e h -> maybe (specs_at h) cs (some_specs sp) -> cs < hb -> hb <= h_top h -> typ_at h tyc ty -> typ_own hb h tyc ty ->
  maybe (content_at h) ca at_ -> (at_ <> None -> ca <> cs) -> solid name -> name <> [] -> Forall (fun c => 0 <= c < 256) name ->
  exists Q' c h' params', toks = Q' ++ R /\ parse_function_after_name src toks beyond ms e varadic fuel fl ca cs tyc name (Pst (zlen Q) sc h) = Done (c, Pst (zlen Q') sc h') /\
    Forall2 param_respaced params params' /\ h_top h <= c /\ (n_body (h_node h' c) <> 0 -> young (h_top h) h' (n_body (h_node h' c))) /\ fresh (h_top h) h' (n_params (h_node h' c)) (length params') /\ n_parent (h_node h' c) = 0 /\ touched cs h h' /\ (forall x, Z.testbit fl 0 = x -> func_at h' c (Func x at_ (sp ++ sp' ++ extra) ty name params' body cmt)).
Proof.
  intros ps params suf sp' fin extra body cmt R Q sp fl ca at_ cs tyc ty name hb sc h PS SU FE CAP E W MS CB HB TA TO MA NCA SN NN BN.
  unfold parse_function_after_name, push_scope. unfold bind at 1. cbn [rbind p_idx p_scopes p_heap]. set (sc' := (zlen Q, "parse_function_after_name"%string) :: sc).
  pose proof (world_top src toks e fuel FT FS h W) as TP.
  assert (PS' : params_tokens src ps (suf ++ fin ++ R) params) by (apply (params_more _ _ _ R) in PS; rewrite <- app_assoc in PS; exact PS).
  destruct (params_ok src toks beyond ms e varadic fuel SRC FIT BYTES FT FS ps _ params Q sc' h PS' E W) as (Q1 & pc & h1 & params' & A1 & C1 & FP & G1 & PA). erewrite bind_ok by exact C1.
  destruct (fin_first _ _ _ _ _ FE) as (gf & kf & rf & EF & GF & KF & KM & KS & KB).
  assert (NS : next_is (fin ++ R) (fun k => ~ flagged k TF_Specifier)). { rewrite EF, <- app_assoc. cbn [app]. apply next_app; auto. apply not_spec_flag; auto. eapply ahead_fit; [exact FIT|exact A1| |exact KF]. rewrite EF, !in_app_iff. cbn [In]. auto. }
  assert (MS1 : maybe (specs_at h1) cs (some_specs sp)) by (revert MS; apply like_maybe; apply like_specs; apply grow_like; exact G1).
  assert (TP1 : 0 < h_top h1) by (destruct G1; lia). rewrite app_assoc in CAP. rewrite app_length in CAP.
  assert (LS : (length sp' <= fuel)%nat) by (pose proof (spec_sig_len src _ _ SU); pose proof (ahead_sig_len _ _ _ _ A1); lia).
  destruct (suffix_ok src toks beyond ms fuel FIT FT FS NOM suf sp' SU fuel (fin ++ R) Q1 sp cs sc' h1 A1 NS MS1 ltac:(lia) TP1 LS) as (Q2 & c2 & h2 & E2 & C2 & MS2 & TO2 & OR2). erewrite bind_ok by exact C2.
  assert (TP2 : 0 < h_top h2) by (destruct TO2; lia). assert (E2' : toks = Q2 ++ kf :: rf ++ R) by (rewrite E2, EF, <- app_assoc; cbn [app]; rewrite trim_gap, trim_sig by auto; reflexivity).
  erewrite bind_ok by (rewrite (check_ok toks beyond [] Q2 kf _ Tok_BraceCurly_Open sc' h2 E2' (Forall_nil _) KF), app_nil_r; reflexivity).
  assert (INV : e_invalid e < h_top h) by (destruct W as ((_ & W) & _); exact W).
  (* the end *)
  assert (END : exists Q3 c3 bc cc h3, toks = Q3 ++ R /\ (if t_type kf =? Tok_BraceCurly_Open then body <- parse_function_body src toks beyond ms e fuel ;; ret (c2, body, 0) else end_part c2) (Pst (zlen Q2) sc' h2) = Done ((c3, bc, cc), Pst (zlen Q3) sc' h3) /\
    maybe (specs_at h3) c3 (some_specs ((sp ++ sp') ++ extra)) /\ touched c2 h2 h3 /\ (c3 = c2 \/ h_top h2 <= c3) /\ maybe (comment_at h3) cc cmt /\
    match body with Some l => young (h_top h2) h3 bc /\ holds h3 bc (Block (map Raw l)) | None => bc = 0 end).
  { destruct body as [l|].
    - assert (EX : extra = [] /\ cmt = None /\ body_tokens src fin l). { clear - FE. remember (Some l) as b. destruct FE; try discriminate Heqb. injection Heqb as ->. auto. } destruct EX as (-> & -> & BT).
      rewrite KB, Z.eqb_refl. destruct (function_body_ok src toks beyond ms e fuel FT FS fin l R Q2 sc' h2 BT E2 TP2 ltac:(destruct TO2, G1; lia)) as (Q3 & bc & h3 & E3 & C3 & G3 & T3 & H3). exists Q3, c2, bc, 0, h3. split; [exact E3|]. split; [erewrite bind_ok by exact C3; reflexivity|].
      rewrite app_nil_r. split; [revert MS2; apply like_maybe; apply like_specs; apply grow_like; exact G3|]. split; [apply grow_touched; exact G3|]. split; [auto|]. split; [reflexivity|auto].
    - replace (t_type kf =? Tok_BraceCurly_Open) with false by lia. destruct (end_part_ok fin extra cmt R Q2 (sp ++ sp') c2 sc' h2 FE E2 MS2 ltac:(rewrite app_length; lia) TP2) as (Q3 & c3 & cc & h3 & E3 & C3 & MS3 & TO3 & OR3 & MC). exists Q3, c3, 0, cc, h3. auto 10. }
  destruct END as (Q3 & c3 & bc & cc & h3 & E3 & C3 & MS3 & TO3 & OR3 & MC & MB). unfold end_part in C3. erewrite bind_ok by exact C3. cbv beta iota.
  assert (NI : ((t_type kf =? Tok_BraceCurly_Open) && (bc =? e_invalid e)) = false). { destruct body as [l|]; [destruct MB as ((MB & _) & _); replace (bc =? e_invalid e) with false by (destruct TO2, G1; lia); apply andb_false_r|]. replace (t_type kf =? Tok_BraceCurly_Open) with false by lia. reflexivity. } rewrite NI. clear NI C3.
  assert (TO13 : touched cs h1 h3) by (eapply touched_trans; [exact TO2|exact TO3|destruct OR2; auto]). assert (TO03 : touched cs h h3) by (eapply touched_trans; [apply grow_touched; exact G1|exact TO13|auto]).
  assert (TP3 : 0 < h_top h3) by (destruct TO13; lia). rewrite (strip_solid name SN BN).
  destruct (any_make (fun n => AstModel.set_flags fl (set_name name n)) h3 (zlen Q3) sc') as (h4 & C4 & T4 & N4 & G4). erewrite bind_ok by exact C4. set (c := h_top h3) in *. assert (V4 : valid h4 c) by (split; unfold c; lia).
  destruct (any_edit c (fun n => if bc =? 0 then AstModel.set_type CT_Function_Fwd n else set_body bc (AstModel.set_type CT_Function n)) h4 (zlen Q3) sc' V4) as (h5 & C5 & S5). erewrite bind_ok by exact C5. assert (V5 : valid h5 c) by (eapply stepped_valid; eauto).
  destruct (any_edit c (fun n => set_inline cc (set_params pc (set_ret tyc (set_specs c3 (set_attrs ca n))))) h5 (zlen Q3) sc' V5) as (h6 & C6 & S6). erewrite bind_ok by exact C6. assert (V6 : valid h6 c) by (eapply stepped_valid; eauto).
  assert (G5 : grow h3 h5) by (eapply stepped_grow; [exact G4| |exact S5]; unfold c; lia). assert (G6 : grow h3 h6) by (eapply stepped_grow; [exact G5| |exact S6]; unfold c; lia).
  destruct S5 as (_ & N5 & _), S6 as (_ & N6 & _). rewrite N4 in N5. rewrite N5 in N6. clear C4 C5 C6.
  exists Q3, c, h6, params'. split; [exact E3|]. split; [reflexivity|]. split; [exact FP|]. split; [unfold c; destruct TO03; lia|]. split. { rewrite N6. destruct (bc =? 0) eqn:Z0; cbn; [congruence|]. intros _. destruct body as [l|]; [|lia]. destruct MB as (MB & HB'). eapply young_grow; [exact HB'|exact MB|exact G6|destruct TO2, G1; lia]. }
  split. { rewrite N6. replace (n_params _) with pc by (destruct (bc =? 0); reflexivity). eapply params_fresh; [exact PA|]. apply touched_agrees with (c := cs); [|lia]. eapply touched_trans; [exact TO13|apply grow_touched; exact G6|left; reflexivity]. }
  split. { rewrite N6. destruct (bc =? 0); reflexivity. }
  assert (TO06 : touched cs h h6) by (eapply touched_trans; [exact TO03|apply grow_touched; exact G6|left; reflexivity]). split; [exact TO06|].
  intros x FX.
  assert (AG : agrees hb h h6) by (eapply touched_agrees; [exact TO06|exact CB]). destruct (typ_agrees _ _ _ _ _ AG TA TO) as (TA6 & _).
  assert (PA6 : params_at h6 pc params'). { apply PA. apply touched_agrees with (c := cs); [|lia]. eapply touched_trans; [exact TO13|apply grow_touched; exact G6|left; reflexivity]. }
  assert (MA6 : maybe (content_at h6) ca at_). { destruct at_ as [a|]; [|exact MA]. cbn [maybe] in *. destruct MA as (V & CO). destruct TO06 as (TT & TN). split; [destruct V; split; lia|]. rewrite TN; [exact CO|exact V|apply NCA; discriminate]. }
  unfold func_at. cbv zeta. rewrite app_assoc. cbn [f_body f_export f_attrs f_specs f_ret f_name f_params f_comment].
  assert (B0 : (bc =? 0) = match body with Some _ => false | None => true end) by (destruct body as [l|]; [destruct MB as ((MB & _) & _); lia|rewrite MB; reflexivity]).
  split; [split; [exact V6|rewrite N6; cbn; destruct body; rewrite B0; left; reflexivity]|].
  rewrite N6. cbn. rewrite B0. destruct body as [l|]; cbn;
  (split; [exact FX|]; split; [exact MA6|]; split; [revert MS3; apply like_maybe; apply like_specs; apply grow_like; exact G6|]; split; [exact TA6|]; split; [reflexivity|]; split; [exact NN|]; split; [exact PA6|]; split; [reflexivity|];
   split; [|revert MC; apply like_maybe; apply like_comment; apply grow_like; exact G6]).
  - destruct MB as (_ & MB). exact (block_grow _ _ _ _ G6 MB).
  - reflexivity.
Qed.

Lemma upto_bytes : forall a b, Forall (fun c => 0 <= c < 256) (upto src a b).
Proof. intros a b. unfold upto. rewrite Forall_forall. intros x I. apply in_firstn_in in I. rewrite Forall_forall in BYTES. auto. Qed.
Lemma type_first : forall ty_ ty rest R, type_tokens src ty_ rest ty -> ty_attrs ty = None -> next_is ty_ (fun k => ~ spec_kind (t_type k)) -> exists g k r, ty_ ++ R = g ++ k :: r /\ In k ty_ /\ gap g /\ ~ fmt k /\ starts_type k.
Proof.
  intros ty_ ty rest R TY TN NX. destruct (type_head src toks fuel FT FS _ _ _ TY TN) as (g & k & r & -> & G & K & [(SK & _)|ST]).
  - exfalso. destruct NX as (g' & k' & r' & E & G' & K' & NS). assert (X : k = k').
    { apply (f_equal trim) in E. rewrite !trim_gap, !trim_sig in E by auto. injection E as E _. exact E. } subst k'. contradiction.
  - exists g, k, (r ++ R). split; [rewrite <- app_assoc; reflexivity|]. split; [apply in_or_app; right; left; reflexivity|]. auto.
Qed.
Lemma params_first : forall raw rest l, params_tokens src raw rest l -> exists g o r, raw = g ++ o :: r /\ gap g /\ kind Tok_Paren_Open o.
Proof. intros raw rest l T. destruct T as [g o g' c rest G K G' K'|g o p_ p r rest l G K P T]; [exists g, o, (g' ++ [c])|exists g, o, (p_ ++ r)]; auto. Qed.

Lemma function_ok : forall raw R f Q sc h, function_tokens src raw (R ++ beyond) f -> ahead Q (raw ++ R) -> world e h ->
  exists Q' c h' f', toks = Q' ++ R /\ parse_function src toks beyond ms e varadic fuel (Pst (zlen Q) sc h) = Done (c, Pst (zlen Q') sc h') /\
    func_respaced f f' /\ func_at h' c f' /\ grow h h' /\ h_top h <= c.
Proof.
  intros raw R f Q sc h T A W. pose proof (world_top src toks e fuel FT FS h W) as TP. remember (R ++ beyond) as RB eqn:RBE.
  destruct T as [x ex att at_ pre sp ty_ ty g nm name ps params suf sp' fin extra body rest cmt XP AT SP VS TY TN NXT0 G NM NE SN PS SU FE CAP]. subst rest.
  unfold parse_function, push_scope. unfold bind at 1. cbn [rbind p_idx p_scopes p_heap]. set (sc' := (zlen Q, "parser_parse_function"%string) :: sc).
  rewrite <- !app_assoc in A. set (B0 := ps ++ suf ++ fin ++ R) in *. set (B1 := g ++ nm ++ B0) in *. set (B2 := pre ++ ty_ ++ B1) in *. change (ahead Q (ex ++ att ++ B2)) in A.
  destruct (type_first ty_ ty _ B1 TY TN NXT0) as (gh & kh & rh & ETY & IH & GH & FH & HH). pose proof (head_plain src toks fuel FT FS kh (or_intror HH)) as (HM & HA & HX).
  assert (FITH : flags_fit kh). { eapply ahead_fit; [exact FIT|exact A| |exact FH]. unfold B2. rewrite !in_app_iff. auto 10. }
  assert (FITP : forall k, In k pre -> spec_kind (t_type k) -> flags_fit k). { intros k I SK. eapply ahead_fit; [exact FIT|exact A| |apply spec_sig; exact SK]. unfold B2. rewrite !in_app_iff. auto. }
  assert (NXT : forall P : token -> Prop, (forall k, In k pre -> spec_kind (t_type k) -> P k) -> P kh -> next_is B2 P).
  { intros P P1 P2. unfold B2. eapply spec_first; [exact SP| |]; [intros k SK I; auto|]. rewrite ETY. apply next_app; auto. }
  assert (N1 : next_is (att ++ B2) (fun k => t_type k <> Tok_Module_Export)).
  { destruct at_ as [t|].
    - destruct AT as (ga & ka & k' & r & -> & GA & FA & NIN & _). rewrite <- app_assoc. cbn [app]. apply next_app; [exact GA|intros [Y|Y]; apply NIN; rewrite Y; cbn; auto 10|]. intros X.
      assert (FK : flags_fit ka). { eapply ahead_fit; [exact FIT|exact A|rewrite !in_app_iff; right; left; right; left; reflexivity|unfold fmt; rewrite X; intros [Y|Y]; discriminate Y]. } destruct FK as [FK|(_ & FK & _)]; [tk; lia|]. specialize (FK FA). rewrite FK in X. discriminate X.
    - cbn in AT. subst att. cbn [app]. apply NXT; [|exact HX]. intros k _ SK. tk. lia. }
  destruct (export_ok src toks beyond ms fuel FT FS x ex _ Q sc' h XP A N1) as (Q1 & fl & A1 & C1 & X1). erewrite bind_ok by exact C1.
  assert (AT' : attribute_word src att B2 at_). { apply (attribute_more _ _ _ R) in AT. rewrite <- !app_assoc in AT. exact AT. }
  destruct (attributes_ok src toks beyond ms fuel SRC BYTES att B2 at_ Q1 sc' h AT' A1) as (Q2 & ca & h1 & E2 & C2 & G1 & MA & _); auto.
  { apply NXT; [intros k I SK; apply not_attr_flag; auto; tk; lia|apply not_attr_flag; auto]. }
  erewrite bind_ok by exact C2. apply stands_ahead in E2. unfold B2 in E2.
  assert (NS : next_is (ty_ ++ B1) (fun k => ~ flagged k TF_Specifier)). { rewrite ETY. apply next_app; auto. apply not_spec_flag; auto. apply (starts_plain src toks fuel FT FS). exact HH. }
  assert (LP : (length sp <= fuel)%nat) by (pose proof (spec_sig_len src _ _ SP); pose proof (ahead_sig_len _ _ _ _ E2); lia).
  change SPECS_CAP with 14 in CAP. assert (CAP' : (length (sp ++ sp' ++ extra) <= 14)%nat) by lia. assert (CSP : Z.of_nat (length sp) <= SPECS_CAP) by (change SPECS_CAP with 14; rewrite app_length in CAP'; lia).
  destruct (fn_loop_ok src toks beyond ms fuel FIT FT FS fuel pre sp Q2 _ [] sc' h1 SP E2 NS VS) as (Q3 & E3 & C3); [cbn [app]; change SPECS_CAP with 14 in CSP; unfold zlen; lia|exact LP|].
  erewrite bind_ok by exact C3. cbn [app]. apply stands_ahead in E3. assert (W1 : world e h1) by (eapply world_grow; eauto).
  destruct (specifiers_maybe e h1 (zlen Q3) sc' sp W1 CSP) as (h2 & cs & C4 & G2 & MS & CS); [eapply spelled_known; eauto|]. erewrite bind_ok by exact C4. assert (W2 : world e h2) by (eapply world_grow; eauto).
  assert (FN : exists kn rn, nm = kn :: rn /\ kind Tok_Identifier kn) by (destruct NM as [first a q KI _ _]; eauto). destruct FN as (kn & rn & ENM & KN). assert (FKN : ~ fmt kn) by (tk; lia).
  assert (TY' : type_tokens src ty_ B1 ty). { apply (type_more _ _ _ R) in TY. rewrite <- !app_assoc in TY. exact TY. }
  assert (FITN : flags_fit kn). { eapply ahead_fit; [exact FIT|exact E3|unfold B1; rewrite ENM, !in_app_iff; right; right; left; left; reflexivity|exact FKN]. }
  assert (NT : next_is B1 ends_type). { unfold B1. rewrite ENM. cbn [app]. apply next_app; auto. split; [apply not_spec_flag; auto; tk; lia|]. tk. lia. }
  destruct (type_full src toks beyond ms e fuel SRC FIT BYTES FT FS false ty_ B1 ty Q3 sc' h2 TY' E3 NT ltac:(discriminate) W2) as (Q4 & tyc & h3 & ty' & A4 & C5 & RS & (G3 & TT & TA & TK & TR & TB & TPP) & TSB & _). erewrite bind_ok by exact C5.
  assert (NI : (tyc =? e_invalid e) = false) by (destruct W2 as ((_ & W2) & _); lia). rewrite NI.
  destruct (params_first _ _ _ PS) as (gp & op & rp & EP & GP & KP). unfold kind in KP.
  destruct (identifier_at src toks beyond ms fuel SRC nm name Q4 B0 g sc' h3 A4 G NM) as (Q5 & nt & E5 & C6 & TX & TI & TL); [unfold B0; rewrite EP, <- app_assoc; cbn [app]; apply next_app; [exact GP|tk; lia|split; tk; lia]|lia|]. erewrite bind_ok by exact C6.
  assert (TV : tok_is_valid (Some nt) = true). { unfold tok_is_valid. rewrite TI. specialize (TL NE). change (Tok_Identifier =? Tok_Invalid) with false. lia. } rewrite TV. cbn [negb name_text]. rewrite TX.
  assert (W3 : world e h3) by (eapply world_grow; eauto).
  assert (BN : Forall (fun c => 0 <= c < 256) name). { rewrite <- TX, <- word_text. apply upto_bytes. }
  assert (CSB : cs < h_top h2). { destruct sp as [|s0 sp]; cbn in MS; [subst cs; destruct G1, G2; lia|]. destruct MS as ((_ & MS) & _). exact MS. }
  assert (TO : typ_own (h_top h2) h3 tyc ty'). { destruct RS as (_ & X2 & _ & X3 & _). split; [exact TT|]. split; [exact TK|]. split; [congruence|]. split; [|exact TSB]. rewrite X3. eapply type_specs; eauto. }
  assert (MS3 : maybe (specs_at h3) cs (some_specs sp)) by (revert MS; apply like_maybe; apply like_specs; apply grow_like; exact G3).
  assert (MA3 : maybe (content_at h3) ca at_) by (revert MA; apply like_maybe; apply like_content; apply grow_like; eapply grow_trans; eauto).
  assert (NCA : at_ <> None -> ca <> cs). { intros NA. destruct at_ as [a|]; [|congruence]. cbn in MA. destruct MA as ((V1 & V2) & _). destruct sp as [|s0 sp]; [cbn in MS; lia|]. specialize (CS ltac:(discriminate)). lia. }
  destruct (after_name_ok ps params suf sp' fin extra body cmt R Q5 sp fl ca at_ cs tyc ty' name (h_top h2) sc' h3 PS SU FE CAP' E5 W3 MS3 CSB ltac:(destruct G3; lia) TA TO MA3 NCA SN NE BN) as (Q6 & c & h4 & params' & E6 & C7 & FP & HC & NBC & FRP & _ & TO4 & FA).
  erewrite bind_ok by exact C7. exists Q6, c, h4, (Func x at_ (sp ++ sp' ++ extra) ty' name params' body cmt). split; [exact E6|]. split; [reflexivity|].
  split; [unfold func_respaced; cbn; auto 10|]. split; [apply FA; exact X1|]. pose proof (grow_trans _ _ _ G2 G3) as G23. pose proof (grow_trans _ _ _ G1 G23) as G13. split; [|destruct G13; lia].
  destruct TO4 as (TO4 & TN4). split; [destruct G13; lia|]. intros y Y. pose proof Y as (Y1 & Y2). rewrite TN4; [apply G13; exact Y|destruct G13; split; lia|]. destruct sp as [|s0 sp]; [cbn in MS; lia|]. specialize (CS ltac:(discriminate)). destruct G1. lia.
Qed.
End P.

Lemma func_holds : forall h c f tr, func_at h c f -> func_tree f = Some tr -> holds h c tr.
Proof.
  intros h c f tr (K & X & MA & MS & TA & NM & NN & PA & SX & BD & MC) E. unfold func_tree in E. destruct (f_body f) as [l|].
  - destruct (f_export f); [discriminate E|]. injection E as <-. cbn [holds]. split; [exact K|]. split; [exact X|]. split; [exact MA|]. split; [exact MS|]. split; [exact TA|]. split; [split; assumption|]. split; [exact PA|]. split; [exact SX|]. left. exact BD.
  - destruct (existsb _ (f_specs f)) eqn:EX; [discriminate E|]. injection E as <-. cbn [holds]. split; [exact K|]. split; [exact X|]. split; [exact MA|]. split; [exact MS|]. split.
    + intros l EL. assert (l = f_specs f) as -> by (unfold some_specs in EL; destruct (f_specs f); congruence). split; intros I; apply Bool.not_true_iff_false in EX; apply EX; apply existsb_exists; eexists; (split; [exact I|reflexivity]).
    + split; [exact TA|]. split; [split; assumption|]. split; [exact PA|]. split; [exact SX|]. split; [exact BD|exact MC].
Qed.

Section Text_.
Variables (text : list Z) (toks beyond : list token) (ms ms' : macros) (e : env) (varadic : Z) (fuel : nat) (h : heap).
Hypothesis B : Forall (fun c => 0 <= c < 256) text.
Hypothesis NR : ~ runs_off text.
Hypothesis MF : Forall macro_fits ms.
Hypothesis L : lex text fuel ms = Done (Some (toks, ms')).
Hypothesis F : Z.of_nat (length text) + 2 <= Z.of_nat fuel.
Hypothesis FT : (length toks < fuel)%nat.
Hypothesis W : world e h.
Hypothesis NOM : no_macro_spec ms'.
Lemma function_text : forall raw R f, toks = raw ++ R -> function_tokens text raw (R ++ beyond) f ->
  exists h' c f', parse_text (fun src toks beyond ms e fuel => parse_function src toks beyond ms e varadic fuel) text beyond ms e fuel h = Done (h', c) /\ func_respaced f f' /\ func_at h' c f' /\ h_top h <= c /\ grow h h'.
Proof.
  intros raw R f E T. destruct (text_facts text toks ms ms' fuel B NR MF L F) as (T1 & T2 & _ & _); assert (FS : (length text < fuel)%nat) by lia. pose proof (ahead_self toks [] (raw ++ R) E) as A.
  destruct (function_ok text toks beyond ms' e varadic fuel T1 T2 B FT FS NOM raw R f [] [] h T A W) as (Q' & c & h' & f' & _ & K & K1 & K2 & K3 & K4).
  exists h', c, f'. split; [|auto]. apply (run_text text toks beyond ms ms' e fuel h B NR MF L F (fun src toks beyond ms e fuel => parse_function src toks beyond ms e varadic fuel) _ _ K).
Qed.
End Text_.
