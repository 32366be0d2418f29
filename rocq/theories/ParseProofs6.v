(** Typedefs. *)
From Coq Require Import String ZArith List Bool Lia ZifyBool ZifyNat.
From Verif Require Import Common Text HashModel StrOpsModel EnumModel EnumSpec EnumProofs LexModel LexSpec NavModel StripModel StripSpec AstModel AstSpec UpfrontModel UpfrontSpec SerSpec ParseModel ParseSpec ParseProofs ParseProofs2 ParseProofs3 ParseProofs4 ParseProofs5.
Import ListNotations.
Close Scope string_scope.
Open Scope Z_scope.

Section P.
Variable src : list Z.
Variable toks beyond : list token.
Variable ms : macros.
Variable e : env.
Variable fuel : nat.
Hypothesis SRC : Forall (in_source src) toks.
Hypothesis FIT : Forall flags_fit toks.
Hypothesis BYTES : Forall (fun c => 0 <= c < 256) src.
Hypothesis FT : (length toks < fuel)%nat.
Hypothesis FS : (length src < fuel)%nat.
Notation ahead := (ahead toks).
Notation a_currtok := (a_currtok toks beyond).
Notation a_left := (a_left toks).
Notation a_eat := (a_eat src toks beyond ms).
Notation a_check := (a_check toks beyond).

Lemma not_paren : forall sizes ss fin RB cmt R, array_sizes src sizes ss -> statement_end src fin RB cmt ->
  exists k r, sizes ++ fin ++ R = k :: r /\ t_type k <> Tok_Paren_Open.
Proof.
  assert (GP : forall g k r, gap g -> t_type k <> Tok_Paren_Open -> exists k' r', g ++ k :: r = k' :: r' /\ t_type k' <> Tok_Paren_Open).
  { intros [|f g] k r G K; [exists k, r; auto|]. exists f, (g ++ k :: r). split; [reflexivity|]. apply Forall_inv in G. tk. lia. }
  intros sizes ss fin RB cmt R SZ SE. destruct SZ as [|g o g' first more c r ss G KO G' KF NC KC NE T].
  - cbn [app]. destruct (stmt_first src _ _ _ SE) as (g & k & r & -> & G & K). rewrite <- app_assoc. cbn [app]. apply GP; [exact G|tk; lia].
  - rewrite <- app_assoc. cbn [app]. apply GP; [exact G|tk; lia].
Qed.

Definition typedef_node (fl : Z) (name : list Z) (type cc : Z) : node :=
  set_inline cc (set_ret type (set_name name (AstModel.set_flags fl (AstModel.set_type CT_Typedef zero_node)))).
Lemma typedef_tail : forall fl name type arr fin R cmt Q top sc h, statement_end src fin (R ++ beyond) cmt -> ahead Q (fin ++ R) -> 0 < h_top h ->
  valid h type -> n_body (h_node h type) = 0 -> n_type (h_node h type) = CT_Typename -> (arr = 0 \/ valid h arr /\ n_type (h_node h arr) <> CT_Invalid) ->
  exists Q' c h' cc, toks = Q' ++ R /\
  (inline_cmt <- end_statement src toks beyond ms ;;
  result <- on_heap (fun h => Done (make h (fun n => AstModel.set_flags fl (AstModel.set_type CT_Typedef n)))) ;;
  edit (fun h => put h result (set_name name)) ;;;
  (if type =? 0 then ret tt else edit (fun h => put h result (set_ret type)) ;;; edit (fun h => put h type (set_parent result))) ;;;
  edit (fun h => rbind (get h type) (fun t =>
    if ct_eqb (n_type t) CT_Typename && negb (arr =? 0) then
      rbind (get h arr) (fun a => if ct_eqb (n_type a) CT_Invalid then Done h else put h type (set_body arr))
    else Done h)) ;;;
  (if inline_cmt =? 0 then ret tt else edit (fun h => put h result (set_inline inline_cmt))) ;;;
  parser_pop ;;; ret result) (Pst (zlen Q) (top :: sc) h) = Done (c, Pst (zlen Q') sc h') /\
  like h h' /\ (forall x, valid h x -> x <> type -> h_node h' x = h_node h x) /\ h_top h <= c /\ valid h' c /\
  h_node h' c = typedef_node fl name type cc /\ maybe (comment_at h') cc cmt /\ h_node h' type = set_body arr (set_parent c (h_node h type)).
Proof.
  intros fl name type arr fin R cmt Q top sc h SE A TP VT TB TK AR. set (sc' := top :: sc).
  destruct (end_ok src toks beyond ms fuel FT FS fin R cmt Q sc' h SE A TP) as (Q6 & cc & h1 & E6 & C6 & G6 & M6 & B6). erewrite bind_ok by exact C6.
  destruct (any_make (fun n => AstModel.set_flags fl (AstModel.set_type CT_Typedef n)) h1 (zlen Q6) sc') as (h2 & M2 & T2 & N2 & G7). erewrite bind_ok by exact M2.
  assert (TP1 : 0 < h_top h1) by (destruct G6; lia). set (c := h_top h1) in *. assert (V2 : valid h2 c) by (split; lia).
  destruct (any_edit c (set_name name) h2 (zlen Q6) sc' V2) as (h3 & M3 & S3). erewrite bind_ok by exact M3. pose proof (stepped_valid _ _ _ _ _ S3 V2) as V3. pose proof S3 as (T3 & N3 & O3). rewrite N2 in N3.
  assert (X : (type =? 0) = false) by (destruct VT; lia). rewrite X. rewrite bind_assoc. destruct (any_edit c (set_ret type) h3 (zlen Q6) sc' V3) as (h4 & M4 & S4). erewrite bind_ok by exact M4. pose proof (stepped_valid _ _ _ _ _ S4 V3) as V4. pose proof S4 as (T4 & N4 & O4). rewrite N3 in N4.
  assert (GT : h_top h <= c) by (destruct G6; unfold c; lia). assert (TCC : type <> c) by (destruct VT; lia).
  assert (OLD : forall x, valid h x -> valid h4 x /\ x <> c /\ h_node h4 x = h_node h x).
  { intros y Y. pose proof Y as (Y1 & Y2). destruct G6 as (G6 & G6'). destruct G7 as (_ & G7). split; [split; unfold c in *; lia|]. split; [unfold c in *; lia|]. rewrite O4, O3 by (unfold c in *; lia). rewrite G7 by (split; unfold c in *; lia). apply G6'. exact Y. }
  destruct (OLD type VT) as (VT4 & _ & NT4). destruct (any_edit type (set_parent c) h4 (zlen Q6) sc' VT4) as (h5 & M5 & S5). erewrite bind_ok by exact M5. pose proof (stepped_valid _ _ _ _ _ S5 VT4) as VT5. pose proof (stepped_valid _ _ _ _ _ S5 V4) as V5. pose proof S5 as (T5 & N5 & O5). rewrite NT4 in N5.
  assert (B6' : exists h6, (edit (fun h => rbind (get h type) (fun t =>
    if ct_eqb (n_type t) CT_Typename && negb (arr =? 0) then
      rbind (get h arr) (fun a => if ct_eqb (n_type a) CT_Invalid then Done h else put h type (set_body arr))
    else Done h))) (Pst (zlen Q6) sc' h5) = Done (tt, Pst (zlen Q6) sc' h6) /\ h_top h6 = h_top h5 /\ h_node h6 type = set_body arr (h_node h5 type) /\ (forall y, y <> type -> h_node h6 y = h_node h5 y) /\ like h5 h6).
  { unfold edit. cbn [p_heap p_idx p_scopes]. rewrite (get_ok h5 type VT5). cbn [rbind]. rewrite N5. assert (TK' : n_type (set_parent c (h_node h type)) = CT_Typename) by exact TK. rewrite TK'.
    destruct AR as [->|(VA & KA)].
    - rewrite Bool.andb_false_r. exists h5. cbn [rbind]. split; [reflexivity|]. split; [reflexivity|]. split; [|split; [reflexivity|apply like_refl]]. rewrite N5. clear - TB. destruct (h_node h type). cbn in TB |- *. subst. reflexivity.
    - assert (XA : (arr =? 0) = false) by (destruct VA; lia). rewrite XA. destruct (OLD arr VA) as (VA4 & AC & NA4). pose proof (stepped_valid _ _ _ _ _ S5 VA4) as VA5. change (ct_eqb CT_Typename CT_Typename && negb false) with true. cbv iota. rewrite (get_ok h5 arr VA5). cbn [rbind].
      assert (KA5 : ct_eqb (n_type (h_node h5 arr)) CT_Invalid = false).
      { destruct (Z.eq_dec arr type) as [->|D]; [rewrite N5; cbn; rewrite TK; reflexivity|]. rewrite O5, NA4 by exact D. destruct (n_type (h_node h arr)); try reflexivity. contradiction KA. reflexivity. }
      rewrite KA5. rewrite (put_ok h5 type _ VT5). cbn [rbind]. pose proof (stepped_upd h5 type (set_body arr)) as SU. exists (upd h5 type (set_body arr)). split; [reflexivity|]. pose proof (like_sim h5 h5 _ type _ (like_refl _) SU (sim_body arr)) as LK. destruct SU as (U1 & U2 & U3). rewrite N5 in U2. auto. }
  destruct B6' as (h6 & M7 & T6 & N6 & O6 & LK6). erewrite bind_ok by exact M7. rewrite N5 in N6. assert (V6 : valid h6 c) by (destruct V5; split; lia). assert (NC6 : h_node h6 c = set_ret type (set_name name (AstModel.set_flags fl (AstModel.set_type CT_Typedef zero_node)))) by (rewrite O6, O5 by auto; exact N4).
  destruct (opt_edit c cc set_inline h6 (zlen Q6) sc' V6) as (h7 & M8 & S7); [rewrite NC6; reflexivity|]. erewrite bind_ok by exact M8. pose proof (stepped_valid _ _ _ _ _ S7 V6) as V7. pose proof S7 as (T7 & N7 & O7). rewrite NC6 in N7.
  assert (LK : like h1 h7).
  { eapply like_new; [|exact S7|apply Z.le_refl]. eapply like_trans; [|exact LK6]. eapply like_sim; [|exact S5|apply sim_parent]. eapply like_new; [|exact S4|apply Z.le_refl]. eapply like_new; [|exact S3|apply Z.le_refl]. apply grow_like, G7. }
  exists Q6, c, h7, cc. split; [exact E6|]. split; [reflexivity|]. split; [eapply like_trans; [apply grow_like, G6|exact LK]|].
  split; [|split; [exact GT|]; split; [exact V7|]; split; [exact N7|]; split; [revert M6; apply like_maybe; apply like_comment; exact LK|]].
  - intros y Y YT. destruct (OLD y Y) as (_ & YC & YN). rewrite O7, O6, O5 by auto. exact YN.
  - rewrite O7 by auto. exact N6.
Qed.

Lemma typedef_ok : forall raw R x ty name ss cmt Q sc h, typedef_tokens src raw (R ++ beyond) x ty name ss cmt -> ahead Q (raw ++ R) -> world e h ->
  exists Q' c h' ty', toks = Q' ++ R /\ parse_typedef src toks beyond ms e fuel (Pst (zlen Q) sc h) = Done (c, Pst (zlen Q') sc h') /\
    typ_respaced ty ty' /\ typedef_at h' c x ty' name ss cmt /\ grow h h' /\ h_top h <= c /\ n_parent (h_node h' c) = 0.
Proof.
  intros raw R x ty name ss cmt Q sc h T A W. pose proof (world_top src toks e fuel FT FS h W) as TP. remember (R ++ beyond) as RB eqn:RBE.
  unfold parse_typedef. destruct T as [x kw ty_ ty g2 k sizes ss fin rest cmt KW TY PL G2 KI NE SZ SE]. subst rest. rewrite <- app_assoc in A.
  destruct (head_ok src toks beyond ms fuel FT FS Tok_Decl_Typedef "parser_parse_typedef"%string x kw _ Q sc h ltac:(discriminate) ltac:(discriminate) ltac:(discriminate) KW A) as (Q1 & fl & E1 & X1 & HD). rewrite HD. clear HD A. unfold scoped. set (sc' := (zlen Q, "parser_parse_typedef"%string) :: sc).
  rewrite <- app_assoc in E1. rewrite <- app_assoc in E1. cbn [app] in E1. rewrite <- app_assoc in E1. apply ahead_self in E1. 
  pose proof (type_more _ _ _ R _ TY) as TY'. rewrite <- app_assoc in TY'. cbn [app] in TY'. rewrite <- app_assoc in TY'.
  assert (PL' : next_is (ty_ ++ g2 ++ k :: sizes ++ fin ++ R) plain_type) by (apply next_more; exact PL). destruct PL' as (g & k0 & r & EN & GN & FN & PN). pose proof E1 as A1. rewrite EN in A1.
  destruct (a_left _ _ _ _ sc' h A1 GN FN) as (n & L1 & L2). erewrite bind_ok by exact L1. destruct (a_currtok _ _ _ _ sc' h A1 GN FN) as (Q2 & E2 & C2). erewrite bind_ok by exact C2. rewrite L2.
  assert (PB : (negb false && ((t_type k0 =? Tok_Preprocess_Macro_Typename) || (t_type k0 =? Tok_Preprocess_Macro_Stmt))) || is_tag (t_type k0) = false).
  { unfold plain_type in PN. tk. lia. }
  rewrite PB. assert (A2 : ahead Q2 (ty_ ++ g2 ++ k :: sizes ++ fin ++ R)). { rewrite EN. exists (k0 :: r). split; [exact E2|]. rewrite trim_gap by exact GN. reflexivity. }
  clear EN PN FN GN E2 C2 L1 L2 PB A1 r. unfold kind in KI. assert (F2 : ~ fmt k) by (tk; lia).
  assert (FK : flags_fit k). { eapply ahead_fit; [exact FIT|exact A2|rewrite !in_app_iff; right; right; left; reflexivity|exact F2]. }
  assert (NX : next_is (g2 ++ k :: sizes ++ fin ++ R) ends_type). { apply next_app; auto. split; [apply not_spec_flag; auto; tk; lia|]. tk. lia. }
  destruct (not_paren sizes ss fin _ cmt R SZ SE) as (k2 & r2 & EK & NP).
  destruct (type_ok src toks beyond ms e fuel SRC FIT BYTES FT FS true ty_ (g2 ++ k :: sizes ++ fin ++ R) ty _ sc' h TY' A2 NX) as (Qa & tyc & h1 & ty' & Aa & Ca & RS & GR & TT & TA & TK & TR & TB & TPP).
  { intros _. exists g2, k, k2, r2. rewrite EK. auto. }
  { exact W. }
  erewrite bind_ok by exact Ca. destruct (a_check _ _ _ _ Tok_Identifier sc' h1 Aa G2 F2) as (Q3 & E3 & C3). erewrite bind_ok by exact C3. rewrite KI, Z.eqb_refl. cbn [negb]. cbv iota. apply ahead_self in E3.
  destruct (a_currtok Q3 [] k _ sc' h1 E3 (Forall_nil _) F2) as (Q4 & E4 & C4). erewrite bind_ok by exact C4. destruct (a_eat _ k _ _ sc' h1 E4 KI) as (A5 & C5). erewrite bind_ok by exact C5.
  assert (TP1 : 0 < h_top h1) by (destruct GR; lia). assert (SL : (length ss < fuel)%nat). { pose proof (sizes_len src toks fuel FT FS _ _ SZ). pose proof (ahead_sig_len toks _ _ _ A5). lia. }
  destruct (arrays_ok src toks beyond ms e fuel FT FS ss fuel sizes (fin ++ R) _ sc' h1 SL SZ A5) as (Qb & ac & h2 & Ab & Cb & GB & FB & EB & BB); auto. { eapply (end_next src toks fuel FT FS); [exact SE|]. intros k' K' _. apply no_size_end, K'. }
  erewrite bind_ok by exact Cb. rewrite <- word_text.
  assert (TP2 : 0 < h_top h2) by (destruct GB; lia). destruct TA as (VT & TA'). assert (VT2 : valid h2 tyc) by (destruct GB as (GB & _); destruct VT; split; lia).
  assert (NT : h_node h2 tyc = h_node h1 tyc) by (apply GB; exact VT).
  assert (AR : ac = 0 \/ valid h2 ac /\ n_type (h_node h2 ac) <> CT_Invalid).
  { pose proof (FB h2 (Z.le_refl _) (fun y _ => eq_refl)) as RW. destruct ss as [|s ss]; [left; exact RW|]. right. destruct RW as (((VA & KA) & _) & _). split; [exact VA|]. intros X. rewrite X in KA. cbn in KA. intuition discriminate. }
  destruct (typedef_tail fl (word src k) tyc ac fin R cmt Qb (zlen Q, "parser_parse_typedef"%string) sc h2 SE Ab TP2 VT2) as (Qc & c & h3 & cc & Ec & Cc & LK & OT & TC & VC & NC & MC & BT); try (rewrite NT; assumption); auto.
  exists Qc, c, h3, ty'. split; [exact Ec|]. split; [exact Cc|]. split; [exact RS|]. split; [|split; [|split; [|rewrite NC; reflexivity]]].
  - unfold typedef_at. cbv zeta. rewrite NC. unfold typedef_node. cbn. split; [split; [exact VC|rewrite NC; left; reflexivity]|]. split; [exact X1|].
    split; [eapply like_typ; [exact LK|]; eapply like_typ; [apply grow_like; exact GB|]; split; [exact VT|exact TA']|]. unfold kind_is. rewrite BT. cbn. rewrite NT.
    split; [split; [eapply like_valid; eauto|left; symmetry; exact TK]|]. split; [exact TR|]. split; [reflexivity|]. split; [apply (from_like _ _ _ _ TP1 FB LK)|]. auto.
  - destruct LK as (LK & _). pose proof (grow_trans _ _ _ GR GB) as GG. split; [destruct GG; lia|]. intros y Y. pose proof Y as (Y1 & Y2). rewrite OT; [apply GG; exact Y|destruct GG; split; lia|lia].
  - destruct GR, GB. lia.
Qed.
End P.
