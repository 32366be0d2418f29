(** Using and typedef declarations. *)
From Coq Require Import String ZArith List Bool Lia ZifyBool ZifyNat.
From Verif Require Import Common Text HashModel StrOpsModel EnumModel EnumSpec EnumProofs LexModel LexSpec NavModel StripModel StripSpec AstModel AstSpec UpfrontModel UpfrontSpec SerSpec ParseModel ParseSpec ParseProofs ParseProofs2 ParseProofs3 ParseProofs4.
Import ListNotations.
Close Scope string_scope.
Open Scope Z_scope.

(** ** more tokens behind *)
Lemma next_more : forall A R P, next_is A P -> next_is (A ++ R) P.
Proof. intros A R P (g & k & r & -> & G & K & X). exists g, k, (r ++ R). split; [rewrite <- app_assoc; reflexivity|auto]. Qed.
Lemma attribute_more : forall src raw A R o, attribute_word src raw A o -> attribute_word src raw (A ++ R) o.
Proof.
  intros src raw A R [t|] H; [|exact H]. destruct H as (g & k & k' & r & E & G & F & N & T & TD & NE & -> & K & P). exists g, k, k', (r ++ R). split; auto 20.
Qed.
Lemma type_name_more : forall src raw A R tg t, type_name src raw A tg t -> type_name src raw (A ++ R) tg t.
Proof.
  intros src raw A R tg t T. destruct T as [raw t rest NM NX|k tg g raw t rest NT K G NM NX|k g raw t rest K G NM NX|first more k r K MO LA KF KN].
  - apply tn_name; auto. apply next_more, NX.
  - apply tn_tag; auto. apply next_more, NX.
  - apply tn_typename; auto. apply next_more, NX.
  - cbn [app]. apply tn_native; auto.
Qed.
Lemma type_more : forall src raw A R ty, type_tokens src raw A ty -> type_tokens src raw (A ++ R) ty.
Proof.
  intros src raw A R ty T. destruct T as [att pre raw suf pk rest g at_ tg t sp sp' pack AT S1 C1 G TN N92 CL WT S2 C2 CAP PK].
  apply ParseSpec.ty; auto.
  - apply (attribute_more _ _ _ R) in AT. rewrite <- !app_assoc in AT. exact AT.
  - apply (type_name_more _ _ _ R) in TN. rewrite <- !app_assoc in TN. exact TN.
Qed.

Lemma bind_assoc : forall A B C (m : M A) (f : A -> M B) (k : B -> M C) s, bind (bind m f) k s = bind m (fun a => bind (f a) k) s.
Proof. intros. unfold bind, rbind. destruct (m s) as [[a s']| | ]; reflexivity. Qed.
(** ** heaps *)
Lemma like_new : forall h0 h h' c f, like h0 h -> stepped h h' c f -> h_top h0 <= c -> like h0 h'.
Proof. intros h0 h h' c f (T & N) (T' & _ & N') C. split; [lia|]. intros x X. rewrite N' by (unfold valid in X; lia). auto. Qed.
Lemma like_sim : forall h0 h h' c f, like h0 h -> stepped h h' c f -> (forall n, sim n (f n)) -> like h0 h'.
Proof.
  intros h0 h h' c f (T & N) (T' & S' & N') C. split; [lia|]. intros x X. destruct (Z.eq_dec x c) as [->|D]; [|rewrite N' by exact D; auto].
  rewrite S'. unfold sim in *. rewrite C. auto.
Qed.
Lemma sim_body : forall v n, sim n (set_body v n). Proof. reflexivity. Qed.
Lemma sim_parent : forall v n, sim n (set_parent v n). Proof. reflexivity. Qed.
Lemma from_like : forall h h' h'' P, 0 < h_top h -> from_top h h' P -> like h' h'' -> P h''.
Proof. intros h h' h'' P TP F (T & N). apply F; [exact T|]. intros x X. apply N. unfold valid. lia. Qed.
(** the [n] nodes from [x] on over Next are not older than [B] *)
Fixpoint fresh (B : Z) (h : heap) (x : Z) (n : nat) : Prop := match n with 0%nat => True | S n => B <= x /\ fresh B h (n_next (h_node h x)) n end.
Lemma from_fresh : forall h h' h'' x ss, 0 < h_top h -> from_top h h' (fun h'' => raws_from h'' x ss) -> like h' h'' -> fresh (h_top h) h'' x (length ss).
Proof.
  intros h h' h'' x ss TP F (T & N). set (h3 := {| h_node := fun y => if y <? h_top h then zero_node else h_node h'' y; h_top := h_top h'' |}).
  assert (R : raws_from h3 x ss). { apply F; [exact T|]. intros y Y. cbn. replace (y <? h_top h) with false by lia. apply N. split; lia. }
  clear F. revert x R. induction ss as [|s ss IH]; intros x R; [exact I|]. destruct R as (((_ & K) & _) & R).
  assert (X : h_top h <= x). { destruct (Z_lt_le_dec x (h_top h)) as [L|L]; [|exact L]. cbn in K. replace (x <? h_top h) with true in K by lia. cbn in K. intuition discriminate. }
  cbn in R. replace (x <? h_top h) with false in R by lia. cbn [length fresh]. split; [exact X|]. apply IH. exact R.
Qed.
Lemma fresh_le : forall n A B h x, A <= B -> fresh B h x n -> fresh A h x n.
Proof. induction n as [|n IH]; intros A B h x L F; [exact I|]. destruct F as (F & F'). split; [lia|eauto]. Qed.
Definition sized (B : Z) (h : heap) (n : node) (t : tree) : Prop :=
  match t with
  | Var _ _ _ _ _ ss _ _ _ | Using _ _ _ (Some (_, ss)) _ => n_type (h_node h (n_ret n)) = CT_Typename /\ fresh B h (n_body (h_node h (n_ret n))) (length ss)
  | _ => True
  end.

Section P.
Variable src : list Z.
Variable toks beyond : list token.
Variable ms : macros.
Variable e : env.
Variable fuel : nat.
Hypothesis SRC : Forall (in_source src) toks.
Hypothesis FIT : Forall flags_fit toks.
Hypothesis BYTES : Forall (fun c => 0 <= c < 256) src.
Hypothesis FT : (length toks < fuel)%nat.
Hypothesis FS : (length src < fuel)%nat.
Notation ahead := (ahead toks).
Notation a_currtok := (a_currtok toks beyond).
Notation a_left := (a_left toks).
Notation a_eat := (a_eat src toks beyond ms).
Notation a_check := (a_check toks beyond).

(** export? and a keyword *)
Lemma keyword_ok : forall t x kw R Q sc h, keyword t x kw -> t <> Tok_NewLine -> t <> Tok_Comment -> t <> Tok_Module_Export -> ahead Q (kw ++ R) ->
  exists Q' fl, toks = Q' ++ R /\ bind (export_flag src toks beyond ms) (fun fl => bind (eat src toks beyond ms t) (fun _ => ret fl)) (Pst (zlen Q) sc h) = Done (fl, Pst (zlen Q') sc h) /\
    Z.testbit fl 0 = x.
Proof.
  intros t x kw R Q sc h (g & k & G & K & X) N1 N2 N3 A. unfold kind in K. assert (FK : ~ fmt k) by (unfold fmt; rewrite K; tauto). destruct X as [(-> & ->)|(-> & ex & KX & ->)]; rewrite <- app_assoc in A; cbn [app] in A; unfold export_flag.
  - destruct (a_check _ _ _ _ Tok_Module_Export sc h A G FK) as (Q1 & E1 & C1). erewrite bind_ok.
    2:{ erewrite bind_ok by exact C1. replace (t_type k =? Tok_Module_Export) with false by lia. reflexivity. }
    destruct (a_eat Q1 k _ _ sc h E1 K) as (_ & C2). erewrite bind_ok by exact C2. exists (Q1 ++ [k]), 0. split; [apply at_eat; exact E1|]. split; reflexivity.
  - assert (F1 : ~ fmt ex) by (tk; lia). destruct (a_check _ _ _ _ Tok_Module_Export sc h A G F1) as (Q1 & E1 & C1). unfold kind in KX. destruct (a_eat Q1 ex _ _ sc h E1 KX) as (_ & C2). apply at_eat in E1. erewrite bind_ok.
    2:{ erewrite bind_ok by exact C1. rewrite KX, Z.eqb_refl. erewrite bind_ok by exact C2. reflexivity. }
    destruct (a_eat _ k _ _ sc h E1 K) as (_ & C3). erewrite bind_ok by exact C3. exists ((Q1 ++ [ex]) ++ [k]), ModuleFlag_Export. split; [apply at_eat; exact E1|]. split; reflexivity.
Qed.
Lemma sizes_len : forall raw ss, array_sizes src raw ss -> (length ss <= length (sig_of raw))%nat.
Proof.
  intros raw ss T. induction T as [|g o g' first more c r ss G KO G' KF NC KC NE T IH]; [reflexivity|]. rewrite sig_app, app_length. cbn [sig_of filter]. assert (FO : ~ fmt o) by (tk; lia). rewrite (fmt_nb o FO). cbn [negb length].
  change (filter (fun k => negb (is_formatting (t_type k)))) with sig_of. rewrite sig_app, app_length. cbn [sig_of filter]. rewrite (fmt_nb first KF). cbn [negb length]. change (filter (fun k => negb (is_formatting (t_type k)))) with sig_of. rewrite sig_app, app_length. cbn [sig_of filter].
  assert (FC : ~ fmt c) by (tk; lia). rewrite (fmt_nb c FC). cbn [negb length]. change (filter (fun k => negb (is_formatting (t_type k)))) with sig_of. lia.
Qed.

Lemma stmt_first : forall fin R cmt, statement_end src fin R cmt -> exists g k r, fin = g ++ k :: r /\ gap g /\ t_type k = Tok_Statement_End.
Proof. intros fin R cmt T. destruct T as [g k n r G K NC|g k c r G K KC LC NE]; [exists g, k, []|exists g, k, [c]]; auto. Qed.
Lemma end_next : forall fin RB cmt R (P : token -> Prop), statement_end src fin RB cmt -> (forall k, t_type k = Tok_Statement_End -> In k fin -> P k) -> next_is (fin ++ R) P.
Proof.
  intros fin RB cmt R P T X. destruct (stmt_first _ _ _ T) as (g & k & r & -> & G & K). rewrite <- app_assoc. cbn [app]. apply next_app; [exact G|tk; lia|]. apply X; [exact K|]. apply in_or_app. right. left. reflexivity.
Qed.
Lemma sizes_next : forall raw ss R (P : token -> Prop), array_sizes src raw ss -> (forall k, t_type k = Tok_BraceSquare_Open -> In k raw -> P k) -> next_is R P -> next_is (raw ++ R) P.
Proof.
  intros raw ss R P T X N. destruct T as [|g o g' first more c r ss G KO G' KF NC KC NE T]; [exact N|]. rewrite <- app_assoc. cbn [app]. apply next_app; [exact G|tk; lia|]. apply X; [exact KO|]. apply in_or_app. right. left. reflexivity.
Qed.
Lemma no_size_end : forall k, t_type k = Tok_Statement_End -> no_size src k.
Proof. intros k K. unfold no_size. rewrite K. split; [discriminate|]. intros (X & _). discriminate X. Qed.
Lemma in_mid : forall (A : Type) (k : A) a b c, In k b -> In k (a ++ b ++ c).
Proof. intros. apply in_or_app. right. apply in_or_app. left. assumption. Qed.


Definition scoped (Q : list token) (name : string) sc := (zlen Q, name) :: sc.
Lemma head_ok : forall t nm x kw RR Q sc h, t <> Tok_NewLine -> t <> Tok_Comment -> t <> Tok_Module_Export -> keyword t x kw -> ahead Q (kw ++ RR) ->
  exists Q1 fl, toks = Q1 ++ RR /\ Z.testbit fl 0 = x /\ forall (kont : Z -> M Z),
    (push_scope nm ;;; mflags <- export_flag src toks beyond ms ;; eat src toks beyond ms t ;;; kont mflags) (Pst (zlen Q) sc h) =
    kont fl (Pst (zlen Q1) (scoped Q nm sc) h).
Proof.
  intros t nm x kw RR Q sc h N1 N2 N3 KW A0. destruct (keyword_ok t x kw RR Q (scoped Q nm sc) h KW) as (Q1 & fl & E1 & C1 & X1); auto. exists Q1, fl. split; [exact E1|]. split; [exact X1|]. intros kont.
  unfold push_scope. unfold bind at 1. cbn [rbind p_idx p_scopes p_heap]. fold (scoped Q nm sc). rewrite bind_pack. erewrite bind_ok by exact C1. reflexivity.
Qed.


(** the end of a using declaration: the statement end, and the new node *)
Definition using_node (fl : Z) (name : list Z) (attributes type cc : Z) : node :=
  set_inline cc (set_attrs attributes (set_ret type (AstModel.set_type CT_Using (AstModel.set_flags fl (set_name name zero_node))))).
Lemma using_tail : forall fl name attributes type arr fin R cmt Q top sc h, statement_end src fin (R ++ beyond) cmt -> ahead Q (fin ++ R) -> 0 < h_top h ->
  (type = 0 /\ arr = 0 \/ valid h type /\ n_body (h_node h type) = 0) ->
  exists Q' c h' cc, toks = Q' ++ R /\
  (inline_cmt <- end_statement src toks beyond ms ;;
   result <- on_heap (fun h => Done (make h (fun n => AstModel.set_flags fl (set_name name n)))) ;;
   (edit (fun h => put h result (AstModel.set_type CT_Using)) ;;;
    (if type =? 0 then ret tt else edit (fun h => put h result (set_ret type))) ;;;
    (if arr =? 0 then ret tt else edit (fun h => put h type (set_body arr))) ;;;
    (if attributes =? 0 then ret tt else edit (fun h => put h result (set_attrs attributes))) ;;;
    (if inline_cmt =? 0 then ret tt else edit (fun h => put h result (set_inline inline_cmt)))) ;;;
   parser_pop ;;; ret result) (Pst (zlen Q) (top :: sc) h) = Done (c, Pst (zlen Q') sc h') /\
  like h h' /\ (forall x, valid h x -> x <> type -> h_node h' x = h_node h x) /\ h_top h <= c /\ valid h' c /\
  h_node h' c = using_node fl name attributes type cc /\ maybe (comment_at h') cc cmt /\ (valid h type -> h_node h' type = set_body arr (h_node h type)).
Proof.
  intros fl name attributes type arr fin R cmt Q top sc h SE A TP TY. set (sc' := top :: sc).
  destruct (end_ok src toks beyond ms fuel FT FS fin R cmt Q sc' h SE A TP) as (Q6 & cc & h1 & E6 & C6 & G6 & M6 & B6). erewrite bind_ok by exact C6.
  destruct (any_make (fun n => AstModel.set_flags fl (set_name name n)) h1 (zlen Q6) sc') as (h2 & M2 & T2 & N2 & G7). erewrite bind_ok by exact M2.
  assert (TP1 : 0 < h_top h1) by (destruct G6; lia). set (c := h_top h1) in *. assert (V2 : valid h2 c) by (split; lia). rewrite bind_assoc.
  destruct (any_edit c (AstModel.set_type CT_Using) h2 (zlen Q6) sc' V2) as (h3 & M3 & S3). erewrite bind_ok by exact M3. pose proof (stepped_valid _ _ _ _ _ S3 V2) as V3. pose proof S3 as (T3 & N3 & O3). rewrite N2 in N3.
  rewrite bind_assoc. destruct (opt_edit c type set_ret h3 (zlen Q6) sc' V3) as (h4 & M4 & S4); [rewrite N3; reflexivity|]. erewrite bind_ok by exact M4. pose proof (stepped_valid _ _ _ _ _ S4 V3) as V4. pose proof S4 as (T4 & N4 & O4). rewrite N3 in N4.
  assert (TC : type = 0 \/ type <> 0 /\ type <> c /\ valid h4 type /\ h_node h4 type = h_node h type /\ n_body (h_node h type) = 0).
  { destruct TY as [(-> & _)|((TA & TB) & NB)]; [left; reflexivity|]. right. destruct G6 as (G6 & G6'). split; [lia|]. split; [unfold c; lia|]. split; [split; lia|]. split; [|exact NB].
    rewrite O4, O3 by (unfold c; lia). destruct G7 as (_ & G7). rewrite G7 by (split; lia). apply G6'. split; lia. }
  assert (B5 : exists h5, (if arr =? 0 then ret tt else edit (fun h => put h type (set_body arr))) (Pst (zlen Q6) sc' h4) = Done (tt, Pst (zlen Q6) sc' h5) /\
     (type = 0 /\ h5 = h4 \/ type <> 0 /\ stepped h4 h5 type (set_body arr))).
  { destruct TC as [T0|(T0 & TCC & TV & TE & TB)].
    - assert (arr = 0) as -> by (destruct TY as [(_ & X)|((X & _) & _)]; lia). exists h4. split; [reflexivity|left; auto].
    - destruct (opt_edit type arr set_body h4 (zlen Q6) sc' TV) as (h5 & M5 & S5); [rewrite TE; rewrite <- TB; destruct (h_node h type); reflexivity|]. exists h5. split; [exact M5|right; auto]. }
  destruct B5 as (h5 & M5 & S5). rewrite bind_assoc. erewrite bind_ok by exact M5.
  assert (X5 : h_top h5 = h_top h4 /\ h_node h5 c = h_node h4 c /\ (forall x, x <> type -> h_node h5 x = h_node h4 x) /\ (valid h type -> h_node h5 type = set_body arr (h_node h type)) /\ like h4 h5).
  { destruct S5 as [(T0 & ->)|(T0 & S5)].
    - split; [reflexivity|]. split; [reflexivity|]. split; [reflexivity|]. split; [intros (X & _); lia|apply like_refl].
    - destruct TC as [T1|(T1 & TCC & TV & TE & TB)]; [lia|]. pose proof (like_sim h4 h4 h5 type _ (like_refl _) S5 (sim_body arr)) as LK. destruct S5 as (T5 & N5 & O5). split; [exact T5|]. split; [apply O5; auto|]. split; [exact O5|]. split; [intros _; rewrite N5, TE; reflexivity|exact LK]. }
  destruct X5 as (T5 & N5 & O5 & BT & LK5). rewrite N4 in N5. assert (V5 : valid h5 c) by (destruct V4; split; lia).
  rewrite bind_assoc. destruct (opt_edit c attributes set_attrs h5 (zlen Q6) sc' V5) as (h6 & M7 & S6); [rewrite N5; reflexivity|]. erewrite bind_ok by exact M7. pose proof (stepped_valid _ _ _ _ _ S6 V5) as V6. pose proof S6 as (T6 & N6 & O6). rewrite N5 in N6.
  destruct (opt_edit c cc set_inline h6 (zlen Q6) sc' V6) as (h7 & M8 & S7); [rewrite N6; reflexivity|]. erewrite bind_ok by exact M8. pose proof (stepped_valid _ _ _ _ _ S7 V6) as V7. pose proof S7 as (T7 & N7 & O7). rewrite N6 in N7.
  assert (LK : like h1 h7).
  { eapply like_new; [|exact S7|apply Z.le_refl]. eapply like_new; [|exact S6|apply Z.le_refl]. eapply like_trans; [|exact LK5]. eapply like_new; [|exact S4|apply Z.le_refl]. eapply like_new; [|exact S3|apply Z.le_refl]. apply grow_like, G7. }
  exists Q6, c, h7, cc. split; [exact E6|]. split; [reflexivity|]. split; [eapply like_trans; [apply grow_like, G6|exact LK]|].
  split; [|split; [destruct G6; unfold c; lia|]; split; [exact V7|]; split; [exact N7|]; split; [revert M6; apply like_maybe; apply like_comment; exact LK|]].
  - intros x X XT. pose proof X as (XA & XB). destruct G6 as (G6 & G6'). destruct G7 as (_ & G7). rewrite O7, O6, O5, O4, O3 by (unfold c; lia). rewrite G7 by (split; unfold c in *; lia). apply G6'. exact X.
  - intros X. destruct TC as [T1|(T1 & TCC & TV & TE & TB)]; [destruct X; lia|]. rewrite O7, O6 by auto. apply BT. exact X.
Qed.

Lemma end_flags : forall fin RB cmt R Q, statement_end src fin RB cmt -> ahead Q (fin ++ R) ->
  next_is (fin ++ R) (fun k => t_type k = Tok_Statement_End /\ flags_fit k).
Proof. intros fin RB cmt R Q SE A. eapply next_toks; [exact FIT|exact A|]. eapply end_next; [exact SE|]. auto. Qed.
Lemma no_assign : forall k, flags_fit k -> ~ macro_kind (t_type k) -> t_type k <> Tok_Operator -> t_type k <> Tok_Star -> bitfield_is_set (t_flags k) TF_Assign = false.
Proof. intros k [M|(_ & _ & F & _)] N1 N2 N3; [contradiction|]. apply Z.eqb_neq. intros X. destruct (F X); contradiction. Qed.
Lemma is_assign : forall k, flagged k TF_Assign -> bitfield_is_set (t_flags k) TF_Assign = true.
Proof. intros k F. apply Z.eqb_eq. exact F. Qed.
Lemma using_ok : forall raw R tr Q sc h, using_tokens src raw (R ++ beyond) tr -> ahead Q (raw ++ R) -> world e h ->
  exists Q' c h' tr', toks = Q' ++ R /\ parse_using src toks beyond ms e fuel (Pst (zlen Q) sc h) = Done (c, Pst (zlen Q') sc h') /\
    tree_respaced tr tr' /\ holds h' c tr' /\ grow h h' /\ h_top h <= c /\ sized (h_top h) h' (h_node h' c) tr' /\ n_parent (h_node h' c) = 0.
Proof.
  intros raw R tr Q sc h T A W. pose proof (world_top src toks e fuel FT FS h W) as TP.
  unfold parse_using. remember (R ++ beyond) as RB eqn:RBE. destruct T as [x kw g1 ns g2 k fin rest cmt KW G1 KN G2 KI NE SE|x kw g1 k att at_ fin rest cmt KW G1 KI NE AT SE|x kw g1 k g2 eq ty_ ty sizes ss fin rest cmt KW G1 KI NE G2 EQ TY SZ SE].
  - rewrite <- app_assoc in A. destruct (head_ok Tok_Decl_Using "parser_parse_using" x kw _ Q sc h ltac:(discriminate) ltac:(discriminate) ltac:(discriminate) KW A) as (Q1 & fl & E1 & X1 & HD). rewrite HD. clear HD A. remember (scoped Q "parser_parse_using" sc) as sc' eqn:ESC.
    rewrite <- app_assoc in E1. cbn [app] in E1. rewrite <- app_assoc in E1. cbn [app] in E1. apply ahead_self in E1. assert (F1 : ~ fmt ns) by (tk; unfold Tok_Decl_Namespace in *; lia).
    destruct (a_currtok _ _ _ _ sc' h E1 G1 F1) as (Q2 & E2 & C2). erewrite bind_ok by exact C2. unfold kind in KN. rewrite KN, Z.eqb_refl. cbv zeta iota.
    destruct (a_eat _ ns _ _ sc' h E2 KN) as (A3 & C3). erewrite bind_ok by exact C3. assert (F2 : ~ fmt k) by (tk; lia).
    destruct (a_currtok _ _ _ _ sc' h A3 G2 F2) as (Q4 & E4 & C4). erewrite bind_ok by exact C4.
    destruct (a_eat _ k _ _ sc' h E4 KI) as (A5 & C5). erewrite bind_ok by exact C5. unfold bind at 1. cbn [ret rbind]. cbv iota.
    subst rest. destruct (end_ok src toks beyond ms fuel FT FS fin R cmt _ sc' h SE A5 TP) as (Q6 & cc & h1 & E6 & C6 & G6 & _). erewrite bind_ok by exact C6. rewrite <- word_text.
    destruct (any_make (fun n => AstModel.set_flags fl (set_name (word src k) n)) h1 (zlen Q6) sc') as (h2 & M2 & T2 & N2 & G7). erewrite bind_ok by exact M2.
    assert (TP1 : 0 < h_top h1) by (destruct G6; lia). assert (V2 : valid h2 (h_top h1)) by (split; lia). destruct (any_edit (h_top h1) (AstModel.set_type CT_Using_Namespace) h2 (zlen Q6) sc' V2) as (h3 & M3 & S3). erewrite bind_ok by exact M3.
    exists Q6, (h_top h1), h3, (UsingNamespace (word src k)). split; [exact E6|]. split; [rewrite ESC; reflexivity|]. split; [apply tr_same|].
    pose proof (stepped_grow _ _ _ _ _ G7 (Z.le_refl _) S3) as G8. destruct S3 as (T3 & N3 & O3). rewrite N2 in N3. split; [|split; [|split; [destruct G6; lia|split; [exact I|rewrite N3; reflexivity]]]].
    + cbn [holds]. rewrite N3. split; [split; [split; lia|rewrite N3; left; reflexivity]|]. split; [split; [reflexivity|exact NE]|reflexivity].
    + eapply grow_trans; [exact G6|exact G8].
  - rewrite <- app_assoc in A. destruct (head_ok Tok_Decl_Using "parser_parse_using" x kw _ Q sc h ltac:(discriminate) ltac:(discriminate) ltac:(discriminate) KW A) as (Q1 & fl & E1 & X1 & HD). rewrite HD. clear HD A. unfold scoped. set (sc' := (zlen Q, "parser_parse_using"%string) :: sc).
    rewrite <- app_assoc in E1. cbn [app] in E1. rewrite <- app_assoc in E1. apply ahead_self in E1. assert (F2 : ~ fmt k) by (tk; lia).
    destruct (a_currtok _ _ _ _ sc' h E1 G1 F2) as (Q2 & E2 & C2). erewrite bind_ok by exact C2. unfold kind in KI. assert (NN : (t_type k =? Tok_Decl_Namespace) = false) by (rewrite KI; reflexivity). rewrite NN. cbv zeta iota.
    unfold bind at 1. cbn [ret rbind]. pose proof (ahead_self _ _ _ E2) as A2. destruct (a_currtok Q2 [] k _ sc' h A2 (Forall_nil _) F2) as (Q4 & E4 & C4). erewrite bind_ok by exact C4.
    destruct (a_eat _ k _ _ sc' h E4 KI) as (A5 & C5). erewrite bind_ok by exact C5. rewrite bind_assoc. subst rest.
    assert (NX : next_is (fin ++ R) (fun k => t_type k = Tok_Statement_End /\ flags_fit k)).
    { eapply end_next; [exact SE|]. intros k' K' I'. split; [exact K'|]. eapply ahead_fit; [exact FIT|exact A5|apply in_mid; exact I'|tk; lia]. }
    destruct (attributes_ok src toks beyond ms fuel SRC BYTES att (fin ++ R) at_ _ sc' h (attribute_more _ _ _ R _ AT) A5) as (Q6 & aa & h1 & E6 & C6 & G6 & M6 & B6); auto.
    { eapply next_impl; [exact NX|]. intros k' (K1 & K2). apply not_attr_flag; auto; tk; lia. }
    erewrite bind_ok by exact C6. rewrite bind_assoc. apply stands_ahead in E6. destruct NX as (g & k' & r & EN & GN & FN & KN & FITN). pose proof E6 as A6. rewrite EN in A6. destruct (a_currtok _ _ _ _ sc' h1 A6 GN FN) as (Q7 & E7 & C7). erewrite bind_ok by exact C7.
    rewrite (no_assign k' FITN) by (tk; lia). unfold bind at 1. cbn [ret rbind]. cbv iota. 
    assert (A7 : ahead Q7 (fin ++ R)). { rewrite EN. exists (k' :: r). split; [exact E7|]. rewrite trim_gap by exact GN. reflexivity. }
    assert (TP1 : 0 < h_top h1) by (destruct G6; lia). rewrite <- word_text.
    destruct (using_tail fl (word src k) aa 0 0 fin R cmt Q7 (zlen Q, "parser_parse_using"%string) sc h1 SE A7 TP1 (or_introl (conj eq_refl eq_refl))) as (Q8 & c & h2 & cc & E8 & C8 & LK & OT & TC & VC & NC & MC & _).
    exists Q8, c, h2, (Using x at_ (word src k) None cmt). split; [exact E8|]. split; [exact C8|]. split; [apply tr_same|]. split; [|split; [|split; [destruct G6; lia|split; [exact I|rewrite NC; reflexivity]]]].
    + cbn [holds]. rewrite NC. unfold using_node. cbn. split; [split; [exact VC|rewrite NC; left; reflexivity]|]. split; [exact X1|]. split; [revert M6; apply like_maybe; apply like_content; exact LK|]. split; [split; [reflexivity|exact NE]|]. split; [reflexivity|exact MC].
    + destruct LK as (LK & _). eapply grow_trans; [exact G6|]. split; [exact LK|]. intros y Y. apply OT; [exact Y|]. destruct Y; lia.
  - rewrite <- app_assoc in A. destruct (head_ok Tok_Decl_Using "parser_parse_using" x kw _ Q sc h ltac:(discriminate) ltac:(discriminate) ltac:(discriminate) KW A) as (Q1 & fl & E1 & X1 & HD). rewrite HD. clear HD A. unfold scoped. set (sc' := (zlen Q, "parser_parse_using"%string) :: sc).
    rewrite <- app_assoc in E1. cbn [app] in E1. rewrite <- app_assoc in E1. cbn [app] in E1. rewrite <- !app_assoc in E1. apply ahead_self in E1. assert (F2 : ~ fmt k) by (tk; lia).
    destruct (a_currtok _ _ _ _ sc' h E1 G1 F2) as (Q2 & E2 & C2). erewrite bind_ok by exact C2. unfold kind in KI. assert (NN : (t_type k =? Tok_Decl_Namespace) = false) by (rewrite KI; reflexivity). rewrite NN. cbv zeta iota.
    unfold bind at 1. cbn [ret rbind]. pose proof (ahead_self _ _ _ E2) as A2. destruct (a_currtok Q2 [] k _ sc' h A2 (Forall_nil _) F2) as (Q4 & E4 & C4). erewrite bind_ok by exact C4.
    destruct (a_eat _ k _ _ sc' h E4 KI) as (A5 & C5). erewrite bind_ok by exact C5. rewrite bind_assoc. subst rest. destruct EQ as (KE & FE). unfold kind in KE. assert (F3 : ~ fmt eq) by (tk; lia).
    assert (FQ : flags_fit eq). { eapply ahead_fit; [exact FIT|exact A5|apply in_or_app; right; left; reflexivity|exact F3]. }
    assert (NA : ~ flagged eq TF_Attribute) by (apply not_attr_flag; auto; tk; lia).
    destruct (no_attributes src toks beyond ms fuel _ _ sc' h A5 (next_app _ _ _ _ G2 F3 NA)) as (Q6 & E6 & C6). erewrite bind_ok by exact C6. rewrite trim_gap, trim_sig in E6 by auto. pose proof (ahead_self _ _ _ E6) as A6.
    rewrite bind_assoc. destruct (a_currtok Q6 [] eq _ sc' h A6 (Forall_nil _) F3) as (Q7 & E7 & C7). erewrite bind_ok by exact C7. rewrite (is_assign _ FE). apply ahead_self in E7.
    rewrite bind_assoc. destruct (no_attributes src toks beyond ms fuel Q7 _ sc' h E7 (next_app [] eq _ _ (Forall_nil _) F3 NA)) as (Q8 & E8 & C8). erewrite bind_ok by exact C8. rewrite trim_sig in E8 by auto. rewrite bind_assoc.
    destruct (a_eat _ eq _ _ sc' h E8 KE) as (A9 & C9). erewrite bind_ok by exact C9. rewrite bind_assoc. apply (type_more _ _ _ R) in TY. rewrite <- app_assoc in TY.
    assert (NX : next_is (sizes ++ fin ++ R) ends_type).
    { eapply sizes_next; [exact SZ| |eapply end_next; [exact SE|]]; intros k' K' I'; (assert (FK : flags_fit k') by (eapply ahead_fit; [exact FIT|exact A9|rewrite !in_app_iff; auto|tk; lia])); (split; [apply not_spec_flag; auto; tk; lia|]); tk; lia. }
    destruct (type_ok src toks beyond ms e fuel SRC FIT BYTES FT FS false ty_ (sizes ++ fin ++ R) ty _ sc' h TY A9 NX ltac:(discriminate) W) as (Qa & tyc & h1 & ty' & Aa & Ca & RS & GR & TT & TA & TK & TR & TB & TPP). erewrite bind_ok by exact Ca. rewrite bind_assoc.
    assert (TP1 : 0 < h_top h1) by (destruct GR; lia). assert (SL : (length ss < fuel)%nat). { pose proof (sizes_len _ _ SZ). pose proof (ahead_sig_len toks _ _ _ Aa). lia. }
    destruct (arrays_ok src toks beyond ms e fuel FT FS ss fuel sizes (fin ++ R) Qa sc' h1 SL SZ Aa) as (Qb & ac & h2 & Ab & Cb & GB & FB & EB & BB); auto. { eapply end_next; [exact SE|]. intros k' K' _. apply no_size_end, K'. }
    erewrite bind_ok by exact Cb. unfold bind at 1. cbn [ret rbind]. cbv iota. rewrite <- word_text.
    assert (TP2 : 0 < h_top h2) by (destruct GB; lia). destruct TA as (VT & TA'). assert (VT2 : valid h2 tyc) by (destruct GB as (GB & _); destruct VT; split; lia).
    assert (NT : h_node h2 tyc = h_node h1 tyc) by (apply GB; exact VT).
    destruct (using_tail fl (word src k) 0 tyc ac fin R cmt Qb (zlen Q, "parser_parse_using"%string) sc h2 SE Ab TP2) as (Qc & c & h3 & cc & Ec & Cc & LK & OT & TC & VC & NC & MC & BT); [right; split; [exact VT2|rewrite NT; exact TB]|].
    exists Qc, c, h3, (Using x None (word src k) (Some (ty', ss)) cmt). split; [exact Ec|]. split; [exact Cc|]. split; [apply tr_using; exact RS|]. split; [|split; [|split; [|split; [|rewrite NC; reflexivity]]]].
    + cbn [holds]. rewrite NC. unfold using_node. cbn. split; [split; [exact VC|rewrite NC; left; reflexivity]|]. split; [exact X1|]. split; [reflexivity|]. split; [split; [reflexivity|exact NE]|]. split; [|exact MC].
      split; [eapply like_typ; [exact LK|]; eapply like_typ; [apply grow_like; exact GB|]; split; [exact VT|exact TA']|]. rewrite BT by exact VT2. cbn. apply (from_like _ _ _ _ TP1 FB LK).
    + destruct LK as (LK & _). pose proof (grow_trans _ _ _ GR GB) as GG. split; [destruct GG; lia|]. intros y Y. pose proof Y as (Y1 & Y2). rewrite OT; [apply GG; exact Y|destruct GG; split; lia|lia].
    + destruct GR, GB. lia.
    + rewrite NC. unfold using_node. cbn [n_ret set_ret set_inline set_attrs sized AstModel.set_flags AstModel.set_type set_name]. rewrite BT by exact VT2. cbn [n_body n_type set_body]. split; [rewrite NT; exact TK|]. eapply fresh_le; [|exact (from_fresh _ _ _ _ _ TP1 FB LK)]. destruct GR; lia.
Qed.
End P.
