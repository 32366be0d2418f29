(** Unions: their bodies, and unions as members of unions. *)
From Coq Require Import String ZArith List Bool Lia ZifyBool ZifyNat.
From Verif Require Import Common Text HashModel StrOpsModel EnumModel EnumSpec EnumProofs LexModel LexSpec NavModel StripModel StripSpec StripProofs AstModel AstSpec AstProofs AstProofs4 UpfrontModel UpfrontSpec UpfrontProofs4 SerSpec SerProofs SerProofs2 ParseModel ParseSpec
  ParseProofs ParseProofs2 ParseProofs3 ParseProofs4 ParseProofs5 ParseProofs6 ParseProofs7 ParseProofs8 ParseProofs9 ParseProofs10 ParseProofs11 FnModel FnSpec FnProofs FnProofs2 FnProofs3 FnProofs4 GlobalModel GlobalSpec GlobalProofs GlobalProofs2 GlobalProofs3 GlobalProofs4 GlobalProofs5 GlobalProofs6 GlobalProofs7 GlobalProofs8 GlobalProofs9 ClassProofs ClassProofs2 ClassProofs3 UnionProofs.
Import ListNotations.
Close Scope string_scope.
Open Scope Z_scope.
Open Scope parse_scope.
Section P.
Variable src : list Z.
Variable toks beyond : list token.
Variable ms : macros.
Variable e : env.
Variable gl : globals.
Variable fuel : nat.
Hypothesis SRC : Forall (in_source src) toks.
Hypothesis FIT : Forall flags_fit toks.
Hypothesis BYTES : Forall (fun c => 0 <= c < 256) src.
Hypothesis FT : (length toks < fuel)%nat.
Hypothesis FS : (length src < fuel)%nat.
Hypothesis NOM : no_macro_spec ms.
Hypothesis BY : (2 <= length beyond)%nat.
Notation globals_in := (globals_in e gl).
Notation gathered := (gathered src toks beyond ms e gl fuel).
Notation class_struct := (class_struct src toks beyond ms e gl fuel).
Notation class_body := (class_body src toks beyond ms e gl fuel).
Notation from_kw := (from_kw src toks beyond ms e fuel).
Notation ahead := (ahead toks).
Notation check := (check toks beyond).
Notation eat := (eat src toks beyond ms).


Notation union_loop := (union_loop src toks beyond ms e gl fuel).
Notation union_member := (union_member src toks beyond ms e gl fuel).
Notation parse_union_with := (parse_union_with src toks beyond ms e gl fuel).
Notation gathers := (gathers e).


Notation ureads := (ureads src toks beyond ms e gl fuel).
Notation export_flag := (export_flag src toks beyond ms).
Notation keeps_trans := (GlobalProofs9.keeps_trans src toks beyond fuel FT FS BY).
Notation grow_keeps := (GlobalProofs9.grow_keeps src toks beyond fuel FT FS BY).
Notation keeps_grow := (GlobalProofs9.keeps_grow src toks beyond fuel FT FS BY).

(** ** the body *)
Definition ugathered (O : Z -> Prop) (b lo : Z) (h0 : heap) (d n : nat) (raw rest : list token) (l : list tree) : Prop := forall xs l0 Q sc h,
  toks = Q ++ raw ++ rest -> (length raw < n)%nat -> (length raw < d)%nat -> open O b lo h xs l0 -> grow h0 h ->
  exists Q' h' xs' l' n', toks = Q' ++ rest /\ open O b lo h' (xs ++ xs') (l0 ++ l') /\ Forall2 tree_like l l' /\ keeps b lo h h' /\ grow h0 h' /\
    union_loop n (class_struct d) b (Pst (zlen Q) sc h) = union_loop n' (class_struct d) b (Pst (zlen Q') sc h').
Lemma ugathered_cons : forall O b lo h0 d n m raw rest t l,
  (forall xs l0 Q sc h, toks = Q ++ m ++ raw ++ rest -> (length (m ++ raw) < d)%nat -> open O b lo h xs l0 -> grow h0 h ->
   exists Q' h' c' t', toks = Q' ++ raw ++ rest /\ open O b lo h' (xs ++ [c']) (l0 ++ [t']) /\ tree_like t t' /\ keeps b lo h h' /\ grow h0 h' /\
     union_loop (S n) (class_struct d) b (Pst (zlen Q) sc h) = union_loop n (class_struct d) b (Pst (zlen Q') sc h')) ->
  (1 <= length m)%nat -> ugathered O b lo h0 d n raw rest l -> ugathered O b lo h0 d (S n) (m ++ raw) rest (t :: l).
Proof.
  intros O b lo h0 d n m raw rest t l ST M IH xs l0 Q sc h E L D OP G. rewrite <- app_assoc in E. destruct (ST xs l0 Q sc h E D OP G) as (Q1 & h1 & c' & t' & E1 & OP1 & TL & K1 & G1 & C1).
  rewrite app_length in L, D. destruct (IH _ _ Q1 sc h1 E1 ltac:(lia) ltac:(lia) OP1 G1) as (Q2 & h2 & xs' & l' & n' & E2 & OP2 & F & K2 & G2 & C2).
  exists Q2, h2, (c' :: xs'), (t' :: l'), n'. split; [exact E2|]. rewrite <- !app_assoc in OP2. split; [exact OP2|]. split; [constructor; assumption|]. split; [eapply keeps_trans; eauto|]. split; [exact G2|]. rewrite C1. exact C2.
Qed.
Lemma usimple_step : forall O (OD : forall x, O x \/ ~ O x) n d b lo xs l0 Q sc h h0 m rest t, union_simple src beyond m rest t -> toks = Q ++ m ++ rest -> open O b lo h xs l0 ->
  world e h0 -> globals_in h0 -> grow h0 h -> h_top h0 <= b ->
  exists Q' h' c' t', toks = Q' ++ rest /\ open O b lo h' (xs ++ [c']) (l0 ++ [t']) /\ tree_like t t' /\ keeps b lo h h' /\ grow h0 h' /\
    union_loop (S n) (class_struct d) b (Pst (zlen Q) sc h) = union_loop n (class_struct d) b (Pst (zlen Q') sc h').
Proof.
  intros O OD n d b lo xs l0 Q sc h h0 m rest t T E OP W0 GI0 G0 HB. destruct (open_lo _ _ _ _ _ _ OP) as (LT & BLO & B0).
  assert (W : world e h) by (eapply world_grow; eauto). assert (GI : globals_in h) by (eapply (globals_grow src toks e gl fuel FT FS); eauto).
  destruct (usimple_reads src toks beyond ms e gl fuel SRC FIT BYTES FT FS BY m rest t T Q sc h E W GI) as (Q' & c & h1 & t' & E1 & (TL & LF & CL & HO & G1 & VC & BF & PC & NI) & C).
  assert (OP1 : open O b lo h1 xs l0) by (eapply open_grow; eauto). assert (RG : row O h1 lo xs l0 (h_top h)) by (eapply row_grow; eauto).
  assert (NO : ~ O c) by (eapply not_open; [apply (o_forms _ _ _ _ _ _ OP1)|exact BF]). assert (CB : c <> b) by (intros ->; apply NO; apply (o_in _ _ _ _ _ _ OP)).
  destruct (append_ok O OD fuel b lo h1 xs l0 c t' (h_top h) ltac:(lia) OP1 RG ltac:(destruct G1; lia) VC CB BF PC) as (h2 & c' & A1 & A2 & A3 & A4 & A5).
  { intros h2 c' TC. eapply leaf_holds; eauto. intros x X. pose proof (o_below _ _ _ _ _ _ OP x X). lia. }
  assert (KP : keeps b lo h h2) by (eapply keeps_trans; [apply grow_keeps; [exact G1|exact LT|lia]|split; [assumption|split; assumption]]).
  exists Q', h2, c', t'. split; [exact E1|]. split; [exact A2|]. split; [exact TL|]. split; [exact KP|]. split; [eapply keeps_grow; eauto|].
  rewrite (C (class_struct d) n b). unfold bind at 1. unfold edit. cbn [p_heap]. rewrite A1. reflexivity.
Qed.

(** ** what one leaves in memory *)
Definition union_node (fl ca b : Z) (name : list Z) : node := set_attrs ca (AstModel.set_body b (set_name name (set_flags fl (AstModel.set_type CT_Union zero_node)))).
Lemma union_holds : forall O (OD : forall x, O x \/ ~ O x) h h' hx fl x ca at_ b name n c' l, Z.testbit fl 0 = x -> maybe (content_at h') ca at_ -> valid h' n -> h_node h' n = union_node fl ca b name ->
  touch O (h_top h) h' hx n c' -> (forall y, O y -> y < h_top h) -> bodied hx b l -> holds hx c' (Union x at_ name l).
Proof.
  intros O OD h h' hx fl x ca at_ b name n c' l XF MA VN NN TC OB BD. assert (ST : statement h' (h_node h' n)) by (left; rewrite NN; reflexivity).
  pose proof (tc_moved _ _ _ _ _ _ TC) as RM. pose proof (tc_parent _ _ _ _ _ _ TC) as RP.
  assert (ST' : statement hx (h_node hx c')) by (eapply t_statement; eauto). pose proof RM as (f & y & p & EM). rewrite NN in EM. cbn [holds]. unfold kind_is, exports. rewrite EM in ST' |- *. cbn.
  split; [split; [apply (tc_valid _ _ _ _ _ _ TC)|auto]|]. split; [exact XF|]. split; [revert MA; apply t_maybe; intros z t; eapply t_content; eauto|]. split; [reflexivity|]. split; [exact BD|exact ST'].
Qed.
(** [union] attributes name *)
Definition from_union (cls : Z -> M Z) (mflags : Z) : M Z :=
  eat Tok_Decl_Union ;;;
  attributes <- parse_attributes src toks beyond ms fuel ;;
  b <- check Tok_Identifier ;;
  name <- (if b then k <- currtok toks beyond ;; eat Tok_Identifier ;;; ret (text_of src k) else ret []) ;;
  eat Tok_BraceCurly_Open ;;;
  body <- on_heap (fun h => Done (make h (AstModel.set_type CT_Union_Body))) ;;
  union_loop fuel cls body ;;;
  eat Tok_BraceCurly_Close ;;;
  eat Tok_Statement_End ;;;
  result <- on_heap (fun h => Done (make h (fun n => n))) ;;
  edit (fun h => put h result (fun n => set_attrs attributes (AstModel.set_body body (set_name name (set_flags mflags (AstModel.set_type CT_Union n)))))) ;;;
  parser_pop ;;; ret result.
Lemma from_eq : forall cls s, parse_union_with cls s = (push_scope "parser_parse_union" ;;; fl <- export_flag ;; from_union cls fl) s.
Proof. reflexivity. Qed.
Lemma uhead_ok : forall h_ o R at_ name Q sc h (K : Z -> list Z -> M Z), union_head src h_ [o] at_ name -> toks = Q ++ h_ ++ o :: R -> kind Tok_BraceCurly_Open o -> world e h ->
  exists Q' ca h', toks = Q' ++ o :: R /\ grow h h' /\ maybe (content_at h') ca at_ /\
    (eat Tok_Decl_Union ;;; attributes <- parse_attributes src toks beyond ms fuel ;; b <- check Tok_Identifier ;; name <- (if b then k <- currtok toks beyond ;; eat Tok_Identifier ;;; ret (text_of src k) else ret []) ;; K attributes name) (Pst (zlen Q) sc h)
    = K ca name (Pst (zlen Q') sc h').
Proof.
  intros h_ o R at_ name Q sc h K UH E KO W. pose proof (world_top src toks e fuel FT FS h W) as TP. assert (FO : ~ fmt o) by (unfold kind in KO; unfold fmt; rewrite KO; intros [X|X]; discriminate X).
  assert (FITO : forall k, In k toks -> t_type k = Tok_BraceCurly_Open \/ t_type k = Tok_Identifier -> ~ flagged k TF_Attribute).
  { intros k I KT. pose proof (proj1 (Forall_forall _ _) FIT k I) as F. apply not_attr_flag; [exact F|destruct KT; tk; lia|destruct KT; tk; lia]. }
  remember [o] as rest eqn:ER in UH. destruct UH as [k att at_ g n rest K0 AW G KN|k att at_ g rest K0 AW G]; subst rest; unfold kind in K0; cbn [app] in E;
    destruct (a_eat src toks beyond ms Q k _ Tok_Decl_Union sc h E K0) as (_ & C1); erewrite bind_ok by exact C1; apply at_eat in E; set (P := Q ++ [k]) in *.
  - unfold kind in KN. assert (FN : ~ fmt n) by (unfold fmt; rewrite KN; intros [X|X]; discriminate X). rewrite <- !app_assoc in E. cbn [app] in E. pose proof (ahead_self toks _ _ E) as A.
    apply (attribute_more _ _ _ R) in AW. rewrite <- app_assoc in AW. cbn [app] in AW.
    destruct (attributes_ok src toks beyond ms fuel SRC BYTES att (g ++ n :: o :: R) at_ P sc h AW A) as (Q2 & ca & h1 & E2 & C2 & G1 & MA & _); auto.
    { apply next_app; [exact G|exact FN|]. apply FITO; [rewrite E, !in_app_iff; right; right; right; left; reflexivity|auto]. }
    erewrite bind_ok by exact C2. apply stands_ahead in E2.
    destruct (a_check toks beyond Q2 g n (o :: R) Tok_Identifier sc h1 E2 G FN) as (Q3 & E3 & C3). erewrite bind_ok by exact C3. rewrite KN, Z.eqb_refl. cbv iota.
    assert (C4 : currtok toks beyond (Pst (zlen Q3) sc h1) = Done (n, Pst (zlen Q3) sc h1)) by (rewrite (currtok_ok toks beyond [] Q3 n (o :: R) sc h1 E3 (Forall_nil _) FN), app_nil_r; reflexivity).
    destruct (a_eat src toks beyond ms Q3 n _ Tok_Identifier sc h1 E3 KN) as (_ & C5). exists (Q3 ++ [n]), ca, h1. split; [apply at_eat; exact E3|]. split; [exact G1|]. split; [exact MA|].
    rewrite bind_assoc. erewrite bind_ok by exact C4. rewrite bind_assoc. erewrite bind_ok by exact C5. rewrite <- word_text. reflexivity.
  - rewrite <- !app_assoc in E. pose proof (ahead_self toks _ _ E) as A.
    apply (attribute_more _ _ _ R) in AW. rewrite <- app_assoc in AW. cbn [app] in AW.
    destruct (attributes_ok src toks beyond ms fuel SRC BYTES att (g ++ o :: R) at_ P sc h AW A) as (Q2 & ca & h1 & E2 & C2 & G1 & MA & _); auto.
    { apply next_app; [exact G|exact FO|]. apply FITO; [rewrite E, !in_app_iff; right; right; right; left; reflexivity|auto]. }
    erewrite bind_ok by exact C2. apply stands_ahead in E2.
    destruct (a_check toks beyond Q2 g o R Tok_Identifier sc h1 E2 G FO) as (Q3 & E3 & C3). erewrite bind_ok by exact C3. unfold kind in KO. rewrite KO. change (Tok_BraceCurly_Open =? Tok_Identifier) with false. cbv iota.
    exists Q3, ca, h1. split; [exact E3|]. split; [exact G1|]. split; [exact MA|]. reflexivity.
Qed.

Lemma union_def : forall O (OD : forall x, O x \/ ~ O x) d fl x Q h_ at_ name o body c semi R sc s0 h inner,
  (forall h0 O' b' lo', world e h0 -> globals_in h0 -> h_top h0 <= b' -> (forall x, O' x \/ ~ O' x) -> ugathered O' b' lo' h0 d fuel body (c :: semi :: R) inner) ->
  toks = Q ++ h_ ++ o :: body ++ c :: semi :: R -> union_head src h_ [o] at_ name -> kind Tok_BraceCurly_Open o -> kind Tok_BraceCurly_Close c -> kind Tok_Statement_End semi ->
  Z.testbit fl 0 = x -> (length body < d)%nat -> world e h -> globals_in h -> forms O h -> (forall y, O y -> y < h_top h) ->
  exists Q' h' n inner', toks = Q' ++ R /\ Forall2 tree_like inner inner' /\ declares O h h' n (Union x at_ name inner') /\
    from_union (class_struct d) fl (Pst (zlen Q) (s0 :: sc) h) = Done (n, Pst (zlen Q') sc h').
Proof.
  intros O OD d fl x Q h_ at_ name o body c semi R sc s0 h inner IH E UH KO KC KS XF LB W GI FO OB. pose proof (world_top src toks e fuel FT FS h W) as TP.
  destruct (uhead_ok h_ o (body ++ c :: semi :: R) at_ name Q (s0 :: sc) h (fun attributes name => eat Tok_BraceCurly_Open ;;; body <- on_heap (fun h => Done (make h (AstModel.set_type CT_Union_Body))) ;;
    union_loop fuel (class_struct d) body ;;; eat Tok_BraceCurly_Close ;;; eat Tok_Statement_End ;;; result <- on_heap (fun h => Done (make h (fun n => n))) ;;
    edit (fun h => put h result (fun n => set_attrs attributes (AstModel.set_body body (set_name name (set_flags fl (AstModel.set_type CT_Union n)))))) ;;; parser_pop ;;; ret result) UH E KO W) as (Q1 & ca & hh & E1 & G1 & MA & C1).
  unfold from_union. rewrite C1. clear C1. unfold kind in KO, KS. pose proof KC as KC'. unfold kind in KC'.
  destruct (a_eat src toks beyond ms Q1 o _ Tok_BraceCurly_Open (s0 :: sc) hh E1 KO) as (_ & C2). erewrite bind_ok by exact C2. apply at_eat in E1.
  destruct (any_make (AstModel.set_type CT_Union_Body) hh (zlen (Q1 ++ [o])) (s0 :: sc)) as (h1 & M1 & T1 & N1 & G2). erewrite bind_ok by exact M1. set (b := h_top hh) in *.
  assert (TPH : h_top h <= b) by (destruct G1; unfold b; lia).
  assert (OD' : forall y, (O y \/ y = b) \/ ~ (O y \/ y = b)) by (intros y; destruct (OD y), (Z.eq_dec y b); tauto).
  assert (OP1 : open (fun y => O y \/ y = b) b (b + 1) h1 [] []).
  { assert (FO1 : forms (fun y => O y \/ y = b) h1). { pose proof (grow_trans _ _ _ G1 G2) as (T & N). intros y [Y|Y]; [destruct (FO y Y) as (V & F); split; [destruct V; split; lia|rewrite N by exact V; exact F]|]. rewrite Y. split; [split; lia|]. rewrite N1. unfold form. cbn. repeat split; auto 10. }
    apply (open_new _ OD'); [right; reflexivity|intros y [Y|Y]; [pose proof (OB y Y); lia|lia]|lia|exact FO1|exact T1|eauto]. }
  assert (WH : world e hh) by (eapply world_grow; eauto). assert (GIH : globals_in hh) by (eapply (globals_grow src toks e gl fuel FT FS); eauto).
  assert (LF : (length body < fuel)%nat) by (rewrite E1, !app_length in FT; lia).
  destruct (IH hh (fun y => O y \/ y = b) b (b + 1) WH GIH ltac:(unfold b; lia) OD' [] [] (Q1 ++ [o]) (s0 :: sc) h1 E1 LF LB OP1 G2) as (Q3 & h2 & xs & l' & n' & E3 & OP2 & F & K2 & G3 & C4). cbn [app] in OP2.
  assert (C4' : union_loop fuel (class_struct d) b (Pst (zlen (Q1 ++ [o])) (s0 :: sc) h1) = Done (tt, Pst (zlen Q3) (s0 :: sc) h2)) by (rewrite C4; eapply finish_union; [exact E3|exact KC]).
  erewrite bind_ok by exact C4'. destruct (a_eat src toks beyond ms Q3 c _ Tok_BraceCurly_Close (s0 :: sc) h2 E3 KC') as (_ & C5). erewrite bind_ok by exact C5. apply at_eat in E3.
  destruct (a_eat src toks beyond ms (Q3 ++ [c]) semi _ Tok_Statement_End (s0 :: sc) h2 E3 KS) as (_ & C6). erewrite bind_ok by exact C6. apply at_eat in E3. set (Q4 := (Q3 ++ [c]) ++ [semi]) in *.
  destruct (any_make (fun n => n) h2 (zlen Q4) (s0 :: sc)) as (h3 & M3 & T3 & N3 & G4). erewrite bind_ok by exact M3.
  assert (V2 : valid h2 b) by (destruct K2; split; lia). assert (V3 : valid h3 (h_top h2)) by (destruct V2; split; lia).
  destruct (any_edit (h_top h2) (fun n => set_attrs ca (AstModel.set_body b (set_name name (set_flags fl (AstModel.set_type CT_Union n))))) h3 (zlen Q4) (s0 :: sc) V3) as (h4 & C7 & S4). erewrite bind_ok by exact C7.
  assert (NN : h_node h4 (h_top h2) = union_node fl ca b name) by (destruct S4 as (_ & N4 & _); rewrite N4, N3; reflexivity).
  assert (G5 : grow h2 h4) by (eapply stepped_grow; [exact G4| |exact S4]; lia). assert (VN : valid h4 (h_top h2)) by (eapply stepped_valid; eauto).
  exists Q4, h4, (h_top h2), l'. split; [exact E3|]. split; [exact F|]. split; [|reflexivity].
  destruct V2 as (V2a & V2b). pose proof (grow_trans _ _ _ G1 (grow_trans _ _ _ G3 G5)) as G14. split; [exact G14|]. split; [lia|]. split; [exact VN|]. rewrite NN. split; [reflexivity|]. split; [reflexivity|].
  intros hx c' TC. assert (MA4 : maybe (content_at h4) ca at_) by (revert MA; apply like_maybe; apply like_content; apply grow_like; exact (grow_trans _ _ _ G3 G5)).
  eapply union_holds; [exact OD|exact XF|exact MA4|exact VN|exact NN|exact TC|exact OB|].
  eapply (block_touch2 O b (b + 1) h2 xs l' h4 hx (h_top h) (h_top h2) c'); [exact OP2|destruct G5; lia|exact V2b| |intros y Y; apply G5; split; lia| |exact TC|lia|right; lia].
  - exists (n_parent (h_node h2 b)). destruct G5 as (_ & N5). rewrite N5 by (split; lia). destruct (h_node h2 b). reflexivity.
  - intros y Y _. destruct G5 as (_ & N5). rewrite N5 by (destruct Y; split; lia). apply loose_refl.
Qed.
Lemma uhead_first : forall h_ rest at_ name, union_head src h_ rest at_ name -> exists k r, h_ = k :: r /\ kind Tok_Decl_Union k.
Proof. intros h_ rest at_ name H. destruct H; eauto. Qed.
(** [parse_complicated_definition] at a union *)
Lemma union_nested : forall O (OD : forall x, O x \/ ~ O x) d Q h_ at_ name o body c semi R sc h inner,
  (forall h0 O' b' lo', world e h0 -> globals_in h0 -> h_top h0 <= b' -> (forall x, O' x \/ ~ O' x) -> ugathered O' b' lo' h0 d fuel body (c :: semi :: R) inner) ->
  toks = Q ++ h_ ++ o :: body ++ c :: semi :: R -> union_head src h_ [o] at_ name -> plain_tokens h_ -> kind Tok_BraceCurly_Open o -> in_braces body -> kind Tok_BraceCurly_Close c -> kind Tok_Statement_End semi ->
  (length body < d)%nat -> world e h -> globals_in h -> forms O h -> (forall y, O y -> y < h_top h) ->
  exists Q' h' n inner', toks = Q' ++ R /\ Forall2 tree_like inner inner' /\ declares O h h' n (Union false at_ name inner') /\
    parse_complicated_definition src toks beyond ms e gl fuel (class_struct (S d)) Tok_Decl_Union (Pst (zlen Q) sc h) = Done (n, Pst (zlen Q') sc h').
Proof.
  intros O OD d Q h_ at_ name o body c semi R sc h inner IH E UH PL KO IB KC KS LB W GI FO OB. destruct (uhead_first _ _ _ _ UH) as (k & hr & EH & K).
  set (s0 := (zlen Q, "parse_complicated_definition"%string)). set (s1 := (zlen Q, "parser_parse_union"%string)).
  destruct (union_def O OD d 0 false Q h_ at_ name o body c semi R (s0 :: sc) s1 h inner IH E UH KO KC KS eq_refl LB W GI FO OB) as (Q' & h' & n & l' & E' & F & DE & C).
  exists Q', h', n, l'. split; [exact E'|]. split; [exact F|]. split; [exact DE|].
  rewrite (complicated_class src toks beyond ms e gl fuel FIT FT FS BY (class_struct (S d)) Tok_Decl_Union (h_ ++ o :: body ++ [c]) semi R Q sc h); [|auto|rewrite E; rewrite <- !app_assoc; cbn [app]; rewrite <- !app_assoc; reflexivity|exact KS|left; exists h_, o, body, c; auto].
  fold s0. cbn [GlobalModel.class_struct]. rewrite Z.eqb_refl. unfold bind at 1. rewrite from_eq. unfold push_scope. unfold bind at 1. cbn [rbind p_idx p_scopes p_heap]. fold s1.
  assert (FK : ~ fmt k) by (unfold kind in K; unfold fmt; rewrite K; intros [X|X]; discriminate X). assert (E0 : toks = Q ++ k :: hr ++ o :: body ++ c :: semi :: R) by (rewrite E, EH; reflexivity).
  destruct (a_check toks beyond Q [] k _ Tok_Module_Export (s1 :: s0 :: sc) h (ahead_self toks _ _ E0) ltac:(constructor) FK) as (Q2 & E2 & C2).
  assert (Q2 = Q). { rewrite E0 in E2. apply app_inv_tail in E2. auto. } subst Q2.
  unfold ParseModel.export_flag. rewrite bind_assoc. erewrite bind_ok by exact C2. unfold kind in K. rewrite K. change (Tok_Decl_Union =? Tok_Module_Export) with false. cbv iota. erewrite bind_ok by reflexivity. rewrite C. reflexivity.
Qed.
Lemma union_step : forall O (OD : forall x, O x \/ ~ O x) n d b lo xs l0 Q h_ at_ name o body c semi R sc h h0 inner,
  (forall h0 O' b' lo' d, world e h0 -> globals_in h0 -> h_top h0 <= b' -> (forall x, O' x \/ ~ O' x) -> ugathered O' b' lo' h0 d fuel body (c :: semi :: R) inner) ->
  toks = Q ++ h_ ++ o :: body ++ c :: semi :: R -> union_head src h_ [o] at_ name -> plain_tokens h_ -> kind Tok_BraceCurly_Open o -> in_braces body -> kind Tok_BraceCurly_Close c -> kind Tok_Statement_End semi ->
  (S (length body) < d)%nat -> open O b lo h xs l0 -> world e h0 -> globals_in h0 -> grow h0 h -> h_top h0 <= b ->
  exists Q' h' c' inner', toks = Q' ++ R /\ open O b lo h' (xs ++ [c']) (l0 ++ [Union false at_ name inner']) /\ Forall2 tree_like inner inner' /\ keeps b lo h h' /\ grow h0 h' /\
    union_loop (S n) (class_struct d) b (Pst (zlen Q) sc h) = union_loop n (class_struct d) b (Pst (zlen Q') sc h').
Proof.
  intros O OD n d b lo xs l0 Q h_ at_ name o body c semi R sc h h0 inner IH E UH PL KO IB KC KS LB OP W0 GI0 G0 HB.
  assert (W : world e h) by (eapply world_grow; eauto). assert (GI : globals_in h) by (eapply (globals_grow src toks e gl fuel FT FS); eauto). destruct d as [|d]; [lia|].
  destruct (union_nested O OD d Q h_ at_ name o body c semi R sc h inner) as (Q' & h1 & n1 & l' & E1 & F & DE & C); auto; [lia|apply (o_forms _ _ _ _ _ _ OP)| |].
  { intros y Y. pose proof (o_below _ _ _ _ _ _ OP y Y). destruct (open_lo _ _ _ _ _ _ OP). lia. }
  destruct (uhead_first _ _ _ _ UH) as (k & hr & EH & K). assert (E0 : toks = Q ++ k :: hr ++ o :: body ++ c :: semi :: R) by (rewrite E, EH; reflexivity). unfold kind in K.
  destruct DE as (G1 & LC & VC & BF & P0 & HO). destruct (open_lo _ _ _ _ _ _ OP) as (LT & BLO & B0).
  assert (OP1 : open O b lo h1 xs l0) by (eapply open_grow; eauto). assert (RG : row O h1 lo xs l0 (h_top h)) by (eapply row_grow; eauto). assert (CB : n1 <> b) by lia.
  destruct (append_ok O OD fuel b lo h1 xs l0 n1 (Union false at_ name l') (h_top h) ltac:(lia) OP1 RG ltac:(destruct G1; lia) VC CB BF (or_introl (conj P0 LC)) (fun hx c' TC => HO hx c' TC)) as (h2 & c' & A1 & A2 & A3 & A4 & A5).
  assert (KP : keeps b lo h h2) by (eapply keeps_trans; [apply grow_keeps; [exact G1|exact LT|lia]|split; [assumption|split; assumption]]).
  exists Q', h2, c', l'. split; [exact E1|]. split; [exact A2|]. split; [exact F|]. split; [exact KP|]. split; [exact (keeps_grow _ _ _ _ _ G0 HB BLO KP)|].
  rewrite (uturn src toks beyond ms e gl fuel FT FS BY (class_struct (S d)) n b Q k _ sc h E0); [|rewrite K; discriminate|rewrite K; discriminate]. rewrite K.
  change (union_member (class_struct (S d)) Tok_Decl_Union) with (parse_complicated_definition src toks beyond ms e gl fuel (class_struct (S d)) Tok_Decl_Union).
  erewrite bind_ok by exact C. unfold bind at 1. unfold edit. cbn [p_heap]. rewrite A1. reflexivity.
Qed.
Lemma union_members_ok : forall raw rest l, union_members src beyond raw rest l -> forall h0 O b lo d n, world e h0 -> globals_in h0 -> h_top h0 <= b -> (forall x, O x \/ ~ O x) -> ugathered O b lo h0 d n raw rest l.
Proof.
  intros raw rest l T. induction T as [rest|m r rest t l S T IH|h_ at_ name o body c semi r rest inner l UH PL KO T1 IH1 IB KC KS T2 IH2]; intros h0 O b lo d n W0 GI0 HB OD.
  - intros xs l0 Q sc h E L D OP G. exists Q, h, [], [], n. rewrite !app_nil_r. split; [exact E|]. split; [exact OP|]. split; [constructor|]. split; [apply (keeps_refl src toks beyond fuel FT FS BY)|]. auto.
  - destruct n as [|n]; [intros xs l0 Q sc h E L; lia|]. apply ugathered_cons; [|eapply usimple_ne; eauto|apply IH; auto]. intros xs l0 Q sc h E D OP G0.
    eapply usimple_step; eauto.
  - replace (h_ ++ o :: body ++ c :: semi :: r) with ((h_ ++ o :: body ++ [c; semi]) ++ r) by (rewrite <- !app_assoc; cbn [app]; rewrite <- !app_assoc; reflexivity).
    destruct n as [|n]; [intros xs l0 Q sc h E L; lia|]. apply ugathered_cons; [|rewrite app_length; cbn; lia|apply IH2; auto]. intros xs l0 Q sc h E D OP G0.
    destruct (union_step O OD n d b lo xs l0 Q h_ at_ name o body c semi (r ++ rest) sc h h0 inner) as (Q' & h' & c' & l' & X1 & X2 & X3 & X4 & X5 & X6); auto.
    + rewrite E. rewrite <- !app_assoc. cbn [app]. rewrite <- !app_assoc. reflexivity.
    + rewrite !app_length in D. cbn [length] in D. rewrite app_length in D. cbn [length] in D. lia.
    + exists Q', h', c', (Union false at_ name l'). split; [exact X1|]. split; [exact X2|]. split; [apply tl_union; exact X3|]. auto.
Qed.
(** ** the public function *)
Definition nobody (x : Z) : Prop := False.
Lemma nobody_dec : forall x, nobody x \/ ~ nobody x. Proof. intros x. right. exact (fun H => H). Qed.
Lemma touch_self : forall B h c, valid h c -> touch nobody B h h c c.
Proof. intros B h c V. split; try (intros x []); auto; [lia|intros; apply loose_refl|apply relinked_refl]. Qed.
Lemma uexported : forall (x : bool) ex k r Q sc h, exported x ex -> toks = Q ++ ex ++ k :: r -> kind Tok_Decl_Union k ->
  exists Q' fl, toks = Q' ++ k :: r /\ Z.testbit fl 0 = x /\ export_flag (Pst (zlen Q) sc h) = Done (fl, Pst (zlen Q') sc h).
Proof.
  intros x ex k r Q sc h EX E K. unfold kind in K. assert (FK : ~ fmt k) by (unfold fmt; rewrite K; intros [X|X]; discriminate X). unfold ParseModel.export_flag. destruct EX as [(-> & ->)|(-> & g & kx & -> & G & KX)].
  - cbn [app] in E. destruct (a_check toks beyond Q [] k r Tok_Module_Export sc h (ahead_self toks _ _ E) ltac:(constructor) FK) as (Q2 & E2 & C2). erewrite bind_ok by exact C2. rewrite K. change (Tok_Decl_Union =? Tok_Module_Export) with false. cbv iota.
    exists Q2, 0. split; [exact E2|]. split; reflexivity.
  - unfold kind in KX. assert (FX : ~ fmt kx) by (unfold fmt; rewrite KX; intros [X|X]; discriminate X). rewrite <- app_assoc in E. cbn [app] in E.
    destruct (a_check toks beyond Q g kx (k :: r) Tok_Module_Export sc h (ahead_self toks _ _ E) G FX) as (Q2 & E2 & C2). erewrite bind_ok by exact C2. rewrite KX, Z.eqb_refl.
    destruct (a_eat src toks beyond ms Q2 kx _ Tok_Module_Export sc h E2 KX) as (_ & C3). erewrite bind_ok by exact C3. exists (Q2 ++ [kx]), ModuleFlag_Export. split; [apply at_eat; exact E2|]. split; reflexivity.
Qed.
Lemma union_ok : forall raw rest t sc h, union_tokens src beyond raw rest t -> toks = raw ++ rest -> world e h -> globals_in h ->
  exists Q c h' t', parse_union src toks beyond ms e gl fuel (Pst 0 sc h) = Done (c, Pst (zlen Q) sc h') /\ toks = Q ++ rest /\ holds h' c t' /\ tree_like t t' /\ grow h h' /\ h_top h <= c.
Proof.
  intros raw rest t sc h T E W GI. destruct T as [x ex h_ at_ name o body c semi rest inner EX UH KO T KC KS].
  unfold parse_union. rewrite from_eq. unfold push_scope. unfold bind at 1. cbn [rbind p_idx p_scopes p_heap]. set (s0 := (0, "parser_parse_union"%string)).
  destruct (uhead_first _ _ _ _ UH) as (k & hr & EH & K). assert (E0 : toks = [] ++ ex ++ k :: hr ++ o :: body ++ c :: semi :: rest). { rewrite E, EH. cbn [app]. rewrite <- !app_assoc. cbn [app]. rewrite <- !app_assoc. cbn [app]. rewrite <- !app_assoc. reflexivity. }
  destruct (uexported x ex k _ [] (s0 :: sc) h EX E0 K) as (Q1 & fl & E1 & XF & C1). change (zlen (@nil token)) with 0 in C1. erewrite bind_ok by exact C1.
  assert (E2 : toks = Q1 ++ h_ ++ o :: body ++ c :: semi :: rest) by (rewrite E1, EH; reflexivity).
  assert (LB : (length body < fuel)%nat) by (rewrite E2, !app_length in FT; cbn [length] in FT; rewrite app_length in FT; lia).
  destruct (union_def nobody nobody_dec fuel fl x Q1 h_ at_ name o body c semi rest sc s0 h inner) as (Q' & h' & n & l' & E3 & F & (D1 & D2 & D3 & D4 & D5 & D6) & C2); auto; [|intros y []|intros y []|].
  { intros h1 O' b' lo' W1 GI1 HB1 OD1. apply (union_members_ok _ _ _ T); auto. }
  exists Q', n, h', (Union x at_ name l'). rewrite C2. split; [reflexivity|]. split; [exact E3|]. split; [apply D6, touch_self; exact D3|]. split; [apply tl_union; exact F|]. auto.
Qed.
End P.
(** parse_union, the globals first *)
Definition parse_union_of (gl : globals) src toks beyond ms e fuel := parse_union src toks beyond ms e gl fuel.
Section Text_.
Variables (text : list Z) (toks beyond : list token) (ms ms' : macros) (e : env) (gl : globals) (fuel : nat) (h : heap).
Hypothesis B : Forall (fun c => 0 <= c < 256) text.
Hypothesis NR : ~ runs_off text.
Hypothesis MF : Forall macro_fits ms.
Hypothesis L : lex text fuel ms = Done (Some (toks, ms')).
Hypothesis F : Z.of_nat (length text) + 2 <= Z.of_nat fuel.
Hypothesis FT : (length toks < fuel)%nat.
Hypothesis W : world e h.
Hypothesis GI : globals_in e gl h.
Hypothesis NOM : no_macro_spec ms'.
Hypothesis BY : (2 <= length beyond)%nat.
Lemma union_text : forall t, union_tokens text beyond toks [] t ->
  exists h' c t', parse_text (parse_union_of gl) text beyond ms e fuel h = Done (h', c) /\ holds h' c t' /\ tree_like t t' /\ h_top h <= c /\ grow h h'.
Proof.
  intros t T. destruct (text_facts text toks ms ms' fuel B NR MF L F) as (T1 & T2 & _ & _); assert (FS : (length text < fuel)%nat) by lia.
  destruct (union_ok text toks beyond ms' e gl fuel T1 T2 B FT FS BY toks [] t [] h T (eq_sym (app_nil_r toks)) W GI) as (Q & c & h' & t' & K & _ & K2 & K3 & K4 & K5).
  exists h', c, t'. split; [|auto]. apply (run_text text toks beyond ms ms' e fuel h B NR MF L F (parse_union_of gl) _ _ K).
Qed.
End Text_.
