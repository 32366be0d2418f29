(** Global bodies and namespaces. *)
From Coq Require Import String ZArith List Bool Lia ZifyBool ZifyNat.
From Verif Require Import Common Text HashModel StrOpsModel EnumModel EnumSpec EnumProofs LexModel LexSpec NavModel StripModel StripSpec StripProofs AstModel AstSpec AstProofs AstProofs4 UpfrontModel UpfrontSpec UpfrontProofs4 SerSpec SerProofs SerProofs2 ParseModel ParseSpec
  ParseProofs ParseProofs2 ParseProofs3 ParseProofs4 ParseProofs5 ParseProofs6 ParseProofs7 ParseProofs8 ParseProofs9 ParseProofs10 ParseProofs11 FnModel FnSpec FnProofs FnProofs2 FnProofs3 FnProofs4 GlobalModel GlobalSpec GlobalProofs GlobalProofs2 GlobalProofs3 GlobalProofs4 GlobalProofs5 GlobalProofs6 GlobalProofs7 GlobalProofs8.
Import ListNotations.
Close Scope string_scope.
Open Scope Z_scope.
Open Scope parse_scope.
Section P.
Variable src : list Z.
Variable toks beyond : list token.
Variable ms : macros.
Variable e : env.
Variable gl : globals.
Variable fuel : nat.
Hypothesis SRC : Forall (in_source src) toks.
Hypothesis FIT : Forall flags_fit toks.
Hypothesis BYTES : Forall (fun c => 0 <= c < 256) src.
Hypothesis FT : (length toks < fuel)%nat.
Hypothesis FS : (length src < fuel)%nat.
Hypothesis NOM : no_macro_spec ms.
Hypothesis BY : (2 <= length beyond)%nat.
Notation member := (member src toks beyond ms e gl fuel).
Notation reads := (reads src toks beyond ms e gl fuel).
Notation ahead := (ahead toks).

Notation global_decl := (global_decl src toks beyond ms e gl fuel).
Notation global_specs := (global_specs src toks beyond ms e gl fuel).

Notation nspace_loop := (nspace_loop src toks beyond ms e gl fuel).
Notation loop := (loop src toks beyond ms e gl fuel).
Notation memb := (memb src toks beyond ms e gl fuel).
Notation globals_in := (globals_in e gl).
Notation nested := (nested src toks beyond ms e gl fuel).

Lemma simple_reads : forall inc raw rest t, simple src beyond inc raw rest t -> reads inc raw rest t.
Proof.
  intros inc raw rest t T. destruct T as [k rest K|k rest K|k r rest t K U|k r rest ty name cmt K U|raw rest t U SH|raw rest t D|hs raw rest t K D].
  - eapply line_ok; eauto.
  - eapply comment_ok; eauto.
  - eapply using_read; eauto.
  - eapply typedef_read; eauto.
  - eapply enum_read; eauto.
  - eapply declared_read; eauto.
  - eapply directive_ok; eauto.
Qed.
Lemma simple_ne : forall inc raw rest t, simple src beyond inc raw rest t -> (1 <= length raw)%nat.
Proof. intros inc raw rest t T. destruct T as [k rest K|k rest K|k r rest t K U|k r rest ty name cmt K U|raw rest t U SH|raw rest t D|hs raw rest t K D]; cbn; try lia; [destruct U; cbn; lia|destruct D; cbn; lia]. Qed.
Lemma row_grow : forall O b lo h h' xs l, open O b lo h xs l -> grow h h' -> row O h' lo xs l (h_top h).
Proof.
  intros O b lo h h' xs l [I E R F BL L] (T & N). pose proof (row_le _ _ _ _ _ _ R) as (LE & RI). eapply row_stable; [exact R|exact T| | | |exact BL].
  - intros x X. specialize (RI x X). rewrite N by (split; lia). split; [apply relinked_refl|auto].
  - intros x X _ _. rewrite N by exact X. apply loose_refl.
  - intros x X _. apply N. split; lia.
Qed.
Lemma form_body : forall n, form n -> is_body_type (n_type n) = true.
Proof. intros n (_ & _ & _ & _ & K). cbn in K. destruct K as [<-|[<-|[<-|[<-|[<-|[<-|[]]]]]]]; reflexivity. Qed.
Lemma not_open : forall O h c, forms O h -> is_body_type (n_type (h_node h c)) = false -> ~ O c.
Proof. intros O h c F B X. destruct (F c X) as (_ & FX). apply form_body in FX. congruence. Qed.
(** what stays while members are appended to [b] *)
Definition keeps (b lo : Z) (h h' : heap) : Prop := h_top h <= h_top h' /\ n_type (h_node h' b) = n_type (h_node h b) /\ forall x, 0 < x < lo -> x <> b -> h_node h' x = h_node h x.
Lemma keeps_refl : forall b lo h, keeps b lo h h. Proof. intros. split; [lia|split; auto]. Qed.
Lemma keeps_trans : forall b lo x y z, keeps b lo x y -> keeps b lo y z -> keeps b lo x z.
Proof. intros b lo x y z (T1 & K1 & N1) (T2 & K2 & N2). split; [lia|]. split; [congruence|]. intros a A B. rewrite N2, N1; auto. Qed.
Lemma keeps_grow : forall b lo h0 h h', grow h0 h -> h_top h0 <= b -> b < lo -> keeps b lo h h' -> grow h0 h'.
Proof. intros b lo h0 h h' (T & N) B L (T' & _ & N'). split; [lia|]. intros x V. rewrite N' by (destruct V; lia). apply N. exact V. Qed.
Lemma grow_keeps : forall b lo h h', grow h h' -> lo <= h_top h -> 0 < b < lo -> keeps b lo h h'.
Proof. intros b lo h h' (T & N) L B. split; [exact T|]. split; [rewrite N by (split; lia); reflexivity|]. intros x X _. apply N. split; lia. Qed.
Lemma open_lo : forall O b lo h xs l, open O b lo h xs l -> lo <= h_top h /\ b < lo /\ 0 < b.
Proof. intros O b lo h xs l [I E R F BL L]. pose proof (row_le _ _ _ _ _ _ R) as (LE & _). destruct (F b I) as ((V & _) & _). auto. Qed.
(** reading and appending a member without members *)
Lemma simple_step : forall O (OD : forall x, O x \/ ~ O x) n p b lo xs l0 Q sc h h0 m rest t, simple src beyond (inside p) m rest t -> toks = Q ++ m ++ rest -> open O b lo h xs l0 ->
  world e h0 -> globals_in h0 -> grow h0 h -> h_top h0 <= b ->
  exists Q' h' c' t', toks = Q' ++ rest /\ open O b lo h' (xs ++ [c']) (l0 ++ [t']) /\ tree_like t t' /\ keeps b lo h h' /\ grow h0 h' /\
    loop p (S n) b (Pst (zlen Q) sc h) = loop p n b (Pst (zlen Q') sc h').
Proof.
  intros O OD n p b lo xs l0 Q sc h h0 m rest t T E OP W0 GI0 G0 HB. destruct (open_lo _ _ _ _ _ _ OP) as (LT & BLO & B0).
  assert (W : world e h) by (eapply world_grow; eauto). assert (GI : globals_in h) by (eapply globals_grow; eauto).
  destruct (simple_reads (inside p) m rest t T Q sc h E W GI) as (Q' & c & h1 & t' & E1 & (TL & LF & CL & HO & G1 & VC & BF & PC & NI) & C). assert (OP1 : open O b lo h1 xs l0) by (eapply open_grow; eauto). assert (RG : row O h1 lo xs l0 (h_top h)) by (eapply row_grow; eauto).
  assert (NO : ~ O c) by (eapply not_open; [apply (o_forms _ _ _ _ _ _ OP1)|exact BF]). assert (CB : c <> b) by (intros ->; apply NO; apply (o_in _ _ _ _ _ _ OP)).
  destruct (append_ok O OD fuel b lo h1 xs l0 c t' (h_top h) ltac:(lia) OP1 RG ltac:(destruct G1; lia) VC CB BF PC) as (h2 & c' & A1 & A2 & A3 & A4 & A5).
  { intros h2 c' TC. eapply leaf_holds; eauto. intros x X. pose proof (o_below _ _ _ _ _ _ OP x X). lia. }
  assert (KP : keeps b lo h h2) by (eapply keeps_trans; [apply grow_keeps; [exact G1|exact LT|lia]|split; [assumption|split; assumption]]).
  exists Q', h2, c', t'. split; [exact E1|]. split; [exact A2|]. split; [exact TL|]. split; [exact KP|]. split; [eapply keeps_grow; eauto|].
  rewrite (C p n b eq_refl). unfold bind at 1. unfold edit. cbn [p_heap]. rewrite A1. reflexivity.
Qed.
Lemma finish_close : forall n which b Q c R s0 sc h, toks = Q ++ c :: R -> kind Tok_BraceCurly_Close c -> ct_eqb which CT_Global_Body = false ->
  nspace_loop n which b (Pst (zlen Q) (s0 :: sc) h) = Done (b, Pst (zlen (Q ++ [c])) sc h).
Proof.
  intros n which b Q c R s0 sc h E K NG. unfold kind in K. destruct (left_ok toks Q c R (s0 :: sc) h E) as (l & L1 & L2). destruct (a_eat src toks beyond ms Q c _ Tok_BraceCurly_Close (s0 :: sc) h E K) as (_ & C1).
  destruct n; cbn [GlobalModel.nspace_loop]; erewrite bind_ok by exact L1; rewrite L2; (erewrite bind_ok by (eapply noskip_ok; exact E)); rewrite K, Z.eqb_refl, NG; (erewrite bind_ok by exact C1); reflexivity.
Qed.
Lemma finish_end : forall n b Q s0 sc h, toks = Q -> nspace_loop n CT_Global_Body b (Pst (zlen Q) (s0 :: sc) h) = Done (b, Pst (zlen Q) sc h).
Proof.
  intros n b Q s0 sc h E. assert (L : left toks (Pst (zlen Q) (s0 :: sc) h) = Done (0, Pst (zlen Q) (s0 :: sc) h)). { unfold left, get_left. cbn [p_idx]. unfold num. subst Q. rewrite Z.sub_diag. reflexivity. }
  destruct n; cbn [GlobalModel.nspace_loop]; (erewrite bind_ok by exact L); reflexivity.
Qed.
Lemma bodied_holds : forall h c name l, kind_is h c [CT_Namespace] -> exports (h_node h c) false -> n_name (h_node h c) = name -> name <> [] -> bodied h (n_body (h_node h c)) l -> holds h c (Namespace false name l).
Proof. intros h c name l K X N NE B. cbn [holds]. split; [exact K|]. split; [exact X|]. split; [split; assumption|]. exact B. Qed.
Lemma linkage_holds : forall h c name l, kind_is h c [CT_Extern_Linkage] -> n_name (h_node h c) = name -> name <> [] -> bodied h (n_body (h_node h c)) l -> holds h c (Linkage name l).
Proof. intros h c name l K N NE B. cbn [holds]. split; [exact K|]. split; [split; assumption|]. exact B. Qed.
Lemma slice_tl : forall p l, 0 <= p -> 0 < l -> slice src (p + 1) (l - 1) = List.tl (slice src p l).
Proof.
  intros p l P L. unfold slice. replace (Z.to_nat (p + 1)) with (S (Z.to_nat p)) by lia. replace (Z.to_nat l) with (S (Z.to_nat (l - 1))) by lia. generalize (Z.to_nat (l - 1)). generalize (Z.to_nat p). clear. intros a b. 
  revert a. induction src as [|x s IH]; intros a; [destruct a, b; reflexivity|]. destruct a as [|a]; [cbn; reflexivity|]. cbn [skipn]. apply IH.
Qed.
(** a body: what its members become *)
Definition deep (p : place) (raw : list token) : Prop := match p with Outside _ => True | Inside d _ => (length raw < d)%nat end.
Definition gathered (O : Z -> Prop) (b lo : Z) (h0 : heap) (n : nat) (p : place) (raw rest : list token) (l : list tree) : Prop := forall xs l0 Q sc h,
  toks = Q ++ raw ++ rest -> (length raw < n)%nat -> deep p raw -> open O b lo h xs l0 -> grow h0 h ->
  exists Q' h' xs' l' n', toks = Q' ++ rest /\ open O b lo h' (xs ++ xs') (l0 ++ l') /\ Forall2 tree_like l l' /\ keeps b lo h h' /\ grow h0 h' /\
    loop p n b (Pst (zlen Q) sc h) = loop p n' b (Pst (zlen Q') sc h').
Lemma gathered_cons : forall O b lo h0 n p m raw rest t l,
  (forall xs l0 Q sc h, toks = Q ++ m ++ raw ++ rest -> (length (m ++ raw) < S n)%nat -> deep p (m ++ raw) -> open O b lo h xs l0 -> grow h0 h ->
   exists Q' h' c' t', toks = Q' ++ raw ++ rest /\ open O b lo h' (xs ++ [c']) (l0 ++ [t']) /\ tree_like t t' /\ keeps b lo h h' /\ grow h0 h' /\
     loop p (S n) b (Pst (zlen Q) sc h) = loop p n b (Pst (zlen Q') sc h')) ->
  (1 <= length m)%nat -> gathered O b lo h0 n p raw rest l -> gathered O b lo h0 (S n) p (m ++ raw) rest (t :: l).
Proof.
  intros O b lo h0 n p m raw rest t l ST M IH xs l0 Q sc h E L D OP G. rewrite <- app_assoc in E. destruct (ST xs l0 Q sc h E L D OP G) as (Q1 & h1 & c' & t' & E1 & OP1 & TL & K1 & G1 & C1).
  rewrite app_length in L. destruct (IH _ _ Q1 sc h1 E1 ltac:(lia) ltac:(destruct p; cbn in *; try exact I; rewrite app_length in D; lia) OP1 G1) as (Q2 & h2 & xs' & l' & n' & E2 & OP2 & F & K2 & G2 & C2).
  exists Q2, h2, (c' :: xs'), (t' :: l'), n'. split; [exact E2|]. rewrite <- !app_assoc in OP2. split; [exact OP2|]. split; [constructor; assumption|]. split; [eapply keeps_trans; eauto|]. split; [exact G2|]. rewrite C1. exact C2.
Qed.
(** ** namespaces and extern blocks *)
Definition mine (which : codetype) : Prop := which = CT_Global_Body \/ which = CT_Namespace_Body \/ which = CT_Extern_Linkage_Body \/ which = CT_Class_Body \/ which = CT_Struct_Body \/ which = CT_Union_Body.
Lemma nested_ok : forall O (OD : forall x, O x \/ ~ O x) n which b lo xs0 l0 Q o body c R inner s0 sc h h0,
  (forall O', (forall x, O' x \/ ~ O' x) -> gathered O' (h_top h) (h_top h + 1) h n (Outside which) body (c :: R) inner) ->
  toks = Q ++ o :: body ++ c :: R -> kind Tok_BraceCurly_Open o -> kind Tok_BraceCurly_Close c -> (length body < n)%nat -> which = CT_Namespace_Body \/ which = CT_Extern_Linkage_Body ->
  open O b lo h xs0 l0 -> grow h0 h -> h_top h0 <= b -> world e h0 ->
  exists Q' h' xs l', toks = Q' ++ R /\ open (fun x => O x \/ x = h_top h) (h_top h) (h_top h + 1) h' xs l' /\ Forall2 tree_like inner l' /\ grow h h' /\ h_top h < h_top h' /\
    nested n which (Pst (zlen Q) (s0 :: sc) h) = Done (h_top h, Pst (zlen Q') (s0 :: sc) h').
Proof.
  intros O OD n which b lo xs0 l0 Q o body c R inner s0 sc h h0 IH E KO KC L WH OP G0 HB W0. destruct (open_lo _ _ _ _ _ _ OP) as (LT & BLO & B0).
  unfold GlobalProofs3.nested, push_scope. unfold bind at 1. cbn [rbind p_idx p_scopes p_heap]. set (sn := (zlen Q, "parse_global_nspace"%string)).
  destruct (a_eat src toks beyond ms Q o _ Tok_BraceCurly_Open (sn :: s0 :: sc) h E KO) as (_ & C1). erewrite bind_ok by exact C1. apply at_eat in E.
  destruct (any_make (AstModel.set_type which) h (zlen (Q ++ [o])) (sn :: s0 :: sc)) as (h1 & M1 & T1 & N1 & G1). erewrite bind_ok by exact M1.
  assert (OD' : forall x, (O x \/ x = h_top h) \/ ~ (O x \/ x = h_top h)) by (intros x; destruct (OD x), (Z.eq_dec x (h_top h)); tauto).
  assert (OP1 : open (fun x => O x \/ x = h_top h) (h_top h) (h_top h + 1) h1 [] []).
  { assert (FO : forms (fun x => O x \/ x = h_top h) h1). { intros x [X|X]; [destruct (o_forms _ _ _ _ _ _ OP x X) as (V & F); destruct G1 as (T & N); split; [destruct V; split; lia|rewrite N by exact V; exact F]|]. rewrite X. split; [split; lia|]. rewrite N1. unfold form. cbn. repeat split; auto. destruct WH as [->| ->]; auto. }
    apply (open_new _ OD'); [right; reflexivity|intros x [X|X]; [pose proof (o_below _ _ _ _ _ _ OP x X); lia|lia]|lia|exact FO|exact T1|eauto]. }
  assert (G1' : grow h h1) by exact G1.
  destruct (IH (fun x => O x \/ x = h_top h) OD' [] [] (Q ++ [o]) (sn :: s0 :: sc) h1 E L I OP1 G1') as (Q2 & h2 & xs & l' & n' & E2 & OP2 & F & K2 & G2 & C2).
  cbn [app] in OP2. exists (Q2 ++ [c]), h2, xs, l'. split; [apply at_eat; exact E2|]. split; [exact OP2|]. split; [exact F|]. split; [exact G2|]. split; [destruct K2; lia|].
  cbn [GlobalProofs3.loop] in C2. rewrite C2. eapply finish_close; [exact E2|exact KC|]. destruct WH as [->| ->]; reflexivity.
Qed.
Lemma namespace_step : forall O (OD : forall x, O x \/ ~ O x) n which b lo xs l0 Q k g nm name g' o body c R inner sc h h0,
  (forall h0 O' b' lo', world e h0 -> globals_in h0 -> h_top h0 <= b' -> (forall x, O' x \/ ~ O' x) -> gathered O' b' lo' h0 n (Outside CT_Namespace_Body) body (c :: R) inner) ->
  toks = Q ++ k :: g ++ nm ++ g' ++ o :: body ++ c :: R -> kind Tok_Decl_Namespace k -> gap g -> named src nm name -> name <> [] -> gap g' -> kind Tok_BraceCurly_Open o -> kind Tok_BraceCurly_Close c ->
  (length body < n)%nat -> open O b lo h xs l0 -> world e h0 -> globals_in h0 -> grow h0 h -> h_top h0 <= b ->
  exists Q' h' c' l', toks = Q' ++ R /\ open O b lo h' (xs ++ [c']) (l0 ++ [Namespace false name l']) /\ Forall2 tree_like inner l' /\ keeps b lo h h' /\ grow h0 h' /\
    loop (Outside which) (S n) b (Pst (zlen Q) sc h) = loop (Outside which) n b (Pst (zlen Q') sc h').
Proof.
  intros O OD n which b lo xs l0 Q k g nm name g' o body c R inner sc h h0 IH E K G NM NE G' KO KC L OP W0 GI0 G0 HB. destruct (open_lo _ _ _ _ _ _ OP) as (LT & BLO & B0).
  assert (W : world e h) by (eapply world_grow; eauto). assert (GI : globals_in h) by (eapply (globals_grow src toks e gl fuel FT FS); eauto). unfold kind in K.
  assert (FO : ~ fmt o) by (tk; lia).
  set (s0 := (zlen Q, "parser_parse_namespace"%string)). destruct (a_eat src toks beyond ms Q k _ Tok_Decl_Namespace (s0 :: sc) h E K) as (A1 & C1).
  destruct (identifier_at src toks beyond ms fuel SRC nm name (Q ++ [k]) (g' ++ o :: body ++ c :: R) g (s0 :: sc) h A1 G NM) as (Q2 & nt & E2 & C2 & TX & _); [apply next_app; [exact G'|exact FO|split; tk; lia]|lia|].
  rewrite trim_gap, trim_sig in E2 by auto.
  assert (IHN : forall O', (forall x, O' x \/ ~ O' x) -> gathered O' (h_top h) (h_top h + 1) h n (Outside CT_Namespace_Body) body (c :: R) inner) by (intros O' OD'; apply IH; auto; lia).
  destruct (nested_ok O OD n CT_Namespace_Body b lo xs l0 Q2 o body c R inner s0 sc h h0 IHN E2 KO KC L (or_introl eq_refl) OP G0 HB W0) as (Q3 & h3 & xs3 & l' & E3 & OP3 & F & G3 & T3 & C3).
  set (f := fun m => set_body (h_top h) (set_name name (AstModel.set_type CT_Namespace m))).
  destruct (any_make f h3 (zlen Q3) (s0 :: sc)) as (h4 & M4 & T4 & N4 & G4). set (r0 := h_top h3) in *.
  pose proof (grow_trans _ _ _ G3 G4) as G34. assert (OP4 : open O b lo h4 xs l0) by (eapply open_grow; eauto). assert (RG : row O h4 lo xs l0 (h_top h)) by (eapply row_grow; eauto).
  assert (V4 : valid h4 r0) by (split; lia). assert (CB : r0 <> b) by lia.
  assert (BF : is_body_type (n_type (h_node h4 r0)) = false) by (rewrite N4; reflexivity). assert (PC : n_parent (h_node h4 r0) = 0 /\ h_top h <= r0 \/ n_parent (h_node h4 r0) <> 0) by (left; rewrite N4; split; [reflexivity|lia]).
  destruct (append_ok O OD fuel b lo h4 xs l0 r0 (Namespace false name l') (h_top h) ltac:(lia) OP4 RG ltac:(destruct G34; lia) V4 CB BF PC) as (h5 & c' & B1 & B2 & B3 & B4 & B5).
  { intros h5 c' TC. destruct (tc_moved _ _ _ _ _ _ TC) as (fr & nx & pa & EM). rewrite N4 in EM.
    apply bodied_holds; [split; [apply (tc_valid _ _ _ _ _ _ TC)|rewrite EM; left; reflexivity]|rewrite EM; reflexivity|rewrite EM; reflexivity|exact NE|]. rewrite EM. cbn.
    unfold r0 in *. eapply (block_touch O (h_top h) _ h3 _ _ h4 h5 (h_top h) (h_top h3) c'); [exact OP3|lia|exact T3| | |exact TC|lia|right; lia].
    - intros x X. apply G4. split; lia.
    - intros x X _. destruct G4 as (_ & G4). rewrite G4 by (split; lia). apply loose_refl. }
  assert (KP : keeps b lo h h5) by (eapply keeps_trans; [apply grow_keeps; [exact G34|exact LT|lia]|split; [assumption|split; assumption]]).
  exists Q3, h5, c', l'. split; [exact E3|]. split; [exact B2|]. split; [exact F|]. split; [exact KP|]. split; [eapply keeps_grow; eauto|].
  erewrite (turn src toks beyond ms e gl fuel FT FS (Outside which) n b Q k _ sc h E); try (rewrite K; discriminate). rewrite K.
  change (memb (Outside which) n Tok_Decl_Namespace) with (push_scope "parser_parse_namespace" ;;; eat src toks beyond ms Tok_Decl_Namespace ;;; name <- parse_identifier src toks beyond ms fuel ;;
    body <- nested n CT_Namespace_Body ;; if body =? e_invalid e then parser_pop ;;; ret (Some (e_invalid e)) else
    r <- on_heap (fun h => Done (make h (fun n => set_body body (set_name (name_text src name) (AstModel.set_type CT_Namespace n))))) ;; parser_pop ;;; ret (Some r)).
  rewrite bind_assoc. unfold push_scope at 1. unfold bind at 1. cbn [rbind p_idx p_scopes p_heap]. fold s0. rewrite bind_assoc. erewrite bind_ok by exact C1. rewrite bind_assoc. erewrite bind_ok by exact C2. rewrite bind_assoc. erewrite bind_ok by exact C3.
  assert (NI : (h_top h =? e_invalid e) = false) by (destruct W as ((_ & W) & _); lia). rewrite NI. cbn [name_text]. rewrite TX. rewrite bind_assoc. erewrite bind_ok by exact M4. rewrite bind_assoc. unfold bind at 1. cbn [parser_pop p_scopes rbind]. erewrite bind_ok by reflexivity. cbn [next].
  assert (NI2 : (r0 =? e_invalid e) = false) by (destruct W as ((_ & W) & _); lia). cbn [p_idx p_heap]. unfold GlobalProofs3.next. rewrite NI2. unfold bind at 1. unfold edit. cbn [p_heap]. rewrite B1. reflexivity.
Qed.
Lemma linkage_step : forall O (OD : forall x, O x \/ ~ O x) n which b lo xs l0 Q k g s name o body c R inner sc h h0,
  (forall h0 O' b' lo', world e h0 -> globals_in h0 -> h_top h0 <= b' -> (forall x, O' x \/ ~ O' x) -> gathered O' b' lo' h0 n (Outside CT_Extern_Linkage_Body) body (c :: R) inner) ->
  toks = Q ++ k :: g ++ s :: o :: body ++ c :: R -> kind Tok_Decl_Extern_Linkage k -> gap g -> kind Tok_String s -> List.tl (word src s) = name -> name <> [] -> kind Tok_BraceCurly_Open o -> kind Tok_BraceCurly_Close c ->
  (length body < n)%nat -> ct_eqb which CT_Extern_Linkage_Body = false -> open O b lo h xs l0 -> world e h0 -> globals_in h0 -> grow h0 h -> h_top h0 <= b ->
  exists Q' h' c' l', toks = Q' ++ R /\ open O b lo h' (xs ++ [c']) (l0 ++ [Linkage name l']) /\ Forall2 tree_like inner l' /\ keeps b lo h h' /\ grow h0 h' /\
    loop (Outside which) (S n) b (Pst (zlen Q) sc h) = loop (Outside which) n b (Pst (zlen Q') sc h').
Proof.
  intros O OD n which b lo xs l0 Q k g s name o body c R inner sc h h0 IH E K G KS NM NE KO KC L NW OP W0 GI0 G0 HB. destruct (open_lo _ _ _ _ _ _ OP) as (LT & BLO & B0).
  assert (W : world e h) by (eapply world_grow; eauto). assert (GI : globals_in h) by (eapply (globals_grow src toks e gl fuel FT FS); eauto). unfold kind in K, KS.
  assert (FM : ~ fmt s) by (unfold fmt; rewrite KS; intros [X|X]; discriminate X).
  set (s0 := (zlen Q, "parser_parse_extern_link"%string)). destruct (a_eat src toks beyond ms Q k _ Tok_Decl_Extern_Linkage (s0 :: sc) h E K) as (A1 & C1).
  destruct (a_currtok toks beyond (Q ++ [k]) g s _ (s0 :: sc) h A1 G FM) as (Q1 & E1 & C2).
  destruct (a_eat src toks beyond ms Q1 s _ Tok_String (s0 :: sc) h E1 KS) as (_ & C3).
  assert (IS : In s toks) by (rewrite E1; apply in_or_app; right; left; reflexivity). pose proof (proj1 (Forall_forall _ _) SRC s IS) as (IS1 & IS2 & IS3).
  assert (LS : 0 < t_len s). { destruct (Z.eq_dec (t_len s) 0) as [Z0|Z0]; [|lia]. exfalso. apply NE. rewrite <- NM, word_text. unfold text_of, slice. rewrite Z0. reflexivity. }
  assert (NMS : slice src (t_start s + 1) (t_len s - 1) = name) by (rewrite slice_tl by lia; rewrite <- NM, word_text; reflexivity).
  apply at_eat in E1. set (Q2 := Q1 ++ [s]) in *. clearbody Q2.
  set (f := fun m => set_name name (AstModel.set_type CT_Extern_Linkage m)).
  destruct (any_make f h (zlen Q2) (s0 :: sc)) as (h1 & M1 & T1 & N1 & G1). set (r0 := h_top h) in *. assert (OP1 : open O b lo h1 xs l0) by (eapply open_grow; eauto).
  assert (W1 : world e h1) by (eapply world_grow; eauto). assert (GI1 : globals_in h1) by (eapply (globals_grow src toks e gl fuel FT FS); eauto).
  set (s1 := (zlen Q2, "parser_parse_extern_link_body"%string)).
  assert (IHN : forall O', (forall x, O' x \/ ~ O' x) -> gathered O' (h_top h1) (h_top h1 + 1) h1 n (Outside CT_Extern_Linkage_Body) body (c :: R) inner) by (intros O' OD'; apply IH; auto; lia).
  pose proof (grow_trans _ _ _ G0 G1) as G01.
  destruct (nested_ok O OD n CT_Extern_Linkage_Body b lo xs l0 Q2 o body c R inner s1 (s0 :: sc) h1 h0 IHN E1 KO KC L (or_intror eq_refl) OP1 G01 HB W0) as (Q3 & h3 & xs3 & l' & E3 & OP3 & F & G3 & T3 & C4). set (b1 := h_top h1) in *.
  assert (V3 : valid h3 r0) by (destruct G3; split; unfold r0 in *; lia).
  destruct (any_edit r0 (set_body b1) h3 (zlen Q3) (s0 :: sc) V3) as (h4 & C5 & S4). destruct S4 as (T4 & N4 & O4).
  assert (N3 : h_node h3 r0 = f zero_node) by (destruct G3 as (_ & G3); rewrite G3 by (split; unfold r0, b1 in *; lia); exact N1). rewrite N3 in N4.
  assert (G04 : grow h h4). { destruct G1 as (GT1 & GN1), G3 as (GT3 & GN3). split; [lia|]. intros x X. pose proof X as (X1 & X2). rewrite O4 by (unfold r0; lia). rewrite GN3, GN1; [reflexivity|exact X|split; lia]. }
  assert (OP4 : open O b lo h4 xs l0) by (eapply open_grow; [exact OD|exact OP|exact G04]). assert (RG : row O h4 lo xs l0 r0) by (first [eapply row_grow; [exact OP|exact G04]|eapply row_grow; [exact OD|exact OP|exact G04]]).
  assert (V4 : valid h4 r0) by (destruct V3; split; lia). assert (CB : r0 <> b) by (unfold r0; lia).
  assert (BF : is_body_type (n_type (h_node h4 r0)) = false) by (rewrite N4; reflexivity). assert (PC : n_parent (h_node h4 r0) = 0 /\ r0 <= r0 \/ n_parent (h_node h4 r0) <> 0) by (left; rewrite N4; split; [reflexivity|lia]).
  destruct (append_ok O OD fuel b lo h4 xs l0 r0 (Linkage name l') r0 ltac:(lia) OP4 RG ltac:(destruct G04; unfold r0; lia) V4 CB BF PC) as (h5 & c' & B1 & B2 & B3 & B4 & B5).
  { intros h5 c' TC. destruct (tc_moved _ _ _ _ _ _ TC) as (fr & nx & pa & EM). rewrite N4 in EM.
    apply linkage_holds; [split; [apply (tc_valid _ _ _ _ _ _ TC)|rewrite EM; left; reflexivity]|rewrite EM; reflexivity|exact NE|]. rewrite EM. cbn.
    eapply (block_touch O b1 _ h3 _ _ h4 h5 r0 r0 c'); [exact OP3|lia|exact T3| | |exact TC|unfold b1; lia|left; unfold b1; lia].
    - intros x X. apply O4. unfold b1 in *. lia.
    - intros x X _. destruct (Z.eq_dec x r0) as [->|NX]; [|rewrite O4 by exact NX; apply loose_refl]. rewrite N4, N3. exists 0, 0, 0, b1. split; [reflexivity|left; reflexivity]. }
  assert (KP : keeps b lo h h5) by (eapply keeps_trans; [apply grow_keeps; [exact G04|exact LT|lia]|split; [assumption|split; assumption]]).
  exists Q3, h5, c', l'. split; [exact E3|]. split; [exact B2|]. split; [exact F|]. split; [exact KP|]. split; [exact (keeps_grow _ _ _ _ _ G0 HB BLO KP)|].
  erewrite (turn src toks beyond ms e gl fuel FT FS (Outside which) n b Q k _ sc h E); try (rewrite K; discriminate). rewrite K.
  change (memb (Outside which) n Tok_Decl_Extern_Linkage) with ((if ct_eqb which CT_Extern_Linkage_Body then report src toks beyond else ret tt) ;;;
    push_scope "parser_parse_extern_link" ;;; eat src toks beyond ms Tok_Decl_Extern_Linkage ;;; name <- currtok toks beyond ;; eat src toks beyond ms Tok_String ;;;
    r <- on_heap (fun h => Done (make h (fun n => set_name (slice src (t_start name + 1) (t_len name - 1)) (AstModel.set_type CT_Extern_Linkage n)))) ;;
    push_scope "parser_parse_extern_link_body" ;;; entry <- nested n CT_Extern_Linkage_Body ;; parser_pop ;;;
    if entry =? e_invalid e then unmodelled else edit (fun h => put h r (set_body entry)) ;;; parser_pop ;;; ret (Some r)).
  rewrite NW. rewrite bind_assoc. erewrite bind_ok by reflexivity. rewrite bind_assoc. unfold push_scope at 1. unfold bind at 1. cbn [rbind p_idx p_scopes p_heap]. fold s0. rewrite bind_assoc. erewrite bind_ok by exact C1. rewrite bind_assoc. erewrite bind_ok by exact C2. rewrite bind_assoc. erewrite bind_ok by exact C3.
  rewrite NMS. rewrite bind_assoc. erewrite bind_ok by exact M1. rewrite bind_assoc. unfold push_scope at 1. unfold bind at 1. cbn [rbind p_idx p_scopes p_heap]. fold s1. rewrite bind_assoc. erewrite bind_ok by exact C4. rewrite bind_assoc. unfold bind at 1. cbn [parser_pop p_scopes rbind p_idx p_heap].
  assert (NI : (b1 =? e_invalid e) = false) by (destruct W1 as ((_ & W1) & _); unfold b1; lia). rewrite NI. rewrite bind_assoc. erewrite bind_ok by exact C5. rewrite bind_assoc. unfold bind at 1. cbn [parser_pop p_scopes rbind p_idx p_heap]. erewrite bind_ok by reflexivity.
  assert (NI2 : (r0 =? e_invalid e) = false) by (destruct W as ((_ & W) & _); unfold r0; lia). unfold GlobalProofs3.next. rewrite NI2. unfold bind at 1. unfold edit. cbn [p_heap]. rewrite B1. reflexivity.
Qed.
End P.
