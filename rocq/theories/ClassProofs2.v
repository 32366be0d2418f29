(** Classes and structs: what is in memory once they have been read, also after they became members. *)
From Coq Require Import String ZArith List Bool Lia ZifyBool ZifyNat.
From Verif Require Import Common Text HashModel StrOpsModel EnumModel EnumSpec EnumProofs LexModel LexSpec NavModel StripModel StripSpec StripProofs AstModel AstSpec AstProofs AstProofs4 UpfrontModel UpfrontSpec UpfrontProofs UpfrontProofs2 UpfrontProofs4 SerSpec SerProofs SerProofs2 ParseModel ParseSpec
  ParseProofs ParseProofs2 ParseProofs3 ParseProofs4 ParseProofs5 ParseProofs6 ParseProofs7 ParseProofs8 ParseProofs9 ParseProofs10 ParseProofs11 FnModel FnSpec FnProofs FnProofs2 FnProofs3 FnProofs4 GlobalModel GlobalSpec GlobalProofs GlobalProofs2 GlobalProofs3 GlobalProofs4 GlobalProofs5 GlobalProofs6 GlobalProofs7 GlobalProofs8 GlobalProofs9 ClassProofs.
Import ListNotations.
Close Scope string_scope.
Open Scope Z_scope.
Open Scope parse_scope.

(** a finished body inside an open one; it may have got a parent *)
Lemma block_touch2 : forall O b lo h1 xs l h2 h3 B c c', open (fun x => O x \/ x = b) b lo h1 xs l -> h_top h1 <= h_top h2 -> b < h_top h1 ->
  (exists pa, h_node h2 b = set_parent pa (h_node h1 b)) -> (forall x, b < x < h_top h1 -> h_node h2 x = h_node h1 x) -> (forall x, 0 < x < h_top h1 -> ~ O x -> loose (h_node h1 x) (h_node h2 x)) ->
  touch O B h2 h3 c c' -> B <= b -> (c < b \/ h_top h1 <= c) -> bodied h3 b l.
Proof.
  intros O b lo h1 xs l h2 h3 B c c' [I E R F BL L] T BT (pa & PA) SM RL TC BB CB. pose proof (BL b (or_intror eq_refl)) as BLO. pose proof (row_le _ _ _ _ _ _ R) as (LT & _).
  assert (B0 : 0 < b) by (destruct (F b I) as ((V & _) & _); exact V).
  assert (S3 : forall x, b < x < h_top h1 -> h_node h3 x = h_node h1 x). { intros x X. rewrite (tc_same _ _ _ _ _ _ TC); [apply SM; exact X|split; lia|lia|lia]. }
  assert (SB : h_node h3 b = set_parent pa (h_node h1 b)). { rewrite (tc_same _ _ _ _ _ _ TC); [exact PA|split; lia|lia|lia]. }
  destruct (F b I) as (V & FB). pose proof FB as (_ & _ & _ & _ & K). destruct E as (_ & N & _ & _ & _ & FR & _ & LK). left. unfold kind_is. rewrite SB. cbn [n_type n_num n_front set_parent]. pose proof (tc_top _ _ _ _ _ _ TC) as T3.
  split; [split; [destruct V; split; lia|]|].
  - cbn in K. destruct K as [<-|[<-|[<-|[<-|[<-|[<-|[]]]]]]]; cbn; auto 20.
  - split; [rewrite N, (row_length _ _ _ _ _ _ R); reflexivity|]. rewrite FR. eapply rows_ok; [exact R|exact LK|lia|intros x X; apply S3; lia| |].
    + intros x X NO. apply Decidable.not_or in NO. destruct NO as (NO & XB). eapply loose_trans; [apply RL; assumption|]. apply (tc_rel _ _ _ _ _ _ TC); [split; lia|exact NO].
    + intros x [X| ->]; [apply (tc_open _ _ _ _ _ _ TC); exact X|]. rewrite SB. split; [destruct V; split; lia|exact FB].
Qed.

Section P.
Variable src : list Z.
Variable toks beyond : list token.
Variable ms : macros.
Variable e : env.
Variable gl : globals.
Variable fuel : nat.
Hypothesis SRC : Forall (in_source src) toks.
Hypothesis FIT : Forall flags_fit toks.
Hypothesis BYTES : Forall (fun c => 0 <= c < 256) src.
Hypothesis FT : (length toks < fuel)%nat.
Hypothesis FS : (length src < fuel)%nat.
Hypothesis NOM : no_macro_spec ms.
Hypothesis BY : (2 <= length beyond)%nat.
Notation ahead := (ahead toks).
Notation headed := (headed src).
Notation loop := (loop src toks beyond ms e gl fuel).
Notation memb := (memb src toks beyond ms e gl fuel).
Notation globals_in := (globals_in e gl).
Notation class_struct := (class_struct src toks beyond ms e gl fuel).
Notation class_body := (class_body src toks beyond ms e gl fuel).
Notation class_loop := (class_loop src toks beyond ms e gl fuel).
Notation from_kw := (from_kw src toks beyond ms e fuel).
Notation gathered := (gathered src toks beyond ms e gl fuel).

Definition opts_of (hd : head) (x : bool) (ca cs acc par b : Z) := {| os_body := b; os_parent := par; os_access := acc; os_attrs := ca; os_interfaces := []; os_specs := cs; os_mflags := if x : bool then ModuleFlag_Export else 0 |}.
Definition class_node (hd : head) (x : bool) (ca cs acc par b ci : Z) : node := set_inline ci (struct_node b par (def_of hd) (fwd_of hd) (Some (hd_name hd)) (opts_of hd x ca cs acc par b)).
Section Holds.
Variables (O : Z -> Prop) (OD : forall x, O x \/ ~ O x) (hd : head) (h hh h' hx : heap) (ca : Z) (nt : token) (cs acc par b : Z) (x : bool) (cmt : option (list Z)) (ci n c' : Z).
Hypothesis HD : headed h hh hd ca nt cs acc par.
Hypothesis G : grow hh h'.
Hypothesis MC : maybe (comment_at h') ci cmt.
Hypothesis VN : valid h' n.
Hypothesis NN : h_node h' n = class_node hd x ca cs acc par b ci.
Hypothesis TC : touch O (h_top h) h' hx n c'.
Hypothesis OB : forall y, O y -> y < h_top h.
Hypothesis LN : h_top h <= n.
Hypothesis LH : h_top hh <= n.
Lemma node_parts : n_parent (h_node h' n) = 0 /\ n_name (h_node h' n) = hd_name hd /\ n_attrs (h_node h' n) = ca /\ n_specs (h_node h' n) = cs /\ n_ret (h_node h' n) = par /\ n_num (h_node h' n) = acc /\ n_inline (h_node h' n) = ci /\ n_body (h_node h' n) = b /\ exports (h_node h' n) x /\
  n_type (h_node h' n) = (if b =? 0 then fwd_of hd else def_of hd).
Proof. rewrite NN. unfold class_node, struct_node, with_body, opts_of, exports. destruct (b =? 0) eqn:B0; cbn; repeat split; try (destruct x; reflexivity). lia. Qed.
Lemma moved_parts : n_name (h_node hx c') = hd_name hd /\ n_attrs (h_node hx c') = ca /\ n_specs (h_node hx c') = cs /\ n_ret (h_node hx c') = par /\ n_num (h_node hx c') = acc /\ n_inline (h_node hx c') = ci /\ n_body (h_node hx c') = b /\ exports (h_node hx c') x /\
  kind_is hx c' [if b =? 0 then fwd_of hd else def_of hd] /\ statement hx (h_node hx c') /\ maybe (content_at hx) ca (hd_attrs hd) /\ maybe (comment_at hx) ci cmt /\ is_final hx cs (hd_final hd).
Proof.
  destruct node_parts as (P0 & P1 & P2 & P3 & P4 & P5 & P6 & P7 & P8 & P9). assert (ST : statement h' (h_node h' n)) by (left; exact P0).
  pose proof (tc_moved _ _ _ _ _ _ TC) as RM. pose proof (tc_parent _ _ _ _ _ _ TC) as RP.
  assert (ST' : statement hx (h_node hx c')) by (eapply t_statement; eauto). pose proof RM as (f & y & p & EM). rewrite EM in ST' |- *. unfold kind_is. rewrite EM. unfold exports in *. cbn. destruct HD as (MA & KA & TX & NE & FC & BS).
  split; [exact P1|]. split; [exact P2|]. split; [exact P3|]. split; [exact P4|]. split; [exact P5|]. split; [exact P6|]. split; [exact P7|]. split; [exact P8|]. split; [split; [apply (tc_valid _ _ _ _ _ _ TC)|left; symmetry; exact P9]|]. split; [exact ST'|].
  split; [|split; [revert MC; apply t_maybe; intros z t; eapply t_comment; eauto|]].
  - assert (MA' : maybe (content_at h') ca (hd_attrs hd)) by (revert MA; apply like_maybe; apply like_content; apply grow_like; exact G). revert MA'. apply t_maybe. intros z t. eapply t_content; eauto.
  - unfold is_final. destruct (hd_final hd); [|left; exact FC]. exists [Spec_Final]. split; [|left; reflexivity]. assert (FC' : specs_at h' cs [Spec_Final]) by (eapply like_specs; [apply grow_like; exact G|exact FC]). eapply t_specs; eauto. discriminate.
Qed.
Lemma class_holds : forall l t, class_tree x hd cmt l = Some t -> b <> 0 -> bodied hx b l -> holds hx c' t.
Proof.
  intros l t CT B0 BD. destruct moved_parts as (P1 & P2 & P3 & P4 & P5 & P6 & P7 & P8 & P9 & P10 & P11 & P12 & P13). replace (b =? 0) with false in P9 by lia.
  unfold class_tree in CT. unfold def_of, kinds_of in P9. destruct (hd_struct hd) eqn:HS; cbn [fst snd] in P9.
  - injection CT as <-. cbn [holds]. rewrite P1, P2, P3, P4, P5, P6, P7. split; [exact P9|]. split; [exact P8|]. split; [exact P11|]. split; [reflexivity|]. split; [exact P13|]. split; [|split; [exact P12|split; [exact BD|exact P10]]].
    destruct HD as (MA & KA & TX & NE & FC & BS). unfold based in BS. destruct (hd_base hd) as [((a & ty_) & mo)|]; [|apply BS]. destruct BS as (-> & -> & SA & TA & TO & LP & _ & NX). cbn [maybe]. split; [reflexivity|]. split; [exact SA|].
    assert (VP : valid hh par) by apply TA. destruct G as (GT & GN). assert (TA' : typ_at h' par ty_) by (eapply like_typ; [apply grow_like; exact G|exact TA]). split; [eapply t_typ; eauto|]. cbn [typs_from].
    rewrite (tc_same _ _ _ _ _ _ TC); [rewrite GN by exact VP; exact NX|destruct VP; split; lia|exact LP|destruct VP; lia].
  - destruct (hd_base hd) as [b0|] eqn:HB; [discriminate CT|]. injection CT as <-. cbn [holds]. rewrite P1, P2, P3, P4, P6, P7. split; [exact P9|]. split; [exact P8|]. split; [exact P11|]. split; [reflexivity|]. split; [exact P13|]. split; [|split; [exact P12|split; [exact BD|exact P10]]].
    destruct HD as (MA & KA & TX & NE & FC & BS). unfold based in BS. rewrite HB in BS. apply BS.
Qed.
Lemma forward_holds : forall t, forward_tree x hd cmt = Some t -> b = 0 -> holds hx c' t.
Proof.
  intros t CT B0. destruct moved_parts as (P1 & P2 & P3 & P4 & P5 & P6 & P7 & P8 & P9 & P10 & P11 & P12 & P13). replace (b =? 0) with true in P9 by lia. destruct HD as (MA & KA & TX & NE & FC & BS).
  unfold forward_tree in CT. destruct (hd_final hd); [discriminate CT|]. destruct (hd_base hd); [discriminate CT|]. unfold fwd_of, kinds_of in P9. destruct (hd_struct hd); injection CT as <-; cbn [fst snd] in P9; cbn [holds]; rewrite P1, P2, P6; (split; [exact P9|]); (split; [exact P8|]); (split; [exact P11|]); (split; [split; [reflexivity|exact NE]|]); (split; [exact P12|exact P10]).
Qed.
End Holds.
Lemma tree_of : forall x hd cmt l l' t, class_tree x hd cmt l = Some t -> Forall2 tree_like l l' -> exists t', class_tree x hd cmt l' = Some t' /\ tree_like t t'.
Proof.
  intros x hd cmt l l' t CT F. unfold class_tree in *. destruct (hd_struct hd); [injection CT as <-; eexists; split; [reflexivity|apply tl_struct; exact F]|]. destruct (hd_base hd); [discriminate CT|]. injection CT as <-. eexists. split; [reflexivity|apply tl_class; exact F].
Qed.
Lemma finish_class : forall n cls nm b Q c R s0 sc h, toks = Q ++ c :: R -> kind Tok_BraceCurly_Close c -> class_loop n cls nm b (Pst (zlen Q) (s0 :: sc) h) = Done (b, Pst (zlen (Q ++ [c])) sc h).
Proof.
  intros n cls nm b Q c R s0 sc h E K. unfold kind in K. destruct (left_ok toks Q c R (s0 :: sc) h E) as (l & L1 & L2). destruct (a_eat src toks beyond ms Q c _ Tok_BraceCurly_Close (s0 :: sc) h E K) as (_ & C1).
  destruct n; cbn [GlobalModel.class_loop]; erewrite bind_ok by exact L1; rewrite L2; (erewrite bind_ok by (eapply noskip_ok; exact E)); rewrite K, Z.eqb_refl; (erewrite bind_ok by exact C1); reflexivity.
Qed.
(** what reading a class or struct leaves, for those who put it into a body *)
Definition declares (O : Z -> Prop) (h h' : heap) (n : Z) (t : tree) : Prop :=
  grow h h' /\ h_top h <= n /\ valid h' n /\ is_body_type (n_type (h_node h' n)) = false /\ n_parent (h_node h' n) = 0 /\ forall hx c', touch O (h_top h) h' hx n c' -> holds hx c' t.
Lemma class_def : forall O (OD : forall x, O x \/ ~ O x) d x Q h_ hd g o body c fin R sc h inner cmt t,
  (forall h0 O' b' lo' nt, world e h0 -> globals_in h0 -> h_top h0 <= b' -> (forall x, O' x \/ ~ O' x) -> gathered O' b' lo' h0 fuel (Inside d nt) body (c :: fin ++ R) inner) ->
  toks = Q ++ h_ ++ g ++ o :: body ++ c :: fin ++ R -> class_head src h_ (g ++ [o]) hd -> gap g -> kind Tok_BraceCurly_Open o -> kind Tok_BraceCurly_Close c -> statement_end src fin (R ++ beyond) cmt ->
  class_tree x hd cmt inner = Some t -> (length body < d)%nat -> world e h -> globals_in h -> forms O h -> (forall y, O y -> y < h_top h) ->
  exists Q' h' n t', toks = Q' ++ R /\ tree_like t t' /\ declares O h h' n t' /\
    from_kw (class_body (class_struct d) (kw_of hd)) (kw_of hd) x (Pst (zlen Q) sc h) = Done (n, Pst (zlen Q') sc h').
Proof.
  intros O OD d x Q h_ hd g o body c fin R sc h inner cmt t IH E HE G KO KC SE CT LB W GI FO OB. pose proof (world_top src toks e fuel FT FS h W) as TP. unfold kind in KO. assert (FKO : ~ fmt o) by (unfold fmt; rewrite KO; intros [X|X]; discriminate X).
  assert (E' : toks = Q ++ h_ ++ (g ++ [o]) ++ body ++ c :: fin ++ R) by (rewrite E, <- app_assoc; reflexivity).
  destruct (head_ok src toks beyond ms e fuel SRC FIT BYTES FT FS h_ (g ++ [o]) (body ++ c :: fin ++ R) hd (class_body (class_struct d) (kw_of hd)) x Q sc h HE E') as (Q1 & ca & nt & cs & acc & par & hh & A1 & G1 & HD & C1); [rewrite <- app_assoc; cbn [app]; apply next_app; [exact G|exact FKO|left; exact KO]|exact W|].
  rewrite C1. clear C1. unfold after. rewrite <- app_assoc in A1. cbn [app] in A1. destruct (a_check toks beyond _ _ _ _ Tok_BraceCurly_Open sc hh A1 G FKO) as (Q2 & E2 & C2). erewrite bind_ok by exact C2. rewrite KO, Z.eqb_refl.
  set (s1 := (zlen Q2, "parse_class_struct_body"%string)). destruct (a_eat src toks beyond ms Q2 o _ Tok_BraceCurly_Open (s1 :: sc) hh E2 KO) as (_ & C3). apply at_eat in E2.
  destruct (any_make (AstModel.set_type (body_of hd)) hh (zlen (Q2 ++ [o])) (s1 :: sc)) as (h1 & M1 & T1 & N1 & G2). set (b := h_top hh) in *.
  assert (TPH : h_top h <= b) by (destruct G1; unfold b; lia).
  assert (OD' : forall y, (O y \/ y = b) \/ ~ (O y \/ y = b)) by (intros y; destruct (OD y), (Z.eq_dec y b); tauto).
  assert (OP1 : open (fun y => O y \/ y = b) b (b + 1) h1 [] []).
  { assert (FO1 : forms (fun y => O y \/ y = b) h1). { pose proof (grow_trans _ _ _ G1 G2) as (T & N). intros y [Y|Y]; [destruct (FO y Y) as (V & F); split; [destruct V; split; lia|rewrite N by exact V; exact F]|]. rewrite Y. split; [split; lia|]. rewrite N1. unfold form, body_of, kinds_of. cbn. destruct (hd_struct hd); cbn; repeat split; auto 10. }
    apply (open_new _ OD'); [right; reflexivity|intros y [Y|Y]; [pose proof (OB y Y); lia|lia]|lia|exact FO1|exact T1|eauto]. }
  assert (WH : world e hh) by (eapply world_grow; eauto). assert (GIH : globals_in hh) by (eapply (globals_grow src toks e gl fuel FT FS); eauto).
  assert (LF : (length body < fuel)%nat) by (rewrite E2, !app_length in FT; lia).
  destruct (IH hh (fun y => O y \/ y = b) b (b + 1) (Some nt) WH GIH ltac:(unfold b; lia) OD' [] [] (Q2 ++ [o]) (s1 :: sc) h1 E2 LF LB OP1 G2) as (Q3 & h2 & xs & l' & n' & E3 & OP2 & F & K2 & G3 & C4). cbn [app] in OP2.
  destruct (tree_of _ _ _ _ _ _ CT F) as (t' & CT' & TL).
  assert (V2 : valid h2 b) by (destruct K2; split; lia).
  assert (NB : none_or h2 b [body_of hd]). { right. split; [exact V2|]. left. destruct K2 as (_ & K2 & _). rewrite K2, N1. reflexivity. }
  assert (SP : hd_struct hd = true \/ par = 0). { unfold class_tree in CT. destruct (hd_struct hd); [left; reflexivity|right]. destruct HD as (_ & _ & _ & _ & _ & BS). unfold based in BS. destruct (hd_base hd); [discriminate CT|]. apply BS. }
  pose proof (at_eat _ _ _ _ E3) as E4. pose proof (ahead_self toks _ _ E4) as A4.
  destruct (tail_ok src toks beyond ms e fuel FT FS hd h hh ca nt cs acc par b x fin R cmt (Q3 ++ [c]) sc h2 HD G1 G3 W NB (or_intror (Z.le_refl _)) SP SE A4) as (Q5 & h' & ci & n & E5 & (L1 & L2) & G5 & MC & LC & NN & KE & KB & C5).
  exists Q5, h', n, t'. split; [exact E5|]. split; [exact TL|]. assert (BN0 : b <> 0) by (destruct V2; lia). assert (GT5 : h_top hh <= h_top h') by (destruct G5; lia). split.
  - assert (VN : valid h' n) by (destruct V2; split; lia). fold (opts_of hd x ca cs acc par b) in NN. fold (class_node hd x ca cs acc par b ci) in NN. destruct V2 as (V2a & V2b).
    destruct (node_parts O OD hd h h' ca cs acc par b x ci n 0 NN OB) as (P0 & _ & _ & _ & _ & _ & _ & _ & _ & P9).
    split; [eapply grow_trans; eauto|]. split; [lia|]. split; [exact VN|]. split; [rewrite P9; replace (b =? 0) with false by lia; unfold def_of, kinds_of; destruct (hd_struct hd); reflexivity|]. split; [exact P0|].
    intros hx c' TC. assert (BD : bodied hx b l').
    { eapply (block_touch2 O b (b + 1) h2 xs l' h' hx (h_top h) n c'); [exact OP2|lia|exact V2b|apply KB; exact BN0|intros y Y; apply KE; [split; lia|lia]| |exact TC|lia|right; lia].
      intros y Y _. destruct (Z.eq_dec y b) as [->|YB]; [|rewrite KE by (try split; lia); apply loose_refl]. destruct (KB BN0) as (pa & ->). apply loose_relinked. exists (n_front (h_node h2 b)), (n_next (h_node h2 b)), pa. destruct (h_node h2 b). reflexivity. }
    eapply class_holds; eauto; lia.
  - assert (CB : class_body (class_struct d) (kw_of hd) (Some nt) (Pst (zlen Q2) sc hh) = Done (b, Pst (zlen (Q3 ++ [c])) sc h2)).
    { unfold GlobalModel.class_body, push_scope. unfold bind at 1. cbn [rbind p_idx p_scopes p_heap]. fold s1. erewrite bind_ok by exact C3. replace (if kw_of hd =? Tok_Decl_Class then CT_Class_Body else CT_Struct_Body) with (body_of hd) by (unfold kw_of, body_of, kinds_of; destruct (hd_struct hd); reflexivity).
      erewrite bind_ok by exact M1. cbn [GlobalProofs3.loop] in C4. rewrite C4. eapply finish_class; [exact E3|exact KC]. }
    erewrite bind_ok by exact CB. destruct HD as (_ & _ & TX & _). cbn [name_text]. rewrite TX. exact C5.
Qed.
Lemma forward_def : forall O (OD : forall x, O x \/ ~ O x) x Q h_ rest more hd fin R sc h cmt t body, rest ++ more = fin ++ R ->
  toks = Q ++ h_ ++ fin ++ R -> class_head src h_ rest hd -> statement_end src fin (R ++ beyond) cmt -> forward_tree x hd cmt = Some t -> world e h -> (forall y, O y -> y < h_top h) ->
  exists Q' h' n, toks = Q' ++ R /\ declares O h h' n t /\ from_kw body (kw_of hd) x (Pst (zlen Q) sc h) = Done (n, Pst (zlen Q') sc h').
Proof.
  intros O OD x Q h_ rest more hd fin R sc h cmt t body RM E HE SE CT W OB. pose proof (world_top src toks e fuel FT FS h W) as TP.
  assert (FI : exists g k r, fin ++ R = g ++ k :: r /\ gap g /\ t_type k = Tok_Statement_End). { inversion SE; subst; do 3 eexists; (split; [rewrite <- app_assoc; reflexivity|]); split; eassumption. }
  destruct FI as (g & k & r & EF & G & K). assert (FK : ~ fmt k) by (unfold fmt; rewrite K; intros [X|X]; discriminate X).
  assert (E' : toks = Q ++ h_ ++ rest ++ more) by (rewrite RM; exact E).
  destruct (head_ok src toks beyond ms e fuel SRC FIT BYTES FT FS h_ rest more hd body x Q sc h HE E') as (Q1 & ca & nt & cs & acc & par & hh & A1 & G1 & HD & C1); [rewrite RM, EF; apply next_app; [exact G|exact FK|right; exact K]|exact W|].
  rewrite C1. clear C1. unfold after. rewrite RM in A1. pose proof A1 as A1'. rewrite EF in A1'. destruct (a_check toks beyond _ _ _ _ Tok_BraceCurly_Open sc hh A1' G FK) as (Q2 & E2 & C2). erewrite bind_ok by exact C2. rewrite K. change (Tok_Statement_End =? Tok_BraceCurly_Open) with false. cbv iota. erewrite bind_ok by reflexivity.
  assert (A2 : ahead Q2 (fin ++ R)) by (rewrite EF; exists (k :: r); split; [exact E2|symmetry; apply trim_gap; exact G]).
  assert (SP : hd_struct hd = true \/ par = 0). { right. unfold forward_tree in CT. destruct HD as (_ & _ & _ & _ & _ & BS). unfold based in BS. destruct (hd_final hd); [discriminate CT|]. destruct (hd_base hd); [discriminate CT|]. apply BS. }
  destruct (tail_ok src toks beyond ms e fuel FT FS hd h hh ca nt cs acc par 0 x fin R cmt Q2 sc hh HD G1 (grow_refl hh) W (or_introl eq_refl) (or_introl eq_refl) SP SE A2) as (Q5 & h' & ci & n & E5 & (L1 & L2) & G5 & MC & LC & NN & KE & _ & C5).
  exists Q5, h', n. split; [exact E5|]. split.
  - assert (TH : h_top h <= h_top hh) by (destruct G1; lia). assert (VN : valid h' n) by (split; lia). fold (opts_of hd x ca cs acc par 0) in NN. fold (class_node hd x ca cs acc par 0 ci) in NN.
    destruct (node_parts O OD hd h h' ca cs acc par 0 x ci n 0 NN OB) as (P0 & _ & _ & _ & _ & _ & _ & _ & _ & P9).
    split; [eapply grow_trans; eauto|]. split; [lia|]. split; [exact VN|]. split; [rewrite P9; unfold fwd_of, kinds_of; destruct (hd_struct hd); reflexivity|]. split; [exact P0|].
    intros hx c' TC. eapply forward_holds; eauto; lia.
  - destruct HD as (_ & _ & TX & _). cbn [name_text]. rewrite TX. exact C5.
Qed.
End P.
