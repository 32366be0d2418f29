(** Global bodies and namespaces: the public functions. *)
From Coq Require Import String ZArith List Bool Lia ZifyBool ZifyNat.
From Verif Require Import Common Text HashModel StrOpsModel EnumModel EnumSpec EnumProofs LexModel LexSpec NavModel StripModel StripSpec StripProofs AstModel AstSpec AstProofs AstProofs4 UpfrontModel UpfrontSpec UpfrontProofs4 SerSpec SerProofs SerProofs2 ParseModel ParseSpec
  ParseProofs ParseProofs2 ParseProofs3 ParseProofs4 ParseProofs5 ParseProofs6 ParseProofs7 ParseProofs8 ParseProofs9 ParseProofs10 ParseProofs11 FnModel FnSpec FnProofs FnProofs2 FnProofs3 FnProofs4 GlobalModel GlobalSpec GlobalProofs GlobalProofs2 GlobalProofs3 GlobalProofs4 GlobalProofs5 GlobalProofs6 GlobalProofs7 GlobalProofs8 GlobalProofs9 ClassProofs ClassProofs2 ClassProofs3.
Import ListNotations.
Close Scope string_scope.
Open Scope Z_scope.
Open Scope parse_scope.
Section P.
Variable src : list Z.
Variable toks beyond : list token.
Variable ms : macros.
Variable e : env.
Variable gl : globals.
Variable fuel : nat.
Hypothesis SRC : Forall (in_source src) toks.
Hypothesis FIT : Forall flags_fit toks.
Hypothesis BYTES : Forall (fun c => 0 <= c < 256) src.
Hypothesis FT : (length toks < fuel)%nat.
Hypothesis FS : (length src < fuel)%nat.
Hypothesis NOM : no_macro_spec ms.
Hypothesis BY : (2 <= length beyond)%nat.
Notation member := (member src toks beyond ms e gl fuel).
Notation reads := (reads src toks beyond ms e gl fuel).
Notation ahead := (ahead toks).

Notation global_decl := (global_decl src toks beyond ms e gl fuel).
Notation global_specs := (global_specs src toks beyond ms e gl fuel).

Notation nspace_loop := (nspace_loop src toks beyond ms e gl fuel).
Notation globals_in := (globals_in e gl).
Notation gathered := (gathered src toks beyond ms e gl fuel).

Definition fits (s : scope) (p : place) : Prop := inside p = in_class s /\ (s = InNamespace -> forall which, p = Outside which -> ct_eqb which CT_Extern_Linkage_Body = false).
Lemma fits_out : forall s p, fits s p -> in_class s = false -> exists which, p = Outside which.
Proof. intros s [w|d nm] (F & _) N; [eauto|]. rewrite N in F. discriminate F. Qed.
Lemma fits_class : forall p, fits InClass p -> exists d nm, p = Inside d nm.
Proof. intros [w|d nm] (F & _); [discriminate F|eauto]. Qed.
Lemma class_ne : forall h_ rest hd, class_head src h_ rest hd -> (1 <= length h_)%nat.
Proof. intros h_ rest hd H. destruct (head_first src _ _ _ H) as (k & r & -> & _). cbn. lia. Qed.
Lemma deep_sub : forall p a b, deep p (a ++ b) -> deep p a.
Proof. intros [w|d nm] a b D; [exact I|]. cbn in *. rewrite app_length in D. lia. Qed.
Lemma members_ok : forall s raw rest l, members src beyond s raw rest l -> forall p, fits s p ->
  forall h0 O b lo n, world e h0 -> globals_in h0 -> h_top h0 <= b -> (forall x, O x \/ ~ O x) -> gathered O b lo h0 n p raw rest l.
Proof.
  intros s0 raw rest l T. induction T as [s0 rest|s0 k r rest l K T IH|s0 m r rest t l S0 T IH|k colon r rest l K KC T IH|s0 k g nm name g' o body c r rest inner l NC K G NM NE G' KO T1 IH1 KC T2 IH2|k g s o body c r rest name inner l K G KS NM NE KO T1 IH1 KC T2 IH2
    |s0 h_ hd g o body c semi fin r rest inner cmt t l HE PL G KO T1 IH1 IB KC KS SE CT T2 IH2|s0 k nm semi fin r rest cmt t hd l HE KS SE CT T IH];
    intros p LW h0 O b lo n W0 GI0 HB OD.
  - intros xs l0 Q sc h E L D OP G. exists Q, h, [], [], n. rewrite !app_nil_r. split; [exact E|]. split; [exact OP|]. split; [constructor|]. split; [apply (keeps_refl src toks beyond fuel FT FS BY)|]. auto.
  - intros xs l0 Q sc h E L D OP G. destruct n as [|n]; [cbn in L; lia|]. cbn [app length] in *.
    destruct (IH p LW h0 O b lo n W0 GI0 HB OD xs l0 (Q ++ [k]) sc h (at_eat _ _ _ _ E) ltac:(lia) ltac:(destruct p; cbn in *; lia) OP G) as (Q' & h' & xs' & l' & n' & E' & X1 & X2 & X3 & X4 & C).
    exists Q', h', xs', l', n'. split; [exact E'|]. split; [exact X1|]. split; [exact X2|]. split; [exact X3|]. split; [exact X4|]. rewrite (turn_semi src toks beyond ms e gl fuel p n b Q k _ sc h E K). exact C.
  - pose proof (simple_ne src toks beyond fuel FT FS BY _ _ _ _ S0) as M1. destruct n as [|n]; [intros xs l0 Q sc h E L; lia|]. apply (gathered_cons src toks beyond ms e gl fuel FT FS BY); [|exact M1|apply IH; auto].
    intros xs l0 Q sc h E L D OP G. assert (IP : inside p = in_class s0) by apply LW. rewrite <- IP in S0. eapply (simple_step src toks beyond ms e gl fuel SRC FIT BYTES FT FS NOM BY); eauto.
  - destruct n as [|n]; [intros xs l0 Q sc h E L; lia|]. change (k :: colon :: r) with ([k; colon] ++ r). apply (gathered_cons src toks beyond ms e gl fuel FT FS BY); [|cbn; lia|apply IH; auto].
    intros xs l0 Q sc h E L D OP G. destruct (fits_class p LW) as (d & nm & ->). eapply (label_step src toks beyond ms e gl fuel FT FS BY); eauto.
  - destruct (fits_out _ _ LW NC) as (which & ->). destruct n as [|n]; [intros xs l0 Q sc h E L; lia|]. replace (k :: g ++ nm ++ g' ++ o :: body ++ c :: r) with ((k :: g ++ nm ++ g' ++ o :: body ++ [c]) ++ r) by (cbn [app]; rewrite <- !app_assoc; cbn [app]; rewrite <- !app_assoc; reflexivity).
    apply (gathered_cons src toks beyond ms e gl fuel FT FS BY); [|cbn; lia|apply IH2; auto]. intros xs l0 Q sc h E L D OP G0.
    assert (E' : toks = Q ++ k :: g ++ nm ++ g' ++ o :: body ++ c :: r ++ rest). { rewrite E. cbn [app]. rewrite <- !app_assoc. cbn [app]. rewrite <- !app_assoc. reflexivity. }
    assert (LB : (length body < n)%nat) by (rewrite app_length in L; cbn in L; rewrite !app_length in L; cbn in L; rewrite app_length in L; cbn in L; lia).
    assert (IHB : forall h0 O' b' lo', world e h0 -> globals_in h0 -> h_top h0 <= b' -> (forall x, O' x \/ ~ O' x) -> gathered O' b' lo' h0 n (Outside CT_Namespace_Body) body (c :: r ++ rest) inner) by (intros; apply IH1; auto; split; [reflexivity|intros _ w EW; injection EW as <-; reflexivity]).
    destruct (namespace_step src toks beyond ms e gl fuel SRC FT FS BY O OD n which b lo xs l0 Q k g nm name g' o body c (r ++ rest) inner sc h h0 IHB E' K G NM NE G' KO KC LB OP W0 GI0 G0 HB) as (Q' & h' & c' & l' & X1 & X2 & X3 & X4 & X5 & C).
    exists Q', h', c', (Namespace false name l'). split; [exact X1|]. split; [exact X2|]. split; [constructor; exact X3|]. auto.
  - destruct (fits_out _ _ LW eq_refl) as (which & EW). subst p. destruct n as [|n]; [intros xs l0 Q sc h E L; lia|]. replace (k :: g ++ s :: o :: body ++ c :: r) with ((k :: g ++ s :: o :: body ++ [c]) ++ r) by (cbn [app]; rewrite <- !app_assoc; cbn [app]; rewrite <- !app_assoc; reflexivity).
    apply (gathered_cons src toks beyond ms e gl fuel FT FS BY); [|cbn; lia|apply IH2; auto]. intros xs l0 Q sc h E L D OP G0.
    assert (E' : toks = Q ++ k :: g ++ s :: o :: body ++ c :: r ++ rest). { rewrite E. cbn [app]. rewrite <- !app_assoc. cbn [app]. rewrite <- !app_assoc. reflexivity. }
    assert (LB : (length body < n)%nat) by (rewrite app_length in L; cbn in L; rewrite !app_length in L; cbn in L; rewrite app_length in L; cbn in L; lia).
    assert (IHB : forall h0 O' b' lo', world e h0 -> globals_in h0 -> h_top h0 <= b' -> (forall x, O' x \/ ~ O' x) -> gathered O' b' lo' h0 n (Outside CT_Extern_Linkage_Body) body (c :: r ++ rest) inner) by (intros; apply IH1; auto; split; [reflexivity|discriminate]).
    destruct (linkage_step src toks beyond ms e gl fuel SRC FT FS BY O OD n which b lo xs l0 Q k g s name o body c (r ++ rest) inner sc h h0 IHB E' K G KS NM NE KO KC LB (proj2 LW eq_refl which eq_refl) OP W0 GI0 G0 HB) as (Q' & h' & c' & l' & X1 & X2 & X3 & X4 & X5 & C).
    exists Q', h', c', (Linkage name l'). split; [exact X1|]. split; [exact X2|]. split; [constructor; exact X3|]. auto.
  - destruct n as [|n]; [intros xs l0 Q sc h E L; lia|]. pose proof (class_ne _ _ _ HE) as HN. replace (h_ ++ g ++ o :: body ++ c :: semi :: fin ++ r) with ((h_ ++ g ++ o :: body ++ c :: semi :: fin) ++ r) by (rewrite <- !app_assoc; cbn [app]; rewrite <- !app_assoc; reflexivity).
    apply (gathered_cons src toks beyond ms e gl fuel FT FS BY); [|rewrite app_length; lia|apply IH2; auto]. intros xs l0 Q sc h E L D OP G0.
    assert (E' : toks = Q ++ h_ ++ g ++ o :: body ++ c :: semi :: fin ++ r ++ rest). { rewrite E. rewrite <- !app_assoc. cbn [app]. rewrite <- !app_assoc. cbn [app]. rewrite <- ?app_assoc. reflexivity. }
    assert (D' : deep p (h_ ++ g ++ o :: body)). { apply (deep_sub p _ (c :: semi :: fin ++ r)). replace ((h_ ++ g ++ o :: body) ++ c :: semi :: fin ++ r) with ((h_ ++ g ++ o :: body ++ c :: semi :: fin) ++ r) by (rewrite <- !app_assoc; cbn [app]; rewrite <- !app_assoc; reflexivity). exact D. }
    rewrite app_assoc in SE. eapply (class_step src toks beyond ms e gl fuel SRC FIT BYTES FT FS BY) with (hd := hd) (inner := inner) (cmt := cmt) (semi := semi) (fin := fin); eauto.
    intros h1 O' b' lo' d nt W1 GI1 HB1 OD1. apply IH1; auto. split; [reflexivity|discriminate].
  - destruct n as [|n]; [intros xs l0 Q sc h E L; lia|]. change (k :: nm :: semi :: fin ++ r) with ((k :: nm :: semi :: fin) ++ r).
    apply (gathered_cons src toks beyond ms e gl fuel FT FS BY); [|cbn; lia|apply IH; auto]. intros xs l0 Q sc h E L D OP G0.
    rewrite app_assoc in SE. eapply (forward_step src toks beyond ms e gl fuel SRC FIT BYTES FT FS BY) with (hd := hd) (cmt := cmt) (semi := semi) (fin := fin) (k := k) (nm := nm); eauto. apply (deep_sub p [k; nm] (semi :: fin ++ r)). exact D.
Qed.
Lemma open_first : forall which h i sc, mine which -> 0 < h_top h -> exists h', on_heap (fun h => Done (make h (AstModel.set_type which))) (Pst i sc h) = Done (h_top h, Pst i sc h') /\ grow h h' /\
  h_top h' = h_top h + 1 /\ open (fun x => x = h_top h) (h_top h) (h_top h + 1) h' [] [].
Proof.
  intros which h i sc M T. destruct (any_make (AstModel.set_type which) h i sc) as (h1 & M1 & T1 & N1 & G1). exists h1. split; [exact M1|]. split; [exact G1|]. split; [exact T1|].
  assert (ODX : forall x, x = h_top h \/ ~ x = h_top h) by (intros x; destruct (Z.eq_dec x (h_top h)); auto).
  apply (open_new (fun x => x = h_top h) ODX); [reflexivity|intros x ->; lia|exact T| |exact T1|eauto].
  intros x ->. split; [split; lia|]. rewrite N1. unfold form. cbn. repeat split; auto. destruct M as [->|[->|[->|[->|[->| ->]]]]]; auto 10.
Qed.
Lemma open_holds : forall O b lo h xs l, (forall x, O x \/ ~ O x) -> open O b lo h xs l -> holds h b (Block l).
Proof.
  intros O b lo h xs l OD OP. destruct (open_block O OD b lo h xs l OP) as [B|(t & _ & (_ & K) & _)]; [exact B|]. exfalso. destruct (o_forms _ _ _ _ _ _ OP b (o_in _ _ _ _ _ _ OP)) as (_ & _ & _ & _ & _ & F). cbn in F, K. destruct F as [F|[F|[F|[F|[F|[]]]]]], K as [K|[K|[]]]; congruence.
Qed.
Lemma global_ok : forall l sc h, members src beyond InNamespace toks [] l -> world e h -> globals_in h ->
  exists c h' l', parse_global_body src toks beyond ms e gl fuel (Pst 0 sc h) = Done (c, Pst (zlen toks) sc h') /\ holds h' c (Block l') /\ Forall2 tree_like l l' /\ grow h h' /\ h_top h <= c.
Proof.
  intros l sc h T W GI. pose proof (world_top src toks e fuel FT FS h W) as TP. unfold parse_global_body, push_scope. unfold bind at 1. cbn [rbind p_idx p_scopes p_heap]. unfold bind at 1. cbn [rbind p_idx p_scopes p_heap].
  set (s0 := (0, "parse_global_body"%string)). set (s1 := (0, "parse_global_nspace"%string)).
  destruct (open_first CT_Global_Body h 0 (s1 :: s0 :: sc) (or_introl eq_refl) TP) as (h1 & M1 & G1 & T1 & OP1). erewrite bind_ok by exact M1.
  assert (OD : forall x, x = h_top h \/ ~ x = h_top h) by (intros x; destruct (Z.eq_dec x (h_top h)); auto).
  assert (FG : fits InNamespace (Outside CT_Global_Body)) by (split; [reflexivity|intros _ w EW; injection EW as <-; reflexivity]).
  destruct (members_ok InNamespace toks [] l T (Outside CT_Global_Body) FG h (fun x => x = h_top h) (h_top h) (h_top h + 1) fuel W GI (Z.le_refl _) OD [] [] [] (s1 :: s0 :: sc) h1 ltac:(rewrite app_nil_r; reflexivity) FT I OP1 G1) as (Q' & h' & xs' & l' & n' & E' & OP' & F & K & G & C).
  rewrite app_nil_r in E'. cbn [app] in OP'. change (zlen (@nil token)) with 0 in C. exists (h_top h), h', l'. split; [|split; [exact (open_holds _ _ _ _ _ _ OD OP')|]; split; [exact F|]; split; [exact G|lia]].
  cbn [GlobalProofs3.loop] in C. unfold bind at 1. rewrite C. rewrite (finish_end src toks beyond ms e gl fuel n' (h_top h) Q' s1 (s0 :: sc) h' E'). cbn [rbind]. rewrite E'. reflexivity.
Qed.
Lemma namespace_ok : forall t sc h, namespace_tokens src beyond toks [] t -> world e h -> globals_in h ->
  exists c h' t', parse_namespace src toks beyond ms e gl fuel (Pst 0 sc h) = Done (c, Pst (zlen toks) sc h') /\ holds h' c t' /\ tree_like t t' /\ grow h h' /\ h_top h <= c.
Proof.
  intros t sc h T W GI. pose proof (world_top src toks e fuel FT FS h W) as TP. remember toks as tt eqn:ET in T. remember (@nil token) as rest eqn:ER in T. destruct T as [k g nm name g' o body c rest inner K G NM NE G' KO T KC]. subst rest. rename ET into E. symmetry in E.
  unfold kind in K. assert (FO : ~ fmt o) by (unfold kind in KO; unfold fmt; rewrite KO; intros [X|X]; discriminate X).
  assert (E0 : toks = [] ++ k :: g ++ nm ++ g' ++ o :: body ++ [c]) by exact E.
  unfold parse_namespace, push_scope. unfold bind at 1. cbn [rbind p_idx p_scopes p_heap]. set (s0 := (0, "parser_parse_namespace"%string)).
  destruct (a_eat src toks beyond ms [] k _ Tok_Decl_Namespace (s0 :: sc) h E0 K) as (A1 & C1). change (zlen (@nil token)) with 0 in C1. erewrite bind_ok by exact C1.
  destruct (identifier_at src toks beyond ms fuel SRC nm name ([] ++ [k]) (g' ++ o :: body ++ [c]) g (s0 :: sc) h A1 G NM) as (Q2 & nt & E2 & C2 & TX & _); [apply next_app; [exact G'|exact FO|split; unfold kind in KO; rewrite KO; [discriminate|intros (X & _); discriminate X]]|lia|].
  erewrite bind_ok by exact C2. rewrite trim_gap, trim_sig in E2 by auto. unfold bind at 1. cbn [rbind p_idx p_scopes p_heap]. set (s1 := (zlen Q2, "parse_global_nspace"%string)).
  destruct (a_eat src toks beyond ms Q2 o _ Tok_BraceCurly_Open (s1 :: s0 :: sc) h E2 KO) as (_ & C3). erewrite bind_ok by exact C3. apply at_eat in E2.
  destruct (open_first CT_Namespace_Body h (zlen (Q2 ++ [o])) (s1 :: s0 :: sc) (or_intror (or_introl eq_refl)) TP) as (h1 & M1 & G1 & T1 & OP1). erewrite bind_ok by exact M1.
  assert (OD : forall x, x = h_top h \/ ~ x = h_top h) by (intros x; destruct (Z.eq_dec x (h_top h)); auto).
  assert (LB : (length body < fuel)%nat) by (rewrite E2 in FT; rewrite !app_length in FT; lia).
  assert (FG : fits InNamespace (Outside CT_Namespace_Body)) by (split; [reflexivity|intros _ w EW; injection EW as <-; reflexivity]).
  destruct (members_ok InNamespace body [c] inner T (Outside CT_Namespace_Body) FG h (fun x => x = h_top h) (h_top h) (h_top h + 1) fuel W GI (Z.le_refl _) OD [] [] (Q2 ++ [o]) (s1 :: s0 :: sc) h1 E2 LB I OP1 G1) as (Q3 & h3 & xs' & l' & n' & E3 & OP3 & F & K3 & G3 & C4).
  cbn [app] in OP3. cbn [GlobalProofs3.loop] in C4. unfold bind at 1. rewrite C4. rewrite (finish_close src toks beyond ms e gl fuel n' CT_Namespace_Body (h_top h) Q3 c [] s1 (s0 :: sc) h3 E3 KC eq_refl). cbn [rbind].
  assert (NI : (h_top h =? e_invalid e) = false) by (destruct W as ((_ & W) & _); lia). rewrite NI. cbn [name_text]. rewrite TX.
  set (f := fun m => set_body (h_top h) (set_name name (AstModel.set_type CT_Namespace m))). destruct (any_make f h3 (zlen (Q3 ++ [c])) (s0 :: sc)) as (h4 & M4 & T4 & N4 & G4). erewrite bind_ok by exact M4.
  assert (OP4 : open (fun x => x = h_top h) (h_top h) (h_top h + 1) h4 xs' l') by (eapply open_grow; eauto).
  exists (h_top h3), h4, (Namespace false name l'). split; [rewrite E3; reflexivity|]. split; [|split; [constructor; exact F|]; split; [eapply grow_trans; eauto|destruct G3; lia]].
  apply (bodied_holds); [split; [split; destruct G3; lia|rewrite N4; left; reflexivity]|rewrite N4; reflexivity|rewrite N4; reflexivity|exact NE|]. rewrite N4. cbn. eapply open_block; eauto.
exact OD. Qed.
End P.
