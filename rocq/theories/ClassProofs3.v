(** Classes, structs and access labels as members of bodies. *)
From Coq Require Import String ZArith List Bool Lia ZifyBool ZifyNat.
From Verif Require Import Common Text HashModel StrOpsModel EnumModel EnumSpec EnumProofs LexModel LexSpec NavModel StripModel StripSpec StripProofs AstModel AstSpec AstProofs AstProofs4 UpfrontModel UpfrontSpec UpfrontProofs UpfrontProofs2 UpfrontProofs4 SerSpec SerProofs SerProofs2 ParseModel ParseSpec
  ParseProofs ParseProofs2 ParseProofs3 ParseProofs4 ParseProofs5 ParseProofs6 ParseProofs7 ParseProofs8 ParseProofs9 ParseProofs10 ParseProofs11 FnModel FnSpec FnProofs FnProofs2 FnProofs3 FnProofs4 GlobalModel GlobalSpec GlobalProofs GlobalProofs2 GlobalProofs3 GlobalProofs4 GlobalProofs5 GlobalProofs6 GlobalProofs7 GlobalProofs8 GlobalProofs9 ClassProofs ClassProofs2.
Import ListNotations.
Close Scope string_scope.
Open Scope Z_scope.
Open Scope parse_scope.
Section P.
Variable src : list Z.
Variable toks beyond : list token.
Variable ms : macros.
Variable e : env.
Variable gl : globals.
Variable fuel : nat.
Hypothesis SRC : Forall (in_source src) toks.
Hypothesis FIT : Forall flags_fit toks.
Hypothesis BYTES : Forall (fun c => 0 <= c < 256) src.
Hypothesis FT : (length toks < fuel)%nat.
Hypothesis FS : (length src < fuel)%nat.
Hypothesis NOM : no_macro_spec ms.
Hypothesis BY : (2 <= length beyond)%nat.
Notation ahead := (ahead toks).
Notation loop := (loop src toks beyond ms e gl fuel).
Notation memb := (memb src toks beyond ms e gl fuel).
Notation cls_of := (cls_of src toks beyond ms e gl fuel).
Notation reads := (reads src toks beyond ms e gl fuel).
Notation globals_in := (globals_in e gl).
Notation class_struct := (class_struct src toks beyond ms e gl fuel).
Notation class_body := (class_body src toks beyond ms e gl fuel).
Notation from_kw := (from_kw src toks beyond ms e fuel).
Notation gathered := (gathered src toks beyond ms e gl fuel).
Notation definition_end := (definition_end toks beyond).

Notation keeps_trans := (GlobalProofs9.keeps_trans src toks beyond fuel FT FS BY).
Notation grow_keeps := (GlobalProofs9.grow_keeps src toks beyond fuel FT FS BY).
Notation keeps_grow := (GlobalProofs9.keeps_grow src toks beyond fuel FT FS BY).

(** ** access labels *)
Lemma label_read : forall k colon rest, kind Tok_Access_Public k \/ kind Tok_Access_Protected k \/ kind Tok_Access_Private k -> kind Tok_Assign_Classifer colon -> reads true [k; colon] rest (Raw (label_text (t_type k))).
Proof.
  intros k colon rest K KC. unfold kind in K, KC. assert (FC : ~ fmt colon) by (unfold fmt; rewrite KC; intros [X|X]; discriminate X).
  apply (reads_by src toks beyond ms e gl fuel FT FS); try (destruct K as [-> |[-> | ->]]; discriminate). intros Q sc h E W (_ & _ & _ & GA & GB & GC). cbn [app] in E.
  assert (X : exists c kd, label e h c kd (label_text (t_type k)) /\ In kd [CT_Access_Private; CT_Access_Protected; CT_Access_Public] /\ forall d nm n, memb (Inside d nm) n (t_type k) = (eat src toks beyond ms (t_type k) ;;; eat src toks beyond ms Tok_Assign_Classifer ;;; ret (Some c))).
  { destruct K as [-> |[-> | ->]]; do 2 eexists; (split; [eassumption|]); (split; [cbn; auto|]); intros; reflexivity. }
  destruct X as (c & kd & (GL & NM) & KD & M). exists (Q ++ [k; colon]), c, h, (Raw (label_text (t_type k))). split; [rewrite E, <- app_assoc; reflexivity|]. split.
  - eapply gathers_global; [exact GL|exact I|exact I| |cbn in KD; destruct KD as [<-|[<-|[<-|[]]]]; reflexivity]. right. split; [|exact NM]. destruct GL as ((V & [KT|[]]) & _). split; [exact V|]. rewrite <- KT. exact KD.
  - intros [w|d nm] n IP; [discriminate IP|]. rewrite M. destruct (a_eat src toks beyond ms Q k _ _ sc h E eq_refl) as (_ & C1). erewrite bind_ok by exact C1. apply at_eat in E. destruct (a_eat src toks beyond ms _ colon _ _ sc h E KC) as (_ & C2). erewrite bind_ok by exact C2. rewrite <- app_assoc. reflexivity.
Qed.

(** ** declarations of classes *)
Lemma declare_step : forall O (OD : forall x, O x \/ ~ O x) (k : Z -> M Z) b lo xs l0 (Q' : list token) sc h h0 h1 c t s (m : M Z), declares O h h1 c t -> open O b lo h xs l0 -> world e h0 -> grow h0 h -> h_top h0 <= b ->
  m s = (edit (fun h => body_append fuel h b c) ;;; k b) (Pst (zlen Q') sc h1) ->
  exists h' c', open O b lo h' (xs ++ [c']) (l0 ++ [t]) /\ keeps b lo h h' /\ grow h0 h' /\ m s = k b (Pst (zlen Q') sc h').
Proof.
  intros O OD k b lo xs l0 Q' sc h h0 h1 c t s m (G1 & LC & VC & BF & P0 & HO) OP W0 G0 HB C. destruct (open_lo _ _ _ _ _ _ OP) as (LT & BLO & B0).
  assert (OP1 : open O b lo h1 xs l0) by (eapply open_grow; eauto). assert (RG : row O h1 lo xs l0 (h_top h)) by (eapply row_grow; eauto). assert (CB : c <> b) by lia.
  destruct (append_ok O OD fuel b lo h1 xs l0 c t (h_top h) ltac:(lia) OP1 RG ltac:(destruct G1; lia) VC CB BF (or_introl (conj P0 LC)) (fun hx c' TC => HO hx c' TC)) as (h2 & c' & A1 & A2 & A3 & A4 & A5).
  assert (KP : keeps b lo h h2) by (eapply keeps_trans; [apply grow_keeps; [exact G1|exact LT|lia]|split; [assumption|split; assumption]]).
  exists h2, c'. split; [exact A2|]. split; [exact KP|]. split; [exact (keeps_grow _ _ _ _ _ G0 HB BLO KP)|]. rewrite C. unfold bind at 1. unfold edit. cbn [p_heap]. rewrite A1. reflexivity.
Qed.
Lemma complicated_class : forall cls which front semi rest Q sc h, which = Tok_Decl_Class \/ which = Tok_Decl_Struct \/ which = Tok_Decl_Union -> toks = Q ++ front ++ semi :: rest -> kind Tok_Statement_End semi ->
  (exists hd_ o inner c, front = hd_ ++ o :: inner ++ [c] /\ plain_tokens hd_ /\ kind Tok_BraceCurly_Open o /\ in_braces inner /\ kind Tok_BraceCurly_Close c) \/ (exists k n, front = [k; n] /\ plain_tokens front) ->
  parse_complicated_definition src toks beyond ms e gl fuel cls which (Pst (zlen Q) sc h) = (r <- cls which ;; parser_pop ;;; ret r) (Pst (zlen Q) ((zlen Q, "parse_complicated_definition"%string) :: sc) h).
Proof.
  intros cls which front semi rest Q sc h WH E KS SH. set (sc' := (zlen Q, "parse_complicated_definition"%string) :: sc).
  unfold parse_complicated_definition, push_scope. unfold bind at 1. cbn [rbind p_idx p_scopes p_heap]. fold sc'. erewrite bind_ok with (a := zlen Q) (s' := Pst (zlen Q) sc' h) by reflexivity.
  assert (DE : definition_end (length toks) (zlen Q) 0 = Done (zlen (Q ++ front))).
  { assert (LT : exists n, length toks = (length front + n)%nat). { exists (length toks - length front)%nat. rewrite E, !app_length. lia. } destruct LT as (n & ->).
    destruct SH as [(hd_ & o & inner & c & -> & PL & KO & IB & KC)|SH].
    - rewrite <- app_assoc in E. cbn [app] in E. rewrite <- app_assoc in E. cbn [app] in E. replace (length (hd_ ++ o :: inner ++ [c]) + n)%nat with (length hd_ + S (length inner + S n))%nat by (rewrite !app_length; cbn; rewrite app_length; cbn; lia).
      rewrite (de_plain src toks beyond fuel FT FS hd_ _ Q _ PL E). apply at_app in E. rewrite (de_step src toks beyond fuel FT FS _ _ o _ 0 E). unfold kind in KO, KC. rewrite KO. cbv zeta. change (Tok_BraceCurly_Open =? Tok_BraceCurly_Open) with true. change (Tok_BraceCurly_Open =? Tok_BraceCurly_Close) with false. cbv iota. change (0 + 1 =? 0) with false. cbn [andb].
      apply at_eat in E. rewrite (de_nested src toks beyond fuel FT FS 0 inner IB _ _ _ E : definition_end (length inner + S n) (zlen ((Q ++ hd_) ++ [o])) (0 + 1) = _). apply at_app in E. rewrite (de_step src toks beyond fuel FT FS _ _ c _ 1 E), KC. cbv zeta. change (Tok_BraceCurly_Close =? Tok_BraceCurly_Open) with false. change (Tok_BraceCurly_Close =? Tok_BraceCurly_Close) with true. cbv iota. change (Tok_BraceCurly_Close =? Tok_Statement_End) with false. rewrite andb_false_r.
      apply at_eat in E. change (1 - 1) with 0. rewrite (de_end src toks beyond fuel FT FS _ _ semi _ E KS). rewrite <- !app_assoc. reflexivity.
    - assert (PL : plain_tokens front) by (destruct SH as (k & n0 & -> & PL); exact PL). rewrite (de_plain src toks beyond fuel FT FS front _ Q _ PL E). apply at_app in E. apply (de_end src toks beyond fuel FT FS _ _ semi _ E KS). }
  unfold bind at 1. rewrite DE. cbn [rbind].
  assert (PE : parse_forward_or_definition src toks beyond ms e fuel cls which = cls which) by (destruct WH as [-> |[-> | ->]]; reflexivity). rewrite PE.
  destruct SH as [(hd_ & o & inner & c & EF & PL & KO & IB & KC)|(k & n0 & EF & PL)].
  - destruct (zlen (Q ++ front) - 2 =? zlen Q); [reflexivity|]. unfold kind in KC. assert (EC : toks = (Q ++ hd_ ++ o :: inner) ++ c :: semi :: rest) by (rewrite E, EF; rewrite <- !app_assoc; cbn [app]; rewrite <- !app_assoc; reflexivity).
    assert (IX : zlen (Q ++ front) - 1 = zlen (Q ++ hd_ ++ o :: inner)) by (rewrite EF; zl). rewrite IX. erewrite bind_ok by (unfold tok; cbn [p_idx]; rewrite (tok_ok toks beyond _ c _ EC); reflexivity).
    assert (NS : tok_is_specifier c = false). { eapply plain_spec; [exact FIT|rewrite EC; apply in_or_app; right; left; reflexivity|tk; lia|tk; lia|tk; lia]. } rewrite NS. cbn [andb]. rewrite KC.
    change (Tok_BraceCurly_Close =? Tok_Identifier) with false. change ((Tok_BraceCurly_Close >=? Tok_Type_Unsigned) && (Tok_BraceCurly_Close <=? Tok_Type_MS_W64)) with false. rewrite Z.eqb_refl. reflexivity.
  - replace (zlen (Q ++ front) - 2 =? zlen Q) with true by (rewrite EF; zl). reflexivity.
Qed.
(** ** one turn over a label, a class or a declaration of a class *)
Lemma label_step : forall O (OD : forall x, O x \/ ~ O x) n d nm b lo xs l0 Q sc h h0 k colon rest, kind Tok_Access_Public k \/ kind Tok_Access_Protected k \/ kind Tok_Access_Private k -> kind Tok_Assign_Classifer colon ->
  toks = Q ++ [k; colon] ++ rest -> open O b lo h xs l0 -> world e h0 -> globals_in h0 -> grow h0 h -> h_top h0 <= b ->
  exists Q' h' c' t', toks = Q' ++ rest /\ open O b lo h' (xs ++ [c']) (l0 ++ [t']) /\ tree_like (Raw (label_text (t_type k))) t' /\ keeps b lo h h' /\ grow h0 h' /\
    loop (Inside d nm) (S n) b (Pst (zlen Q) sc h) = loop (Inside d nm) n b (Pst (zlen Q') sc h').
Proof.
  intros O OD n d nm b lo xs l0 Q sc h h0 k colon rest K KC E OP W0 GI0 G0 HB. destruct (open_lo _ _ _ _ _ _ OP) as (LT & BLO & B0).
  assert (W : world e h) by (eapply world_grow; eauto). assert (GI : globals_in h) by (eapply (globals_grow src toks e gl fuel FT FS); eauto).
  destruct (label_read k colon rest K KC Q sc h E W GI) as (Q' & c & h1 & t' & E1 & (TL & LF & CL & HO & G1 & VC & BF & PC & NI) & C). assert (OP1 : open O b lo h1 xs l0) by (eapply open_grow; eauto). assert (RG : row O h1 lo xs l0 (h_top h)) by (eapply row_grow; eauto).
  assert (NO : ~ O c) by (eapply not_open; [apply (o_forms _ _ _ _ _ _ OP1)|exact BF]). assert (CB : c <> b) by (intros ->; apply NO; apply (o_in _ _ _ _ _ _ OP)).
  destruct (append_ok O OD fuel b lo h1 xs l0 c t' (h_top h) ltac:(lia) OP1 RG ltac:(destruct G1; lia) VC CB BF PC) as (h2 & c' & A1 & A2 & A3 & A4 & A5).
  { intros h2 c' TC. eapply leaf_holds; eauto. intros x X. pose proof (o_below _ _ _ _ _ _ OP x X). lia. }
  assert (KP : keeps b lo h h2) by (eapply keeps_trans; [apply grow_keeps; [exact G1|exact LT|lia]|split; [assumption|split; assumption]]).
  exists Q', h2, c', t'. split; [exact E1|]. split; [exact A2|]. split; [exact TL|]. split; [exact KP|]. split; [exact (keeps_grow _ _ _ _ _ G0 HB BLO KP)|].
  rewrite (C (Inside d nm) n b eq_refl). unfold bind at 1. unfold edit. cbn [p_heap]. rewrite A1. reflexivity.
Qed.
Lemma member_class : forall p n which, which = Tok_Decl_Class \/ which = Tok_Decl_Struct -> memb p n which = (c <- parse_complicated_definition src toks beyond ms e gl fuel (cls_of p) which ;; ret (Some c)).
Proof. intros p n which [-> | ->]; destruct p; reflexivity. Qed.
Definition cls_name (which : Z) : string := if which =? Tok_Decl_Class then "parser_parse_class"%string else "parser_parse_struct"%string.
Definition scs (Q : list token) (hd : head) (sc : list (Z * string)) := (zlen Q, cls_name (kw_of hd)) :: (zlen Q, "parse_complicated_definition"%string) :: sc.
Lemma declared_step : forall O (OD : forall x, O x \/ ~ O x) n p d b lo xs l0 Q k r semi rest (Q' : list token) sc h h0 hd h1 c t, cls_of p = class_struct (S d) -> toks = Q ++ (k :: r) ++ semi :: rest -> kind (kw_of hd) k -> kind Tok_Statement_End semi ->
  (exists hd_ o inner c, k :: r = hd_ ++ o :: inner ++ [c] /\ plain_tokens hd_ /\ kind Tok_BraceCurly_Open o /\ in_braces inner /\ kind Tok_BraceCurly_Close c) \/ (exists k' n, k :: r = [k'; n] /\ plain_tokens (k :: r)) ->
  from_kw (class_body (class_struct d) (kw_of hd)) (kw_of hd) false (Pst (zlen Q) (scs Q hd sc) h) = Done (c, Pst (zlen Q') (scs Q hd sc) h1) -> declares O h h1 c t ->
  open O b lo h xs l0 -> world e h0 -> globals_in h0 -> grow h0 h -> h_top h0 <= b ->
  exists h' c', open O b lo h' (xs ++ [c']) (l0 ++ [t]) /\ keeps b lo h h' /\ grow h0 h' /\ loop p (S n) b (Pst (zlen Q) sc h) = loop p n b (Pst (zlen Q') sc h').
Proof.
  intros O OD n p d b lo xs l0 Q k r semi rest Q' sc h h0 hd h1 c t CO E K KS SH C DE OP W0 GI0 G0 HB.
  assert (W : world e h) by (eapply world_grow; eauto). assert (WH : kw_of hd = Tok_Decl_Class \/ kw_of hd = Tok_Decl_Struct) by (unfold kw_of; destruct (hd_struct hd); auto). unfold kind in K.
  assert (FK : ~ fmt k) by (unfold fmt; rewrite K; destruct WH as [-> | ->]; intros [X|X]; discriminate X).
  refine (declare_step O OD (loop p n) b lo xs l0 Q' sc h h0 h1 c t (Pst (zlen Q) sc h) (loop p (S n) b) DE OP W0 G0 HB _).
  rewrite (turn src toks beyond ms e gl fuel FT FS p n b Q k (r ++ semi :: rest) sc h E); try (rewrite K; destruct WH as [-> | ->]; discriminate). rewrite K, (member_class p n _ WH). rewrite bind_assoc.
  unfold bind at 1. rewrite (complicated_class (cls_of p) (kw_of hd) (k :: r) semi rest Q sc h ltac:(tauto) E KS SH). rewrite CO.
  set (s0 := (zlen Q, "parse_complicated_definition"%string)). cbn [GlobalModel.class_struct]. assert (NU : (kw_of hd =? Tok_Decl_Union) = false) by (destruct WH as [-> | ->]; reflexivity). rewrite NU. clear NU.
  set (s1 := (zlen Q, cls_name (kw_of hd))).
  assert (CC : (r0 <- (push_scope (if kw_of hd =? Tok_Decl_Class then "parser_parse_class" else "parser_parse_struct") ;;; r <- parse_class_struct src toks beyond ms e fuel (class_body (class_struct d) (kw_of hd)) (kw_of hd) ;; parser_pop ;;; ret r) ;; parser_pop ;;; ret r0) (Pst (zlen Q) (s0 :: sc) h) = Done (c, Pst (zlen Q') sc h1)).
  { rewrite bind_assoc. unfold push_scope at 1. unfold bind at 1. cbn [rbind p_idx p_scopes p_heap]. fold (cls_name (kw_of hd)). fold s1. rewrite bind_assoc. unfold bind at 1. rewrite (class_struct_eq src toks beyond ms e fuel).
    destruct (a_check toks beyond Q [] k (r ++ semi :: rest) Tok_Module_Export (s1 :: s0 :: sc) h (ahead_self toks _ _ E) ltac:(constructor) FK) as (Q2 & E2 & C2).
    erewrite bind_ok by exact C2. replace (t_type k =? Tok_Module_Export) with false by (rewrite K; destruct WH as [-> | ->]; reflexivity). 
    assert (Q2 = Q). { rewrite E in E2. apply app_inv_tail in E2. auto. } subst Q2.
    erewrite bind_ok by reflexivity. change (s1 :: s0 :: sc) with (scs Q hd sc). rewrite C. reflexivity. }
  unfold rbind at 1. rewrite CC. unfold bind at 1. cbn [ret rbind]. unfold next. assert (NI : (c =? e_invalid e) = false) by (destruct W as ((_ & W) & _); destruct DE as (_ & L & _); lia). rewrite NI. reflexivity.
Qed.
Lemma head_first : forall h_ rest hd, class_head src h_ rest hd -> exists k r, h_ = k :: r /\ kind (kw_of hd) k.
Proof. intros h_ rest hd H. destruct H as [st k att at_ g nm name fin final base_ base rest K AW G NM NE FI BA]. exists k, (att ++ g ++ nm ++ fin ++ base_). split; [reflexivity|]. unfold kw_of. cbn [hd_struct]. exact K. Qed.
Lemma gap_plain : forall g, gap g -> plain_tokens g.
Proof. intros g G. eapply Forall_impl; [|exact G]. intros a [X|X]; rewrite X; split; [|split| |split]; discriminate. Qed.
Definition depth (p : place) : nat := match p with Outside _ => fuel | Inside d _ => d end.
Lemma cls_depth : forall p, cls_of p = class_struct (depth p). Proof. intros [w|d nm]; reflexivity. Qed.
Lemma class_step : forall O (OD : forall x, O x \/ ~ O x) n p b lo xs l0 Q h_ hd g o body c semi fin R sc h h0 inner cmt t,
  (forall h0 O' b' lo' d nt, world e h0 -> globals_in h0 -> h_top h0 <= b' -> (forall x, O' x \/ ~ O' x) -> gathered O' b' lo' h0 fuel (Inside d nt) body (c :: (semi :: fin) ++ R) inner) ->
  toks = Q ++ h_ ++ g ++ o :: body ++ c :: semi :: fin ++ R -> class_head src h_ (g ++ [o]) hd -> plain_tokens h_ -> gap g -> kind Tok_BraceCurly_Open o -> in_braces body -> kind Tok_BraceCurly_Close c -> kind Tok_Statement_End semi ->
  statement_end src (semi :: fin) (R ++ beyond) cmt -> class_tree false hd cmt inner = Some t -> deep p (h_ ++ g ++ o :: body) -> 
  open O b lo h xs l0 -> world e h0 -> globals_in h0 -> grow h0 h -> h_top h0 <= b ->
  exists Q' h' c' t', toks = Q' ++ R /\ open O b lo h' (xs ++ [c']) (l0 ++ [t']) /\ tree_like t t' /\ keeps b lo h h' /\ grow h0 h' /\
    loop p (S n) b (Pst (zlen Q) sc h) = loop p n b (Pst (zlen Q') sc h').
Proof.
  intros O OD n p b lo xs l0 Q h_ hd g o body c semi fin R sc h h0 inner cmt t IH E HE PL G KO IB KC KS SE CT DP OP W0 GI0 G0 HB.
  assert (W : world e h) by (eapply world_grow; eauto). assert (GI : globals_in h) by (eapply (globals_grow src toks e gl fuel FT FS); eauto).
  destruct (head_first _ _ _ HE) as (k & hr & EH & K).
  assert (LB : (S (length body) < depth p)%nat). { assert (L1 : (S (length body) < length (h_ ++ g ++ o :: body))%nat) by (rewrite EH, !app_length; cbn [length]; rewrite ?app_length; lia). destruct p as [w|d nm]; cbn [depth deep] in *; [|lia]. rewrite E in FT. rewrite !app_length in FT. rewrite !app_length in L1. cbn [length] in *. rewrite app_length in FT. lia. }
  destruct (depth p) as [|d] eqn:ED; [lia|].
  destruct (class_def src toks beyond ms e gl fuel SRC FIT BYTES FT FS BY O OD d false Q h_ hd g o body c (semi :: fin) R (scs Q hd sc) h inner cmt t) as (Q' & h1 & n1 & t' & E1 & TL & DE & C); auto; [lia|apply (o_forms _ _ _ _ _ _ OP)| |].
  { intros y Y. pose proof (o_below _ _ _ _ _ _ OP y Y). destruct (open_lo _ _ _ _ _ _ OP). lia. }
  assert (E' : toks = Q ++ (k :: hr ++ g ++ o :: body ++ [c]) ++ semi :: fin ++ R). { rewrite E, EH. cbn [app]. rewrite <- !app_assoc. cbn [app]. rewrite <- !app_assoc. reflexivity. }
  destruct (declared_step O OD n p d b lo xs l0 Q k (hr ++ g ++ o :: body ++ [c]) semi (fin ++ R) Q' sc h h0 hd h1 n1 t') as (h' & c' & X1 & X2 & X3 & X4); auto; [rewrite cls_depth, ED; reflexivity| |].
  { left. exists (h_ ++ g), o, body, c. split; [rewrite EH; cbn [app]; rewrite <- app_assoc; reflexivity|]. split; [apply Forall_app; split; [exact PL|apply gap_plain; exact G]|]. auto. }
  exists Q', h', c', t'. auto 8.
Qed.
Lemma forward_step : forall O (OD : forall x, O x \/ ~ O x) n p b lo xs l0 Q k nm semi fin R hd sc h h0 cmt t,
  toks = Q ++ k :: nm :: semi :: fin ++ R -> class_head src [k; nm] [semi] hd -> kind Tok_Statement_End semi ->
  statement_end src (semi :: fin) (R ++ beyond) cmt -> forward_tree false hd cmt = Some t -> deep p [k; nm] ->
  open O b lo h xs l0 -> world e h0 -> globals_in h0 -> grow h0 h -> h_top h0 <= b ->
  exists Q' h' c' t', toks = Q' ++ R /\ open O b lo h' (xs ++ [c']) (l0 ++ [t']) /\ tree_like t t' /\ keeps b lo h h' /\ grow h0 h' /\
    loop p (S n) b (Pst (zlen Q) sc h) = loop p n b (Pst (zlen Q') sc h').
Proof.
  intros O OD n p b lo xs l0 Q k nm semi fin R hd sc h h0 cmt t E HE KS SE CT DP OP W0 GI0 G0 HB. assert (W : world e h) by (eapply world_grow; eauto).
  destruct (head_first _ _ _ HE) as (k0 & hr & EH & K). injection EH as <- <-.
  assert (PL : plain_tokens [k; nm]).
  { assert (KN : t_type nm = Tok_Identifier). { remember [k; nm] as l eqn:EL in HE. destruct HE as [st k0 att at_ g nm0 name fi final base_ base rest K0 AW G NM NE FI BA]. destruct (named_first src _ _ NM) as (k1 & r & -> & K1). injection EL as _ EL. destruct att as [|a att]; [|exfalso; destruct att, g; try discriminate EL]. cbn [app] in EL. destruct g as [|x g]; [injection EL as -> _; exact K1|]. exfalso. destruct g; discriminate EL. }
    constructor; [|constructor; [|constructor]]; [unfold kind in K; rewrite K; unfold kw_of; destruct (hd_struct hd); repeat split; discriminate|rewrite KN; repeat split; discriminate]. }
  assert (LB : (2 < depth p)%nat). { destruct p as [w|d nm0]; cbn [depth deep] in *; [|cbn in DP; lia]. rewrite E in FT. rewrite !app_length in FT. cbn [length] in FT. lia. }
  destruct (depth p) as [|d] eqn:ED; [lia|].
  destruct (forward_def src toks beyond ms e fuel SRC FIT BYTES FT FS BY O OD false Q [k; nm] [semi] (fin ++ R) hd (semi :: fin) R (scs Q hd sc) h cmt t (class_body (class_struct d) (kw_of hd))) as (Q' & h1 & n1 & E1 & DE & C); auto.
  { intros y Y. pose proof (o_below _ _ _ _ _ _ OP y Y). destruct (open_lo _ _ _ _ _ _ OP). lia. }
  destruct (declared_step O OD n p d b lo xs l0 Q k [nm] semi (fin ++ R) Q' sc h h0 hd h1 n1 t) as (h' & c' & X1 & X2 & X3 & X4); auto; [rewrite cls_depth, ED; reflexivity|right; exists k, nm; auto|].
  exists Q', h', c', t. split; [exact E1|]. split; [exact X1|]. split; [apply tl_respaced, tr_same|]. auto.
Qed.
End P.
