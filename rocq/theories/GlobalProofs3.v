(** Members of global bodies: one turn of the loop, and the members that are read by functions of their own. *)
From Coq Require Import String ZArith List Bool Lia ZifyBool ZifyNat.
From Verif Require Import Common Text HashModel StrOpsModel EnumModel EnumSpec EnumProofs LexModel LexSpec NavModel StripModel StripSpec StripProofs AstModel AstSpec AstProofs AstProofs4 UpfrontModel UpfrontSpec UpfrontProofs4 SerSpec SerProofs SerProofs2 ParseModel ParseSpec
  ParseProofs ParseProofs2 ParseProofs3 ParseProofs4 ParseProofs5 ParseProofs6 ParseProofs7 ParseProofs8 ParseProofs9 ParseProofs10 ParseProofs11 FnModel FnSpec FnProofs FnProofs2 FnProofs3 FnProofs4 GlobalModel GlobalSpec GlobalProofs GlobalProofs2.
Import ListNotations.
Close Scope string_scope.
Open Scope Z_scope.
Open Scope parse_scope.

Lemma typ_respaced_ok : forall a b, typ_respaced a b -> typ_ok a -> typ_ok b.
Proof. intros a b (_ & _ & _ & E & _) O. unfold typ_ok, some_ok in *. congruence. Qed.
Lemma respaced_leaf : forall a b, tree_respaced a b -> leaf a -> leaf b.
Proof.
  intros a b R L. destruct R; cbn [leaf] in *; auto; repeat match goal with T : typ_respaced _ _ |- _ => pose proof (typ_respaced_ok _ _ T); clear T end.
  - intros y ss' E. injection E as <- <-. eauto.
  - destruct L. auto.
  - destruct L as (L1 & L2). split; [intros y E; injection E as <-; eauto|exact L2].
  - destruct L. auto.
  - intros y E; injection E as <-; eauto.
  - auto.
Qed.

Section P.
Variable src : list Z.
Variable toks beyond : list token.
Variable ms : macros.
Variable e : env.
Variable gl : globals.
Variable fuel : nat.
Hypothesis SRC : Forall (in_source src) toks.
Hypothesis FIT : Forall flags_fit toks.
Hypothesis BYTES : Forall (fun c => 0 <= c < 256) src.
Hypothesis FT : (length toks < fuel)%nat.
Hypothesis FS : (length src < fuel)%nat.
Hypothesis NOM : no_macro_spec ms.
Notation ahead := (ahead toks).
Notation a_currtok := (a_currtok toks beyond).
Notation a_check := (a_check toks beyond).
Notation a_left := (a_left toks).
Notation a_eat := (a_eat src toks beyond ms).
Notation member := (member src toks beyond ms e gl fuel).
Notation nspace_loop := (nspace_loop src toks beyond ms e gl fuel).
Notation class_member := (class_member src toks beyond ms e gl fuel).
Notation class_loop := (class_loop src toks beyond ms e gl fuel).
Notation class_struct := (class_struct src toks beyond ms e gl fuel).

(** ** where members stand: in a global body of some kind, or in a class, [d] the depth left for those in it *)
Inductive place := Outside (which : codetype) | Inside (d : nat) (name : option token).
Definition inside (p : place) : bool := match p with Outside _ => false | Inside _ _ => true end.
Definition cls_of (p : place) : Z -> M Z := match p with Outside _ => class_struct fuel | Inside d _ => class_struct d end.
Definition loop (p : place) (n : nat) (b : Z) : M Z := match p with Outside which => nspace_loop n which b | Inside d name => class_loop n (class_struct d) name b end.

(** ** one turn *)
Definition nested (n : nat) (which : codetype) : M Z :=
  push_scope "parse_global_nspace" ;;;
  eat src toks beyond ms Tok_BraceCurly_Open ;;;
  r <- on_heap (fun h => Done (make h (AstModel.set_type which))) ;;
  nspace_loop n which r.
Definition memb (p : place) (n : nat) (t : Z) : M (option Z) := match p with Outside which => member (nested n) which t | Inside d name => class_member (class_struct d) name t end.
Definition next (p : place) (n : nat) (b : Z) (m : option Z) : M Z :=
  match m with
  | None => ret (e_invalid e)
  | Some c =>
    if c =? e_invalid e then report src toks beyond ;;; parser_pop ;;; ret (e_invalid e) else
    edit (fun h => body_append fuel h b c) ;;; loop p n b
  end.
Lemma turn : forall p n b Q k R sc h, toks = Q ++ k :: R -> t_type k <> Tok_BraceCurly_Close -> t_type k <> Tok_Preprocess_Hash -> t_type k <> Tok_Statement_End ->
  loop p (S n) b (Pst (zlen Q) sc h) = (m <- memb p n (t_type k) ;; next p n b m) (Pst (zlen Q) sc h).
Proof.
  intros p n b Q k R sc h E N1 N2 N3. destruct (left_ok toks Q k R sc h E) as (l & L1 & L2). destruct p; cbn [loop memb GlobalModel.nspace_loop GlobalModel.class_loop]; erewrite bind_ok by exact L1; rewrite L2;
  (erewrite bind_ok by (eapply noskip_ok; exact E)); (replace (t_type k =? Tok_BraceCurly_Close) with false by lia); (replace (t_type k =? Tok_Preprocess_Hash) with false by lia); unfold bind at 1; cbn [ret rbind];
  (erewrite bind_ok by (eapply noskip_ok; exact E)); cbv zeta; (replace (t_type k =? Tok_Statement_End) with false by lia); reflexivity.
Qed.
Lemma turn_hash : forall p n b Q hs k R sc h, toks = Q ++ hs :: k :: R -> kind Tok_Preprocess_Hash hs -> t_type k <> Tok_Statement_End ->
  loop p (S n) b (Pst (zlen Q) sc h) = (m <- memb p n (t_type k) ;; next p n b m) (Pst (zlen (Q ++ [hs])) sc h).
Proof.
  intros p n b Q hs k R sc h E KH N3. destruct (left_ok toks Q hs _ sc h E) as (l & L1 & L2). unfold kind in KH. destruct (a_eat Q hs _ Tok_Preprocess_Hash sc h E KH) as (_ & C1). pose proof (at_eat _ _ _ _ E) as E'.
  destruct p; cbn [loop memb GlobalModel.nspace_loop GlobalModel.class_loop]; erewrite bind_ok by exact L1; rewrite L2;
  (erewrite bind_ok by (eapply noskip_ok; exact E)); rewrite KH; change (Tok_Preprocess_Hash =? Tok_BraceCurly_Close) with false; rewrite Z.eqb_refl;
  (erewrite bind_ok by exact C1); (erewrite bind_ok by (eapply noskip_ok; exact E')); cbv zeta; (replace (t_type k =? Tok_Statement_End) with false by lia); reflexivity.
Qed.
Lemma turn_semi : forall p n b Q k R sc h, toks = Q ++ k :: R -> kind Tok_Statement_End k -> loop p (S n) b (Pst (zlen Q) sc h) = loop p n b (Pst (zlen (Q ++ [k])) sc h).
Proof.
  intros p n b Q k R sc h E K. unfold kind in K. destruct (left_ok toks Q k R sc h E) as (l & L1 & L2). destruct (a_eat Q k _ Tok_Statement_End sc h E K) as (_ & C1).
  destruct p; cbn [loop memb GlobalModel.nspace_loop GlobalModel.class_loop]; erewrite bind_ok by exact L1; rewrite L2;
  (erewrite bind_ok by (eapply noskip_ok; exact E)); rewrite K; change (Tok_Statement_End =? Tok_BraceCurly_Close) with false; change (Tok_Statement_End =? Tok_Preprocess_Hash) with false; cbv iota; (erewrite bind_ok by reflexivity);
  (erewrite bind_ok by (eapply noskip_ok; exact E)); cbv zeta; rewrite K, Z.eqb_refl; (erewrite bind_ok by exact C1); reflexivity.
Qed.

(** ** what reading a member does *)
Definition gathers (h h' : heap) (c : Z) (t t' : tree) : Prop :=
  tree_like t t' /\ leaf t' /\ clear (h_top h) h' c t' /\ holds h' c t' /\ grow h h' /\ valid h' c /\ is_body_type (n_type (h_node h' c)) = false /\
  (n_parent (h_node h' c) = 0 /\ h_top h <= c \/ n_parent (h_node h' c) <> 0) /\ c <> e_invalid e.
Definition global (h : heap) (c : Z) (k : codetype) : Prop := kind_is h c [k] /\ n_parent (h_node h c) <> 0 /\ c <> e_invalid e.
Definition label (h : heap) (c : Z) (k : codetype) (t : text) : Prop := global h c k /\ n_name (h_node h c) = t.
Definition globals_in (h : heap) : Prop := global h (g_newline gl) CT_NewLine /\ global h (g_else gl) CT_Preprocess_Else /\ global h (g_endif gl) CT_Preprocess_EndIf /\
  label h (g_public gl) CT_Access_Public (label_text Tok_Access_Public) /\ label h (g_protected gl) CT_Access_Protected (label_text Tok_Access_Protected) /\
  label h (g_private gl) CT_Access_Private (label_text Tok_Access_Private).
Lemma global_grow : forall h h' c k, global h c k -> grow h h' -> global h' c k.
Proof. intros h h' c k ((V & K) & P & N) (T & G). split; [split; [destruct V; split; lia|rewrite G by exact V; exact K]|]. rewrite G by exact V. auto. Qed.
Lemma globals_grow : forall h h', globals_in h -> grow h h' -> globals_in h'.
Proof.
  assert (LG : forall h h' c k t, label h c k t -> grow h h' -> label h' c k t). { intros h h' c k t (A & N) G. split; [eapply global_grow; eauto|]. destruct G as (T & G). destruct A as ((V & _) & _). rewrite G by exact V. exact N. }
  intros h h' (A & B & C & D & E & F) G. split; [eapply global_grow; eauto|]. split; [eapply global_grow; eauto|]. split; [eapply global_grow; eauto|]. split; [eapply LG; eauto|]. split; eapply LG; eauto.
Qed.
Lemma world_invalid : forall h c, world e h -> h_top h <= c -> c <> e_invalid e. Proof. intros h c ((_ & W) & _) L. lia. Qed.
Lemma gathers_global : forall h c k t, global h c k -> leaf t -> clear (h_top h) h c t -> holds h c t -> is_body_type k = false -> gathers h h c t t.
Proof.
  intros h c k t ((V & K) & P & N) L CL H B. split; [apply tl_respaced, tr_same|]. split; [exact L|]. split; [exact CL|]. split; [exact H|]. split; [apply grow_refl|]. split; [exact V|]. split; [|auto]. destruct K as [<-|[]]. exact B.
Qed.
(** the tokens [raw] are read as [t] *)
Definition reads (inc : bool) (raw rest : list token) (t : tree) : Prop := forall Q sc h, toks = Q ++ raw ++ rest -> world e h -> globals_in h ->
  exists Q' c h' t', toks = Q' ++ rest /\ gathers h h' c t t' /\
    forall p n b, inside p = inc -> loop p (S n) b (Pst (zlen Q) sc h) = (edit (fun h => body_append fuel h b c) ;;; loop p n b) (Pst (zlen Q') sc h').
Lemma reads_by : forall inc k r rest t, t_type k <> Tok_BraceCurly_Close -> t_type k <> Tok_Preprocess_Hash -> t_type k <> Tok_Statement_End ->
  (forall Q sc h, toks = Q ++ k :: r ++ rest -> world e h -> globals_in h ->
   exists Q' c h' t', toks = Q' ++ rest /\ gathers h h' c t t' /\ forall p n, inside p = inc -> memb p n (t_type k) (Pst (zlen Q) sc h) = Done (Some c, Pst (zlen Q') sc h')) -> reads inc (k :: r) rest t.
Proof.
  intros inc k r rest t N1 N2 N3 M Q sc h E W GI. destruct (M Q sc h E W GI) as (Q' & c & h' & t' & E' & GA & C). exists Q', c, h', t'. split; [exact E'|]. split; [exact GA|]. intros p n b IP.
  rewrite (turn p n b Q k (r ++ rest) sc h E N1 N2 N3). erewrite bind_ok by (apply C; exact IP). cbn [next]. destruct GA as (_ & _ & _ & _ & _ & _ & _ & _ & NI). replace (c =? e_invalid e) with false by lia. reflexivity.
Qed.
Lemma reads_hash : forall inc hs k r rest t, kind Tok_Preprocess_Hash hs -> t_type k <> Tok_Statement_End ->
  (forall Q sc h, toks = Q ++ k :: r ++ rest -> world e h -> globals_in h ->
   exists Q' c h' t', toks = Q' ++ rest /\ gathers h h' c t t' /\ forall p n, inside p = inc -> memb p n (t_type k) (Pst (zlen Q) sc h) = Done (Some c, Pst (zlen Q') sc h')) -> reads inc (hs :: k :: r) rest t.
Proof.
  intros inc hs k r rest t KH N3 M Q sc h E W GI. destruct (M (Q ++ [hs]) sc h (at_eat _ _ _ _ E) W GI) as (Q' & c & h' & t' & E' & GA & C). exists Q', c, h', t'. split; [exact E'|]. split; [exact GA|]. intros p n b IP.
  rewrite (turn_hash p n b Q hs k (r ++ rest) sc h E KH N3). erewrite bind_ok by (apply C; exact IP). cbn [next]. destruct GA as (_ & _ & _ & _ & _ & _ & _ & _ & NI). replace (c =? e_invalid e) with false by lia. reflexivity.
Qed.

Ltac dsp X := match goal with |- context [memb ?p ?n ?t] => replace (memb p n t) with X by (destruct p; reflexivity) end.
Lemma line_ok : forall inc k rest, kind Tok_NewLine k -> reads inc [k] rest NewLine.
Proof.
  intros inc k rest K. unfold kind in K. apply reads_by; try (rewrite K; discriminate). intros Q sc h E W (G & _). cbn [app] in E. exists (Q ++ [k]), (g_newline gl), h, NewLine. split; [apply at_eat; exact E|]. split.
  - eapply gathers_global; [exact G|exact I|exact I|apply G|reflexivity].
  - intros p n _. rewrite K. dsp (eat src toks beyond ms Tok_NewLine ;;; ret (Some (g_newline gl))). destruct (a_eat Q k _ Tok_NewLine sc h E K) as (_ & C1). erewrite bind_ok by exact C1. reflexivity.
Qed.
Lemma else_ok : forall inc hs k rest, kind Tok_Preprocess_Hash hs -> kind Tok_Preprocess_Else k -> reads inc [hs; k] rest Else.
Proof.
  intros inc hs k rest KH K. unfold kind in K. apply reads_hash; [exact KH|rewrite K; discriminate|]. intros Q sc h E W (_ & G & _). cbn [app] in E. exists (Q ++ [k]), (g_else gl), h, Else. split; [apply at_eat; exact E|]. split.
  - eapply gathers_global; [exact G|exact I|exact I|apply G|reflexivity].
  - intros p n _. rewrite K. dsp (eat src toks beyond ms Tok_Preprocess_Else ;;; ret (Some (g_else gl))). destruct (a_eat Q k _ Tok_Preprocess_Else sc h E K) as (_ & C1). erewrite bind_ok by exact C1. reflexivity.
Qed.
Lemma endif_ok : forall inc hs k rest, kind Tok_Preprocess_Hash hs -> kind Tok_Preprocess_EndIf k -> reads inc [hs; k] rest EndIf.
Proof.
  intros inc hs k rest KH K. unfold kind in K. apply reads_hash; [exact KH|rewrite K; discriminate|]. intros Q sc h E W (_ & _ & G & _). cbn [app] in E. exists (Q ++ [k]), (g_endif gl), h, EndIf. split; [apply at_eat; exact E|]. split.
  - eapply gathers_global; [exact G|exact I|exact I|apply G|reflexivity].
  - intros p n _. rewrite K. dsp (eat src toks beyond ms Tok_Preprocess_EndIf ;;; ret (Some (g_endif gl))). destruct (a_eat Q k _ Tok_Preprocess_EndIf sc h E K) as (_ & C1). erewrite bind_ok by exact C1. reflexivity.
Qed.
Lemma comment_ok : forall inc k rest, kind Tok_Comment k -> reads inc [k] rest (Raw (word src k)).
Proof.
  intros inc k rest K. unfold kind in K. apply reads_by; try (rewrite K; discriminate). intros Q sc h E W _. cbn [app] in E. pose proof (world_top src toks e fuel FT FS h W) as TP.
  set (sc' := (zlen Q, "parse_comment"%string) :: sc). destruct (any_make (fun n => set_content (word src k) (AstModel.set_type CT_Comment n)) h (zlen Q) sc') as (h1 & C1 & T1 & N1 & G1).
  exists (Q ++ [k]), (h_top h), h1, (Raw (word src k)). split; [apply at_eat; exact E|]. split.
  - assert (V : valid h1 (h_top h)) by (split; lia). split; [apply tl_respaced, tr_same|]. split; [exact I|]. split; [exact I|]. split; [left; split; [split; [exact V|rewrite N1; cbn; auto]|rewrite N1; reflexivity]|]. split; [exact G1|]. split; [exact V|]. rewrite N1. split; [reflexivity|]. split; [left; split; [reflexivity|lia]|]. eapply world_invalid; [exact W|lia].
  - intros p n _. rewrite K. dsp (c <- parse_comment src toks beyond ms ;; ret (Some c)). erewrite bind_ok; [reflexivity|].
    unfold parse_comment, push_scope. unfold bind at 1. cbn [rbind p_idx p_scopes p_heap]. fold sc'. erewrite bind_ok by (eapply noskip_ok; exact E). rewrite <- word_text.
    erewrite bind_ok by exact C1. destruct (a_eat Q k _ Tok_Comment sc' h1 E K) as (_ & C2). erewrite bind_ok by exact C2. reflexivity.
Qed.
Lemma using_leaf : forall raw R t, using_tokens src raw R t -> leaf t.
Proof. intros raw R t T. destruct T; cbn [leaf]; auto; intros y ss' E'; [discriminate E'|]. injection E' as <- <-. unfold typ_ok, some_ok. eapply type_specs; eauto. Qed.
Lemma using_read : forall inc k r rest t, kind Tok_Decl_Using k -> using_tokens src (k :: r) (rest ++ beyond) t -> reads inc (k :: r) rest t.
Proof.
  intros inc k r rest t K T. unfold kind in K. apply reads_by; try (rewrite K; discriminate). intros Q sc h E W _.
  destruct (using_ok src toks beyond ms e fuel SRC FIT BYTES FT FS (k :: r) rest t Q sc h T (ahead_self toks _ _ E) W) as (Q' & c & h' & t' & E' & C & TR & H & G & L & SZ & P0).
  exists Q', c, h', t'. split; [exact E'|]. pose proof (using_leaf _ _ _ T) as LF. split.
  - assert (KC : kind_is h' c [CT_Using; CT_Using_Namespace]). { destruct T; inversion TR; subst; cbn [holds] in H; destruct H as ((V & [KT|[]]) & _); (split; [exact V|rewrite <- KT; cbn; auto]). }
    split; [apply tl_respaced; exact TR|]. split; [eapply respaced_leaf; eauto|]. split; [destruct T; inversion TR; subst; first [exact I|exact SZ]|]. split; [exact H|]. split; [exact G|]. split; [apply KC|]. split; [destruct KC as (_ & [<-|[<-|[]]]); reflexivity|]. split; [auto|]. eapply world_invalid; eauto.
  - intros p n _. rewrite K. dsp (c <- parse_using src toks beyond ms e fuel ;; ret (Some c)). erewrite bind_ok by exact C. reflexivity.
Qed.
Lemma typedef_read : forall inc k r rest ty name cmt, kind Tok_Decl_Typedef k -> typedef_tokens src (k :: r) (rest ++ beyond) false ty name [] cmt -> reads inc (k :: r) rest (Typedef false ty name cmt).
Proof.
  intros inc k r rest ty name cmt K T. unfold kind in K. apply reads_by; try (rewrite K; discriminate). intros Q sc h E W _.
  destruct (typedef_ok src toks beyond ms e fuel SRC FIT BYTES FT FS (k :: r) rest false ty name [] cmt Q sc h T (ahead_self toks _ _ E) W) as (Q' & c & h' & ty' & E' & C & TR & H & G & L & P0).
  exists Q', c, h', (Typedef false ty' name cmt). split; [exact E'|]. split.
  - assert (TO : typ_ok ty). { inversion T; subst. unfold typ_ok, some_ok. eapply type_specs; eauto. }
    destruct H as (A1 & A2 & A3 & A4 & A5 & A6 & A7 & A8 & A9 & A10). cbn [raws_from] in A7.
    split; [apply tl_typedef; exact TR|]. split; [eapply typ_respaced_ok; eauto|]. split; [exact I|]. split; [cbn [holds]; cbv zeta; tauto|]. split; [exact G|]. split; [apply A1|]. split; [destruct A1 as (_ & [<-|[]]); reflexivity|]. split; [auto|]. eapply world_invalid; eauto.
  - intros p n _. rewrite K. dsp (c <- parse_typedef src toks beyond ms e fuel ;; ret (Some c)). erewrite bind_ok by exact C. reflexivity.
Qed.
Lemma directive_read : forall proc kd tk ct k s rest Q sc h, toks = Q ++ k :: s :: rest -> kind tk k -> kind ct s -> ~ fmt s -> world e h ->
  exists h', GlobalModel.directive src toks beyond ms e proc kd tk ct (Pst (zlen Q) sc h) = Done (h_top h, Pst (zlen (Q ++ [k; s])) sc h') /\ grow h h' /\ h_top h' = h_top h + 1 /\ h_node h' (h_top h) = set_content (word src s) (AstModel.set_type kd zero_node).
Proof.
  intros proc kd tk_ ct k s rest Q sc h E K S FM W. unfold GlobalModel.directive, push_scope. unfold bind at 1. cbn [rbind p_idx p_scopes p_heap]. set (sc' := (zlen Q, proc) :: sc).
  destruct (any_make (AstModel.set_type kd) h (zlen Q) sc') as (h1 & C1 & T1 & N1 & G1). erewrite bind_ok by exact C1. destruct (a_eat Q k _ tk_ sc' h1 E K) as (_ & C2). erewrite bind_ok by exact C2. apply at_eat in E.
  erewrite bind_ok by (rewrite (check_ok toks beyond [] _ s _ ct sc' h1 E (Forall_nil _) FM), app_nil_r; reflexivity). unfold kind in S. rewrite S, Z.eqb_refl. cbn [negb].
  assert (C3 : currtok toks beyond (Pst (zlen (Q ++ [k])) sc' h1) = Done (s, Pst (zlen (Q ++ [k])) sc' h1)) by (rewrite (currtok_ok toks beyond [] (Q ++ [k]) s rest sc' h1 E (Forall_nil _) FM), app_nil_r; reflexivity).
  erewrite bind_ok by exact C3. pose proof (world_top src toks e fuel FT FS h W) as TP. assert (V1 : valid h1 (h_top h)) by (split; lia).
  destruct (any_edit (h_top h) (set_content (text_of src s)) h1 (zlen (Q ++ [k])) sc' V1) as (h2 & C4 & S4). erewrite bind_ok by exact C4. destruct (a_eat _ s _ ct sc' h2 E S) as (_ & C5). erewrite bind_ok by exact C5.
  exists h2. split; [unfold parser_pop, sc'; cbn; rewrite <- app_assoc; reflexivity|]. split; [eapply stepped_grow; [exact G1| |exact S4]; lia|]. destruct S4 as (T4 & N4 & _). split; [lia|]. rewrite N4, N1, word_text. reflexivity.
Qed.
Lemma directive_ok : forall inc hs raw rest t, kind Tok_Preprocess_Hash hs -> directive src raw t -> reads inc (hs :: raw) rest t.
Proof.
  assert (ALL : forall inc hs k s rest t proc kd tk ct, kind Tok_Preprocess_Hash hs -> kind tk k -> kind ct s -> tk <> Tok_Statement_End -> ct <> Tok_NewLine -> ct <> Tok_Comment -> leaf t -> (forall B h c, clear B h c t) ->
    is_body_type kd = false -> (forall h c, valid h c -> h_node h c = set_content (word src s) (AstModel.set_type kd zero_node) -> holds h c t) ->
    (forall p n, memb p n tk = (c <- GlobalModel.directive src toks beyond ms e proc kd tk ct ;; ret (Some c))) -> reads inc [hs; k; s] rest t).
  { intros inc hs k s rest t proc kd tk_ ct KH K S N1 N2 N3 LF CL BF HO ME. unfold kind in K. apply reads_hash; [exact KH|congruence|]. intros Q sc h E W _. cbn [app] in E.
    assert (FM : ~ fmt s) by (unfold kind in S; unfold fmt; rewrite S; tauto).
    destruct (directive_read proc kd tk_ ct k s rest Q sc h E K S FM W) as (h' & C & G & T & N). exists (Q ++ [k; s]), (h_top h), h', t. split; [rewrite E, <- app_assoc; reflexivity|]. pose proof (world_top src toks e fuel FT FS h W) as TP. split.
    - assert (V : valid h' (h_top h)) by (split; lia). split; [apply tl_respaced, tr_same|]. split; [exact LF|]. split; [apply CL|]. split; [apply HO; assumption|]. split; [exact G|]. split; [exact V|]. rewrite N. split; [exact BF|]. split; [left; split; [reflexivity|lia]|]. eapply world_invalid; [exact W|lia].
    - intros p n _. rewrite K, ME. erewrite bind_ok by exact C. reflexivity. }
  intros inc hs raw rest t KH D. destruct D.
  1-4: eapply ALL; [exact KH|eassumption|eassumption|discriminate|discriminate|discriminate|exact I|intros; exact I| | |intros [w|d nm] n; reflexivity]; [reflexivity|intros h c V N; cbn [holds]; unfold kind_is; rewrite N; cbn; auto].
  - apply else_ok; assumption.
  - apply endif_ok; assumption.
Qed.
End P.
