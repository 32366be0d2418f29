(** Functions: specifiers, the body and the end. *)
From Coq Require Import String ZArith List Bool Lia ZifyBool ZifyNat.
From Verif Require Import Common Text HashModel StrOpsModel EnumModel EnumSpec EnumProofs LexModel LexSpec NavModel StripModel StripSpec StripProofs AstModel AstSpec AstProofs AstProofs4 UpfrontModel UpfrontSpec UpfrontProofs4 SerSpec SerProofs SerProofs2 ParseModel ParseSpec
  ParseProofs ParseProofs2 ParseProofs3 ParseProofs4 ParseProofs5 ParseProofs7 ParseProofs8 ParseProofs9 FnModel FnSpec FnProofs FnProofs2.
Import ListNotations.
Close Scope string_scope.
Open Scope Z_scope.
Open Scope parse_scope.

(** all old nodes but [c] stay *)
Definition touched (c : Z) (h h' : heap) : Prop := h_top h <= h_top h' /\ forall x, valid h x -> x <> c -> h_node h' x = h_node h x.
Lemma touched_refl : forall c h, touched c h h. Proof. intros c h. split; [lia|auto]. Qed.
Lemma touched_trans : forall c c' x y z, touched c x y -> touched c' y z -> (c' = c \/ h_top x <= c') -> touched c x z.
Proof. intros c c' x y z (T1 & N1) (T2 & N2) C. split; [lia|]. intros a V NE. rewrite N2; [auto|destruct V; split; lia|]. destruct V. lia. Qed.
Lemma grow_touched : forall c h h', grow h h' -> touched c h h'. Proof. intros c h h' (T & N). split; auto. Qed.
Lemma touched_agrees : forall c b h h', touched c h h' -> c < b -> agrees b h h'. Proof. intros c b h h' (T & N) L. split; [exact T|]. intros x X V. apply N; [exact V|lia]. Qed.

(** ** adding a specifier *)
Lemma specs_len : forall h c l, specs_at h c l -> n_num (h_node h c) = Z.of_nat (length l) /\ (length l <= 14)%nat.
Proof. intros h c l (V & (O1 & O2) & <- & _). change SPECS_CAP with 14 in *. unfold specs_of. rewrite firstn_length, O2. lia. Qed.
Lemma append_one : forall h c l s, specs_at h c l -> (length l < 14)%nat -> known_spec s ->
  exists h', append_spec h c s = Done h' /\ specs_at h' c (l ++ [s]) /\ h_top h' = h_top h /\ touched c h h'.
Proof.
  intros h c l s SA L K. destruct (specs_len _ _ _ SA) as (NU & _). destruct SA as (V & O & SO & KS). destruct (p29_append (h_node h c) s O ltac:(lia)) as (n' & E & S' & O' & _).
  exists (upd h c (fun _ => n')). unfold append_spec. rewrite get_ok by exact V. cbn [rbind]. rewrite E. cbn [rbind]. split; [reflexivity|]. split; [|split; [reflexivity|split; [rewrite upd_top; lia|intros x _ NE; apply upd_other; exact NE]]].
  split; [exact V|]. rewrite upd_node. split; [exact O'|]. split; [rewrite S', SO; reflexivity|apply Forall_app; auto].
Qed.
Lemma no_specs : forall h, 0 < h_top h -> specs_at (fst (make h (AstModel.set_type CT_Specifiers))) (h_top h) [].
Proof.
  intros h T. split; [split; [lia|rewrite make_top; lia]|]. rewrite make_node. split; [split; [cbn; lia|reflexivity]|]. split; [reflexivity|constructor].
Qed.
Lemma def_one : forall h s, 0 < h_top h -> known_spec s -> exists h', def_specifier h s = Done (h', h_top h) /\ specs_at h' (h_top h) [s] /\ grow h h'.
Proof.
  intros h s T K. unfold def_specifier. rewrite make_eq. destruct (append_one _ _ [] s (no_specs h T) ltac:(cbn; lia) K) as (h' & E & SA & TP & TO). rewrite E. cbn [rbind]. exists h'. split; [reflexivity|]. split; [exact SA|].
  pose proof (grow_make h (AstModel.set_type CT_Specifiers)) as (G1 & G2). split; [lia|]. intros x X. destruct TO as (_ & TO). rewrite TO; [apply G2; exact X|destruct X; split; [lia|rewrite make_top; lia]|destruct X; lia].
Qed.
Lemma add_ok : forall c l s i sc h, maybe (specs_at h) c (some_specs l) -> (length l < 14)%nat -> known_spec s -> 0 < h_top h ->
  exists h' c', (if c =? 0 then on_heap (fun h => def_specifier h s) else edit (fun h => append_spec h c s) ;;; ret c) (Pst i sc h) = Done (c', Pst i sc h') /\
    specs_at h' c' (l ++ [s]) /\ touched c h h' /\ (c' = c /\ l <> [] \/ h_top h <= c').
Proof.
  intros c l s i sc h MS L K TP. destruct l as [|s0 l]; cbn [some_specs maybe] in MS.
  - subst c. cbn [Z.eqb]. destruct (def_one h s TP K) as (h' & E & SA & G). exists h', (h_top h). split; [unfold on_heap; cbn [p_heap p_idx p_scopes]; rewrite E; reflexivity|]. split; [exact SA|]. split; [apply grow_touched; exact G|right; lia].
  - pose proof MS as ((V1 & V2) & _). replace (c =? 0) with false by lia. destruct (append_one h c (s0 :: l) s MS L K) as (h' & E & SA & T & TO). exists h', c. split; [|split; [exact SA|split; [exact TO|left; split; [reflexivity|discriminate]]]].
    unfold bind, edit. cbn [p_heap p_idx p_scopes]. rewrite E. reflexivity.
Qed.

Definition no_macro_spec (ms : macros) : Prop := forall s t, In (s, t) specifier_spelling -> lookup_macro ms (txt t) = None.
Section P.
Variable src : list Z.
Variable toks beyond : list token.
Variable ms : macros.
Variable e : env.
Variable varadic : Z.
Variable fuel : nat.
Hypothesis SRC : Forall (in_source src) toks.
Hypothesis FIT : Forall flags_fit toks.
Hypothesis BYTES : Forall (fun c => 0 <= c < 256) src.
Hypothesis FT : (length toks < fuel)%nat.
Hypothesis FS : (length src < fuel)%nat.
Hypothesis NOM : no_macro_spec ms.
Notation ahead := (ahead toks).
Notation a_currtok := (a_currtok toks beyond).
Notation a_check := (a_check toks beyond).
Notation a_left := (a_left toks).
Notation a_eat := (a_eat src toks beyond ms).

Lemma suffix_ok : forall raw sp', spec_tokens src raw sp' -> forall n R Q sp c sc h, ahead Q (raw ++ R) -> next_is R (fun k => ~ flagged k TF_Specifier) ->
  maybe (specs_at h) c (some_specs sp) -> (length (sp ++ sp') <= 14)%nat -> 0 < h_top h -> (length sp' <= n)%nat ->
  exists Q' c' h', toks = Q' ++ trim R /\ suffix_specs src toks beyond ms n c (Pst (zlen Q) sc h) = Done (c', Pst (zlen Q') sc h') /\
    maybe (specs_at h') c' (some_specs (sp ++ sp')) /\ touched c h h' /\ (c' = c \/ h_top h <= c').
Proof.
  intros raw sp' T. induction T as [|g k s r l G (SK & t & I & W) T IH]; intros n R Q sp c sc h A N MS L TP LN.
  - cbn [app] in A. destruct N as (g & k & r & -> & G & K & X).
    destruct (a_left Q g k r sc h A G K) as (lf & E1 & E2). destruct (a_currtok Q g k r sc h A G K) as (Q' & E3 & E4). exists Q', c, h. split; [rewrite (trim_gap g), (trim_sig k) by auto; exact E3|].
    split; [|rewrite app_nil_r; split; [exact MS|split; [apply touched_refl|auto]]].
    assert (F : tok_is_specifier k = false) by (destruct (tok_is_specifier k) eqn:F; [apply spec_flag in F; contradiction|reflexivity]).
    destruct n; cbn [suffix_specs]; erewrite bind_ok by exact E1; rewrite E2; erewrite bind_ok by exact E4; rewrite F; reflexivity.
  - rewrite <- app_assoc in A. cbn [app] in A. pose proof (spec_sig k SK) as KF. destruct n as [|n]; [cbn in LN; lia|].
    destruct (a_left Q g k _ sc h A G KF) as (lf & E1 & E2). destruct (a_currtok Q g k _ sc h A G KF) as (Q1 & E3 & E4).
    cbn [suffix_specs]. erewrite bind_ok by exact E1. rewrite E2. erewrite bind_ok by exact E4. pose proof (spec_flagged toks FIT _ _ _ E3 SK) as FL. apply spec_flag in FL. rewrite FL. cbn [negb].
    rewrite <- word_text, W. rewrite (NOM _ _ I). destruct (p22_spec _ _ I) as (_ & ->).
    assert (KN : known_spec s) by (unfold known_spec; apply in_map_iff; exists (s, t); auto). rewrite app_length in L. cbn [length] in L.
    destruct (add_ok c sp s (zlen Q1) sc h MS ltac:(lia) KN TP) as (h1 & c1 & C1 & SA & TO & OR). erewrite bind_ok by exact C1.
    destruct (a_eat Q1 k _ (t_type k) sc h1 E3 eq_refl) as (A2 & C2). erewrite bind_ok by exact C2.
    destruct (IH n R (Q1 ++ [k]) (sp ++ [s]) c1 sc h1 A2 N) as (Q' & c' & h' & E' & C' & MS' & TO' & OR').
    { destruct sp; exact SA. } { rewrite !app_length. cbn [length]. lia. } { destruct TO; lia. } { cbn in LN. lia. }
    exists Q', c', h'. split; [exact E'|]. split; [exact C'|]. split; [rewrite <- app_assoc in MS'; exact MS'|]. destruct TO as (TO1 & TO2). split; [|destruct OR as [(-> & _)|OR], OR' as [->|OR']; lia].
    eapply touched_trans; [split; [exact TO1|exact TO2]|exact TO'|]. destruct OR as [(-> & _)|OR]; [left; reflexivity|right; exact OR].
Qed.

Lemma fn_loop_ok : forall n raw sp Q R found sc h, spec_tokens src raw sp -> ahead Q (raw ++ R) -> next_is R (fun k => ~ flagged k TF_Specifier) ->
  Forall (fun s => In s function_specifiers) sp -> zlen (found ++ sp) <= 16 -> (length sp <= n)%nat ->
  exists Q', toks = Q' ++ trim R /\ fn_specs_loop src toks beyond ms n found (Pst (zlen Q) sc h) = Done (Some (found ++ sp), Pst (zlen Q') sc h).
Proof.
  intros n raw sp Q R found sc h T. revert n Q found. induction T as [|g k s r l G (SK & t & I & W) T IH]; intros n Q found A N AL C L.
  - cbn [app] in A. destruct N as (g & k & r & -> & G & K & X).
    destruct (a_left Q g k r sc h A G K) as (lf & E1 & E2). destruct (a_currtok Q g k r sc h A G K) as (Q' & E3 & E4). exists Q'. rewrite app_nil_r. split; [rewrite (trim_gap g), (trim_sig k) by auto; exact E3|].
    assert (F : tok_is_specifier k = false) by (destruct (tok_is_specifier k) eqn:F; [apply spec_flag in F; contradiction|reflexivity]).
    destruct n; cbn [fn_specs_loop]; erewrite bind_ok by exact E1; rewrite E2; erewrite bind_ok by exact E4; rewrite F; reflexivity.
  - rewrite <- app_assoc in A. cbn [app] in A. pose proof (spec_sig k SK) as KF. destruct n as [|n]; [cbn in L; lia|].
    destruct (a_left Q g k _ sc h A G KF) as (lf & E1 & E2). destruct (a_currtok Q g k _ sc h A G KF) as (Q1 & E3 & E4).
    cbn [fn_specs_loop]. erewrite bind_ok by exact E1. rewrite E2. erewrite bind_ok by exact E4. pose proof (spec_flagged toks FIT _ _ _ E3 SK) as FL. apply spec_flag in FL. rewrite FL. cbn [negb].
    rewrite <- word_text, W. destruct (p22_spec _ _ I) as (_ & ->). pose proof (Forall_inv AL) as AS.
    assert (AS2 : function_specifier s = true /\ (s =? Spec_Const) = false). { clear - AS. unfold function_specifiers in AS. cbn [In] in AS. repeat (destruct AS as [<-|AS]; [split; reflexivity|]). contradiction. } destruct AS2 as (-> & ->). cbn [negb].
    rewrite zlen_app, zlen_cons in C. pose proof (zlen_nn _ l). destruct (zlen found >=? 16) eqn:Z16; [lia|].
    destruct (a_eat Q1 k _ (t_type k) sc h E3 eq_refl) as (A' & E5). erewrite bind_ok by exact E5.
    destruct (IH n (Q1 ++ [k]) (found ++ [s]) A' N (Forall_inv_tail AL)) as (Q2 & A2 & E6); [zl|cbn in L; lia|].
    exists Q2. split; [exact A2|]. rewrite E6, <- app_assoc. reflexivity.
Qed.

(** ** the body *)
Lemma body_loop_ok : forall d raw, nested (eq Tok_BraceCurly_Open) (eq Tok_BraceCurly_Close) (fun _ _ => False) d raw -> forall n P c R sc h, toks = P ++ raw ++ c :: R -> kind Tok_BraceCurly_Close c -> (length raw <= n)%nat ->
  body_loop src toks beyond ms n (Z.of_nat d) (Pst (zlen P) sc h) = Done (tt, Pst (zlen (P ++ raw)) sc h).
Proof.
  intros d raw T. induction T as [|d k r O T IH|d k r O T IH|d k r O1 O2 _ T IH]; intros n P c R sc h E C L.
  - cbn [app] in E. destruct (left_ok toks P c R sc h E) as (lf & L1 & L2). unfold kind in C.
    destruct n; cbn [body_loop]; (erewrite bind_ok by exact L1); rewrite L2; (erewrite bind_ok by (eapply noskip_ok; exact E)); rewrite C, Z.eqb_refl, app_nil_r; reflexivity.
  - destruct n as [|n]; [cbn in L; lia|]. cbn [app] in E. destruct (left_ok toks P k _ sc h E) as (lf & L1 & L2). cbn [body_loop]. erewrite bind_ok by exact L1. rewrite L2. erewrite bind_ok by (eapply noskip_ok; exact E).
    rewrite <- O. change (Tok_BraceCurly_Open =? Tok_BraceCurly_Close) with false. cbn [andb]. erewrite bind_ok by (eapply eat_ok; [exact E|symmetry; exact O]). apply at_eat in E. rewrite Z.eqb_refl.
    replace (Z.of_nat d + 1) with (Z.of_nat (S d)) by lia. erewrite IH; [|exact E|exact C|cbn in L; lia]. rewrite <- app_assoc. reflexivity.
  - destruct n as [|n]; [cbn in L; lia|]. cbn [app] in E. destruct (left_ok toks P k _ sc h E) as (lf & L1 & L2). cbn [body_loop]. erewrite bind_ok by exact L1. rewrite L2. erewrite bind_ok by (eapply noskip_ok; exact E).
    rewrite <- O. rewrite Z.eqb_refl. replace (Z.of_nat (S d) >? 0) with true by lia. cbn [andb negb]. erewrite bind_ok by (eapply eat_ok; [exact E|symmetry; exact O]). apply at_eat in E. change (Tok_BraceCurly_Close =? Tok_BraceCurly_Open) with false. cbv iota.
    replace (Z.of_nat (S d) - 1) with (Z.of_nat d) by lia. erewrite IH; [|exact E|exact C|cbn in L; lia]. rewrite <- app_assoc. reflexivity.
  - destruct n as [|n]; [cbn in L; lia|]. cbn [app] in E. destruct (left_ok toks P k _ sc h E) as (lf & L1 & L2). cbn [body_loop]. erewrite bind_ok by exact L1. rewrite L2. erewrite bind_ok by (eapply noskip_ok; exact E).
    replace (t_type k =? Tok_BraceCurly_Close) with false by lia. cbn [andb]. erewrite bind_ok by (eapply eat_ok; [exact E|reflexivity]). apply at_eat in E. replace (t_type k =? Tok_BraceCurly_Open) with false by lia.
    erewrite IH; [|exact E|exact C|cbn in L; lia]. rewrite <- app_assoc. reflexivity.
Qed.
Lemma empty_block : forall h c, valid h c -> h_node h c = AstModel.set_type CT_Function_Body zero_node -> entries h c [] /\ holds h c (Block []).
Proof.
  intros h c V N. split.
  - split; [exact V|]. rewrite N. cbn. split; [reflexivity|]. split; [intros ? []|]. split; [constructor|]. split; [intros []|]. auto.
  - change (block_at h c []). split; [split; [exact V|rewrite N; cbn; auto 20]|]. rewrite N. split; [reflexivity|exact I].
Qed.
Lemma function_body_ok : forall raw l R Q sc h, body_tokens src raw l -> toks = Q ++ trim (raw ++ R) -> 0 < h_top h -> e_invalid e < h_top h ->
  exists Q' c h', toks = Q' ++ R /\ parse_function_body src toks beyond ms e fuel (Pst (zlen Q) sc h) = Done (c, Pst (zlen Q') sc h') /\ grow h h' /\ young (h_top h) h' c /\ holds h' c (Block (map Raw l)).
Proof.
  intros raw l R Q sc h T E TP NI. unfold parse_function_body, push_scope. unfold bind at 1. cbn [rbind p_idx p_scopes p_heap]. set (sc' := (zlen Q, "parse_function_body"%string) :: sc).
  destruct T as [g o c G O C LE|g o first more c G O IB C NE].
  - assert (OF : ~ fmt o) by (tk; lia). rewrite <- app_assoc in E. cbn [app] in E. rewrite trim_gap, trim_sig in E by auto.
    destruct (a_eat Q o _ Tok_BraceCurly_Open sc' h E O) as (_ & C1). erewrite bind_ok by exact C1. apply at_eat in E.
    destruct (any_make (AstModel.set_type CT_Function_Body) h (zlen (Q ++ [o])) sc') as (h1 & C2 & T1 & N1 & G1). erewrite bind_ok by exact C2.
    erewrite bind_ok by (eapply noskip_ok; exact E). erewrite bind_ok by (apply (body_loop_ok 0 [] (n_end _ _ _) fuel (Q ++ [o]) c R sc' h1 E C); cbn; lia). rewrite app_nil_r.
    erewrite bind_ok by (eapply prevtok_ok; exact E). replace (end_of o - t_start c >? 0) with false by (unfold t_end, end_of in *; lia). cbv iota. unfold bind at 1. cbn [ret rbind].
    destruct (a_eat _ c R Tok_BraceCurly_Close sc' h1 E C) as (_ & C3). erewrite bind_ok by exact C3. apply at_eat in E.
    exists ((Q ++ [o]) ++ [c]), (h_top h), h1. split; [exact E|]. split; [reflexivity|]. split; [exact G1|]. split; [split; [lia|rewrite N1; exact I]|]. apply empty_block; [split; lia|exact N1].
  - assert (OF : ~ fmt o) by (tk; lia). rewrite <- app_assoc in E. cbn [app] in E. rewrite trim_gap, trim_sig in E by auto. rewrite <- app_assoc in E. cbn [app] in E.
    destruct (a_eat Q o _ Tok_BraceCurly_Open sc' h E O) as (_ & C1). erewrite bind_ok by exact C1. apply at_eat in E.
    destruct (any_make (AstModel.set_type CT_Function_Body) h (zlen (Q ++ [o])) sc') as (h1 & C2 & T1 & N1 & G1). erewrite bind_ok by exact C2.
    erewrite bind_ok by (eapply noskip_ok; exact E). change (first :: more ++ c :: R) with ((first :: more) ++ c :: R) in E.
    erewrite bind_ok by (apply (body_loop_ok 0 _ IB fuel (Q ++ [o]) c R sc' h1 E C); rewrite E in FT; rewrite !app_length in FT; lia). apply at_app in E.
    erewrite bind_ok by (eapply prevtok_last with (d := first); [exact E|discriminate]). assert (LM : last (first :: more) first = last more first) by (destruct more; reflexivity). rewrite LM.
    change (slice src (t_start first) (end_of (last more first) - t_start first)) with (upto src first (last more first)).
    assert (GT : (end_of (last more first) - t_start first >? 0) = true). { destruct (end_of (last more first) - t_start first >? 0) eqn:Z; [reflexivity|]. exfalso. apply NE. unfold upto, slice. assert (Z.to_nat (t_end (last more first) - t_start first) = 0%nat) as -> by (unfold end_of, t_end in *; lia). reflexivity. } rewrite GT.
    set (text := upto src first (last more first)) in *. set (i := zlen ((Q ++ [o]) ++ first :: more)).
    destruct (any_make (fun n => set_content text (AstModel.set_type CT_Execution n)) h1 i sc') as (h2 & C4 & T2 & N2 & G2).
    assert (C4' : on_heap (fun h => def_execution e h (Some text)) (Pst i sc' h1) = Done (h_top h1, Pst i sc' h2)). { rewrite <- C4. unfold on_heap, def_execution, require. cbn [p_heap rbind str_text]. assert (name_check (Some text) = true) as ->; [|reflexivity]. destruct text; [contradiction|reflexivity]. }
    pose proof (grow_trans _ _ _ G1 G2) as G12. assert (VB : valid h1 (h_top h)) by (split; lia). assert (NB : h_node h2 (h_top h) = AstModel.set_type CT_Function_Body zero_node) by (destruct G2 as (_ & G2); rewrite G2 by exact VB; exact N1).
    destruct (empty_block h2 (h_top h) ltac:(split; lia) NB) as (EN & _). assert (RW : raw_at h2 (h_top h1) text) by (split; [split; [split; lia|rewrite N2; cbn; auto]|rewrite N2; reflexivity]).
    destruct (append_fresh_spec h2 (h_top h) (h_top h1) [] EN) as (h3 & A3 & T3 & N3 & E3); [split; lia|lia|rewrite N2; reflexivity|].
    assert (A3' : body_append fuel h2 (h_top h) (h_top h1) = Done h3). { rewrite body_append_plain; [exact A3|lia|split; lia|rewrite N2; reflexivity]. }
    erewrite bind_ok. 2:{ erewrite bind_ok by exact C4'. unfold edit. cbn [p_heap p_idx p_scopes]. rewrite A3'. reflexivity. }
    destruct (a_eat _ c R Tok_BraceCurly_Close sc' h3 E C) as (_ & C5). erewrite bind_ok by exact C5. apply at_eat in E.
    exists (((Q ++ [o]) ++ first :: more) ++ [c]), (h_top h), h3. split; [exact E|]. split; [reflexivity|]. split; [|split; [eapply entries_young; [exact E3|lia|intros y [<-|[]]; destruct G1; lia]|]].
    + split; [destruct G12; lia|]. intros x X. pose proof X as (X1 & X2). rewrite N3. unfold append_node. replace (x =? h_top h) with false by lia. replace (x =? h_top h1) with false by lia. apply G12. exact X.
    + change (block_at h3 (h_top h) [Raw text]). destruct E3 as (V3 & NU & _ & _ & _ & FR & _). cbn [app length hd] in *. split; [split; [exact V3|rewrite N3; destruct (append_content h2 (h_top h) (h_top h1) [] (h_top h)) as (-> & _); rewrite NB; cbn; auto 20]|]. split; [exact NU|]. rewrite FR.
      split; [|exact I]. left. destruct RW as ((V & K) & CO). unfold raw_at, kind_is. rewrite N3. destruct (append_content h2 (h_top h) (h_top h1) [] (h_top h1)) as (-> & ->). split; [split; [destruct V; split; lia|exact K]|exact CO].
Qed.
End P.
