(** The nodes made while parsing; specifiers, attributes and the spacing of names. *)
From Coq Require Import String ZArith List Bool Lia ZifyBool ZifyNat.
From Verif Require Import Common Text HashModel StrOpsModel EnumModel EnumSpec EnumProofs LexModel LexSpec NavModel StripModel StripSpec AstModel AstSpec UpfrontModel UpfrontSpec UpfrontProofs UpfrontProofs2 SerSpec ParseModel ParseSpec ParseProofs ParseProofs2.
From Verif Require StripProofs StripProofs2 StripProofs3.
Import ListNotations.
Close Scope string_scope.
Open Scope Z_scope.

(** ** nodes *)
(** the old nodes stay as they are *)
Definition grow (h h' : heap) : Prop := h_top h <= h_top h' /\ forall x, valid h x -> h_node h' x = h_node h x.
(** all nodes stay but for Body and Parent *)
Definition sim (n n' : node) : Prop := set_body 0 (set_parent 0 n') = set_body 0 (set_parent 0 n).
Definition like (h h' : heap) : Prop := h_top h <= h_top h' /\ forall x, valid h x -> sim (h_node h x) (h_node h' x).
Lemma valid_grow : forall h h' x, h_top h <= h_top h' -> valid h x -> valid h' x.
Proof. intros h h' x T (A & B). split; lia. Qed.
Lemma grow_refl : forall h, grow h h. Proof. intros h. split; [lia|auto]. Qed.
Lemma grow_trans : forall a b c, grow a b -> grow b c -> grow a c.
Proof. intros a b c (T1 & N1) (T2 & N2). split; [lia|]. intros x X. rewrite N2 by (eapply valid_grow; eauto). auto. Qed.
Lemma like_refl : forall h, like h h. Proof. intros h. split; [lia|]. intros. reflexivity. Qed.
Lemma like_trans : forall a b c, like a b -> like b c -> like a c.
Proof. intros a b c (T1 & N1) (T2 & N2). split; [lia|]. intros x X. unfold sim in *. rewrite N2 by (eapply valid_grow; eauto). auto. Qed.
Lemma grow_like : forall a b, grow a b -> like a b.
Proof. intros a b (T & N). split; [exact T|]. intros x X. unfold sim. rewrite N by exact X. reflexivity. Qed.
Lemma make_eq : forall h f, make h f = (fst (make h f), h_top h). Proof. reflexivity. Qed.
Lemma make_node : forall h f, h_node (fst (make h f)) (h_top h) = f zero_node.
Proof. intros h f. cbn. rewrite !Z.eqb_refl. reflexivity. Qed.
Lemma make_top : forall h f, h_top (fst (make h f)) = h_top h + 1. Proof. reflexivity. Qed.
Lemma grow_make : forall h f, grow h (fst (make h f)).
Proof. intros h f. split; [rewrite make_top; lia|]. intros x (X & Y). cbn. destruct (x =? h_top h) eqn:E; [lia|]. reflexivity. Qed.
Lemma grow_upd : forall h0 h c f, grow h0 h -> h_top h0 <= c -> grow h0 (upd h c f).
Proof. intros h0 h c f (T & N) C. split; [exact T|]. intros x X. pose proof X as (X1 & X2). cbn. destruct (x =? c) eqn:E; [lia|]. auto. Qed.
Lemma like_upd : forall h0 h c f, like h0 h -> (valid h0 c -> sim (h_node h c) (f (h_node h c))) -> like h0 (upd h c f).
Proof.
  intros h0 h c f (T & N) C. split; [exact T|]. intros x X. cbn. destruct (x =? c) eqn:E; [|auto]. apply Z.eqb_eq in E. subst x. unfold sim in *. rewrite C by exact X. auto.
Qed.
Lemma upd_node : forall h c f, h_node (upd h c f) c = f (h_node h c). Proof. intros. cbn. rewrite Z.eqb_refl. reflexivity. Qed.
Lemma upd_other : forall h c f x, x <> c -> h_node (upd h c f) x = h_node h x. Proof. intros. cbn. destruct (x =? c) eqn:E; [lia|]. reflexivity. Qed.
Lemma upd_top : forall h c f, h_top (upd h c f) = h_top h. Proof. reflexivity. Qed.
Lemma get_ok : forall h c, valid h c -> get h c = Done (h_node h c).
Proof. intros h c (A & B). unfold get. replace ((0 <? c) && (c <? h_top h)) with true by lia. reflexivity. Qed.
Lemma put_ok : forall h c f, valid h c -> put h c f = Done (upd h c f).
Proof. intros h c f V. unfold put. rewrite get_ok by exact V. reflexivity. Qed.
Lemma edit_ok : forall i sc h c f, valid h c -> edit (fun h => put h c f) (Pst i sc h) = Done (tt, Pst i sc (upd h c f)).
Proof. intros i sc h c f V. unfold edit. cbn [p_heap]. rewrite put_ok by exact V. reflexivity. Qed.
Lemma make_ok : forall i sc h f, on_heap (fun h => Done (make h f)) (Pst i sc h) = Done (h_top h, Pst i sc (fst (make h f))).
Proof. reflexivity. Qed.
Lemma untyped_ok : forall e i sc h t, t <> [] ->
  on_heap (fun h => untyped_str e h t) (Pst i sc h) = Done (h_top h, Pst i sc (fst (make h (fun n => set_content t (set_type CT_Untyped (set_name t n)))))).
Proof. intros e i sc h [|c t] N; [contradiction|]. reflexivity. Qed.

(** the fields that [like] keeps *)
Lemma sim_fields : forall n n', sim n n' -> n_type n' = n_type n /\ n_flags n' = n_flags n /\ n_name n' = n_name n /\ n_content n' = n_content n /\
  n_inline n' = n_inline n /\ n_attrs n' = n_attrs n /\ n_specs n' = n_specs n /\ n_ret n' = n_ret n /\ n_params n' = n_params n /\
  n_arr n' = n_arr n /\ n_next n' = n_next n /\ n_num n' = n_num n /\ n_front n' = n_front n /\ n_suffix n' = n_suffix n.
Proof. intros n n' S. unfold sim, set_body, set_parent in S. injection S as ? ? ? ? ? ? ? ? ? ? ? ? ? ? ?. auto 20. Qed.
Section Like.
Variables h h' : heap.
Hypothesis L : like h h'.
Lemma like_valid : forall c, valid h c -> valid h' c. Proof. intros c (A & B). destruct L as (T & _). split; lia. Qed.
Lemma like_node : forall c, valid h c -> sim (h_node h c) (h_node h' c). Proof. intros c X. destruct L as (_ & N). auto. Qed.
Lemma like_content : forall c t, content_at h c t -> content_at h' c t.
Proof. intros c t (V & C). split; [apply like_valid, V|]. destruct (sim_fields _ _ (like_node c V)) as (_ & _ & _ & E & _). rewrite E. exact C. Qed.
Lemma like_comment : forall c t, comment_at h c t -> comment_at h' c t.
Proof. intros c t (C & N). split; [apply like_content, C|exact N]. Qed.
Lemma like_raw : forall c t, raw_at h c t -> raw_at h' c t.
Proof.
  intros c t ((V & K) & C). destruct (sim_fields _ _ (like_node c V)) as (T & _ & _ & E & _). split; [|rewrite E; exact C]. split; [apply like_valid, V|]. rewrite T. exact K.
Qed.
Lemma like_specs : forall c l, specs_at h c l -> specs_at h' c l.
Proof.
  intros c l (V & O & S & K). pose proof (sim_fields _ _ (like_node c V)) as F. split; [apply like_valid, V|]. unfold specs_ok, specs_of in *.
  replace (n_num (h_node h' c)) with (n_num (h_node h c)) by (symmetry; apply F). replace (n_arr (h_node h' c)) with (n_arr (h_node h c)) by (symmetry; apply F). auto.
Qed.
Lemma like_maybe : forall A (P P' : Z -> A -> Prop) c o, (forall c a, P c a -> P' c a) -> maybe P c o -> maybe P' c o.
Proof. intros A P P' c [a|] I M; [apply I; exact M|exact M]. Qed.
Lemma like_typ : forall c t, typ_at h c t -> typ_at h' c t.
Proof.
  intros c t (V & X). pose proof (sim_fields _ _ (like_node c V)) as F. destruct F as (F1 & F2 & F3 & F4 & F5 & F6 & F7 & F8 & F9 & F10 & F11 & F12 & _). split; [apply like_valid, V|]. cbv zeta in *.
  rewrite F3, F6, F7, F8, F9, F12. destruct X as (X1 & X2 & X3 & X4 & X5 & X6 & X7). split; auto. split; auto. split; auto. split; [revert X4; apply like_maybe; exact like_content|]. split; [revert X5; apply like_maybe; exact like_specs|]. auto.
Qed.
Lemma like_raws : forall l c, raws_from h c l -> raws_from h' c l.
Proof.
  induction l as [|t l IH]; intros c R; [exact R|]. destruct R as (R1 & R2). split; [apply like_raw, R1|]. destruct R1 as ((V & _) & _). pose proof (sim_fields _ _ (like_node c V)) as F.
  replace (n_next (h_node h' c)) with (n_next (h_node h c)) by (symmetry; apply F). auto.
Qed.
End Like.


(** ** specifiers *)
Lemma specifiers_ok : forall e h i sc l, world e h -> l <> [] -> Z.of_nat (length l) <= SPECS_CAP -> Forall known_spec l ->
  exists h' c, specifiers_of e l (Pst i sc h) = Done (c, Pst i sc h') /\ h_top h <= c /\ specs_at h' c l /\ grow h h'.
Proof.
  intros e h i sc l W N L K. destruct (p32_specifiers e h W l) as [(_ & h' & c & E & V & V' & ND & KE & KN)|(X & _)].
  2:{ exfalso. apply X. change SPECS_CAP with 14 in L. destruct l; [contradiction|]. cbn [length] in *. lia. }
  exists h', c. unfold specifiers_of. destruct l as [|s l]; [contradiction|]. set (ss := s :: l) in *. unfold on_heap. cbn [p_heap]. rewrite E. split; [reflexivity|].
  split. { unfold valid in V, V'. lia. } change SPECS_CAP with 14 in L.
  split.
  - split; [exact V'|]. rewrite ND. split; [|split; [|exact K]].
    + split; [cbn [specs_list set_num n_num]; lia|]. cbn [specs_list set_num set_arr n_arr]. rewrite app_length, repeat_length. lia.
    + unfold specs_of. cbn [specs_list set_num set_arr n_arr n_num]. rewrite Nat2Z.id, firstn_app, firstn_all, Nat.sub_diag. cbn [firstn]. apply app_nil_r.
  - split; [exact KE|]. intros x X. apply KN; [exact X|intros []].
Qed.
Lemma known_of : forall s, In s (map fst specifier_spelling) -> known_spec s. Proof. auto. Qed.

Lemma specifiers_maybe : forall e h i sc l, world e h -> Z.of_nat (length l) <= SPECS_CAP -> Forall known_spec l ->
  exists h' c, specifiers_of e l (Pst i sc h) = Done (c, Pst i sc h') /\ grow h h' /\ maybe (specs_at h') c (some_specs l) /\ (l <> [] -> h_top h <= c).
Proof.
  intros e h i sc l W L K. destruct l as [|s l]; [exists h, 0; split; [reflexivity|]; split; [apply grow_refl|]; split; [reflexivity|congruence]|].
  destruct (specifiers_ok e h i sc (s :: l) W ltac:(discriminate) L K) as (h' & c & E & C & S & G). exists h', c. auto.
Qed.
(** only the node [c] changes *)
Definition stepped (h h' : heap) (c : Z) (f : node -> node) : Prop :=
  h_top h' = h_top h /\ h_node h' c = f (h_node h c) /\ forall x, x <> c -> h_node h' x = h_node h x.
Lemma stepped_upd : forall h c f, stepped h (upd h c f) c f.
Proof. intros h c f. split; [reflexivity|]. split; [apply upd_node|]. intros x X. apply upd_other. exact X. Qed.
Lemma stepped_grow : forall h0 h h' c f, grow h0 h -> h_top h0 <= c -> stepped h h' c f -> grow h0 h'.
Proof. intros h0 h h' c f (T & N) C (T' & _ & N'). split; [lia|]. intros x X. rewrite N' by (unfold valid in X; lia). auto. Qed.
Lemma stepped_valid : forall h h' c f x, stepped h h' c f -> valid h x -> valid h' x.
Proof. intros h h' c f x (T & _) (A & B). split; lia. Qed.
Lemma opt_edit : forall c v (set : Z -> node -> node) h i sc, valid h c -> set 0 (h_node h c) = h_node h c ->
  exists h', (if v =? 0 then ret tt else edit (fun h => put h c (set v))) (Pst i sc h) = Done (tt, Pst i sc h') /\ stepped h h' c (set v).
Proof.
  intros c v set h i sc V Z. destruct (v =? 0) eqn:E.
  - apply Z.eqb_eq in E. subst v. exists h. split; [reflexivity|]. split; [reflexivity|]. split; [symmetry; exact Z|auto].
  - exists (upd h c (set v)). split; [apply edit_ok; exact V|apply stepped_upd].
Qed.
Lemma any_edit : forall c f h i sc, valid h c -> exists h', edit (fun h => put h c f) (Pst i sc h) = Done (tt, Pst i sc h') /\ stepped h h' c f.
Proof. intros c f h i sc V. exists (upd h c f). split; [apply edit_ok; exact V|apply stepped_upd]. Qed.
Lemma any_make : forall f h i sc, exists h', on_heap (fun h => Done (make h f)) (Pst i sc h) = Done (h_top h, Pst i sc h') /\
  h_top h' = h_top h + 1 /\ h_node h' (h_top h) = f zero_node /\ grow h h'.
Proof. intros f h i sc. exists (fst (make h f)). split; [apply make_ok|]. split; [apply make_top|]. split; [apply make_node|apply grow_make]. Qed.

(** ** spacing *)
Lemma strip_tidy : forall raw fuel, tidy raw -> Forall (fun c => 0 <= c < 256) raw -> (length raw < fuel)%nat -> strip_formatting raw false fuel = Done raw.
Proof.
  intros raw fuel (T & B1 & B2) BY F.
  assert (G : forall n pre rest, raw = pre ++ rest -> zlen rest < Z.of_nat n -> strip_loop raw false fuel n (zlen pre) 0 [] false = Done raw).
  { induction n as [|n IH]; intros pre rest E L; [pose proof (zlen_nn _ rest); lia|]. assert (PD : pending raw 0 (zlen pre) = Done pre).
    { unfold pending. pose proof (zlen_nn _ pre). assert (zlen pre <= zlen raw) by (rewrite E; zl). replace ((0 <=? 0) && (0 <=? zlen pre) && (zlen pre <=? zlen raw)) with true by lia.
      unfold slice. rewrite Z.sub_0_r. cbn [skipn Z.to_nat]. unfold zlen. rewrite Nat2Z.id. rewrite E, firstn_app, firstn_all, Nat.sub_diag. cbn [firstn]. rewrite app_nil_r. reflexivity. }
    destruct rest as [|c rest].
    - rewrite app_nil_r in E. subst pre. cbn [strip_loop]. unfold tokleft. rewrite Z.sub_diag. cbn [Z.eqb]. destruct (0 <? zlen raw) eqn:Z0; [rewrite PD; reflexivity|]. destruct raw; [reflexivity|zl].
    - destruct (StripProofs2.step_move raw false fuel n pre 0 [] pre false PD c rest E) as (E1 & E2).
      + rewrite Forall_forall in T. assert (I : In c raw) by (rewrite E; apply in_or_app; right; left; reflexivity). specialize (T c I). cbn [In] in *. lia.
      + rewrite Forall_forall in T. assert (I : In c raw) by (rewrite E; apply in_or_app; right; left; reflexivity). specialize (T c I). cbn [In] in *. lia.
      + rewrite Forall_forall in T. assert (I : In c raw) by (rewrite E; apply in_or_app; right; left; reflexivity). specialize (T c I). cbn [In] in *. lia.
      + intros (S1 & NE & S2). destruct rest as [|d rest]; [contradiction|]. cbn [hd] in S2.
        assert (SP : forall x, In x raw -> char_is_space x = true -> x = 32).
        { intros x I S. rewrite Forall_forall in T, BY. specialize (T x I). specialize (BY x I). rewrite StripProofs3.space_eq in S by exact BY. unfold is_spacep in S. cbn -[Z.eqb] in S. cbn [In] in T. lia. }
        apply (B2 pre rest). rewrite E. cbn [app]. rewrite (SP c), (SP d); auto; rewrite E; apply in_or_app; right; [right; left|left]; reflexivity.
      + rewrite E1. apply (IH (pre ++ [c]) rest); [rewrite <- app_assoc; exact E|zl]. }
  unfold strip_formatting. destruct raw as [|c r] eqn:R; [reflexivity|]. rewrite <- R in *.
  destruct (c =? 32) eqn:C32. { apply Z.eqb_eq in C32. subst c. destruct (B1 r R). }
  apply (G fuel [] raw eq_refl). unfold zlen. lia.
Qed.
Lemma strip_ok : forall t fuel, ~ In 92 t -> closed t -> words t <> [] -> Forall (fun c => 0 <= c < 256) t -> (length t < fuel)%nat ->
  exists n, strip_formatting t false fuel = Done n /\ respaced t n /\ n <> [].
Proof.
  intros t fuel N C W B F. destruct (StripProofs3.strip_all t false fuel) as (o & E & _ & O); auto; [lia|]. specialize (O N). exists o. split; [exact E|]. split.
  - split; [exact O|]. intros T. rewrite (strip_tidy t fuel T B F) in E. injection E as <-. reflexivity.
  - intros ->. apply W. rewrite <- O. reflexivity.
Qed.

Lemma in_firstn_in : forall (l : list Z) a n x, In x (firstn n (skipn a l)) -> In x l.
Proof. intros l a n x I. rewrite <- (firstn_skipn a l). apply in_or_app. right. rewrite <- (firstn_skipn n (skipn a l)). apply in_or_app. left. exact I. Qed.

Section P.
Variable src : list Z.
Variable toks beyond : list token.
Variable ms : macros.
Variable e : env.
Variable fuel : nat.
Hypothesis SRC : Forall (in_source src) toks.
Hypothesis FIT : Forall flags_fit toks.
Notation ahead := (ahead toks).
Notation a_currtok := (a_currtok toks beyond).
Notation a_left := (a_left toks).
Notation a_eat := (a_eat src toks beyond ms).
Notation a_check := (a_check toks beyond).

Definition allow (P : Z -> Prop) (f : Z -> bool) := forall s, P s -> f s = true.
Lemma spec_flag : forall k, tok_is_specifier k = true <-> flagged k TF_Specifier.
Proof. intros k. unfold tok_is_specifier, bitfield_is_set, flagged. rewrite Z.eqb_eq. reflexivity. Qed.
Lemma attr_flag : forall k, tok_is_attribute k = true <-> flagged k TF_Attribute.
Proof. intros k. unfold tok_is_attribute, bitfield_is_set, flagged. rewrite Z.eqb_eq. reflexivity. Qed.
Lemma fit_of : forall P k R, toks = P ++ k :: R -> flags_fit k.
Proof. intros P k R E. rewrite Forall_forall in FIT. apply FIT. rewrite E. apply in_or_app. right. left. reflexivity. Qed.
Lemma spec_sig : forall k, spec_kind (t_type k) -> ~ fmt k.
Proof. intros k SK. unfold spec_kind, Tok_Spec_Alignas, Tok_Star, Tok_Ampersand, Tok_Ampersand_DBL in SK. unfold fmt, Tok_NewLine, Tok_Comment. lia. Qed.
Ltac kinds := unfold macro_kind, spec_kind in *; cbn [In] in *; unfold Tok_Spec_Alignas, Tok_Star, Tok_Ampersand, Tok_Ampersand_DBL, Tok_Preprocess_Macro_Expr, Tok_Preprocess_Macro_Stmt, Tok_Preprocess_Macro_Typename, Tok_Attribute_GEN_API, Tok_Identifier, Tok_Operator in *.
Lemma spec_flagged : forall P k R, toks = P ++ k :: R -> spec_kind (t_type k) -> flagged k TF_Specifier.
Proof. intros P k R E SK. destruct (fit_of _ _ _ E) as [M|(F & _)]; [kinds; lia|]. apply F. exact SK. Qed.
Lemma trim_trim : forall l, trim (trim l) = trim l.
Proof. induction l as [|f l IH]; [reflexivity|]. cbn [trim]. destruct (is_formatting (t_type f)) eqn:F; [exact IH|]. cbn [trim]. rewrite F. reflexivity. Qed.
Lemma stands_ahead : forall Q R, toks = Q ++ trim R -> ahead Q R.
Proof. intros Q R E. exists (trim R). split; [exact E|]. apply trim_trim. Qed.
Lemma specs_loop_ok : forall n raw sp Q R allowed stop found sc h, spec_tokens src raw sp -> ahead Q (raw ++ R) ->
  next_is R (fun k => ~ flagged k TF_Specifier \/ allowed (str_to_specifier (text_of src k)) = true /\ stop (str_to_specifier (text_of src k)) = true) ->
  Forall (fun s => allowed s = true /\ stop s = false) sp -> zlen (found ++ sp) <= 16 -> (length sp <= n)%nat ->
  exists Q', toks = Q' ++ trim R /\ specs_loop src toks beyond ms n allowed stop found (Pst (zlen Q) sc h) = Done (Some (found ++ sp), Pst (zlen Q') sc h).
Proof.
  induction n as [|n IH]; intros raw sp Q R allowed stop found sc h T A N AL C L.
  - destruct T as [|g k s r l G K T]; [|cbn in L; lia]. cbn [app] in A. destruct N as (g & k & r & -> & G & K & X).
    cbn [specs_loop]. destruct (a_left Q g k r sc h A G K) as (lf & E1 & E2). erewrite bind_ok by exact E1. rewrite E2.
    destruct (a_currtok Q g k r sc h A G K) as (Q' & E3 & E4). erewrite bind_ok by exact E4. exists Q'. rewrite app_nil_r. split; [rewrite (trim_gap g), (trim_sig k) by auto; exact E3|].
    destruct (tok_is_specifier k) eqn:F; [|reflexivity]. destruct X as [X|(X1 & X2)]; [apply spec_flag in F; contradiction|]. cbn [negb]. rewrite X1, X2. reflexivity.
  - destruct T as [|g k s r l G K T].
    + cbn [app] in A. destruct N as (g & k & r & -> & G & K & X).
      cbn [specs_loop]. destruct (a_left Q g k r sc h A G K) as (lf & E1 & E2). erewrite bind_ok by exact E1. rewrite E2.
      destruct (a_currtok Q g k r sc h A G K) as (Q' & E3 & E4). erewrite bind_ok by exact E4. exists Q'. rewrite app_nil_r. split; [rewrite (trim_gap g), (trim_sig k) by auto; exact E3|].
      destruct (tok_is_specifier k) eqn:F; [|reflexivity]. destruct X as [X|(X1 & X2)]; [apply spec_flag in F; contradiction|]. cbn [negb]. rewrite X1, X2. reflexivity.
    + destruct K as (SK & t & I & W). rewrite <- app_assoc in A. cbn [app] in A. pose proof (spec_sig k SK) as KF.
      cbn [specs_loop]. destruct (a_left Q g k _ sc h A G KF) as (lf & E1 & E2). erewrite bind_ok by exact E1. rewrite E2.
      destruct (a_currtok Q g k _ sc h A G KF) as (Q' & E3 & E4). erewrite bind_ok by exact E4. pose proof (spec_flagged _ _ _ E3 SK) as FL. apply spec_flag in FL. rewrite FL. cbn [negb].
      rewrite <- word_text, W. destruct (p22_spec _ _ I) as (_ & ->). destruct (Forall_inv AL) as (-> & ->). cbn [negb].
      rewrite zlen_app, zlen_cons in C. pose proof (zlen_nn _ l). destruct (zlen found >=? 16) eqn:Z16; [lia|].
      destruct (a_eat Q' k _ (t_type k) sc h E3 eq_refl) as (A' & E5). erewrite bind_ok by exact E5.
      destruct (IH r l (Q' ++ [k]) R allowed stop (found ++ [s]) sc h T A' N (Forall_inv_tail AL)) as (Q2 & A2 & E6); [zl|cbn in L; lia|].
      exists Q2. split; [exact A2|]. rewrite E6, <- app_assoc. reflexivity.
Qed.

(** the tokens that are no line ends or comments *)
Definition sig_of (l : list token) : list token := filter (fun k => negb (is_formatting (t_type k))) l.
Lemma sig_trim : forall l, sig_of (trim l) = sig_of l.
Proof. induction l as [|f l IH]; [reflexivity|]. cbn [trim]. destruct (is_formatting (t_type f)) eqn:F; [|reflexivity]. cbn [sig_of filter]. rewrite F. exact IH. Qed.
Lemma sig_len : forall l, (length (sig_of l) <= length l)%nat.
Proof. induction l as [|f l IH]; [reflexivity|]. cbn [sig_of filter]. destruct (is_formatting (t_type f)); cbn [negb length]; unfold sig_of in IH; lia. Qed.
Lemma sig_app : forall a b, sig_of (a ++ b) = sig_of a ++ sig_of b. Proof. intros. apply filter_app. Qed.
Lemma ahead_sig_len : forall Q A R, ahead Q (A ++ R) -> (length (sig_of A) <= length toks)%nat.
Proof.
  intros Q A R (R0 & E & T). assert (X : sig_of R0 = sig_of (A ++ R)) by (rewrite <- sig_trim, T, sig_trim; reflexivity). rewrite sig_app in X. pose proof (sig_len R0) as L. rewrite X, app_length in L. rewrite E, app_length. lia.
Qed.
Lemma spec_sig_len : forall raw sp, spec_tokens src raw sp -> (length sp <= length (sig_of raw))%nat.
Proof.
  intros raw sp T. induction T as [|g k s r l G (K & _) T IH]; [reflexivity|]. rewrite sig_app, app_length. cbn [sig_of filter]. rewrite (fmt_nb k (spec_sig k K)). cbn [negb length]. unfold sig_of in *. lia.
Qed.

(** ** attributes *)
Lemma no_attributes : forall Q R sc h, ahead Q R -> next_is R (fun k => ~ flagged k TF_Attribute) ->
  exists Q', toks = Q' ++ trim R /\ parse_attributes src toks beyond ms fuel (Pst (zlen Q) sc h) = Done (0, Pst (zlen Q') sc h).
Proof.
  intros Q R sc h A (g & k & r & -> & G & K & X). unfold parse_attributes, push_scope. unfold bind at 1. cbn [rbind p_idx p_scopes p_heap].
  destruct (a_currtok Q g k r ((zlen Q, "parse_attributes"%string) :: sc) h A G K) as (Q' & E3 & E4). erewrite bind_ok by exact E4.
  assert (A' : ahead Q' ([] ++ k :: r)) by (apply ahead_self; exact E3).
  destruct (a_left Q' [] k r ((zlen Q, "parse_attributes"%string) :: sc) h A' ltac:(constructor) K) as (lf & E1 & E2).
  destruct (a_currtok Q' [] k r ((zlen Q, "parse_attributes"%string) :: sc) h A' ltac:(constructor) K) as (Q2 & E5 & E6).
  assert (LP : attributes_loop src toks beyond ms fuel fuel k 0 (Pst (zlen Q') ((zlen Q, "parse_attributes"%string) :: sc) h) = Done (0, Pst (zlen Q2) ((zlen Q, "parse_attributes"%string) :: sc) h)).
  { destruct fuel; cbn [attributes_loop]; (erewrite bind_ok by exact E1; rewrite E2; erewrite bind_ok by exact E6; destruct (tok_is_attribute k) eqn:F; [apply attr_flag in F; contradiction|]; reflexivity). }
  erewrite bind_ok by exact LP. exists Q2. split; [rewrite (trim_gap g), (trim_sig k) by auto; exact E5|]. reflexivity.
Qed.

Hypothesis BYTES : Forall (fun c => 0 <= c < 256) src.
Lemma slice_bytes : forall a l, Forall (fun c => 0 <= c < 256) (slice src a l).
Proof.
  intros a l. unfold slice. rewrite Forall_forall in *. intros x I. apply BYTES. apply (in_firstn_in src (Z.to_nat a) (Z.to_nat l)). exact I.
Qed.
Lemma slice_len : forall a l, (length (slice src a l) <= length src)%nat.
Proof. intros a l. unfold slice. rewrite firstn_length, skipn_length. lia. Qed.

Lemma attributes_ok : forall raw R o Q sc h, attribute_word src raw R o -> ahead Q (raw ++ R) -> next_is R (fun k => ~ flagged k TF_Attribute) ->
  (length toks < fuel)%nat -> (length src < fuel)%nat -> 0 < h_top h ->
  exists Q' c h', toks = Q' ++ trim R /\ parse_attributes src toks beyond ms fuel (Pst (zlen Q) sc h) = Done (c, Pst (zlen Q') sc h') /\
    grow h h' /\ maybe (content_at h') c o /\ (o <> None -> h_top h <= c).
Proof.
  intros raw R [t|] Q sc h AW A N FT FS TP.
  2:{ cbn in AW. subst raw. cbn [app] in A. destruct (no_attributes Q R sc h A N) as (Q' & A' & E). exists Q', 0, h. split; [exact A'|]. split; [exact E|]. split; [apply grow_refl|]. split; [reflexivity|congruence]. }
  destruct AW as (g & k & k' & r & -> & G & F & NK & -> & T & NE & -> & K' & P). rewrite <- app_assoc in A. cbn [app] in A.
  assert (NA : ~ flagged k' TF_Attribute). { destruct N as (g1 & k1 & r1 & E & G1 & K1 & X). destruct g1 as [|f g1]; [injection E as -> _; exact X|]. injection E as -> _. destruct (K' (Forall_inv G1)). }
  assert (K : ~ fmt k). { intros [X|X]; apply NK; rewrite X; cbn; auto 10. }
  unfold parse_attributes, push_scope. unfold bind at 1. cbn [rbind p_idx p_scopes p_heap]. set (sc' := (zlen Q, "parse_attributes"%string) :: sc).
  destruct (a_currtok Q g k _ sc' h A G K) as (Q1 & E1 & E2). erewrite bind_ok by exact E2.
  assert (A1 : ahead Q1 ([] ++ k :: k' :: r)) by (apply ahead_self; exact E1). apply attr_flag in F. assert (F' : tok_is_attribute k' = false) by (destruct (tok_is_attribute k') eqn:Z; auto; apply attr_flag in Z; contradiction).
  pose proof (at_eat _ _ _ _ E1) as E3. assert (A2 : ahead (Q1 ++ [k]) ([] ++ k' :: r)) by (apply ahead_self; exact E3).
  pose proof (src_of _ _ SRC _ _ _ E1) as SK. assert (LK : t_len k = zlen (word src k)) by (symmetry; apply word_len; exact SK). assert (0 < t_len k) by (rewrite LK; destruct (word src k); [contradiction|zl]).
  destruct (a_left Q1 [] k _ sc' h A1 ltac:(constructor) K) as (lf & L1 & L2). destruct (a_left (Q1 ++ [k]) [] k' _ sc' h A2 ltac:(constructor) K') as (lf' & L1' & L2').
  assert (C1 : currtok toks beyond (Pst (zlen Q1) sc' h) = Done (k, Pst (zlen Q1) sc' h)) by (rewrite (currtok_ok toks beyond [] Q1 k (k' :: r) sc' h E1 ltac:(constructor) K), app_nil_r; reflexivity).
  assert (C2 : currtok toks beyond (Pst (zlen (Q1 ++ [k])) sc' h) = Done (k', Pst (zlen (Q1 ++ [k])) sc' h)) by (rewrite (currtok_ok toks beyond [] (Q1 ++ [k]) k' r sc' h E3 ltac:(constructor) K'), app_nil_r; reflexivity).
  assert (C3 : check toks beyond Tok_Paren_Open (Pst (zlen (Q1 ++ [k])) sc' h) = Done (t_type k' =? Tok_Paren_Open, Pst (zlen (Q1 ++ [k])) sc' h)) by (rewrite (check_ok toks beyond [] (Q1 ++ [k]) k' r _ sc' h E3 ltac:(constructor) K'), app_nil_r; reflexivity).
  destruct (a_eat Q1 k _ (t_type k) sc' h E1 eq_refl) as (_ & C4).
  pose proof (prevtok_ok toks beyond Q1 k (k' :: r) sc' h E3) as C5.
  assert (LP : attributes_loop src toks beyond ms fuel fuel k 0 (Pst (zlen Q1) sc' h) = Done (t_len k, Pst (zlen (Q1 ++ [k])) sc' h)).
  { assert (FU : exists n, fuel = S (S n)). { destruct fuel as [|[|n]]; [lia| |eauto]. rewrite E1 in FT. rewrite app_length in FT. cbn [length] in FT. lia. } destruct FU as (n & FU).
    assert (STEP : forall m, attributes_loop src toks beyond ms fuel (S m) k 0 (Pst (zlen Q1) sc' h) = attributes_loop src toks beyond ms fuel m k (end_of k - t_start k) (Pst (zlen (Q1 ++ [k])) sc' h)).
    { intros m. cbn [attributes_loop]. erewrite bind_ok by exact L1. rewrite L2. erewrite bind_ok by exact C1. rewrite F. cbn [negb].
      cbn [In] in NK. replace (t_type k =? Tok_Attribute_Open) with false by lia. replace (t_type k =? Tok_Decl_GNU_Attribute) with false by lia. replace (t_type k =? Tok_Decl_MSVC_Attribute) with false by lia.
      erewrite bind_ok.
      2:{ erewrite bind_ok by exact C4. erewrite bind_ok by exact C3. replace (t_type k' =? Tok_Paren_Open) with false by lia. reflexivity. }
      erewrite bind_ok by exact C5. reflexivity. }
    rewrite FU at 2. rewrite STEP. cbn [attributes_loop]. erewrite bind_ok by exact L1'. rewrite L2'. erewrite bind_ok by exact C2. rewrite F'. cbn [negb]. unfold end_of. replace (t_start k + t_len k - t_start k) with (t_len k) by lia. reflexivity. }
  erewrite bind_ok by exact LP. replace (t_len k >? 0) with true by lia.
  change (slice src (t_start k) (t_len k)) with (text_of src k). rewrite <- word_text.
  assert (ST : strip_formatting (word src k) false fuel = Done (word src k)). { apply strip_tidy; [exact T|rewrite word_text; apply slice_bytes|]. rewrite word_text. unfold text_of. pose proof (slice_len (t_start k) (t_len k)). lia. }
  unfold bind at 1. unfold parser_pop at 1. unfold sc' at 1. cbn [p_scopes p_idx p_heap rbind]. rewrite ST. cbn [rbind]. rewrite make_ok.
  exists (Q1 ++ [k]), (h_top h), (fst (make h (fun n => set_content (word src k) (set_name (word src k) (set_type CT_PlatformAttributes n))))).
  split; [rewrite trim_sig by exact K'; exact E3|]. split; [reflexivity|]. split; [apply grow_make|]. split; [|lia]. split; [split; [exact TP|rewrite make_top; lia]|]. rewrite make_node. reflexivity.
Qed.
End P.
