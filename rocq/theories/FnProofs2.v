(** Parameter lists. *)
From Coq Require Import String ZArith List Bool Lia ZifyBool ZifyNat.
From Verif Require Import Common Text HashModel StrOpsModel EnumModel EnumSpec EnumProofs LexModel LexSpec NavModel StripModel StripSpec StripProofs AstModel AstSpec AstProofs AstProofs4 UpfrontModel UpfrontSpec SerSpec SerProofs ParseModel ParseSpec
  ParseProofs ParseProofs2 ParseProofs3 ParseProofs4 ParseProofs5 ParseProofs7 ParseProofs8 ParseProofs9 FnModel FnSpec FnProofs.
Import ListNotations.
Close Scope string_scope.
Open Scope Z_scope.
Open Scope parse_scope.

Lemma param_more : forall src raw A R p, param_tokens src raw A p -> param_tokens src raw (A ++ R) p.
Proof.
  intros src raw A R p T. destruct T as [ty_ ty nm name dv v rest TY TN NM D]. constructor; auto. apply (type_more _ _ _ R) in TY. repeat rewrite <- app_assoc in TY. exact TY.
Qed.
Lemma more_more : forall src raw A R l, more_params src raw A l -> more_params src raw (A ++ R) l.
Proof.
  intros src raw A R l T. induction T as [g c rest G K|g c p_ p r rest l G K P T IH]; constructor; auto. apply (param_more _ _ _ R) in P. rewrite <- app_assoc in P. exact P.
Qed.
Lemma params_more : forall src raw A R l, params_tokens src raw A l -> params_tokens src raw (A ++ R) l.
Proof.
  intros src raw A R l T. destruct T as [g o g' c rest G K G' K'|g o p_ p r rest l G K P T]; constructor; auto; [apply (param_more _ _ _ R) in P; rewrite <- app_assoc in P; exact P|apply more_more; exact T].
Qed.

(** the nodes from [b] on stay as they are *)
Definition agrees (b : Z) (h h' : heap) : Prop := h_top h <= h_top h' /\ forall x, b <= x -> valid h x -> h_node h' x = h_node h x.
Lemma grow_agrees : forall b h h', grow h h' -> agrees b h h'. Proof. intros b h h' (T & N). split; auto. Qed.
Lemma agrees_trans : forall b x y z, agrees b x y -> agrees b y z -> agrees b x z.
Proof. intros b x y z (T1 & N1) (T2 & N2). split; [lia|]. intros c B V. rewrite N2; [auto|exact B|]. destruct V; split; lia. Qed.
(** a type whose nodes are from [b] on *)
Definition typ_own (b : Z) (h : heap) (c : Z) (ty : typ) : Prop :=
  b <= c /\ n_type (h_node h c) = CT_Typename /\ ty_attrs ty = None /\ ty_specs ty <> Some [] /\ (ty_specs ty <> None -> b <= n_specs (h_node h c)).
Lemma typ_agrees : forall b h h' c ty, agrees b h h' -> typ_at h c ty -> typ_own b h c ty -> typ_at h' c ty /\ typ_own b h' c ty.
Proof.
  intros b h h' c ty (T & N) (V & X1 & X2 & X3 & X4 & X5 & X6 & X7) (O1 & O2 & O3 & O4 & O5). assert (NC := N c O1 V). split.
  - split; [destruct V; split; lia|]. cbv zeta in *. rewrite NC. split; [exact X1|]. split; [exact X2|]. split; [exact X3|]. rewrite O3 in *. split; [exact X4|]. split; [|split; [exact X6|exact X7]].
    destruct (ty_specs ty) as [l|]; [|exact X5]. cbn [maybe] in *. destruct X5 as (VS & S1 & S2 & S3). assert (NS := N _ (O5 ltac:(discriminate)) VS). split; [destruct VS; split; lia|]. unfold specs_ok, specs_of in *. rewrite NS. auto.
  - unfold typ_own. rewrite NC. auto.
Qed.
Lemma raw_agrees : forall b h h' c t, agrees b h h' -> b <= c -> raw_at h c t -> raw_at h' c t.
Proof. intros b h h' c t (T & N) B ((V & K) & C). assert (NC := N c B V). split; [split; [destruct V; split; lia|rewrite NC; exact K]|rewrite NC; exact C]. Qed.
(** a parameter node with the content [p] *)
Definition param_node (b : Z) (h : heap) (c : Z) (p : param) : Prop :=
  param_at h c p /\ n_type (h_node h c) = CT_Parameters /\ n_arr (h_node h c) = n_arr zero_node /\ b <= c /\ (p_value p <> None -> b <= n_body (h_node h c)) /\
  exists ty, p_type p = Some ty /\ typ_own b h (n_ret (h_node h c)) ty.
Lemma param_grow : forall b h h' c p, agrees b h h' -> param_node b h c p -> param_node b h' c p.
Proof.
  intros b h h' c p G ((V & PA) & T & AR & BC & BV & ty & E & TO). pose proof G as (TP & N). assert (NC := N c BC V).
  cbv zeta in *. destruct PA as (P1 & P2 & P3 & P4 & P5). rewrite E in P4. cbn [maybe] in P4. destruct (typ_agrees _ _ _ _ _ G P4 TO) as (P4' & TO').
  split; [|rewrite NC; split; [exact T|split; [exact AR|split; [exact BC|split; [exact BV|exists ty; auto]]]]].
  split; [destruct V; split; lia|]. rewrite NC. cbv zeta in *. split; [exact P1|]. split; [exact P2|]. split; [exact P3|]. rewrite E. split; [exact P4'|]. destruct (p_value p) as [v|]; [|exact P5]. cbn [maybe] in *. eapply raw_agrees; eauto. apply BV. discriminate.
Qed.
(** ... unchanged by adding to the list headed by [p]: other nodes keep their content *)
Lemma param_step : forall b h h' p c q, h_top h' = h_top h -> n_type (h_node h p) = CT_Parameters -> n_arr (h_node h p) = n_arr zero_node ->
  (forall x, x <> p -> same_content (h_node h x) (h_node h' x)) -> same_but_count (h_node h p) (h_node h' p) -> param_node b h c q -> param_node b h' c q.
Proof.
  intros b h h' p c q TP PT PA S1 S2 ((V & P1 & P2 & P3 & P4 & P5) & T & AR & BC & BV & ty & E & BT & TT & TA & TS & BS).
  assert (F : n_type (h_node h' c) = n_type (h_node h c) /\ n_name (h_node h' c) = n_name (h_node h c) /\ n_ret (h_node h' c) = n_ret (h_node h c) /\ n_params (h_node h' c) = n_params (h_node h c) /\ n_body (h_node h' c) = n_body (h_node h c) /\
    n_suffix (h_node h' c) = n_suffix (h_node h c) /\ n_arr (h_node h' c) = n_arr (h_node h c)).
  { destruct (Z.eq_dec c p) as [->|NE]; [destruct S2 as (A1 & A2 & A3 & A4 & A5 & A6 & A7 & A8 & A9 & A10 & A11 & A12 & A13 & A14); cbn in *|destruct (S1 c NE) as (A1 & A2 & A3 & A4 & A5 & A6 & A7 & A8 & A9 & A10 & A11 & A12 & A13 & A14)]; repeat split; assumption. }
  destruct F as (F1 & F2 & F3 & F4 & F5 & F6 & F7). cbv zeta in *.
  assert (VV : forall x, valid h x -> valid h' x) by (intros x (X1 & X2); split; lia).
  rewrite E in P4. cbn [maybe] in P4. pose proof P4 as (VT & _). assert (NTP : n_ret (h_node h c) <> p) by (intros X; rewrite X, PT in TT; discriminate TT).
  pose proof (S1 _ NTP) as (B1 & B2 & B3 & B4 & B5 & B6 & B7 & B8 & B9 & B10 & B11 & B12 & B13 & B14).
  split; [|split; [congruence|split; [congruence|split; [exact BC|split; [rewrite F5; exact BV|exists ty; split; [exact E|]; unfold typ_own; rewrite F3; split; [exact BT|split; [congruence|split; [exact TA|split; [exact TS|rewrite B7; exact BS]]]]]]]]].
  split; [apply VV; exact V|]. cbv zeta. rewrite F2, F3, F4, F5, F6. split; [exact P1|]. split; [exact P2|]. split; [exact P3|]. rewrite E. cbn [maybe]. split.
  - destruct P4 as (_ & Q1 & Q2 & Q3 & Q4 & Q5 & Q6 & Q7). split; [apply VV; exact VT|]. cbv zeta. rewrite B3, B8, B9, B7, B14, B6. split; [exact Q1|]. split; [exact Q2|]. split; [exact Q3|]. rewrite TA in Q4 |- *. split; [exact Q4|]. split; [|auto].
    destruct (ty_specs ty) as [l|]; [|exact Q5]. cbn [maybe] in *. destruct Q5 as (VS & SO & SF & SK).
    assert (NSP : n_specs (h_node h (n_ret (h_node h c))) <> p). { intros X. rewrite X in SF. unfold specs_of in SF. rewrite PA in SF. destruct l as [|s l]; [apply TS; reflexivity|]. destruct (Z.to_nat (n_num (h_node h p))) as [|m]; [discriminate SF|]. cbn in SF. injection SF as SF _. pose proof (Forall_inv SK) as K0. rewrite <- SF in K0. unfold known_spec in K0. cbn in K0. clear - K0. repeat (destruct K0 as [K0|K0]; [discriminate K0|]). exact K0. }
    pose proof (S1 _ NSP) as (D1 & D2 & D3 & D4 & D5 & D6 & D7 & D8 & D9 & D10 & D11 & D12 & D13 & D14).
    split; [apply VV; exact VS|]. split; [unfold specs_ok; rewrite D14, D12; exact SO|]. split; [unfold specs_of; rewrite D14, D12; exact SF|exact SK].
  - destruct (p_value q) as [v|]; [|exact P5]. cbn [maybe] in *. destruct P5 as ((VB & KB) & CB). assert (NB : n_body (h_node h c) <> p) by (intros X; rewrite X, PT in KB; cbn in KB; destruct KB as [KB|[KB|[KB|[KB|[]]]]]; discriminate KB).
    pose proof (S1 _ NB) as (D1 & D2 & D3 & D4 & D5 & D6 & D7 & D8 & D9 & D10 & D11 & D12 & D13 & D14). split; [split; [apply VV; exact VB|rewrite D1; exact KB]|rewrite D4; exact CB].
Qed.

Definition pstate (b : Z) (h : heap) (p : Z) (l : list Z) (ps : list param) : Prop :=
  plist h p l /\ Forall2 (param_node b h) l ps /\ (forall x, In x l -> x <> p -> n_num (h_node h x) <= 1).
Lemma last_in' : forall (l : list Z) d, l <> [] -> In (last l d) l.
Proof. intros l d N. destruct (exists_last N) as (u & v & ->). rewrite last_last. apply in_or_app. right. left. reflexivity. Qed.
Lemma pstate_grow : forall b h h' p l ps, agrees b h h' -> pstate b h p l ps -> pstate b h' p l ps.
Proof.
  intros b h h' p l ps G (((r & -> & FR) & NU & V & ND & LI & LA) & F & NM). pose proof G as (TP & N).
  assert (N' : forall x, In x (p :: r) -> h_node h' x = h_node h x).
  { intros x I. apply N; [|apply V; exact I]. clear - F I. revert I. induction F as [|c q l ps P F IH]; [intros []|]. intros [<-|I]; [apply P|apply IH; exact I]. }
  split; [|split].
  - split; [exists r; split; [reflexivity|rewrite N' by (left; reflexivity); exact FR]|]. split; [rewrite N' by (left; reflexivity); exact NU|]. split; [intros c I; destruct (V c I); split; lia|]. split; [exact ND|]. split.
    + assert (GL : forall l0, (forall x, In x l0 -> In x (p :: r)) -> linked h l0 -> linked h' l0). { induction l0 as [|x l0 IH]; intros I L; [exact L|]. destruct l0 as [|y l0]; [exact Logic.I|]. destruct L as (L1 & L2). split; [rewrite N' by (apply I; left; reflexivity); exact L1|]. apply IH; [intros z Z; apply I; right; exact Z|exact L2]. } apply GL; auto.
    + rewrite N'; [exact LA|]. apply last_in'. discriminate.
  - revert F. apply f2_impl. intros c q. apply param_grow. exact G.
  - intros x I X. rewrite N' by exact I. auto.
Qed.
Lemma pstate_step : forall b h p l ps c q, pstate b h p l ps -> param_node b h c q -> ~ In c l -> n_parent (h_node h c) = 0 -> n_next (h_node h c) = 0 -> n_num (h_node h c) <= 1 ->
  exists h', params_append h p c = Done h' /\ pstate b h' p (l ++ [c]) (ps ++ [q]) /\ h_top h' = h_top h /\ (forall x, x <> c -> ~ In x l -> h_node h' x = h_node h x).
Proof.
  intros b h p l ps c q (PL & F & NM) PN NI P0 N0 NU. pose proof PN as ((VC & _) & _). destruct (p28_step h p c l PL VC NI P0 N0) as (h' & E & PL' & TP & _ & S1 & S2 & FR & _ & _). exists h'. split; [exact E|].
  pose proof PL as ((r & EL & _) & _). assert (IP : In p l) by (rewrite EL; left; reflexivity).
  assert (PP : n_type (h_node h p) = CT_Parameters /\ n_arr (h_node h p) = n_arr zero_node) by (subst l; inversion F as [|? ? ? ? (_ & X1 & X2 & _) F']; auto). destruct PP as (PP1 & PP2).
  split; [|split; [exact TP|]].
  - split; [exact PL'|]. split; [apply Forall2_app; [revert F; apply f2_impl; intros x y; apply (param_step b h h' p); auto|constructor; [apply (param_step b h h' p); auto|constructor]]|].
    intros x I X. pose proof (S1 x X) as (_ & _ & _ & _ & _ & _ & _ & _ & _ & _ & _ & _ & _ & ->). apply in_app_or in I. destruct I as [I|[<-|[]]]; auto.
  - intros x X1 X2. apply FR; [intros ->; contradiction|exact X1|]. intros ->. apply X2. apply last_in'. rewrite EL. discriminate.
Qed.
Lemma pstate_params : forall b h p l ps, pstate b h p l ps -> params_at h p ps.
Proof.
  intros b h p l ps (((r & -> & FR) & NU & V & ND & LI & LA) & F & NM). inversion F as [|a q l1 r' PQ F']; subst. cbn [params_at]. split; [apply PQ|]. split; [rewrite NU; cbn [length]; f_equal; f_equal; clear - F'; induction F'; cbn; congruence|].
  intros NE. destruct r as [|x r]; [inversion F'; subst; contradiction|]. destruct LI as (L1 & L2). rewrite L1.
  assert (NM' : forall y, In y (x :: r) -> n_num (h_node h y) <= 1). { intros y I. apply NM; [right; exact I|]. intros ->. inversion ND. contradiction. }
  assert (LA' : n_next (h_node h (last (x :: r) 0)) = 0) by exact LA. clear - F' L2 LA' NM'. revert x r F' L2 LA' NM'. induction r' as [|q r' IH]; intros x r F L2 LA NM; inversion F as [|? ? ? ? PQ F']; subst. cbn [params_from]. split; [apply PQ|]. split; [apply NM; left; reflexivity|].
  destruct r as [|y r]; [inversion F'; subst; exact LA|]. destruct L2 as (L3 & L4). rewrite L3. apply (IH y r); auto. intros z I. apply NM. right. exact I.
Qed.

Ltac tk2 := tk; unfold Tok_Paren_Close in *.
Section P.
Variable src : list Z.
Variable toks beyond : list token.
Variable ms : macros.
Variable e : env.
Variable varadic : Z.
Variable fuel : nat.
Hypothesis SRC : Forall (in_source src) toks.
Hypothesis FIT : Forall flags_fit toks.
Hypothesis BYTES : Forall (fun c => 0 <= c < 256) src.
Hypothesis FT : (length toks < fuel)%nat.
Hypothesis FS : (length src < fuel)%nat.
Notation ahead := (ahead toks).
Notation a_currtok := (a_currtok toks beyond).
Notation a_check := (a_check toks beyond).
Notation a_left := (a_left toks).
Notation a_eat := (a_eat src toks beyond ms).

Lemma type_specs : forall raw rest ty, type_tokens src raw rest ty -> ty_specs ty <> Some [].
Proof. intros raw rest ty T. destruct T. cbn. destruct (sp ++ sp'); discriminate. Qed.
Lemma param_ok : forall raw R p name0 Q sc h, param_tokens src raw R p -> ahead Q (raw ++ R) -> param_end R -> world e h ->
  exists Q' tyc v h' p' ty', ahead Q' R /\ parse_param src toks beyond ms e fuel name0 (Pst (zlen Q) sc h) = Done (Some (tyc, p_name p, v), Pst (zlen Q') sc h') /\
    param_respaced p p' /\ grow h h' /\ p_type p' = Some ty' /\ typ_at h' tyc ty' /\ typ_own (h_top h) h' tyc ty' /\
    maybe (raw_at h') v (p_value p') /\ (p_value p' <> None -> h_top h <= v).
Proof.
  intros raw R p name0 Q sc h T A PE W. destruct T as [ty_ ty nm name dv v rest TY TN NM D]. pose proof PE as (g0 & c & r0 & ER & G0 & ST). pose proof (end_sig c ST) as CF. repeat rewrite <- app_assoc in A.
  destruct (type_head src toks fuel FT FS _ _ _ TY TN) as (gh & kh & rh & ETY & GH & FH & HH). pose proof (head_plain src toks fuel FT FS kh HH) as (HM & HA & HX).
  unfold parse_param. rewrite ETY in A. rewrite <- app_assoc in A. cbn [app] in A. destruct (a_check Q gh kh _ Tok_Preprocess_Macro_Expr sc h A GH FH) as (Q1 & E1 & C1). erewrite bind_ok by exact C1.
  replace (t_type kh =? Tok_Preprocess_Macro_Expr) with false by (unfold macro_kind in HM; cbn [In] in HM; lia). cbv iota.
  erewrite bind_ok by (eapply cur_here; eauto). replace (t_type kh =? Tok_Comma) with false by (destruct HH as [(HH & _)|HH]; [|unfold starts_type in HH]; tk; lia). cbv iota.
  assert (A1 : ahead Q1 (ty_ ++ nm ++ dv ++ rest)) by (apply stands_ahead; rewrite ETY, <- app_assoc; cbn [app]; rewrite trim_gap, trim_sig by auto; exact E1).
  assert (NXT : forall P : token -> Prop, (forall k, t_type k = Tok_Operator /\ flagged k TF_Assign -> In k dv -> P k) -> P c -> next_is (dv ++ rest) P).
  { intros P P1 P2. destruct v as [t|]; [|cbn in D; subst dv; rewrite ER; cbn [app]; apply next_app; auto]. destruct D as (g & eq & g' & first & more & -> & G & AE & _). rewrite <- app_assoc. cbn [app]. apply next_app; [exact G|destruct AE; tk; lia|]. apply P1; [exact AE|apply in_or_app; right; left; reflexivity]. }
  assert (FITD : forall k, In k (nm ++ dv ++ rest) -> ~ fmt k -> flags_fit k) by (intros k I K; eapply ahead_fit; [exact FIT|exact A1|apply in_or_app; right; exact I|exact K]).
  assert (FIC : flags_fit c) by (apply FITD; [rewrite ER, !in_app_iff; right; right; right; left; reflexivity|exact CF]).
  assert (CM : ~ macro_kind (t_type c) /\ ~ spec_kind (t_type c) /\ t_type c <> Tok_Paren_Open /\ t_type c <> Tok_Varadic_Argument /\ t_type c <> Tok_Identifier /\ t_type c <> Tok_Preprocess_Define /\ t_type c <> Tok_Preprocess_Include) by (unfold macro_kind, spec_kind; cbn [In]; destruct ST as [-> | ->]; vm_compute; intuition discriminate).
  destruct CM as (CM1 & CM2 & CM3 & CM4 & CM5 & CM6 & CM7).
  assert (NT : next_is (nm ++ dv ++ rest) ends_type).
  { destruct NM as [(-> & _)|(g & k & -> & G & KI & _)].
    - cbn [app]. apply NXT; [|split; [apply not_spec_flag; auto|auto]]. intros k (KO & _) I. assert (~ fmt k) by (tk; lia). split; [apply not_spec_flag; [apply FITD; [rewrite !in_app_iff; auto|auto]| |]; tk; lia|]. tk. lia.
    - rewrite <- app_assoc. cbn [app]. assert (~ fmt k) by (tk; lia). apply next_app; auto. split; [apply not_spec_flag; [apply FITD; [rewrite !in_app_iff; cbn [In]; auto|auto]| |]; tk; lia|]. tk. lia. }
  destruct (type_full src toks beyond ms e fuel SRC FIT BYTES FT FS false ty_ (nm ++ dv ++ rest) ty Q1 sc h TY A1 NT ltac:(discriminate) W) as (Q2 & tyc & h2 & ty' & A2 & C2 & RS & (G2 & TT & TA & TK & TR & TB & TPP) & TSB & _).
  erewrite bind_ok by exact C2. assert (NI : (tyc =? e_invalid e) = false) by (destruct W as ((_ & W1) & _); lia). rewrite NI. clear C2.
  assert (TP2 : 0 < h_top h2) by (destruct TA as ((X1 & X2) & _); lia).
  assert (TS' : ty_attrs ty' = None /\ ty_specs ty' <> Some []). { destruct RS as (_ & X1 & _ & X2 & _). split; [congruence|]. rewrite X2. eapply type_specs; eauto. } destruct TS' as (TS1 & TS2).
  (* the name *)
  assert (NP : exists Q3, ahead Q3 (dv ++ rest) /\ forall kont : list Z -> M (option (Z * list Z * Z)),
    (b <- check toks beyond Tok_Identifier ;; k <- currtok toks beyond ;;
     name <- (if b || bitfield_is_set (t_flags k) TF_Identifier then eat src toks beyond ms (t_type k) ;;; ret (text_of src k) else ret []) ;; kont name) (Pst (zlen Q2) sc h2) = kont name (Pst (zlen Q3) sc h2)).
  { destruct NM as [(-> & ->)|(g & k & -> & G & KI & ->)].
    - cbn [app] in A2. assert (ND : next_is (dv ++ rest) (fun k => t_type k <> Tok_Identifier /\ bitfield_is_set (t_flags k) TF_Identifier = false)).
      { apply NXT; [|split; [exact CM5|apply no_ident; auto]]. intros k (KO & _) I. assert (~ fmt k) by (tk; lia). split; [tk; lia|]. apply no_ident; [apply FITD; [rewrite !in_app_iff; auto|auto]|tk; lia|rewrite KO; discriminate|rewrite KO; discriminate]. }
      destruct ND as (g & k & r & ED & G & K & K1 & K2). rewrite ED in A2. destruct (a_check Q2 g k r Tok_Identifier sc h2 A2 G K) as (Q3 & E3 & C3). exists Q3. split; [apply stands_ahead; rewrite ED, trim_gap, trim_sig by auto; exact E3|].
      intros kont. erewrite bind_ok by exact C3. erewrite bind_ok by (eapply cur_here; eauto). rewrite K2. replace (t_type k =? Tok_Identifier) with false by lia. reflexivity.
    - rewrite <- app_assoc in A2. cbn [app] in A2. assert (K : ~ fmt k) by (tk; lia). destruct (a_check Q2 g k _ Tok_Identifier sc h2 A2 G K) as (Q3 & E3 & C3). destruct (a_eat Q3 k _ (t_type k) sc h2 E3 eq_refl) as (A4 & C4). exists (Q3 ++ [k]). split; [exact A4|].
      intros kont. erewrite bind_ok by exact C3. erewrite bind_ok by (eapply cur_here; eauto). replace (t_type k =? Tok_Identifier) with true by (symmetry; apply Z.eqb_eq; exact KI). cbn [orb]. cbv iota. rewrite bind_assoc. erewrite bind_ok by exact C4. rewrite word_text. reflexivity. }
  destruct NP as (Q3 & A3 & NP). rewrite NP. clear NP.
  destruct (value_part_ok src toks beyond ms e fuel SRC FIT BYTES FT FS dv v tyc name rest Q3 sc h2 D A3 PE TP2) as (Q4 & vc & h4 & v' & A4 & C4 & G4 & MV & RV & BV).
  unfold value_part in C4. exists Q4, tyc, vc, h4, (Param (Some ty') name v'), ty'. split; [exact A4|]. split; [exact C4|]. cbn [p_name p_type p_value param_respaced].
  split; [split; [reflexivity|split; [exact RS|exact RV]]|]. split; [eapply grow_trans; eauto|]. split; [reflexivity|]. assert (TO : typ_own (h_top h) h2 tyc ty') by (split; [lia|]; auto). destruct (typ_agrees (h_top h) h2 h4 tyc ty' (grow_agrees _ _ _ G4) TA TO) as (TA' & TO'). split; [exact TA'|]. split; [exact TO'|]. split; [exact MV|]. intros NV. destruct G2 as (G2 & _). assert (v <> None) by (intros ->; destruct v'; [exact RV|apply NV; reflexivity]). specialize (BV H). lia.
Qed.

Lemma param_head : forall raw rest p, param_tokens src raw rest p -> exists g k r, raw = g ++ k :: r /\ gap g /\ ~ fmt k /\ t_type k <> Tok_Varadic_Argument /\ t_type k <> Tok_Operator /\ t_type k <> Tok_Paren_Close.
Proof.
  intros raw rest p T. destruct T as [ty_ ty nm name dv v rest TY TN NM D]. destruct (type_head src toks fuel FT FS _ _ _ TY TN) as (gh & kh & rh & -> & GH & FH & HH). exists gh, kh, (rh ++ nm ++ dv). split; [rewrite <- app_assoc; reflexivity|]. split; [exact GH|]. split; [exact FH|].
  destruct HH as [(HH & _)|HH]; [|unfold starts_type in HH]; tk2; lia.
Qed.
Lemma more_end : forall raw rest l, more_params src raw rest l -> param_end (raw ++ rest).
Proof.
  intros raw rest l T. destruct T as [g c rest G K|g c p_ p r rest l G K P T].
  - exists g, c, rest. split; [rewrite <- app_assoc; reflexivity|]. auto.
  - exists g, c, ((p_ ++ r) ++ rest). split; [rewrite <- app_assoc; reflexivity|]. auto.
Qed.
Lemma more_len : forall raw rest l, more_params src raw rest l -> (length l < length (sig_of raw))%nat.
Proof.
  intros raw rest l T. induction T as [g c rest G K|g c p_ p r rest l G K P T IH]; rewrite !sig_app; cbn [sig_of filter].
  - assert (is_formatting (t_type c) = false) as -> by (apply fmt_nb; tk2; lia). rewrite app_length. cbn. lia.
  - assert (is_formatting (t_type c) = false) as -> by (apply fmt_nb; tk2; lia). cbn [negb]. rewrite app_length. cbn [length]. fold (sig_of (p_ ++ r)). rewrite sig_app, app_length. lia.
Qed.
(** making a parameter node *)
Lemma new_param_ok : forall b tyc p' ty' v i sc h, typ_at h tyc ty' -> p_type p' = Some ty' -> typ_own b h tyc ty' -> maybe (raw_at h) v (p_value p') -> (p_value p' <> None -> b <= v) -> 0 < h_top h -> b <= h_top h ->
  exists h', new_param (tyc, p_name p', v) (Pst i sc h) = Done (h_top h, Pst i sc h') /\ grow h h' /\ h_top h' = h_top h + 1 /\ param_node b h' (h_top h) p' /\
    n_parent (h_node h' (h_top h)) = 0 /\ n_next (h_node h' (h_top h)) = 0 /\ n_num (h_node h' (h_top h)) = 0 /\ n_front (h_node h' (h_top h)) = 0 /\
    n_ret (h_node h' (h_top h)) = tyc /\ n_body (h_node h' (h_top h)) = v.
Proof.
  intros b tyc p' ty' v i sc h TA PT TO MV BV TP BT. unfold new_param.
  destruct (any_make (fun n => set_body v (set_ret tyc (set_name (p_name p') (AstModel.set_type CT_Parameters n)))) h i sc) as (h' & C & T & N & G). exists h'. split; [exact C|]. split; [exact G|]. split; [exact T|].
  pose proof (grow_like _ _ G) as L. destruct (typ_agrees b h h' tyc ty' (grow_agrees _ _ _ G) TA TO) as (TA' & TO'). rewrite N. cbn. split; [|auto 10]. unfold param_node. rewrite N. cbn. split; [|split; [reflexivity|split; [reflexivity|split; [exact BT|split; [exact BV|exists ty'; auto]]]]].
  split; [split; lia|]. cbv zeta. rewrite N. cbn. split; [reflexivity|]. split; [reflexivity|]. split; [reflexivity|]. rewrite PT. cbn. split; [exact TA'|revert MV; apply like_maybe; apply like_raw; exact L].
Qed.
Lemma loop_ok : forall raw rest l, more_params src raw rest l -> forall n h0 h p0 nodes ps0 name Q sc, (length l <= n)%nat -> ahead Q (raw ++ rest) -> pstate (h_top h0) h p0 nodes ps0 -> world e h0 -> grow h0 h ->
  (forall y, In y nodes -> h_top h0 <= y) ->
  exists Q' c h' nodes' l', toks = Q' ++ c :: rest /\ kind Tok_Paren_Close c /\ params_loop src toks beyond ms e varadic fuel n p0 name (Pst (zlen Q) sc h) = Done (Some tt, Pst (zlen Q') sc h') /\
    pstate (h_top h0) h' p0 nodes' (ps0 ++ l') /\ Forall2 param_respaced l l' /\ grow h0 h'.
Proof.
  intros raw rest l T. induction T as [g c rest G K|g c p_ p r rest l G K P T IH]; intros n h0 h p0 nodes ps0 name Q sc LN A PS W GR NN.
  - rewrite <- app_assoc in A. cbn [app] in A. assert (CF : ~ fmt c) by (unfold kind, fmt in *; rewrite K; intros [X|X]; discriminate X). destruct (a_check Q g c rest Tok_Comma sc h A G CF) as (Q1 & E1 & C1).
    exists Q1, c, h, nodes, []. split; [exact E1|]. split; [exact K|]. split; [|rewrite app_nil_r; auto].
    destruct n; cbn [params_loop]; erewrite bind_ok by exact C1; replace (t_type c =? Tok_Comma) with false by (unfold kind in K; rewrite K; reflexivity); reflexivity.
  - repeat rewrite <- app_assoc in A. cbn [app] in A. repeat rewrite <- app_assoc in A. assert (CF : ~ fmt c) by (tk; lia). destruct n as [|n]; [cbn in LN; lia|]. cbn [params_loop].
    destruct (a_check Q g c _ Tok_Comma sc h A G CF) as (Q1 & E1 & C1). erewrite bind_ok by exact C1. replace (t_type c =? Tok_Comma) with true by (symmetry; apply Z.eqb_eq; exact K). cbn [negb].
    destruct (a_eat Q1 c _ Tok_Comma sc h E1 K) as (A2 & C2). erewrite bind_ok by exact C2.
    destruct (param_head _ _ _ P) as (gh & kh & rh & ETY & GH & FH & HK1 & HK2 & HK3).
    assert (A2' : ahead (Q1 ++ [c]) (gh ++ kh :: rh ++ r ++ rest)). { revert A2. rewrite ETY. repeat rewrite <- app_assoc. cbn [app]. auto. }
    destruct (a_check (Q1 ++ [c]) gh kh _ Tok_Varadic_Argument sc h A2' GH FH) as (Q3 & E3 & C3). erewrite bind_ok by exact C3. replace (t_type kh =? Tok_Varadic_Argument) with false by lia. cbv iota.
    assert (A3 : ahead Q3 (p_ ++ r ++ rest)). { apply stands_ahead. rewrite ETY. repeat rewrite <- app_assoc. cbn [app]. rewrite trim_gap, trim_sig by auto. exact E3. }
    assert (W1 : world e h) by (eapply world_grow; eauto).
    destruct (param_ok _ _ _ name Q3 sc h P A3 (more_end _ _ _ T) W1) as (Q4 & tyc & vc & h4 & p' & ty' & A4 & C4 & RS & G4 & PT & TA & TO & MV & BV).
    erewrite bind_ok by exact C4. cbn [p_name snd fst]. assert (TP4 : 0 < h_top h4) by (destruct TA as ((X1 & X2) & _); lia). assert (H4 : h_top h <= h_top h4) by (destruct G4; lia).
    assert (NMQ : p_name p = p_name p') by (destruct RS as (RS & _); auto). rewrite NMQ.
    assert (H0 : h_top h0 <= h_top h) by (destruct GR; lia).
    assert (TO0 : typ_own (h_top h0) h4 tyc ty') by (destruct TO as (O1 & O2 & O3 & O4 & O5); split; [lia|]; split; [exact O2|]; split; [exact O3|]; split; [exact O4|]; intros X; specialize (O5 X); lia).
    destruct (new_param_ok (h_top h0) tyc p' ty' vc (zlen Q4) sc h4 TA PT TO0 MV ltac:(intros X; specialize (BV X); lia) TP4 ltac:(lia)) as (h5 & C5 & G5 & T5 & PN & P0 & N0 & NU & _). erewrite bind_ok by exact C5.
    assert (G05 : grow h h5) by (eapply grow_trans; eauto). pose proof (pstate_grow _ _ _ _ _ _ (grow_agrees _ _ _ G05) PS) as PS5.
    assert (NI : ~ In (h_top h4) nodes). { intros I. destruct PS as ((_ & _ & V & _) & _). destruct (V _ I) as (_ & V2). destruct G4 as (G4 & _). lia. }
    destruct (pstate_step (h_top h0) h5 p0 nodes ps0 (h_top h4) p' PS5 PN NI P0 N0 ltac:(lia)) as (h6 & E6 & PS6 & T6 & FR6).
    erewrite bind_ok by (unfold edit; cbn [p_heap p_idx p_scopes]; rewrite E6; reflexivity).
    assert (H04 : h_top h0 <= h_top h4) by (destruct GR, G4; lia).
    assert (GR6 : grow h0 h6). { destruct GR as (GR1 & GR2). split; [destruct G05; lia|]. intros x X. pose proof X as (X1 & X2). rewrite FR6; [|lia|intros I; specialize (NN x I); lia]. destruct G05 as (G5a & G5b). rewrite G5b by (split; lia). apply GR2. exact X. }
    destruct (IH n h0 h6 p0 (nodes ++ [h_top h4]) (ps0 ++ [p']) (p_name p') Q4 sc ltac:(cbn in LN; lia) A4 PS6 W GR6) as (Q' & c' & h' & nodes' & l' & E' & K' & C' & PS' & F' & GR').
    { intros y I. apply in_app_or in I. destruct I as [I|[<-|[]]]; auto. }
    exists Q', c', h', nodes', (p' :: l'). split; [exact E'|]. split; [exact K'|]. split; [exact C'|]. split; [rewrite <- app_assoc in PS'; exact PS'|]. split; [constructor; assumption|exact GR'].
Qed.
Lemma params_ok : forall raw rest l Q sc h, params_tokens src raw rest l -> toks = Q ++ trim (raw ++ rest) -> world e h ->
  exists Q' c h' l', ahead Q' rest /\ parse_params src toks beyond ms e varadic fuel (Pst (zlen Q) sc h) = Done (c, Pst (zlen Q') sc h') /\
    Forall2 param_respaced l l' /\ grow h h' /\ (forall h'', agrees (h_top h) h' h'' -> params_at h'' c l').
Proof.
  intros raw rest l Q sc h T A W. unfold parse_params, push_scope. unfold bind at 1. cbn [rbind p_idx p_scopes p_heap]. set (s0 := (zlen Q, "parse_params"%string)).
  destruct T as [g o g' c rest G K G' K'|g o p_ p r rest l G K P T].
  - repeat rewrite <- app_assoc in A. cbn [app] in A. repeat rewrite <- app_assoc in A. cbn [app] in A. assert (OF : ~ fmt o) by (tk2; lia). assert (CF : ~ fmt c) by (tk2; lia). rewrite trim_gap, trim_sig in A by auto.
    destruct (a_eat Q o _ Tok_Paren_Open (s0 :: sc) h A K) as (A1 & C1). erewrite bind_ok by exact C1.
    destruct (a_check _ g' c rest Tok_Paren_Close (s0 :: sc) h A1 G' CF) as (Q2 & E2 & C2). erewrite bind_ok by exact C2. replace (t_type c =? Tok_Paren_Close) with true by (symmetry; apply Z.eqb_eq; exact K'). cbv iota.
    destruct (a_eat Q2 c _ Tok_Paren_Close (s0 :: sc) h E2 K') as (A3 & C3). erewrite bind_ok by exact C3. exists (Q2 ++ [c]), 0, h, []. split; [exact A3|]. split; [reflexivity|]. split; [constructor|]. split; [apply grow_refl|]. intros h'' _. reflexivity.
  - repeat rewrite <- app_assoc in A. cbn [app] in A. repeat rewrite <- app_assoc in A. assert (OF : ~ fmt o) by (tk2; lia). rewrite trim_gap, trim_sig in A by auto.
    destruct (a_eat Q o _ Tok_Paren_Open (s0 :: sc) h A K) as (A2 & C1). erewrite bind_ok by exact C1.
    destruct (param_head _ _ _ P) as (gh & kh & rh & ETY & GH & FH & HK1 & HK2 & HK3).
    assert (A2' : ahead (Q ++ [o]) (gh ++ kh :: rh ++ r ++ rest)). { revert A2. rewrite ETY. repeat rewrite <- app_assoc. cbn [app]. auto. }
    destruct (a_check (Q ++ [o]) gh kh _ Tok_Paren_Close (s0 :: sc) h A2' GH FH) as (Q3 & E3 & C3). erewrite bind_ok by exact C3. replace (t_type kh =? Tok_Paren_Close) with false by lia. cbv iota.
    assert (CK : forall t, check toks beyond t (Pst (zlen Q3) (s0 :: sc) h) = Done (t_type kh =? t, Pst (zlen Q3) (s0 :: sc) h)). { intros t. rewrite (check_ok toks beyond [] Q3 kh _ t (s0 :: sc) h E3 ltac:(constructor) FH), app_nil_r. reflexivity. }
    erewrite bind_ok by (apply CK). replace (t_type kh =? Tok_Operator) with false by lia. cbv iota. unfold bind at 1. cbn [ret rbind]. cbv iota.
    erewrite bind_ok by (apply CK). replace (t_type kh =? Tok_Varadic_Argument) with false by lia. cbv iota.
    assert (A3 : ahead Q3 (p_ ++ r ++ rest)). { apply stands_ahead. rewrite ETY. repeat rewrite <- app_assoc. cbn [app]. rewrite trim_gap, trim_sig by auto. exact E3. }
    destruct (param_ok _ _ _ [] Q3 (s0 :: sc) h P A3 (more_end _ _ _ T) W) as (Q4 & tyc & vc & h4 & p' & ty' & A4 & C4 & RS & G4 & PT & TA & TO & MV & BV).
    erewrite bind_ok by exact C4. cbn [p_name snd fst]. assert (TP4 : 0 < h_top h4) by (destruct TA as ((X1 & X2) & _); lia). assert (H4 : h_top h <= h_top h4) by (destruct G4; lia).
    assert (NMQ : p_name p = p_name p') by (destruct RS as (RS & _); auto). rewrite NMQ.
    destruct (new_param_ok (h_top h) tyc p' ty' vc (zlen Q4) (s0 :: sc) h4 TA PT TO MV BV TP4 ltac:(lia)) as (h5 & C5 & G5 & T5 & PN & P0 & N0 & NU & NF & NT & NB). erewrite bind_ok by exact C5.
    pose proof PN as ((VP & _) & _).
    erewrite bind_ok by (apply edit_ok; exact VP). set (f := fun n => set_num (n_num n + 1) n). set (h6 := upd h5 (h_top h4) f).
    assert (S6 : stepped h5 h6 (h_top h4) f) by apply stepped_upd. clearbody h6. pose proof S6 as (T6 & N6 & O6).
    assert (G06 : grow h4 h6) by (eapply stepped_grow; [exact G5| |exact S6]; lia). assert (G6 : grow h h6) by (eapply grow_trans; eauto).
    assert (PN6 : param_node (h_top h) h6 (h_top h4) p').
    { destruct PN as (PA & X1 & X2 & X3 & X4 & ty2 & X5 & X6). pose proof PA as (VV & Y1 & Y2 & Y3 & Y4 & Y5). rewrite X5 in Y4. rewrite PT in X5. injection X5 as <-.
      assert (L6 : like h4 h6) by (apply grow_like; exact G06). destruct (typ_agrees (h_top h) h4 h6 tyc ty' (grow_agrees _ _ _ G06) TA TO) as (TA6 & TO6).
      unfold param_node. rewrite N6. unfold f. cbn. rewrite NT, NB. split; [|split; [exact X1|split; [exact X2|split; [exact X3|split; [exact BV|exists ty'; auto]]]]].
      split; [split; rewrite ?T6; destruct VV; lia|]. cbv zeta. rewrite N6. unfold f. cbn. split; [exact Y1|]. split; [exact Y2|]. split; [exact Y3|]. rewrite PT. cbn. rewrite NT, NB. split; [exact TA6|revert MV; apply like_maybe; apply like_raw; exact L6]. }
    assert (PS : pstate (h_top h) h6 (h_top h4) [h_top h4] [p']).
    { split; [apply plist_single; [split; rewrite ?T6; destruct VP; lia|rewrite N6; unfold f; cbn; lia|rewrite N6; exact NF|rewrite N6; exact N0]|]. split; [constructor; [exact PN6|constructor]|]. intros x [<-|[]] X. contradiction. }
    assert (LT : (length l <= fuel)%nat). { pose proof (more_len _ _ _ T) as X1. pose proof (ahead_sig_len _ _ _ _ A4) as X2. lia. }
    destruct (loop_ok r rest l T fuel h h6 (h_top h4) [h_top h4] [p'] (p_name p') Q4 (s0 :: sc) LT A4 PS W G6) as (Q7 & c & h7 & nodes & l' & E7 & K7 & C7 & PS7 & F7 & G7).
    { intros y [<-|[]]. destruct G4; lia. }
    erewrite bind_ok by exact C7. destruct (a_eat Q7 c _ Tok_Paren_Close (s0 :: sc) h7 E7 K7) as (A8 & C8). erewrite bind_ok by exact C8.
    exists (Q7 ++ [c]), (h_top h4), h7, (p' :: l'). split; [exact A8|]. split; [reflexivity|]. split; [constructor; [exact RS|exact F7]|]. split; [exact G7|]. intros h'' G8. eapply pstate_params. eapply pstate_grow; [exact G8|exact PS7].
Qed.
End P.
