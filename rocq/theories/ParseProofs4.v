(** Types, array sizes, the end of a statement. *)
From Coq Require Import String ZArith List Bool Lia ZifyBool ZifyNat.
From Verif Require Import Common Text HashModel StrOpsModel EnumModel EnumSpec EnumProofs LexModel LexSpec NavModel StripModel StripSpec AstModel AstSpec UpfrontModel UpfrontSpec SerSpec ParseModel ParseSpec ParseProofs ParseProofs2 ParseProofs3.
Import ListNotations.
Close Scope string_scope.
Open Scope Z_scope.

Ltac tk := unfold macro_kind, spec_kind, native, fmt, kind, is_tag, tag_kind in *; cbn [In] in *;
  unfold Tok_Spec_Alignas, Tok_Star, Tok_Ampersand, Tok_Ampersand_DBL, Tok_Preprocess_Macro_Expr, Tok_Preprocess_Macro_Stmt, Tok_Preprocess_Macro_Typename,
    Tok_Attribute_GEN_API, Tok_Identifier, Tok_Operator, Tok_NewLine, Tok_Comment, Tok_Type_Unsigned, Tok_Type_MS_W64, Tok_Type_Typename, Tok_Decl_Class,
    Tok_Decl_Enum, Tok_Decl_Struct, Tok_Decl_Union, Tok_Varadic_Argument, Tok_Paren_Open, Tok_Statement_End, Tok_Module_Export, Tok_BraceSquare_Open,
    Tok_BraceSquare_Close, Tok_Access_StaticSymbol, Tok_Comma, Tok_BraceCurly_Open, Tok_BraceCurly_Close in *.

Section P.
Variable src : list Z.
Variable toks beyond : list token.
Variable ms : macros.
Variable e : env.
Variable fuel : nat.
Hypothesis SRC : Forall (in_source src) toks.
Hypothesis FIT : Forall flags_fit toks.
Hypothesis BYTES : Forall (fun c => 0 <= c < 256) src.
Hypothesis FT : (length toks < fuel)%nat.
Hypothesis FS : (length src < fuel)%nat.
Notation ahead := (ahead toks).
Notation a_currtok := (a_currtok toks beyond).
Notation a_left := (a_left toks).
Notation a_eat := (a_eat src toks beyond ms).
Notation a_check := (a_check toks beyond).

(** ** the name of a type *)
Definition name_step (k : token) : M (option (list Z * Z)) :=
    (if is_tag (t_type k) then
       eat src toks beyond ms (t_type k) ;;; name <- parse_identifier src toks beyond ms fuel ;; ret (Some (name_text src name, tag_of (t_type k)))
     else if native_type k then
       eat src toks beyond ms (t_type k) ;;; eat_while src toks beyond ms fuel native_type ;;; p <- prevtok toks beyond ;; ret (Some (text_of src (set_len (end_of p - t_start k) k), 0))
     else if t_type k =? Tok_Type_Typename then
       eat src toks beyond ms Tok_Type_Typename ;;; name <- parse_identifier src toks beyond ms fuel ;; ret (if tok_is_valid name then Some (name_text src name, 0) else None)
     else if t_type k =? Tok_Preprocess_Macro_Typename then unmodelled
     else name <- parse_identifier src toks beyond ms fuel ;; ret (if tok_is_valid name then Some (name_text src name, 0) else None)).
(** the first token of the name of a type *)
Definition starts_type (k : token) : Prop :=
  native k \/ In (t_type k) [Tok_Identifier; Tok_Type_Typename; Tok_Decl_Class; Tok_Decl_Enum; Tok_Decl_Struct; Tok_Decl_Union].
Lemma type_name_first : forall raw R tg t, type_name src raw R tg t -> exists k r, raw = k :: r /\ starts_type k /\ ~ fmt k.
Proof.
  intros raw R tg t T. assert (F : forall k, starts_type k -> ~ fmt k) by (intros k; unfold starts_type; tk; lia).
  destruct T as [raw t rest NM _|k tg g raw t rest NT K _ _ _|k g raw t rest K _ _ _|first more k r K _ _ _ _].
  - destruct NM as [first a q K _ _]. exists first, (a ++ q). split; auto. assert (starts_type first) by (right; rewrite K; cbn; auto 10). auto.
  - exists k, (g ++ raw). split; auto. assert (starts_type k) by (right; rewrite K; destruct tg; cbn; auto 10). auto.
  - exists k, (g ++ raw). split; auto. assert (starts_type k) by (right; rewrite K; cbn; auto 10). auto.
  - exists first, more. split; auto. assert (starts_type first) by (left; exact K). auto.
Qed.
Lemma words_ne : forall t, words t <> [] -> t <> []. Proof. intros t W ->. apply W. reflexivity. Qed.
Lemma valid_name : forall name, t_type name = Tok_Identifier -> t_len name <> 0 -> tok_is_valid (Some name) = true.
Proof. intros name T L. unfold tok_is_valid. rewrite T. replace (t_len name =? 0) with false by lia. reflexivity. Qed.

Lemma name_step_ok : forall k r R tg t Q sc h, type_name src (k :: r) R tg t -> words t <> [] -> toks = Q ++ (k :: r) ++ R ->
  exists Q', ahead Q' R /\ name_step k (Pst (zlen Q) sc h) = Done (Some (t, tag_number tg), Pst (zlen Q') sc h).
Proof.
  intros k r R tg t Q sc h T W E. pose proof (words_ne t W) as NE. assert (FT' : (length toks <= fuel)%nat) by lia.
  remember (k :: r) as raw eqn:RAW. unfold name_step. destruct T as [raw t rest NM NX|k0 tg g raw t rest NT K G NM NX|k0 g raw t rest K G NM NX|first more k0 r0 K MO LA KF KN].
  - assert (KI : t_type k = Tok_Identifier). { destruct NM as [first a q KI TA QQ]. injection RAW as -> _. exact KI. }
    assert (A : ahead Q ([] ++ raw ++ rest)) by (apply ahead_self; exact E).
    destruct (identifier_ok src toks beyond ms fuel SRC raw t Q rest [] sc h A ltac:(constructor) NM NX FT') as (Q' & name & A' & E' & T1 & T2 & T3).
    rewrite KI. cbn [is_tag]. replace (is_tag Tok_Identifier) with false by reflexivity. assert (NN : native_type k = false) by (unfold native_type; rewrite KI; reflexivity). rewrite NN.
    change (Tok_Identifier =? Tok_Type_Typename) with false. change (Tok_Identifier =? Tok_Preprocess_Macro_Typename) with false. cbv iota.
    erewrite bind_ok by exact E'. rewrite (valid_name name T2 (T3 NE)). cbn [name_text]. rewrite T1. exists Q'. split; [exact A'|reflexivity].
  - injection RAW as -> <-. assert (TG : is_tag (t_type k) = true) by (rewrite K; destruct tg; [contradiction|reflexivity..]). rewrite TG. assert (TO : tag_of (t_type k) = tag_number tg) by (rewrite K; destruct tg; [contradiction|reflexivity..]). rewrite TO.
    cbn [app] in E. rewrite <- app_assoc in E. destruct (a_eat Q k _ (t_type k) sc h E eq_refl) as (A & C). erewrite bind_ok by exact C.
    destruct (identifier_ok src toks beyond ms fuel SRC raw t _ rest g sc h A G NM NX FT') as (Q' & name & A' & E' & T1 & T2 & T3).
    erewrite bind_ok by exact E'. cbn [name_text]. rewrite T1. exists Q'. split; [exact A'|reflexivity].
  - injection RAW as -> <-. unfold kind in K. rewrite K. replace (is_tag Tok_Type_Typename) with false by reflexivity. assert (NN : native_type k = false) by (unfold native_type; rewrite K; reflexivity). rewrite NN.
    rewrite Z.eqb_refl. cbn [app] in E. rewrite <- app_assoc in E. destruct (a_eat Q k _ Tok_Type_Typename sc h E K) as (A & C). erewrite bind_ok by exact C.
    destruct (identifier_ok src toks beyond ms fuel SRC raw t _ rest g sc h A G NM NX FT') as (Q' & name & A' & E' & T1 & T2 & T3).
    erewrite bind_ok by exact E'. rewrite (valid_name name T2 (T3 NE)). cbn [name_text]. rewrite T1. exists Q'. split; [exact A'|reflexivity].
  - injection RAW as -> ->. assert (TG : is_tag (t_type k) = false) by (tk; lia). rewrite TG. assert (NN : native_type k = true) by (unfold native_type; tk; lia). rewrite NN.
    cbn [app] in E. destruct (a_eat Q k _ (t_type k) sc h E eq_refl) as (_ & C). erewrite bind_ok by exact C. apply at_eat in E.
    assert (NB : forall x, native_type x = true <-> native x) by (intros x; unfold native_type, native; lia).
    erewrite bind_ok.
    2:{ apply (eat_while_ok src toks beyond ms fuel r (Q ++ [k]) k0 r0 native_type sc h []); [exact E| | |constructor|exact KF| |].
        - revert MO. apply Forall_impl. intros x [X|X]; [right; apply NB; exact X|left; exact X].
        - destruct r as [|x r]; [left; reflexivity|right]. destruct LA as [X|X]; [discriminate|]. rewrite (last_dflt _ (x :: r) k0 k) by discriminate. tk. lia.
        - destruct (native_type k0) eqn:Z; auto. apply NB in Z. contradiction.
        - rewrite E in FT. rewrite !app_length in FT. lia. }
    rewrite app_nil_r. exists ((Q ++ [k]) ++ r). split; [apply ahead_self; rewrite <- app_assoc; exact E|].
    assert (PT : exists y, (Q ++ [k]) ++ r = y ++ [last r k]). { destruct r as [|x r]; [exists Q; rewrite app_nil_r; reflexivity|]. destruct (exists_last (l := x :: r)) as (a & b & ->); [discriminate|]. rewrite last_last. exists ((Q ++ [k]) ++ a). rewrite app_assoc. reflexivity. }
    destruct PT as (y & PT). rewrite PT. erewrite bind_ok.
    2:{ eapply prevtok_ok. rewrite <- PT, <- app_assoc. exact E. }
    unfold ret. do 3 f_equal.
Qed.

(** ** types *)
Lemma next_app : forall g k r (P : token -> Prop), gap g -> ~ fmt k -> P k -> next_is (g ++ k :: r) P.
Proof. intros g k r P G K X. exists g, k, r. auto. Qed.
Lemma next_impl : forall R (P P' : token -> Prop), next_is R P -> (forall k, P k -> P' k) -> next_is R P'.
Proof. intros R P P' (g & k & r & E & G & K & X) I. exists g, k, r. auto. Qed.
Lemma gap_app : forall a b, gap a -> gap b -> gap (a ++ b). Proof. intros a b A B. apply Forall_app. auto. Qed.
Lemma next_gap : forall g R P, gap g -> next_is R P -> next_is (g ++ R) P.
Proof. intros g R P G (g' & k & r & -> & G' & K & X). exists (g ++ g'), k, r. split; [apply app_assoc|]. split; [apply gap_app; auto|auto]. Qed.
Lemma next_toks : forall Q R P, ahead Q R -> next_is R P -> next_is R (fun k => P k /\ flags_fit k).
Proof.
  intros Q R P A (g & k & r & -> & G & K & X). destruct (ahead_sig _ _ _ _ _ A G K) as (g' & E & _). exists g, k, r. split; auto. split; auto. split; auto. split; auto.
  apply at_gap in E. eapply fit_of; eauto.
Qed.
Lemma ahead_in : forall Q R k, ahead Q R -> In k R -> ~ fmt k -> In k toks.
Proof.
  intros Q R k (R0 & E & T) I K. rewrite E. apply in_or_app. right. assert (I' : In k (trim R)).
  { clear - I K. induction R as [|f R IH]; [exact I|]. cbn [trim]. destruct (is_formatting (t_type f)) eqn:F; [|exact I]. destruct I as [->|I]; [apply fmt_b in F; contradiction|auto]. }
  rewrite <- T in I'. clear - I'. induction R0 as [|f R IH]; [exact I'|]. cbn [trim] in I'. destruct (is_formatting (t_type f)); [right; auto|exact I'].
Qed.
Lemma ahead_fit : forall Q R k, ahead Q R -> In k R -> ~ fmt k -> flags_fit k.
Proof. intros Q R k A I K. rewrite Forall_forall in FIT. apply FIT. eapply ahead_in; eauto. Qed.
Lemma spec_first : forall raw sp R (P : token -> Prop), spec_tokens src raw sp -> (forall k, spec_kind (t_type k) -> In k raw -> P k) -> next_is R P -> next_is (raw ++ R) P.
Proof.
  intros raw sp R P T S N. destruct T as [|g k s r l G (K & _) T]; [exact N|]. rewrite <- app_assoc. cbn [app]. apply next_app; [exact G|apply spec_sig; exact K|]. apply S; [exact K|]. apply in_or_app. right. left. reflexivity.
Qed.
Lemma not_spec_flag : forall k, flags_fit k -> ~ macro_kind (t_type k) -> ~ spec_kind (t_type k) -> ~ flagged k TF_Specifier.
Proof. intros k [M|(F & _)] N S X; [contradiction|]. apply S, F, X. Qed.
Lemma not_attr_flag : forall k, flags_fit k -> ~ macro_kind (t_type k) -> t_type k <> Tok_Attribute_GEN_API -> ~ flagged k TF_Attribute.
Proof. intros k [M|(_ & F & _)] N S X; [contradiction|]. apply S, F, X. Qed.
Lemma starts_plain : forall k, starts_type k -> ~ macro_kind (t_type k) /\ ~ spec_kind (t_type k) /\ t_type k <> Tok_Attribute_GEN_API.
Proof. intros k S. unfold starts_type in S. tk. lia. Qed.
Lemma spec_plain : forall k, spec_kind (t_type k) -> ~ macro_kind (t_type k) /\ t_type k <> Tok_Attribute_GEN_API.
Proof. intros k S. tk. lia. Qed.
Lemma world_grow : forall h h', world e h -> grow h h' -> world e h'.
Proof. intros h h' (A & B & C & D) (T & _). unfold world. repeat (split; [eapply valid_grow; eauto|]). eapply valid_grow; eauto. Qed.
Lemma world_top : forall h, world e h -> 0 < h_top h. Proof. intros h ((A & B) & _). lia. Qed.

Lemma spelled_known : forall raw l, spec_tokens src raw l -> Forall known_spec l.
Proof. intros raw l T. induction T as [|g k s r l G (K & t & I & W) T IH]; constructor; auto. unfold known_spec. apply in_map_iff. exists (s, t). auto. Qed.
Lemma known_app : forall a b, Forall known_spec a -> Forall known_spec b -> Forall known_spec (a ++ b). Proof. intros. apply Forall_app. auto. Qed.

Lemma bind_pack : forall A B C (m : M A) (f : A -> M B) (k : A -> M C) s,
  bind m (fun p => bind (f p) (fun _ => k p)) s = bind (bind m (fun p => bind (f p) (fun _ => ret p))) k s.
Proof. intros A B C m f k s. unfold bind. destruct (m s) as [[a s1]| |]; cbn [rbind]; auto. destruct (f a s1) as [[b s2]| |]; reflexivity. Qed.
(** what parse_type hands out *)
Definition type_result (h h' : heap) (c : Z) (ty : typ) : Prop :=
  grow h h' /\ h_top h <= c /\ typ_at h' c ty /\ n_type (h_node h' c) = CT_Typename /\ n_ret (h_node h' c) = 0 /\ n_body (h_node h' c) = 0 /\
  n_parent (h_node h' c) = 0.

Lemma type_full : forall want raw R ty Q sc h, type_tokens src raw R ty -> ahead Q (raw ++ R) -> next_is R ends_type ->
  (want = true -> exists g k k2 r, R = g ++ k :: k2 :: r /\ gap g /\ ~ fmt k /\ (t_type k = Tok_Identifier -> t_type k2 <> Tok_Paren_Open)) -> world e h ->
  exists Q' c h' ty', ahead Q' R /\ parse_type src toks beyond ms e fuel want (Pst (zlen Q) sc h) = Done (c, Pst (zlen Q') sc h') /\
    typ_respaced ty ty' /\ type_result h h' c ty' /\ (ty_specs ty' <> None -> h_top h <= n_specs (h_node h' c)) /\ (ty_attrs ty' <> None -> h_top h <= n_attrs (h_node h' c)).
Proof.
  intros want raw R ty Q sc h T A NX WF W. destruct T as [att pre raw suf pk rest g at_ tg t sp sp' pack AT S1 C1 G TN N92 CL WT S2 C2 CAP PK].
  unfold parse_type, push_scope. unfold bind at 1. cbn [rbind p_idx p_scopes p_heap]. set (s0 := (zlen Q, "parser_parse_type"%string)). set (sc' := s0 :: sc).
  destruct (type_name_first _ _ _ _ TN) as (k0 & r0 & RAW & ST & K0).
  rewrite <- !app_assoc in A.
  assert (NA : next_is (pre ++ g ++ raw ++ suf ++ pk ++ rest) (fun k => ~ flagged k TF_Attribute)).
  { eapply spec_first; [exact S1| |].
    - intros k SK I. destruct (spec_plain k SK) as (X & Y). apply not_attr_flag; auto. eapply ahead_fit; [exact A| |apply spec_sig; exact SK]. apply in_or_app. right. apply in_or_app. left. exact I.
    - apply next_gap; [exact G|]. subst raw. apply (next_app [] k0 (r0 ++ suf ++ pk ++ rest)); [constructor|exact K0|]. destruct (starts_plain k0 ST) as (X & _ & Y). apply not_attr_flag; auto. eapply ahead_fit; [exact A| |exact K0].
      do 3 (apply in_or_app; right). left. reflexivity. }
  destruct (attributes_ok src toks beyond ms fuel SRC BYTES att _ at_ Q sc' h AT A NA FT FS (world_top h W)) as (Q1 & ca & h1 & A1' & E1 & GR1 & CA & CA'). pose proof (stands_ahead toks _ _ A1') as A1. clear A1'.
  erewrite bind_ok by exact E1. clear E1 NA A.
  assert (NS : next_is (g ++ raw ++ suf ++ pk ++ rest) (fun k => ~ flagged k TF_Specifier \/ (str_to_specifier (text_of src k) =? Spec_Const) = true /\ false = true)).
  { apply next_gap; [exact G|]. subst raw. apply (next_app [] k0 (r0 ++ suf ++ pk ++ rest)); [constructor|exact K0|]. left. destruct (starts_plain k0 ST) as (X & Y & _). apply not_spec_flag; auto. eapply ahead_fit; [exact A1| |exact K0].
    do 2 (apply in_or_app; right). left. reflexivity. }
  assert (LP : (length sp <= fuel)%nat) by (pose proof (spec_sig_len src _ _ S1); pose proof (ahead_sig_len _ _ _ _ A1); lia).
  assert (Z16 : zlen (sp ++ sp') <= 14) by (unfold zlen; exact CAP). rewrite zlen_app in Z16. pose proof (zlen_nn _ sp). pose proof (zlen_nn _ sp').
  destruct (specs_loop_ok src toks beyond ms FIT fuel pre sp Q1 _ (fun s => s =? Spec_Const) (fun _ => false) [] sc' h1 S1 A1 NS) as (Q2 & A2' & E2).
  { revert C1. apply Forall_impl. intros s <-. auto. }
  { cbn [app]. lia. }
  { exact LP. }
  erewrite bind_ok by exact E2. clear E2 NS A1 LP. cbn [app]. pose proof (stands_ahead toks _ _ A2') as A2. clear A2'.
  subst raw. cbn [app] in A2. destruct (a_left Q2 g k0 _ sc' h1 A2 G K0) as (lf & L1 & L2). erewrite bind_ok by exact L1. rewrite L2.
  destruct (a_currtok Q2 g k0 _ sc' h1 A2 G K0) as (Q3 & E3 & C3). erewrite bind_ok by exact C3. clear C3 L1.
  destruct (name_step_ok k0 r0 _ tg t Q3 sc' h1 TN WT E3) as (Q4 & A4 & E4).
  erewrite bind_ok by (exact E4).
  cbv iota. cbv beta.
  (* the next token *)
  assert (PKN : next_is (pk ++ rest) (fun k => ~ flagged k TF_Specifier /\ t_type k <> Tok_Paren_Open /\ (t_type k =? Tok_Varadic_Argument) = pack)).
  { destruct PK as [(-> & ->)|(-> & gp & kp & -> & GP & KP)].
    - cbn [app]. revert NX. intros NX. eapply next_impl; [exact NX|]. intros k (X1 & X2 & X3). split; auto. split; auto. lia.
    - rewrite <- app_assoc. cbn [app]. apply next_app; [exact GP|tk; lia|]. split; [|split; [tk; lia|rewrite KP; reflexivity]]. apply not_spec_flag; [|tk; lia|tk; lia].
      eapply ahead_fit; [exact A4| |tk; lia]. apply in_or_app. right. rewrite <- app_assoc. apply in_or_app. right. left. reflexivity. }
  assert (NS : next_is (pk ++ rest) (fun k => ~ flagged k TF_Specifier \/ typename_suffix (str_to_specifier (text_of src k)) = true /\ false = true)) by (eapply next_impl; [exact PKN|]; intros k (X & _); left; exact X).
  assert (LP : (length sp' <= fuel)%nat) by (pose proof (spec_sig_len src _ _ S2); pose proof (ahead_sig_len _ _ _ _ A4); lia).
  destruct (specs_loop_ok src toks beyond ms FIT fuel suf sp' Q4 _ typename_suffix (fun _ => false) sp sc' h1 S2 A4 NS) as (Q5 & A5 & E5).
  { revert C2. apply Forall_impl. intros s I. split; auto. unfold typename_suffix. apply existsb_exists. exists s. split; [exact I|apply Z.eqb_refl]. }
  { rewrite zlen_app. lia. }
  { exact LP. }
  erewrite bind_ok by exact E5. clear E5 NS LP. cbv iota.
  destruct PKN as (gk & kk & rk & EK & GK & KK & KS & KP & KV). rewrite EK, (trim_gap gk), (trim_sig kk) in A5 by auto.
  erewrite bind_ok by (eapply noskip_ok; exact A5).
  assert (SG : (if want && (t_type kk =? Tok_Identifier) then (fun s => rbind (tok_at toks beyond (p_idx s + 1)) (fun k => Done (t_type k =? Tok_Paren_Open, s))) else ret (t_type kk =? Tok_Paren_Open)) (Pst (zlen Q5) sc' h1) = Done (false, Pst (zlen Q5) sc' h1)).
  { destruct (want && (t_type kk =? Tok_Identifier)) eqn:WI.
    - apply andb_prop in WI. destruct WI as (W1 & W2). destruct (WF W1) as (g2 & k2 & k3 & r3 & ER & G2 & K2 & K3).
      assert (PE : pack = false) by (rewrite <- KV; apply Z.eqb_eq in W2; rewrite W2; reflexivity). destruct PK as [(_ & ->)|(X & _)]; [|congruence]. cbn [app] in EK. rewrite EK in ER.
      assert (TT : trim (gk ++ kk :: rk) = trim (g2 ++ k2 :: k3 :: r3)) by (rewrite ER; reflexivity). rewrite !trim_gap, !trim_sig in TT by auto. injection TT as <- ->.
      cbn [p_idx]. replace (zlen Q5 + 1) with (zlen (Q5 ++ [kk])) by zl. rewrite (tok_ok toks beyond (Q5 ++ [kk]) k3 r3) by (rewrite <- app_assoc; exact A5). cbn [rbind]. replace (t_type k3 =? Tok_Paren_Open) with false; [reflexivity|]. apply Z.eqb_eq in W2. specialize (K3 W2). lia.
    - replace (t_type kk =? Tok_Paren_Open) with false by lia. reflexivity. }
  erewrite bind_ok by exact SG. clear SG. cbv iota.
  assert (PS : exists Q6, ahead Q6 rest /\ bind (check toks beyond Tok_Varadic_Argument) (fun pack => bind (if pack then eat src toks beyond ms Tok_Varadic_Argument else ret true) (fun _ => ret pack)) (Pst (zlen Q5) sc' h1) = Done (pack, Pst (zlen Q6) sc' h1)).
  { assert (CK : check toks beyond Tok_Varadic_Argument (Pst (zlen Q5) sc' h1) = Done (pack, Pst (zlen Q5) sc' h1)) by (rewrite (check_ok toks beyond [] Q5 kk rk _ sc' h1 A5 ltac:(constructor) KK), app_nil_r, KV; reflexivity).
    destruct pack.
    - apply Z.eqb_eq in KV. destruct (a_eat Q5 kk rk _ sc' h1 A5 KV) as (A6 & C6). exists (Q5 ++ [kk]). split; [|erewrite bind_ok by exact CK; erewrite bind_ok by exact C6; reflexivity].
      destruct PK as [(X & _)|(_ & gp & kp & -> & GP & KP')]; [discriminate|]. rewrite <- app_assoc in EK. cbn [app] in EK. assert (TT : trim (gp ++ kp :: rest) = trim (gk ++ kk :: rk)) by (rewrite EK; reflexivity).
      rewrite !trim_gap, !trim_sig in TT by (auto; tk; lia). injection TT as _ ->. exact A6.
    - exists Q5. split; [|erewrite bind_ok by exact CK; reflexivity]. destruct PK as [(_ & ->)|(X & _)]; [|discriminate]. cbn [app] in EK. rewrite EK. exists (kk :: rk). split; [exact A5|]. rewrite trim_gap by exact GK. reflexivity. }
  destruct PS as (Q6 & A6 & PS). clear A5.
  rewrite bind_pack. erewrite bind_ok by exact PS. clear PS.
  destruct (any_make (AstModel.set_type CT_Typename) h1 (zlen Q6) sc') as (h2 & M2 & T2 & N2 & G2). erewrite bind_ok by exact M2. clear M2.
  set (c := h_top h1) in *. pose proof (world_top h1 (world_grow _ _ W GR1)) as TP1. assert (V2 : valid h2 c) by (unfold valid, c; lia).
  assert (BT : Forall (fun c => 0 <= c < 256) t /\ (length t < fuel)%nat).
  { assert (X : forall a b, Forall (fun c => 0 <= c < 256) (upto src a b) /\ (length (upto src a b) < fuel)%nat).
    { intros a b. rewrite upto_slice. split; [apply slice_bytes; exact BYTES|]. pose proof (slice_len src (t_start a) (end_of b - t_start a)). lia. }
    clear - TN X. destruct TN as [? ? ? NM _|? ? ? ? ? ? _ _ _ NM _|? ? ? ? ? _ _ NM _|]; try (destruct NM; apply X). apply X. }
  destruct (strip_ok t fuel N92 CL WT (proj1 BT) (proj2 BT)) as (n & SN & RS & NN).
  assert (E7 : edit (fun h => rbind (strip_formatting t false fuel) (fun stripped => put h c (set_name stripped))) (Pst (zlen Q6) sc' h2) = Done (tt, Pst (zlen Q6) sc' (upd h2 c (set_name n)))).
  { unfold edit. cbn [p_heap]. rewrite SN. cbn [rbind]. rewrite put_ok by exact V2. reflexivity. }
  erewrite bind_ok by exact E7. clear E7. pose proof (stepped_upd h2 c (set_name n)) as S3. set (h3 := upd h2 c (set_name n)) in *. assert (V3 : valid h3 c) by (eapply stepped_valid; eauto).
  destruct S3 as (T3 & N3 & O3). rewrite N2 in N3.
  destruct (opt_edit c ca set_attrs h3 (zlen Q6) sc' V3 ltac:(rewrite N3; reflexivity)) as (h4 & E4' & S4). erewrite bind_ok by exact E4'. clear E4'.
  assert (V4 : valid h4 c) by (eapply stepped_valid; eauto). destruct S4 as (T4 & N4 & O4). rewrite N3 in N4.
  assert (G14 : grow h1 h4). { split; [lia|]. intros x X. assert (x <> c) by (unfold valid, c in *; lia). rewrite O4, O3 by assumption. destruct G2 as (_ & G2). auto. }
  assert (W4 : world e h4) by (eapply world_grow; [eapply world_grow; [exact W|exact GR1]|exact G14]).
  destruct (specifiers_maybe e h4 (zlen Q6) sc' (sp ++ sp') W4 CAP) as (h5 & cs & E5 & G5 & SP5 & CS5); [apply known_app; eapply spelled_known; eauto|].
  erewrite bind_ok by exact E5. clear E5. assert (V5 : valid h5 c) by (destruct G5; eapply valid_grow; eauto). assert (N5 : h_node h5 c = h_node h4 c) by (destruct G5 as (_ & G5); apply G5; exact V4). rewrite N4 in N5.
  destruct (opt_edit c cs set_specs h5 (zlen Q6) sc' V5 ltac:(rewrite N5; reflexivity)) as (h6 & E6' & S6). erewrite bind_ok by exact E6'. clear E6'.
  assert (V6 : valid h6 c) by (eapply stepped_valid; eauto). destruct S6 as (T6 & N6 & O6). rewrite N5 in N6.
  destruct (any_edit c (set_num ((if pack then 1 else 0) + tag_number tg * 2 ^ 16)) h6 (zlen Q6) sc' V6) as (h7 & E7 & S7). erewrite bind_ok by exact E7. clear E7.
  assert (V7 : valid h7 c) by (eapply stepped_valid; eauto). destruct S7 as (T7 & N7 & O7). rewrite N6 in N7.
  unfold sc'. unfold bind, parser_pop. cbn [p_scopes p_idx p_heap rbind ret].
  exists Q6, c, h7, (Type_ at_ tg n (some_specs (sp ++ sp')) pack). split; [exact A6|]. split; [reflexivity|].
  split. { unfold typ_respaced. cbn. auto. }
  assert (G07 : grow h h7). { split; [destruct GR1, G14, G5; lia|]. intros x X. assert (x <> c) by (destruct GR1; unfold valid, c in *; lia). rewrite O7, O6 by assumption. destruct GR1 as (GT & GR1), G14 as (GT' & G14), G5 as (GT5 & G5).
    rewrite G5 by (unfold valid in *; lia). rewrite G14 by (unfold valid in *; lia). apply GR1. exact X. }
  split. 2:{ cbn [ty_specs ty_attrs]. rewrite N7. cbn. split; [|exact CA']. intros NS. assert (X : sp ++ sp' <> []) by (intros X; rewrite X in NS; apply NS; reflexivity). specialize (CS5 X). destruct GR1, G14. lia. }
  unfold type_result. split; [exact G07|]. split; [unfold c; destruct GR1; lia|].
  split; [|rewrite N7; auto].
  assert (L15 : forall x, valid h1 x -> h_node h7 x = h_node h1 x). { intros x X. assert (x <> c) by (unfold valid, c in *; lia). rewrite O7, O6 by assumption. destruct G14 as (GT' & G14), G5 as (GT5 & G5). rewrite G5 by (unfold valid in *; lia). apply G14. exact X. }
  split; [exact V7|]. cbv zeta. rewrite N7. split; [left; reflexivity|]. split; [reflexivity|]. split; [exact NN|]. cbn [ty_attrs ty_specs ty_tag ty_pack].
  split. { destruct at_ as [a|]; [|exact CA]. cbn [maybe] in *. destruct CA as (V & C). split; [destruct G14, G5; unfold valid in *; cbn; lia|]. cbn. rewrite L15 by exact V. exact C. }
  split. { cbn. destruct (some_specs (sp ++ sp')) as [l|] eqn:SS; [|exact SP5]. cbn [maybe] in *.
    destruct SP5 as (V & C). assert (NC : cs <> c). { assert (sp ++ sp' <> []) by (intros Z; rewrite Z in SS; discriminate). specialize (CS5 H1). lia. }
    split; [unfold valid in *; lia|]. rewrite O7, O6 by exact NC. exact C. }
  cbn [set_num n_num]. split; [destruct pack, tg; reflexivity|]. destruct pack, tg; cbn; split; intros; try reflexivity; try discriminate; congruence.
Qed.
Lemma type_ok : forall want raw R ty Q sc h, type_tokens src raw R ty -> ahead Q (raw ++ R) -> next_is R ends_type ->
  (want = true -> exists g k k2 r, R = g ++ k :: k2 :: r /\ gap g /\ ~ fmt k /\ (t_type k = Tok_Identifier -> t_type k2 <> Tok_Paren_Open)) -> world e h ->
  exists Q' c h' ty', ahead Q' R /\ parse_type src toks beyond ms e fuel want (Pst (zlen Q) sc h) = Done (c, Pst (zlen Q') sc h') /\
    typ_respaced ty ty' /\ type_result h h' c ty'.
Proof.
  intros want raw R ty Q sc h T A NX WF W. destruct (type_full want raw R ty Q sc h T A NX WF W) as (Q' & c & h' & ty' & X1 & X2 & X3 & X4 & _). exists Q', c, h', ty'. auto.
Qed.

(** ** array sizes *)
Lemma tail_gap : forall l : list token, exists a g, l = a ++ g /\ gap g /\ (a = [] \/ exists a' k, a = a' ++ [k] /\ ~ fmt k).
Proof.
  intros l. induction l as [|k l IH] using rev_ind; [exists [], []; split; auto; split; [constructor|auto]|].
  destruct (is_formatting (t_type k)) eqn:F.
  - destruct IH as (a & g & -> & G & X). exists a, (g ++ [k]). split; [symmetry; apply app_assoc|]. split; [apply gap_app; [exact G|constructor; [apply fmt_b; exact F|constructor]]|exact X].
  - exists (l ++ [k]), []. split; [symmetry; apply app_nil_r|]. split; [constructor|]. right. exists l, k. split; auto. intros X. apply fmt_b in X. congruence.
Qed.
(** eat_while up to a token, comments and line ends before it included *)
Lemma eat_until : forall P raw k R p sc h, toks = P ++ raw ++ k :: R -> Forall (fun x => p x = true) raw -> ~ fmt k -> p k = false ->
  eat_while src toks beyond ms fuel p (Pst (zlen P) sc h) = Done (tt, Pst (zlen (P ++ raw)) sc h).
Proof.
  intros P raw k R p sc h E F K PK. destruct (tail_gap raw) as (a & g & -> & G & X). rewrite <- app_assoc in E.
  apply (eat_while_ok src toks beyond ms fuel a P k R p sc h g); auto.
  - apply Forall_app in F. destruct F as (F & _). revert F. apply Forall_impl. auto.
  - destruct X as [->|(a' & x & -> & X)]; [left; reflexivity|right]. rewrite last_last. exact X.
  - rewrite E in FT. rewrite !app_length in FT. lia.
Qed.
Lemma prevtok_last : forall P raw R d sc h, toks = (P ++ raw) ++ R -> raw <> [] -> prevtok toks beyond (Pst (zlen (P ++ raw)) sc h) = Done (last raw d, Pst (zlen (P ++ raw)) sc h).
Proof.
  intros P raw R d sc h E N. destruct (exists_last N) as (a & b & ->). rewrite last_last. rewrite app_assoc in *. eapply prevtok_ok. exact E.
Qed.
Lemma sizes_first : forall raw ss R, array_sizes src raw ss -> ss <> [] -> exists g k r, raw ++ R = g ++ k :: r /\ gap g /\ t_type k = Tok_BraceSquare_Open.
Proof.
  intros raw ss R T N. destruct T as [|g o g' first more c r ss G KO G' KF NC KC NE T]; [contradiction|].
  exists g, o, (g' ++ first :: more ++ c :: r ++ R). split; [|auto]. rewrite <- app_assoc. cbn [app]. rewrite <- app_assoc. cbn [app]. rewrite <- app_assoc. reflexivity.
Qed.

Definition from_top (h h' : heap) (P : heap -> Prop) : Prop :=
  forall h'', h_top h' <= h_top h'' -> (forall x, h_top h <= x < h_top h' -> sim (h_node h' x) (h_node h'' x)) -> P h''.
Lemma arrays_ok : forall ss n raw R Q sc h, (length ss < n)%nat -> array_sizes src raw ss -> ahead Q (raw ++ R) -> next_is R (no_size src) -> 0 < h_top h ->
  exists Q' c h', ahead Q' R /\ parse_array_decl src toks beyond ms e fuel n (Pst (zlen Q) sc h) = Done (c, Pst (zlen Q') sc h') /\
    grow h h' /\ from_top h h' (fun h'' => raws_from h'' c ss) /\ (ss = [] -> h' = h) /\ (ss <> [] -> h_top h <= c).
Proof.
  induction ss as [|s ss IH]; intros [|n] raw R Q sc h L T A N TP; try lia.
  - inversion T; subst. cbn [app] in A. destruct N as (g & k & r & -> & G & K & X1 & X2).
    cbn [parse_array_decl]. unfold push_scope. unfold bind at 1. cbn [rbind p_idx p_scopes p_heap]. set (sc' := (zlen Q, "parse_array_decl"%string) :: sc).
    destruct (a_check Q g k r Tok_Operator sc' h A G K) as (Q1 & E1 & C1). erewrite bind_ok by exact C1.
    assert (A1 : ahead Q1 ([] ++ k :: r)) by (apply ahead_self; exact E1). assert (E1' : toks = Q1 ++ [] ++ k :: r) by exact E1.
    erewrite bind_ok with (a := false) (s' := Pst (zlen Q1) sc' h).
    2:{ destruct (t_type k =? Tok_Operator) eqn:O; [|reflexivity]. erewrite bind_ok by (eapply currtok_ok; [exact E1'|constructor|exact K]). rewrite app_nil_r. unfold ret. do 3 f_equal.
        rewrite char0. apply Z.eqb_eq in O. destruct (first_char src k =? 91) eqn:Z; [|reflexivity]. exfalso. apply X2. split; [exact O|lia]. }
    erewrite bind_ok by (eapply check_ok; [exact E1'|constructor|exact K]). rewrite app_nil_r. replace (t_type k =? Tok_BraceSquare_Open) with false by lia. cbn [negb].
    exists Q1, 0, h. split; [exists (k :: r); split; [exact E1|symmetry; apply trim_gap, G]|]. split; [reflexivity|]. split; [apply grow_refl|]. split; [intros h'' _ _; reflexivity|]. split; [auto|congruence].
  - inversion T as [|g o g' first more c r ss' G KO G' KF NC KC NE T' RAW SS]; subst.
    assert (FO : ~ fmt o) by (tk; lia). assert (FC : ~ fmt c) by (tk; lia). rewrite <- app_assoc in A. cbn [app] in A. rewrite <- app_assoc in A. cbn [app] in A. rewrite <- app_assoc in A. cbn [app] in A.
    cbn [parse_array_decl]. unfold push_scope. unfold bind at 1. cbn [rbind p_idx p_scopes p_heap]. set (sc' := (zlen Q, "parse_array_decl"%string) :: sc).
    destruct (a_check Q g o _ Tok_Operator sc' h A G FO) as (Q1 & E1 & C1). erewrite bind_ok by exact C1. unfold kind in KO. rewrite KO.
    change (Tok_BraceSquare_Open =? Tok_Operator) with false. cbv iota. unfold bind at 1. cbn [rbind ret]. assert (E1' : toks = Q1 ++ [] ++ o :: g' ++ first :: more ++ c :: r ++ R) by exact E1.
    erewrite bind_ok by (eapply check_ok; [exact E1'|constructor|exact FO]). rewrite app_nil_r, KO, Z.eqb_refl. cbn [negb].
    destruct (a_eat Q1 o _ _ sc' h E1 KO) as (A2 & C2). erewrite bind_ok by exact C2.
    destruct (a_left _ _ _ _ sc' h A2 G' KF) as (lf & L1 & L2). erewrite bind_ok by exact L1. rewrite L2.
    destruct (a_currtok _ _ _ _ sc' h A2 G' KF) as (Q2 & E2 & C3). erewrite bind_ok by exact C3.
    replace (t_type first =? Tok_BraceSquare_Close) with false by (pose proof (Forall_inv NC); cbn in *; lia).
    assert (E2' : toks = Q2 ++ (first :: more) ++ c :: r ++ R) by exact E2.
    erewrite bind_ok. 2:{ eapply eat_until; [exact E2'| |exact FC|rewrite KC; reflexivity]. revert NC. apply Forall_impl. intros x X. replace (t_type x =? Tok_BraceSquare_Close) with false by lia. reflexivity. }
    pose proof (at_app _ _ _ _ E2') as E3. erewrite bind_ok by (eapply prevtok_last with (d := first); [exact E3|discriminate]).
    assert (LM : last (first :: more) first = last more first) by (destruct more; reflexivity). rewrite LM.
    change (slice src (t_start first) (end_of (last more first) - t_start first)) with (upto src first (last more first)).
    set (text := upto src first (last more first)) in *. erewrite bind_ok by (apply untyped_ok; exact NE).
    set (f := fun n0 : node => set_content text (AstModel.set_type CT_Untyped (set_name text n0))). set (h1 := fst (make h f)). pose proof (grow_make h f) as G1. fold h1 in G1. pose proof (make_node h f) as N1. fold h1 in N1. pose proof (make_top h f) as T1. fold h1 in T1.
    assert (A3 : ahead (Q2 ++ first :: more) ([] ++ c :: r ++ R)) by (apply ahead_self; exact E3).
    destruct (a_left _ _ _ _ sc' h1 A3 ltac:(constructor) FC) as (lf' & L1' & L2'). erewrite bind_ok by exact L1'. rewrite L2'.
    assert (E3' : toks = (Q2 ++ first :: more) ++ [] ++ c :: r ++ R) by exact E3.
    erewrite bind_ok by (eapply currtok_ok; [exact E3'|constructor|exact FC]). rewrite app_nil_r. rewrite KC, Z.eqb_refl. cbn [negb].
    destruct (a_eat _ c _ _ sc' h1 E3 KC) as (A4 & C4). erewrite bind_ok by exact C4.
    destruct ss as [|s2 ss].
    + assert (RN : r = []) by (inversion T'; reflexivity). rewrite RN in *. cbn [app] in A4. destruct N as (g3 & k3 & r3 & -> & G3 & K3 & X1 & X2).
      destruct (a_check _ _ _ _ Tok_BraceSquare_Open sc' h1 A4 G3 K3) as (Q5 & E5 & C5). erewrite bind_ok by exact C5. replace (t_type k3 =? Tok_BraceSquare_Open) with false by lia.
      exists Q5, (h_top h), h1. split; [exists (k3 :: r3); split; [exact E5|symmetry; apply trim_gap, G3]|]. split; [reflexivity|]. split; [exact G1|]. split; [|split; [discriminate|lia]].
      intros h'' T'' S''. assert (SM : sim (h_node h1 (h_top h)) (h_node h'' (h_top h))) by (apply S''; lia). destruct (sim_fields _ _ SM) as (F1 & _ & _ & F4 & _ & _ & _ & _ & _ & _ & F11 & _). rewrite N1 in *. cbn in F1, F4, F11.
      split; [|cbn; exact F11]. split; [split; [split; lia|rewrite F1; cbn; auto]|exact F4].
    + destruct (sizes_first r (s2 :: ss) R T' ltac:(discriminate)) as (g3 & k3 & r3 & E3'' & G3 & K3). assert (K3' : ~ fmt k3) by (tk; lia). rewrite E3'' in A4.
      destruct (a_check _ _ _ _ Tok_BraceSquare_Open sc' h1 A4 G3 K3') as (Q5 & E5 & C5). erewrite bind_ok by exact C5. rewrite K3, Z.eqb_refl.
      assert (A5 : ahead Q5 (r ++ R)). { exists (k3 :: r3). split; [exact E5|]. rewrite E3''. symmetry. apply trim_gap, G3. }
      destruct (IH n r R Q5 sc' h1 ltac:(cbn [length] in L |- *; lia) T' A5 N ltac:(lia)) as (Q6 & c2 & h2 & A6 & E6 & G2 & F2 & _ & TC).
      assert (V2 : valid h2 (h_top h)) by (destruct G2 as (GT2 & _); split; lia).
      erewrite bind_ok.
      2:{ erewrite bind_ok by exact E6. apply edit_ok. exact V2. }
      exists Q6, (h_top h), (upd h2 (h_top h) (set_next c2)). split; [exact A6|]. split; [reflexivity|]. split; [apply grow_upd; [eapply grow_trans; eauto|lia]|]. split; [|split; [discriminate|lia]].
      intros h'' T'' S''. rewrite upd_top in T''. destruct G2 as (GT2 & GN2). assert (N2 : h_node h2 (h_top h) = f zero_node) by (rewrite GN2; [exact N1|split; lia]).
      assert (SM : sim (h_node (upd h2 (h_top h) (set_next c2)) (h_top h)) (h_node h'' (h_top h))) by (apply S''; rewrite upd_top; lia). rewrite upd_node, N2 in SM. destruct (sim_fields _ _ SM) as (F1 & _ & _ & F4 & _ & _ & _ & _ & _ & _ & F11 & _). cbn in F1, F4, F11.
      split; [split; [split; [split; lia|rewrite F1; cbn; auto]|exact F4]|]. rewrite F11. apply F2; [lia|]. intros x X. rewrite <- (upd_other h2 (h_top h) (set_next c2) x) by lia. apply S''. rewrite upd_top. lia.
Qed.

(** ** the end of a statement *)
Lemma tok_any : forall P k R, toks ++ beyond = P ++ k :: R -> tok_at toks beyond (zlen P) = Done k.
Proof.
  intros P k R E. unfold tok_at. rewrite E. destruct (0 <=? zlen P) eqn:Z; [|zl]. unfold zlen. rewrite Nat2Z.id. rewrite nth_error_app2, Nat.sub_diag by lia. reflexivity.
Qed.
Lemma end_ok : forall raw R cmt Q sc h, statement_end src raw (R ++ beyond) cmt -> ahead Q (raw ++ R) -> 0 < h_top h ->
  exists Q' c h', toks = Q' ++ R /\ end_statement src toks beyond ms (Pst (zlen Q) sc h) = Done (c, Pst (zlen Q') sc h') /\
    grow h h' /\ maybe (comment_at h') c cmt /\ (cmt <> None -> h_top h <= c).
Proof.
  intros raw R cmt Q sc h T A TP. remember (R ++ beyond) as RB eqn:RBE. destruct T as [g k n r G K NC|g k c r G K KC LC NE]; (assert (FK : ~ fmt k) by (tk; lia)); unfold end_statement.
  - rewrite <- app_assoc in A. cbn [app] in A. destruct (a_currtok _ _ _ _ sc h A G FK) as (Q1 & E1 & C1). erewrite bind_ok by exact C1.
    destruct (a_eat Q1 k R _ sc h E1 K) as (_ & C2). erewrite bind_ok by exact C2. apply at_eat in E1.
    assert (C3 : currtok_noskip toks beyond (Pst (zlen (Q1 ++ [k])) sc h) = Done (n, Pst (zlen (Q1 ++ [k])) sc h)). { unfold currtok_noskip. cbn [p_idx]. rewrite (tok_any (Q1 ++ [k]) n r); [reflexivity|]. rewrite E1, <- app_assoc. rewrite <- RBE. reflexivity. }
    erewrite bind_ok by exact C3. replace ((t_type n =? Tok_Comment) && (t_line n =? t_line k)) with false by lia.
    exists (Q1 ++ [k]), 0, h. split; [exact E1|]. split; [reflexivity|]. split; [apply grow_refl|]. split; [reflexivity|congruence].
  - rewrite <- app_assoc in A. cbn [app] in A. destruct (a_currtok _ _ _ _ sc h A G FK) as (Q1 & E1 & C1). erewrite bind_ok by exact C1.
    destruct (a_eat Q1 k _ _ sc h E1 K) as (_ & C2). erewrite bind_ok by exact C2. apply at_eat in E1.
    erewrite bind_ok by (eapply noskip_ok; exact E1). unfold kind in KC. rewrite KC, LC, !Z.eqb_refl. cbn [andb].
    unfold parse_comment, push_scope. unfold bind at 1. cbn [rbind p_idx p_scopes p_heap]. set (sc' := (zlen (Q1 ++ [k]), "parse_comment"%string) :: sc).
    erewrite bind_ok by (eapply noskip_ok; exact E1). rewrite <- word_text.
    destruct (any_make (fun n => set_content (word src c) (AstModel.set_type CT_Comment n)) h (zlen (Q1 ++ [k])) sc') as (h2 & M2 & T2 & N2 & G2). erewrite bind_ok by exact M2.
    destruct (a_eat _ c R _ sc' h2 E1 KC) as (_ & C4). erewrite bind_ok by exact C4. apply at_eat in E1.
    exists ((Q1 ++ [k]) ++ [c]), (h_top h), h2. split; [exact E1|]. split; [reflexivity|]. split; [exact G2|]. split; [|lia]. split; [|exact NE]. split; [split; lia|rewrite N2; reflexivity].
Qed.
End P.
