(** Unions: what reading one leaves in memory. *)
From Coq Require Import String ZArith List Bool Lia ZifyBool ZifyNat.
From Verif Require Import Common Text HashModel StrOpsModel EnumModel EnumSpec EnumProofs LexModel LexSpec NavModel StripModel StripSpec StripProofs AstModel AstSpec AstProofs AstProofs4 UpfrontModel UpfrontSpec UpfrontProofs4 SerSpec SerProofs SerProofs2 ParseModel ParseSpec
  ParseProofs ParseProofs2 ParseProofs3 ParseProofs4 ParseProofs5 ParseProofs6 ParseProofs7 ParseProofs8 ParseProofs9 ParseProofs10 ParseProofs11 FnModel FnSpec FnProofs FnProofs2 FnProofs3 FnProofs4 GlobalModel GlobalSpec GlobalProofs GlobalProofs2 GlobalProofs3 GlobalProofs4 GlobalProofs5 GlobalProofs6 GlobalProofs7 GlobalProofs8 GlobalProofs9 ClassProofs ClassProofs2 ClassProofs3.
Import ListNotations.
Close Scope string_scope.
Open Scope Z_scope.
Open Scope parse_scope.
Section P.
Variable src : list Z.
Variable toks beyond : list token.
Variable ms : macros.
Variable e : env.
Variable gl : globals.
Variable fuel : nat.
Hypothesis SRC : Forall (in_source src) toks.
Hypothesis FIT : Forall flags_fit toks.
Hypothesis BYTES : Forall (fun c => 0 <= c < 256) src.
Hypothesis FT : (length toks < fuel)%nat.
Hypothesis FS : (length src < fuel)%nat.
Hypothesis NOM : no_macro_spec ms.
Hypothesis BY : (2 <= length beyond)%nat.
Notation globals_in := (globals_in e gl).
Notation gathered := (gathered src toks beyond ms e gl fuel).
Notation class_struct := (class_struct src toks beyond ms e gl fuel).
Notation class_body := (class_body src toks beyond ms e gl fuel).
Notation from_kw := (from_kw src toks beyond ms e fuel).
Notation ahead := (ahead toks).
Notation check := (check toks beyond).
Notation eat := (eat src toks beyond ms).


Notation union_loop := (union_loop src toks beyond ms e gl fuel).
Notation union_member := (union_member src toks beyond ms e gl fuel).
Notation parse_union_with := (parse_union_with src toks beyond ms e gl fuel).
Notation gathers := (gathers e).

(** ** variables *)
Lemma variable_gathers : forall raw R tr Q sc h, variable_tokens src raw R tr -> toks = Q ++ raw ++ R -> world e h ->
  exists Q' c h' tr', toks = Q' ++ R /\ gathers h h' c tr tr' /\ parse_variable src toks beyond ms e fuel (Pst (zlen Q) sc h) = Done (c, Pst (zlen Q') sc h').
Proof.
  intros raw R tr Q sc h T E W. pose proof (ahead_self toks _ _ E) as A. pose proof (world_top src toks e fuel FT FS h W) as TP.
  destruct T as [x ex att at_ pre sp ty_ ty g nm name sizes ss ini value bits fin rest cmt XP AT SP VS CAP TY TN G NM NE NX1 NX2 SZ IN SB VE]. rename rest into R.
  unfold parse_variable, push_scope. unfold bind at 1. cbn [rbind p_idx p_scopes p_heap]. set (sc' := (zlen Q, "parser_parse_variable"%string) :: sc).
  rewrite <- !app_assoc in A. set (B0 := sizes ++ ini ++ fin ++ R) in *. set (B1 := g ++ nm ++ B0) in *. set (B2 := pre ++ ty_ ++ B1) in *. change (ahead Q (ex ++ att ++ B2)) in A.
  destruct (type_head src toks fuel FT FS _ _ _ TY TN) as (gh & kh & rh & ETY & GH & FH & HH). pose proof (head_plain src toks fuel FT FS kh HH) as (HM & HA & HX).
  assert (FITH : flags_fit kh). { eapply ahead_fit; [exact FIT|exact A| |exact FH]. unfold B2. rewrite !in_app_iff. do 3 right. left. rewrite ETY. apply in_or_app. right. left. reflexivity. }
  assert (FITP : forall k, In k pre -> spec_kind (t_type k) -> flags_fit k). { intros k I SK. eapply ahead_fit; [exact FIT|exact A| |apply spec_sig; exact SK]. unfold B2. rewrite !in_app_iff. auto. }
  assert (NXT : forall P : token -> Prop, (forall k, In k pre -> spec_kind (t_type k) -> P k) -> P kh -> next_is B2 P).
  { intros P P1 P2. unfold B2. eapply spec_first; [exact SP| |]; [intros k SK I; auto|]. rewrite ETY, <- app_assoc. cbn [app]. apply next_app; auto. }
  assert (N1 : next_is (att ++ B2) (fun k => t_type k <> Tok_Module_Export)).
  { destruct at_ as [t|].
    - destruct AT as (ga & ka & k' & r & -> & GA & FA & NIN & _). rewrite <- app_assoc. cbn [app]. apply next_app; [exact GA|intros [Y|Y]; apply NIN; rewrite Y; cbn; auto 10|]. intros X.
      assert (FK : flags_fit ka). { eapply ahead_fit; [exact FIT|exact A|rewrite !in_app_iff; right; left; right; left; reflexivity|unfold fmt; rewrite X; intros [Y|Y]; discriminate Y]. } destruct FK as [FK|(_ & FK & _)]; [tk; lia|]. specialize (FK FA). rewrite FK in X. discriminate X.
    - cbn in AT. subst att. cbn [app]. apply NXT; [|exact HX]. intros k _ SK. tk. lia. }
  destruct (export_ok src toks beyond ms fuel FT FS x ex _ Q sc' h XP A N1) as (Q1 & fl & A1 & C1 & X1). erewrite bind_ok by exact C1.
  assert (AT' : attribute_word src att B2 at_). { apply (attribute_more _ _ _ R) in AT. rewrite <- !app_assoc in AT. exact AT. }
  destruct (attributes_ok src toks beyond ms fuel SRC BYTES att B2 at_ Q1 sc' h AT' A1) as (Q2 & ca & h1 & E2 & C2 & G1 & MA & _); auto.
  { apply NXT; [intros k I SK; apply not_attr_flag; auto; tk; lia|apply not_attr_flag; auto]. }
  erewrite bind_ok by exact C2. apply stands_ahead in E2. unfold B2 in E2.
  assert (NS : next_is (ty_ ++ B1) (fun k => ~ flagged k TF_Specifier \/ variable_specifier (str_to_specifier (text_of src k)) = true /\ (str_to_specifier (text_of src k) =? Spec_Const) = true)).
  { rewrite ETY, <- app_assoc. cbn [app]. apply next_app; auto. destruct HH as [HH|HH]; [right; rewrite (spelled_spec src kh Spec_Const HH); split; reflexivity|left]. apply not_spec_flag; auto. apply (starts_plain src toks fuel FT FS). exact HH. }
  assert (LP : (length sp <= fuel)%nat) by (pose proof (spec_sig_len src _ _ SP); pose proof (ahead_sig_len _ _ _ _ E2); lia).
  destruct (specs_loop_ok src toks beyond ms FIT fuel pre sp Q2 _ variable_specifier (fun s => s =? Spec_Const) [] sc' h1 SP E2 NS) as (Q3 & E3 & C3); [apply variable_specs; exact VS|cbn [app]; change SPECS_CAP with 14 in CAP; unfold zlen; lia|exact LP|].
  erewrite bind_ok by exact C3. cbn [app]. apply stands_ahead in E3. assert (W1 : world e h1) by (eapply world_grow; eauto).
  destruct (specifiers_maybe e h1 (zlen Q3) sc' sp W1 CAP) as (h2 & cs & C4 & G2 & MS & _); [eapply spelled_known; eauto|]. erewrite bind_ok by exact C4. assert (W2 : world e h2) by (eapply world_grow; eauto).
  assert (FN : exists kn rn, nm = kn :: rn /\ kind Tok_Identifier kn) by (destruct NM as [first a q KI _ _]; eauto). destruct FN as (kn & rn & ENM & KN). assert (FKN : ~ fmt kn) by (tk; lia).
  assert (TY' : type_tokens src ty_ B1 ty). { apply (type_more _ _ _ R) in TY. rewrite <- !app_assoc in TY. exact TY. }
  assert (FITN : flags_fit kn). { eapply ahead_fit; [exact FIT|exact E3|unfold B1; rewrite ENM, !in_app_iff; right; right; left; left; reflexivity|exact FKN]. }
  assert (NT : next_is B1 ends_type). { unfold B1. rewrite ENM. cbn [app]. apply next_app; auto. split; [apply not_spec_flag; auto; tk; lia|]. tk. lia. }
  destruct (type_ok src toks beyond ms e fuel SRC FIT BYTES FT FS false ty_ B1 ty Q3 sc' h2 TY' E3 NT ltac:(discriminate) W2) as (Q4 & tyc & h3 & ty' & A4 & C5 & RS & G3 & TT & TA & TK & TR & TB & TPP). erewrite bind_ok by exact C5.
  assert (NI : (tyc =? e_invalid e) = false) by (destruct W2 as ((_ & W2) & _); lia). rewrite NI.
  destruct (identifier_ok src toks beyond ms fuel SRC nm name Q4 B0 g sc' h3 A4 G NM) as (Q5 & nt & A5 & C6 & TX & _ & _); [unfold B0; apply (next_more _ R) in NX1; rewrite <- !app_assoc in NX1; exact NX1|lia|]. erewrite bind_ok by exact C6. cbn [name_text]. rewrite TX.
  destruct TA as (VT & TA'). assert (TP3 : 0 < h_top h3) by (destruct VT; lia). unfold B0 in A5. unfold parse_variable_after_name.
  assert (NX2' : next_is (ini ++ fin ++ R) (no_size src)) by (apply (next_more _ R) in NX2; rewrite <- !app_assoc in NX2; exact NX2).
  destruct (after_ok src toks beyond ms e fuel SRC FIT FT FS (parse_variable_declaration_list src toks beyond ms e fuel) fl ca cs tyc name sizes ss ini value bits fin R cmt Q5 sc' h3 SZ NX2' IN VE A5 TP3 VT TB) as (Q6 & c & h4 & cc & v & par & b & E6 & C7 & LK & OT & TC & VC & NC & MC & MB & VA & RW & FR).
  erewrite bind_ok by exact C7. exists Q6, c, h4, (Var x at_ (some_specs sp) ty' name ss bits value cmt). split; [exact E6|]. split; [|reflexivity].
  pose proof (grow_trans _ _ _ G1 (grow_trans _ _ _ G2 G3)) as G03. assert (HC : h_top h <= c) by (destruct G03; lia).
  split; [apply tl_respaced, tr_var; exact RS|]. split; [cbn [leaf]; split; [apply some_specs_ok|eapply typ_respaced_ok; [exact RS|eapply type_specs; eauto]]|].
  split; [cbn [clear sized]; rewrite NC; cbn; pose proof LK as (LK1 & LK2); split; [rewrite <- TK; exact (f_equal n_type (LK2 tyc VT))|eapply fresh_le; [|exact FR]; destruct G03; lia]|]. split.
  - assert (LK2 : like h2 h4) by (eapply like_trans; [apply grow_like; exact G3|exact LK]). assert (LK1 : like h1 h4) by (eapply like_trans; [apply grow_like; exact G2|exact LK2]).
    cbn [holds]. rewrite NC. unfold var_node. cbn. split; [split; [exact VC|rewrite NC; left; reflexivity]|]. split; [left; reflexivity|]. split; [exact X1|]. split; [revert MA; apply like_maybe; apply like_content; exact LK1|]. split; [revert MS; apply like_maybe; apply like_specs; exact LK2|].
    split; [eapply like_typ; [exact LK|]; split; [exact VT|exact TA']|]. split; [auto|]. split; [exact RW|]. split; [exact MB|]. split; [exact SB|]. split; [|auto].
    destruct value as [|vv|vv]; destruct VA as (VA & VP); rewrite VP; split; auto. discriminate.
  - split. { destruct LK as (LK & _). split; [destruct G03; lia|]. intros y Y. pose proof Y as (Y1 & Y2). rewrite OT; [apply G03; exact Y|destruct G03; split; lia|destruct G1, G2; lia]. }
    split; [exact VC|]. rewrite NC. split; [reflexivity|]. split; [left; split; [reflexivity|exact HC]|]. exact (world_invalid src toks e fuel FT FS h c W HC).
Qed.

(** ** one turn *)
Lemma noskip_check : forall t Q k R sc h, toks = Q ++ k :: R -> check_noskip toks beyond t (Pst (zlen Q) sc h) = Done (t_type k =? t, Pst (zlen Q) sc h).
Proof.
  intros t Q k R sc h E. unfold check_noskip. destruct (left_ok toks Q k R sc h E) as (l & L1 & L2). erewrite bind_ok by exact L1. rewrite L2. erewrite bind_ok by (eapply noskip_ok; exact E). reflexivity.
Qed.
Lemma uturn : forall cls n b Q k R sc h, toks = Q ++ k :: R -> t_type k <> Tok_BraceCurly_Close -> t_type k <> Tok_Preprocess_Hash ->
  union_loop (S n) cls b (Pst (zlen Q) sc h) = (m <- union_member cls (t_type k) ;; edit (fun h => body_append fuel h b m) ;;; union_loop n cls b) (Pst (zlen Q) sc h).
Proof.
  intros cls n b Q k R sc h E N1 N2. cbn [GlobalModel.union_loop]. erewrite bind_ok by (eapply noskip_check; exact E). replace (t_type k =? Tok_BraceCurly_Close) with false by lia.
  (erewrite bind_ok by (eapply noskip_ok; exact E)). replace (t_type k =? Tok_Preprocess_Hash) with false by lia. erewrite bind_ok by reflexivity. erewrite bind_ok by (eapply noskip_ok; exact E). reflexivity.
Qed.
Lemma uturn_hash : forall cls n b Q hs k R sc h, toks = Q ++ hs :: k :: R -> kind Tok_Preprocess_Hash hs ->
  union_loop (S n) cls b (Pst (zlen Q) sc h) = (m <- union_member cls (t_type k) ;; edit (fun h => body_append fuel h b m) ;;; union_loop n cls b) (Pst (zlen (Q ++ [hs])) sc h).
Proof.
  intros cls n b Q hs k R sc h E K. unfold kind in K. cbn [GlobalModel.union_loop]. erewrite bind_ok by (eapply noskip_check; exact E). rewrite K. change (Tok_Preprocess_Hash =? Tok_BraceCurly_Close) with false. cbv iota.
  (erewrite bind_ok by (eapply noskip_ok; exact E)). rewrite K, Z.eqb_refl. destruct (a_eat src toks beyond ms Q hs _ Tok_Preprocess_Hash sc h E K) as (_ & C1). erewrite bind_ok by exact C1. pose proof (at_eat _ _ _ _ E) as E'. erewrite bind_ok by (eapply noskip_ok; exact E'). reflexivity.
Qed.
Lemma finish_union : forall cls n b Q c R sc h, toks = Q ++ c :: R -> kind Tok_BraceCurly_Close c -> union_loop n cls b (Pst (zlen Q) sc h) = Done (tt, Pst (zlen Q) sc h).
Proof.
  intros cls n b Q c R sc h E K. unfold kind in K. destruct n; cbn [GlobalModel.union_loop]; erewrite bind_ok by (eapply noskip_check; exact E); rewrite K, Z.eqb_refl; reflexivity.
Qed.
(** the tokens [raw] are read as [t] *)
Definition ureads (raw rest : list token) (t : tree) : Prop := forall Q sc h, toks = Q ++ raw ++ rest -> world e h -> globals_in h ->
  exists Q' c h' t', toks = Q' ++ rest /\ gathers h h' c t t' /\
    forall cls n b, union_loop (S n) cls b (Pst (zlen Q) sc h) = (edit (fun h => body_append fuel h b c) ;;; union_loop n cls b) (Pst (zlen Q') sc h').
Lemma ureads_by : forall k r rest t, t_type k <> Tok_BraceCurly_Close -> t_type k <> Tok_Preprocess_Hash ->
  (forall Q sc h, toks = Q ++ k :: r ++ rest -> world e h -> globals_in h ->
   exists Q' c h' t', toks = Q' ++ rest /\ gathers h h' c t t' /\ forall cls, union_member cls (t_type k) (Pst (zlen Q) sc h) = Done (c, Pst (zlen Q') sc h')) -> ureads (k :: r) rest t.
Proof.
  intros k r rest t N1 N2 M Q sc h E W GI. destruct (M Q sc h E W GI) as (Q' & c & h' & t' & E' & GA & C). exists Q', c, h', t'. split; [exact E'|]. split; [exact GA|]. intros cls n b.
  rewrite (uturn cls n b Q k (r ++ rest) sc h E N1 N2). erewrite bind_ok by apply C. reflexivity.
Qed.
Lemma ureads_hash : forall hs k r rest t, kind Tok_Preprocess_Hash hs ->
  (forall Q sc h, toks = Q ++ k :: r ++ rest -> world e h -> globals_in h ->
   exists Q' c h' t', toks = Q' ++ rest /\ gathers h h' c t t' /\ forall cls, union_member cls (t_type k) (Pst (zlen Q) sc h) = Done (c, Pst (zlen Q') sc h')) -> ureads (hs :: k :: r) rest t.
Proof.
  intros hs k r rest t KH M Q sc h E W GI. destruct (M (Q ++ [hs]) sc h (at_eat _ _ _ _ E) W GI) as (Q' & c & h' & t' & E' & GA & C). exists Q', c, h', t'. split; [exact E'|]. split; [exact GA|]. intros cls n b.
  rewrite (uturn_hash cls n b Q hs k (r ++ rest) sc h E KH). erewrite bind_ok by apply C. reflexivity.
Qed.
Ltac dsp := fun cls X => match goal with |- context [union_member cls ?t] => change (union_member cls t) with X end.
Lemma uline_ok : forall k rest, kind Tok_NewLine k -> ureads [k] rest NewLine.
Proof.
  intros k rest K. unfold kind in K. apply ureads_by; try (rewrite K; discriminate). intros Q sc h E W (G & _). cbn [app] in E. exists (Q ++ [k]), (g_newline gl), h, NewLine. split; [apply at_eat; exact E|]. split.
  - eapply gathers_global; [exact G|exact I|exact I|apply G|reflexivity].
  - intros cls. rewrite K. dsp cls (eat Tok_NewLine ;;; ret (g_newline gl)). destruct (a_eat src toks beyond ms Q k _ Tok_NewLine sc h E K) as (_ & C1). erewrite bind_ok by exact C1. reflexivity.
Qed.
Lemma uelse_ok : forall hs k rest, kind Tok_Preprocess_Hash hs -> kind Tok_Preprocess_Else k -> ureads [hs; k] rest Else.
Proof.
  intros hs k rest KH K. unfold kind in K. apply ureads_hash; [exact KH|]. intros Q sc h E W (_ & G & _). cbn [app] in E. exists (Q ++ [k]), (g_else gl), h, Else. split; [apply at_eat; exact E|]. split.
  - eapply gathers_global; [exact G|exact I|exact I|apply G|reflexivity].
  - intros cls. rewrite K. dsp cls (eat Tok_Preprocess_Else ;;; ret (g_else gl)). destruct (a_eat src toks beyond ms Q k _ Tok_Preprocess_Else sc h E K) as (_ & C1). erewrite bind_ok by exact C1. reflexivity.
Qed.
Lemma uendif_ok : forall hs k rest, kind Tok_Preprocess_Hash hs -> kind Tok_Preprocess_EndIf k -> ureads [hs; k] rest EndIf.
Proof.
  intros hs k rest KH K. unfold kind in K. apply ureads_hash; [exact KH|]. intros Q sc h E W (_ & _ & G & _). cbn [app] in E. exists (Q ++ [k]), (g_endif gl), h, EndIf. split; [apply at_eat; exact E|]. split.
  - eapply gathers_global; [exact G|exact I|exact I|apply G|reflexivity].
  - intros cls. rewrite K. dsp cls (eat Tok_Preprocess_EndIf ;;; ret (g_endif gl)). destruct (a_eat src toks beyond ms Q k _ Tok_Preprocess_EndIf sc h E K) as (_ & C1). erewrite bind_ok by exact C1. reflexivity.
Qed.
Lemma ucomment_ok : forall k rest, kind Tok_Comment k -> ureads [k] rest (Raw (word src k)).
Proof.
  intros k rest K. unfold kind in K. apply ureads_by; try (rewrite K; discriminate). intros Q sc h E W _. cbn [app] in E. pose proof (world_top src toks e fuel FT FS h W) as TP.
  set (sc' := (zlen Q, "parse_comment"%string) :: sc). destruct (any_make (fun n => set_content (word src k) (AstModel.set_type CT_Comment n)) h (zlen Q) sc') as (h1 & C1 & T1 & N1 & G1).
  exists (Q ++ [k]), (h_top h), h1, (Raw (word src k)). split; [apply at_eat; exact E|]. split.
  - assert (V : valid h1 (h_top h)) by (split; lia). split; [apply tl_respaced, tr_same|]. split; [exact I|]. split; [exact I|]. split; [left; split; [split; [exact V|rewrite N1; cbn; auto]|rewrite N1; reflexivity]|]. split; [exact G1|]. split; [exact V|]. rewrite N1. split; [reflexivity|]. split; [left; split; [reflexivity|lia]|]. eapply world_invalid; [exact FT|exact FS|exact W|lia].
  - intros cls. rewrite K. dsp cls (parse_comment src toks beyond ms).
    unfold parse_comment, push_scope. unfold bind at 1. cbn [rbind p_idx p_scopes p_heap]. fold sc'. erewrite bind_ok by (eapply noskip_ok; exact E). rewrite <- word_text.
    erewrite bind_ok by exact C1. destruct (a_eat src toks beyond ms Q k _ Tok_Comment sc' h1 E K) as (_ & C2). erewrite bind_ok by exact C2. reflexivity.
Qed.
Lemma uenum_ok : forall raw rest t, enum_tokens src raw (rest ++ beyond) t -> enum_shape raw -> ureads raw rest t.
Proof.
  intros raw rest t T SH. assert (X : exists k r, raw = k :: r /\ kind Tok_Decl_Enum k) by (destruct T; eauto). destruct X as (k & r & -> & K). unfold kind in K. apply ureads_by; try (rewrite K; discriminate). intros Q sc h E W _.
  pose proof (fun cls => complicated_ok src toks beyond ms e gl fuel FIT FT FS cls (k :: r) rest Q sc h SH E (ex_intro _ k (ex_intro _ r (conj eq_refl K)))) as CO. set (s0 := (zlen Q, "parse_complicated_definition"%string)) in *.
  destruct (enum_ok src toks beyond ms e fuel SRC FIT BYTES FT FS (k :: r) rest t Q (s0 :: sc) h T E W) as (Q' & c & h' & t' & E' & C & TR & H & G & L & Y & P0).
  exists Q', c, h', t'. split; [exact E'|]. pose proof (enum_leaf src _ _ _ T) as LF. split.
  - assert (KC : kind_is h' c [CT_Enum; CT_Enum_Class; CT_Enum_Fwd; CT_Enum_Class_Fwd] /\ clear (h_top h) h' c t').
    { assert (SHP : match t with Enum _ _ _ _ _ | EnumClass _ _ _ _ _ | EnumFwd _ _ _ _ _ | EnumClassFwd _ _ _ _ _ => True | _ => False end).
      { clear - T. destruct T as [k0 class cl att at_ g nm und ty_ blk body fin rest0 cmt t K0 CL AT G0 KN NE U B SE ET]. destruct class, body as [ts|]; cbn [enum_tree] in ET; try (destruct ty_ as [y|]; [|discriminate ET]); injection ET as <-; exact I. }
      pose proof (respaced_leaf _ _ TR LF) as LF'. destruct TR; try contradiction; try (destruct t; try contradiction); cbn [holds] in H; destruct H as ((V & [KT|[]]) & H); (split; [split; [exact V|rewrite <- KT; cbn; auto]|]); cbn [clear]; try exact I.
      all: apply Y; first [destruct H as (_ & _ & _ & _ & _ & H & _); destruct H as [((VB & _) & _)|(tt & _ & (VB & _) & _)]; destruct VB; lia|destruct H as (_ & _ & _ & _ & H & _); destruct H as [((VB & _) & _)|(tt & _ & (VB & _) & _)]; destruct VB; lia]. }
    destruct KC as (KC & CL). split; [apply tl_respaced; exact TR|]. split; [eapply respaced_leaf; eauto|]. split; [exact CL|]. split; [exact H|]. split; [exact G|]. split; [apply KC|]. split; [destruct KC as (_ & [<-|[<-|[<-|[<-|[]]]]]); reflexivity|]. split; [auto|]. eapply (world_invalid src toks e fuel FT FS); eauto.
  - intros cls. rewrite K. dsp cls (parse_complicated_definition src toks beyond ms e gl fuel cls Tok_Decl_Enum). rewrite CO. erewrite bind_ok by exact C. reflexivity.
Qed.
Lemma udirective_ok : forall hs k r rest t, kind Tok_Preprocess_Hash hs -> t_type k <> Tok_Preprocess_Include -> directive src (k :: r) t -> ureads (hs :: k :: r) rest t.
Proof.
  assert (ALL : forall hs k s rest t proc kd tk ct, kind Tok_Preprocess_Hash hs -> kind tk k -> kind ct s -> tk <> Tok_Statement_End -> ct <> Tok_NewLine -> ct <> Tok_Comment -> leaf t -> (forall B h c, clear B h c t) ->
    is_body_type kd = false -> (forall h c, valid h c -> h_node h c = set_content (word src s) (AstModel.set_type kd zero_node) -> holds h c t) ->
    (forall cls, union_member cls tk = GlobalModel.directive src toks beyond ms e proc kd tk ct) -> ureads [hs; k; s] rest t).
  { intros hs k s rest t proc kd tk_ ct KH K S N1 N2 N3 LF CL BF HO ME. unfold kind in K. apply ureads_hash; [exact KH|]. intros Q sc h E W _. cbn [app] in E.
    assert (FM : ~ fmt s) by (unfold kind in S; unfold fmt; rewrite S; tauto).
    destruct (directive_read src toks beyond ms e fuel FT FS proc kd tk_ ct k s rest Q sc h E K S FM W) as (h' & C & G & T & N). exists (Q ++ [k; s]), (h_top h), h', t. split; [rewrite E, <- app_assoc; reflexivity|]. pose proof (world_top src toks e fuel FT FS h W) as TP. split.
    - assert (V : valid h' (h_top h)) by (split; lia). split; [apply tl_respaced, tr_same|]. split; [exact LF|]. split; [apply CL|]. split; [apply HO; assumption|]. split; [exact G|]. split; [exact V|]. rewrite N. split; [exact BF|]. split; [left; split; [reflexivity|lia]|]. eapply (world_invalid src toks e fuel FT FS); [exact W|lia].
    - intros cls. rewrite K, ME. exact C. }
  intros hs k r rest t KH NI D. remember (k :: r) as raw eqn:ER. destruct D; injection ER as -> <-.
  - exfalso. apply NI. assumption.
  - eapply ALL; [exact KH|eassumption|eassumption|discriminate|discriminate|discriminate|exact I|intros; exact I| | |intros cls; reflexivity]; [reflexivity|intros h c V N; cbn [holds]; unfold kind_is; rewrite N; cbn; auto].
  - eapply ALL; [exact KH|eassumption|eassumption|discriminate|discriminate|discriminate|exact I|intros; exact I| | |intros cls; reflexivity]; [reflexivity|intros h c V N; cbn [holds]; unfold kind_is; rewrite N; cbn; auto].
  - eapply ALL; [exact KH|eassumption|eassumption|discriminate|discriminate|discriminate|exact I|intros; exact I| | |intros cls; reflexivity]; [reflexivity|intros h c V N; cbn [holds]; unfold kind_is; rewrite N; cbn; auto].
  - apply uelse_ok; assumption.
  - apply uendif_ok; assumption.
Qed.

Lemma uvariable_ok : forall k r rest t, begins_variable k -> variable_tokens src (k :: r) rest t -> ureads (k :: r) rest t.
Proof.
  intros k r rest t B T. assert (N : forall v, In v [Tok_Preprocess_Hash; Tok_BraceCurly_Close; Tok_NewLine; Tok_Comment; Tok_Decl_Class; Tok_Decl_Enum; Tok_Decl_Struct; Tok_Decl_Union;
                   Tok_Preprocess_Define; Tok_Preprocess_If; Tok_Preprocess_IfDef; Tok_Preprocess_IfNotDef; Tok_Preprocess_ElIf; Tok_Preprocess_Else;
                   Tok_Preprocess_EndIf; Tok_Preprocess_Pragma; Tok_Preprocess_Macro_Stmt; Tok_Preprocess_Unsupported] -> (t_type k =? v) = false) by (intros v I; apply Z.eqb_neq; intros <-; exact (B I)).
  apply ureads_by; [intros X; apply B; rewrite X; cbn; auto|intros X; apply B; rewrite X; cbn; auto|]. intros Q sc h E W _.
  destruct (variable_gathers (k :: r) rest t Q sc h T E W) as (Q' & c & h' & t' & E' & GA & C). exists Q', c, h', t'. split; [exact E'|]. split; [exact GA|]. intros cls. rewrite <- C. f_equal.
  unfold GlobalModel.union_member. rewrite !N by (cbn; auto 20). assert (R : (t_type k >=? Tok_Preprocess_If) && (t_type k <=? Tok_Preprocess_ElIf) = false).
  { pose proof (N Tok_Preprocess_If ltac:(cbn; auto 20)). pose proof (N Tok_Preprocess_IfDef ltac:(cbn; auto 20)). pose proof (N Tok_Preprocess_IfNotDef ltac:(cbn; auto 20)). pose proof (N Tok_Preprocess_ElIf ltac:(cbn; auto 20)). clear N. unfold Tok_Preprocess_If, Tok_Preprocess_IfDef, Tok_Preprocess_IfNotDef, Tok_Preprocess_ElIf in *. lia. }
  rewrite R. reflexivity.
Qed.
Lemma usimple_reads : forall raw rest t, union_simple src beyond raw rest t -> ureads raw rest t.
Proof.
  intros raw rest t T. destruct T.
  - apply uline_ok; assumption.
  - apply ucomment_ok; assumption.
  - apply uenum_ok; assumption.
  - apply uvariable_ok; assumption.
  - apply udirective_ok; assumption.
Qed.
Lemma usimple_ne : forall raw rest t, union_simple src beyond raw rest t -> (1 <= length raw)%nat.
Proof. intros raw rest t T. destruct T as [k rest K|k rest K|raw rest t U SH|k r rest t B V|h k r rest t K N D]; cbn; try lia. destruct U; cbn; lia. Qed.
End P.
