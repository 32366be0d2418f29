(** Files with blocks: the last step of C66. *)
From Coq Require Import String ZArith List Bool Lia ZifyBool ZifyNat Arith.
From Verif Require Import Common HashModel Text EnumModel EnumSpec LexModel LexSpec LexProps StripSpec AstModel AstSpec UpfrontModel UpfrontSpec SerSpec RelexSpec RelexProofs RelexProofs2 RelexProofs3 RelexProofs4 RelexProofs5 RelexProofs6
  ParseModel ParseSpec ParseProps FnSpec FnProps GlobalModel GlobalSpec GlobalProps RoundSpec RoundProofs RoundProofs2 RoundProofs3 RoundProofs4 RoundProofs5 RoundProofs6 RoundProofs7 RoundProofs8 FileSpec FileNestSpec FileProofs FileProofs2 FileProofs3 FileFnProofs FileProofs4 FileProofs5 FileNestProofs.
Import ListNotations.
Close Scope string_scope.
Open Scope Z_scope.

Section P.
Variable ms : macros.
Notation lx := (lexed_as ms).
Notation file_lexemes := (flat_map (tokens lx)).
Hypothesis ODD : Forall (fun w => lookup_macro ms (txt w) = None) odd_specs.
Notation item := (item ms).
Notation body := (body ms).

(** *** the tokens *)
Lemma curly_ended a l : well_ended (a ++ curly l).
Proof. intros b e E. unfold curly in E. rewrite !app_assoc in E. apply app_inj_tail in E. destruct E as (_ & <-). right. right. right. reflexivity. Qed.
Lemma item_last s t : item s t -> t = NewLine \/ tokens lx t <> [] /\ well_ended (tokens lx t).
Proof.
  intros IT. destruct IT as [s t M _|s name l _ N BG B|name l N BG B|s name l N BG B _|s name l N BG B _]; [apply member_last; exact M| | | |]; right; cbn [tokens tks tko app]; (split; [discriminate|]).
  - apply (curly_ended (tk "namespace" :: lx name)).
  - apply (curly_ended [_; _]).
  - intros b e E. rewrite !app_comm_cons, !app_assoc in E. apply app_inj_tail in E. destruct E as (_ & <-). right. right. left. reflexivity.
  - intros b e E. rewrite !app_comm_cons, !app_assoc in E. apply app_inj_tail in E. destruct E as (_ & <-). right. right. left. reflexivity.
Qed.
Lemma begun_lexemes s l : body s l -> begun l -> file_lexemes l <> [].
Proof.
  intros B (t & r & -> & NN). inversion B as [|s0 t0 l0 IT B0|k l0 HI BG B0]; subst; cbn [flat_map].
  - destruct (item_last _ _ IT) as [->|(NE & _)]; [contradiction|]. destruct (tokens lx t); [contradiction|discriminate].
  - destruct (label_lexemes ms k HI) as (w & _ & _ & _ & _ & -> & _). discriminate.
Qed.
Lemma body_ended s l : body s l -> well_ended (file_lexemes l).
Proof.
  apply (body_mut ms (fun _ _ => True) (fun _ l => well_ended (file_lexemes l))); try (intros; exact I); clear s l; cbn [flat_map].
  - intros s. apply nil_ended.
  - intros s t l IT _ B IH. apply well_ended_app; [|exact IH]. intros _. destruct (item_last _ _ IT) as [->|(_ & W)]; [apply nil_ended|exact W].
  - intros k l HI BG B IH. apply well_ended_app; [|exact IH]. intros E. destruct (begun_lexemes _ _ B BG E).
Qed.
Lemma lexemes_app a b : file_lexemes (a ++ b) = file_lexemes a ++ file_lexemes b.
Proof. apply flat_map_app. Qed.
Lemma nest_grown_tokens : (forall s t, item s t -> tokens lx (grown t) = tokens lx t) /\ (forall s l, body s l -> file_lexemes (map grown l) = file_lexemes l).
Proof.
  assert (G : forall l, file_lexemes (map grown l) = file_lexemes l -> file_lexemes (map grown l ++ [NewLine]) = file_lexemes l) by (intros l E; rewrite lexemes_app, E; cbn; apply app_nil_r).
  apply (nest_ind ms (fun _ t => tokens lx (grown t) = tokens lx t) (fun _ l => file_lexemes (map grown l) = file_lexemes l)).
  - intros s t M _. rewrite (grown_member ms t M). reflexivity.
  - intros s name l _ _ _ _ E. cbn [grown tokens]. rewrite (G l E). reflexivity.
  - intros name l _ _ _ E. cbn [grown tokens]. rewrite (G l E). reflexivity.
  - intros s name l _ _ _ E _. cbn [grown tokens]. rewrite (G l E). reflexivity.
  - intros s name l _ _ _ E _. cbn [grown tokens]. rewrite (G l E). reflexivity.
  - reflexivity.
  - intros s t l _ ET _ EL. cbn [map flat_map]. rewrite ET, EL. reflexivity.
  - intros k l _ _ _ E. cbn [map flat_map]. rewrite E. reflexivity.
Qed.

(** *** what was read may be read again *)
Lemma body_snoc s l : body s l -> body s (l ++ [NewLine]).
Proof.
  apply (body_mut ms (fun _ _ => True) (fun s l => body s (l ++ [NewLine]))); try (intros; exact I); clear s l.
  - intros s. cbn [app]. apply bd_item; [apply it_member; [apply fm_line|exact I]|constructor].
  - intros s t l IT _ _ IH. cbn [app]. apply bd_item; auto.
  - intros k l HI (t & r & -> & NN) _ IH. cbn [app]. apply bd_label; [exact HI| |exact IH]. exists t, (r ++ [NewLine]). split; [reflexivity|exact NN].
Qed.
Lemma grown_line t : grown t = NewLine -> t = NewLine.
Proof. destruct t; try discriminate; auto. Qed.
Lemma grown_begun l : begun l -> begun (map grown l).
Proof. intros (t & r & -> & NN). exists (grown t), (map grown r). split; [reflexivity|]. intros E. apply NN, grown_line, E. Qed.
Lemma snoc_begun l : begun l -> begun (l ++ [NewLine]).
Proof. intros (t & r & -> & NN). exists t, (r ++ [NewLine]). split; [reflexivity|exact NN]. Qed.
Lemma file_written s l ls : body s l -> begun l -> writes ms (file_text l) ls -> ls <> [] -> ls = file_lexemes l.
Proof.
  intros B BG W NE. destruct (nest_writes ms ODD) as (_ & NW). specialize (NW _ _ B [] [] ltac:(constructor)). rewrite !app_nil_r in NW.
  rewrite <- (lx_ok ms _ _ W NE). apply lx_ok; [exact NW|apply (begun_lexemes s); auto].
Qed.
Lemma grown_paired l : body InClass l -> body InClass (map grown l) -> begun l -> paired ms l -> paired ms (map grown l ++ [NewLine]).
Proof.
  intros B B' BG PA ls W. destruct ls as [|x ls]; [reflexivity|]. rewrite (file_written InClass (map grown l ++ [NewLine]) (x :: ls)); [|apply body_snoc; exact B'|apply snoc_begun, grown_begun; exact BG|exact W|discriminate].
  rewrite lexemes_app. cbn [flat_map tokens app]. rewrite app_nil_r. destruct nest_grown_tokens as (_ & GT). rewrite (GT _ _ B). apply PA. destruct (nest_writes ms ODD) as (_ & NW). specialize (NW _ _ B [] [] ltac:(constructor)). rewrite !app_nil_r in NW. exact NW.
Qed.
Lemma nest_grown : (forall s t, item s t -> item s (grown t)) /\ (forall s l, body s l -> body s (map grown l)).
Proof.
  apply (nest_ind ms (fun s t => item s (grown t)) (fun s l => body s (map grown l))).
  - intros s t M CK. rewrite (grown_member ms t M). apply it_member; auto.
  - intros s name l IC N BG B B'. cbn [grown]. apply it_namespace; auto; [apply snoc_begun, grown_begun; exact BG|apply body_snoc; exact B'].
  - intros name l N BG B B'. cbn [grown]. apply it_linkage; auto; [apply snoc_begun, grown_begun; exact BG|apply body_snoc; exact B'].
  - intros s name l N BG B B' PA. cbn [grown]. apply it_class; auto; [apply snoc_begun, grown_begun; exact BG|apply body_snoc; exact B'|apply grown_paired; auto].
  - intros s name l N BG B B' PA. cbn [grown]. apply it_struct; auto; [apply snoc_begun, grown_begun; exact BG|apply body_snoc; exact B'|apply grown_paired; auto].
  - intros s. constructor.
  - intros s t l _ IT _ B. cbn [map]. apply bd_item; auto.
  - intros k l HI BG _ B. cbn [map grown]. apply bd_label; [exact HI|apply grown_begun; exact BG|exact B].
Qed.

(** *** nothing but the respacing of types, which these have not, separates what is read from [grown] *)
Lemma not_func t f : func_tree f = Some t -> match t with Function _ _ _ _ _ _ | FunctionFwd _ _ _ _ _ _ _ => True | _ => False end.
Proof. unfold func_tree. destruct (f_body f) as [b|]; [destruct (f_export f)|match goal with |- context [if ?b then _ else _] => destruct b end]; intros E; try discriminate E; injection E as <-; exact I. Qed.
Definition same_item (t : tree) : Prop := forall t', tree_like (grown t) t' -> t' = grown t.
Definition same_body (l : list tree) : Prop := forall l', Forall2 tree_like (map grown l) l' -> l' = map grown l.
Lemma line_same t' : tree_like NewLine t' -> t' = NewLine.
Proof. intros L. inversion L as [? ? R| |f ? ? ? ? FT ?| | | | |]; subst; [inversion R; reflexivity|]. destruct (not_func _ _ FT). Qed.
Lemma snoc_same l l' : same_body l -> Forall2 tree_like (map grown l ++ [NewLine]) l' -> l' = map grown l ++ [NewLine].
Proof. intros SB F. apply Forall2_app_inv_l in F. destruct F as (a & b & FA & FB & ->). rewrite (SB a FA). f_equal. inversion FB as [|? ? ? ? T FB']; subst. inversion FB'; subst. rewrite (line_same _ T). reflexivity. Qed.
Lemma nest_same : (forall s t, item s t -> same_item t) /\ (forall s l, body s l -> same_body l).
Proof.
  apply (nest_ind ms (fun _ t => same_item t) (fun _ l => same_body l)).
  - intros s t M _ t' L. rewrite (grown_member ms t M) in *. apply (like_same ms); auto.
  - intros s name l _ _ _ _ SB t' L. cbn [grown] in *. inversion L as [? ? R| |f ? ? ? ? FT ?|? ? ? ? F|? ? ? F|? ? ? ? ? ? ? F|? ? ? ? ? ? ? ? F|? ? ? ? ? F]; subst; [inversion R; reflexivity|destruct (not_func _ _ FT)|]. f_equal. apply snoc_same; auto.
  - intros name l _ _ _ SB t' L. cbn [grown] in *. inversion L as [? ? R| |f ? ? ? ? FT ?|? ? ? ? F|? ? ? F|? ? ? ? ? ? ? F|? ? ? ? ? ? ? ? F|? ? ? ? ? F]; subst; [inversion R; reflexivity|destruct (not_func _ _ FT)|]. f_equal. apply snoc_same; auto.
  - intros s name l _ _ _ SB _ t' L. cbn [grown] in *. inversion L as [? ? R| |f ? ? ? ? FT ?|? ? ? ? F|? ? ? F|? ? ? ? ? ? ? F|? ? ? ? ? ? ? ? F|? ? ? ? ? F]; subst; [inversion R; reflexivity|destruct (not_func _ _ FT)|]. f_equal. apply snoc_same; auto.
  - intros s name l _ _ _ SB _ t' L. cbn [grown] in *. inversion L as [? ? R| |f ? ? ? ? FT ?|? ? ? ? F|? ? ? F|? ? ? ? ? ? ? F|? ? ? ? ? ? ? ? F|? ? ? ? ? F]; subst; [inversion R; reflexivity|destruct (not_func _ _ FT)|]. f_equal. apply snoc_same; auto.
  - intros s l' F. inversion F. reflexivity.
  - intros s t l _ SI _ SB l' F. cbn [map] in *. inversion F as [|? ? ? ? T FB]; subst. f_equal; [apply SI; exact T|apply SB; exact FB].
  - intros k l _ _ _ SB l' F. cbn [map grown] in *. inversion F as [|? ? ? ? T FB]; subst. f_equal; [|apply SB; exact FB]. inversion T as [? ? R| |f ? ? ? ? FT ?| | | | |]; subst; [inversion R; reflexivity|destruct (not_func _ _ FT)].
Qed.

(** *** what is kept *)
Lemma filter_last l : filter (fun t => negb (is_line t)) (map bare (l ++ [NewLine])) = filter (fun t => negb (is_line t)) (map bare l).
Proof. rewrite map_app, filter_app. cbn. apply app_nil_r. Qed.
Lemma nest_bare : (forall s t, item s t -> bare (grown t) = bare t) /\ (forall s l, body s l -> bare_file (map grown l) = bare_file l).
Proof.
  apply (nest_ind ms (fun _ t => bare (grown t) = bare t) (fun _ l => bare_file (map grown l) = bare_file l)); unfold bare_file.
  - intros s t M _. rewrite (grown_member ms t M). reflexivity.
  - intros s name l _ _ _ _ E. cbn [grown bare]. rewrite filter_last, E. reflexivity.
  - intros name l _ _ _ E. cbn [grown bare]. rewrite filter_last, E. reflexivity.
  - intros s name l _ _ _ E _. cbn [grown bare]. rewrite filter_last, E. reflexivity.
  - intros s name l _ _ _ E _. cbn [grown bare]. rewrite filter_last, E. reflexivity.
  - reflexivity.
  - intros s t l _ ET _ EL. cbn [map filter]. rewrite ET, EL. reflexivity.
  - intros k l _ _ _ E. cbn [map filter grown bare is_line negb]. rewrite E. reflexivity.
Qed.
Lemma file_snoc l : file_text (l ++ [NewLine]) = file_text l ++ NL.
Proof. unfold file_text. rewrite map_app, concat_app. cbn. reflexivity. Qed.
Lemma nest_length : (forall s t, item s t -> length (render (grown t)) = (length (render t) + blocks t)%nat /\ blocks (grown t) = blocks t) /\
  (forall s l, body s l -> length (file_text (map grown l)) = (length (file_text l) + list_sum (map blocks l))%nat /\ list_sum (map blocks (map grown l)) = list_sum (map blocks l)).
Proof.
  assert (BS : forall l, list_sum (map blocks (l ++ [NewLine])) = list_sum (map blocks l)) by (intros l; rewrite map_app, list_sum_app; cbn; lia).
  assert (LS : forall a b, list_sum (a :: b) = (a + list_sum b)%nat) by reflexivity.
  apply (nest_ind ms (fun _ t => length (render (grown t)) = (length (render t) + blocks t)%nat /\ blocks (grown t) = blocks t)
    (fun _ l => length (file_text (map grown l)) = (length (file_text l) + list_sum (map blocks l))%nat /\ list_sum (map blocks (map grown l)) = list_sum (map blocks l))).
  - intros s t M _. rewrite (grown_member ms t M). split; [|reflexivity]. destruct M; cbn [blocks]; try lia. destruct t; try contradiction; cbn [blocks]; lia.
  - intros s name l _ _ _ _ (E1 & E2). cbn [grown render blocks when app]. fold (file_text l) (file_text (map grown l ++ [NewLine])). rewrite file_snoc, BS, E2. split; [|reflexivity]. unfold braces. rewrite !app_length, E1. change (length NL) with 1%nat. lia.
  - intros name l _ _ _ (E1 & E2). cbn [grown render blocks]. fold (file_text l) (file_text (map grown l ++ [NewLine])). rewrite file_snoc, BS, E2. split; [|reflexivity]. unfold braces. rewrite !app_length, E1. change (length NL) with 1%nat. lia.
  - intros s name l _ _ _ (E1 & E2) _. cbn [grown render blocks when with_ app]. fold (file_text l) (file_text (map grown l ++ [NewLine])). rewrite file_snoc, BS, E2. split; [|reflexivity]. unfold braces. rewrite !app_length, E1. change (length NL) with 1%nat. lia.
  - intros s name l _ _ _ (E1 & E2) _. cbn [grown render blocks when with_ app]. fold (file_text l) (file_text (map grown l ++ [NewLine])). rewrite file_snoc, BS, E2. split; [|reflexivity]. unfold braces. rewrite !app_length, E1. change (length NL) with 1%nat. lia.
  - intros s. cbn. auto.
  - intros s t l _ (E1 & E2) _ (E3 & E4). unfold file_text in *. cbn [map concat] in *. rewrite !LS, !app_length, E1, E3, E2. split; [|rewrite E4]; lia.
  - intros k l _ _ _ (E1 & E2). unfold file_text in *. cbn [map concat grown blocks] in *. rewrite !LS, !app_length, E1. split; [|rewrite E2]; lia.
Qed.

(** *** a file *)
Lemma nest_round l beyond e gl fuel h : begun l -> body InNamespace l -> no_outside (file_lexemes l) -> quiet beyond -> plain_specifiers ms -> Forall macro_fits ms -> ~ runs_off (file_text l) ->
  Z.of_nat (length (file_text l)) + 2 <= Z.of_nat fuel -> world e h -> own_nodes e gl h ->
  exists h' c, parse_text (parse_body gl) (file_text l) beyond ms e fuel h = Done (h', c) /\ holds h' c (Block (map grown l)) /\ h_top h <= c /\ unchanged h h'.
Proof.
  intros BG F NO Q PS MF NR FU W OWN. set (src := file_text l) in *. destruct (nest_writes ms ODD) as (_ & NW). pose proof (NW _ _ F [] [] ltac:(constructor)) as WS. rewrite !app_nil_r in WS. fold src in WS.
  assert (B : Forall (fun c => 0 <= c < 256) src). { destruct (writes_reads ms _ _ WS) as (l' & R & _). exact (reads_bytes ms _ _ _ R). }
  pose proof (begun_lexemes _ _ F BG) as NE.
  destruct (lex_modal src ms fuel _ B FU WS NE) as (toks & L & MD & OL). pose proof (c39_positions_partial src ms fuel toks ms B NR FU L) as PO. pose proof (lined_count _ _ _ _ (modal_lined _ _ _ _ _ MD)) as CN.
  assert (A : at_m src Fresh [] src toks (file_lexemes l)).
  { apply headed_any; [|exists InLine; split; [reflexivity|exact MD]]. pose proof (body_head ms _ _ [] F BG) as H. rewrite app_nil_r in H. exact H. }
  assert (NM : Forall (fun k => t_type k <> Tok_Preprocess_Macro_Expr) toks). { apply (kinds_tokens src toks _ (fun k => k <> Tok_Preprocess_Macro_Expr) (at_spells src _ _ _ _ (m_at src _ _ _ _ _ A))); [discriminate|]. eapply writes_kinds; exact WS. }
  destruct (nest_read src ms beyond Q ODD) as (_ & RB). specialize (RB _ _ F [] toks [] []). rewrite !app_nil_r in RB. destruct (RB A) as (raw & R & ET & A2 & G).
  { split; [exact PO|]. split; [exact OL|]. split; [exact NO|]. split; [apply (body_ended InNamespace); exact F|exact NM]. }
  { apply follow_end. }
  assert (ER : R = []). { destruct A2 as (_ & A2). inversion A2; subst; try reflexivity; destruct w; discriminate. }
  subst R. rewrite app_nil_r in ET. subst raw. pose proof (G [] [] [] eq_refl (mb_end src beyond InNamespace [])) as MB. rewrite !app_nil_r in MB.
  assert (RD : ready src beyond ms e gl fuel h toks).
  { split; [|split; [|split; [exact W|split; [exact OWN|]]]].
    - split; auto. split; auto. split; auto. split; auto. rewrite app_nil_r. split; [lia|]. exists ms. exact L.
    - intros ms' L'. rewrite L in L'. injection L' as <-. exact PS.
    - destruct Q as (a & b & r & -> & _). cbn [length]. lia. }
  destruct (c63_global_body_partial src beyond ms e gl fuel h toks (map grown l) RD MB) as (h' & c & l' & K1 & K2 & K3 & K4 & K5). destruct nest_same as (_ & NS). rewrite (NS _ _ F l' K3) in K2. exists h', c. auto.
Qed.
End P.
