(** A file that was written and is parsed again. *)
From Coq Require Import String ZArith List Bool Lia ZifyBool ZifyNat.
From Verif Require Import Common HashModel Text EnumModel EnumSpec LexModel LexSpec LexProps StripSpec AstModel AstSpec UpfrontModel UpfrontSpec SerSpec RelexSpec RelexProofs RelexProofs2 RelexProofs3 RelexProofs4 RelexProofs5 RelexProofs6
  ParseModel ParseSpec ParseProps FnSpec FnProps GlobalModel GlobalSpec GlobalProps RoundSpec RoundProofs RoundProofs2 RoundProofs3 RoundProofs4 RoundProofs5 RoundProofs6 RoundProofs7 RoundProofs8 FileSpec FileProofs FileProofs2 FileProofs3 FileFnProofs FileProofs4.
Import ListNotations.
Close Scope string_scope.
Open Scope Z_scope.

Section W.
Variable ms : macros.
Notation lx := (lexed_as ms).
Hypothesis ODD : Forall (fun w => lookup_macro ms (txt w) = None) odd_specs.
Lemma lead_fine specs : lead_specs specs -> oall specs_fine specs.
Proof.
  destruct specs as [l|]; [|exact (fun H => H)]. intros (_ & F & _). cbn [oall]. eapply Forall_impl; [|exact F]. cbv beta. intros s HI. cbn [first_specifiers In] in HI. vm_compute. unfold first_specifiers in HI. cbn [In] in HI. vm_compute in HI. tauto.
Qed.
Lemma name_item name : is_name ms name -> item lx ms name.
Proof. intros N. split; [apply name_leaf_ok; exact N|]. destruct (name_head ms name N) as (c & u & -> & W0). exists c, u. split; [reflexivity|]. unfold word_char in W0. split; [lia|]. unfold spacep. cbn. lia. Qed.
Lemma member_writes t rest lr : member ms t -> writes ms rest lr -> writes ms (render t ++ rest) (tokens lx t ++ lr).
Proof.
  intros M W. assert (LEX : lexable lx ms t -> writes ms (render t ++ rest) (tokens lx t ++ lr)) by (intros L; apply (tree_seg lx ms ODD t L); auto).
  destruct M as [|c C|name P|name y P|y name cmt P|specs y name sizes bits value cmt P B NP|t P SH K|name N|name cmt N OC|specs ret name ps cmt LS PR B N PW NC OC|specs ret name ps b LS PR B N PW NC BT]; try (apply plain_writes; auto; fail).
  - cbn [render tokens]. apply nl_app. exact W.
  - cbn [render tokens]. destruct (comment_leaf ms c C) as (L & SE). apply leaf_sealed; auto.
  - apply LEX. cbn [lexable oall]. split; [exact I|]. split; [apply name_leaf_ok; auto|exact I].
  - apply LEX. cbn [lexable oall]. split; [exact I|]. split; [apply name_leaf_ok; auto|apply comment_end; auto].
  - apply LEX. cbn [lexable oall]. split; [exact I|]. split; [apply lead_fine; auto|]. split; [apply typ_lexable; auto|]. split; [apply name_item; auto|]. split; [apply params_written; auto|apply comment_end; auto].
  - apply LEX. cbn [lexable oall]. split; [exact I|]. split; [apply lead_fine; auto|]. split; [apply typ_lexable; auto|]. split; [apply name_item; auto|]. split; [apply params_written; auto|]. split; [|exact I].
    destruct BT as (l & W0 & NE & NX & _ & (u & c & -> & HC) & _). split; [eapply lx_leaf; eauto|]. exists u, c. split; [reflexivity|]. cbn in HC |- *. tauto.
Qed.
Lemma file_writes l : Forall (member ms) l -> writes ms (file_text l) (flat_map (tokens lx) l).
Proof. induction 1 as [|t l M _ IH]; unfold file_text in *; cbn [map concat flat_map]; [constructor|]. apply member_writes; auto. Qed.

Definition is_function (t : tree) : bool := match t with Function _ _ _ _ _ _ | FunctionFwd _ _ _ _ _ _ _ => true | _ => false end.
Lemma no_function f t : member ms t -> is_function t = false -> func_tree f = Some t -> False.
Proof.
  assert (G : func_tree f = Some t -> match t with Function _ _ _ _ _ _ | FunctionFwd _ _ _ _ _ _ _ => True | _ => False end).
  { unfold func_tree. destruct (f_body f) as [b|]; [destruct (f_export f)|match goal with |- context [if ?b then _ else _] => destruct b end]; intros E; try discriminate E; injection E as <-; exact I. }
  intros M NF FT. specialize (G FT). destruct t; try contradiction; discriminate NF.
Qed.
Lemma both_same {A} (P : A -> A -> Prop) a b : (forall x, a = Some x -> forall y, P x y -> y = x) -> both P a b -> b = a.
Proof. intros H B. destruct a as [a|], b as [b|]; cbn in B; try contradiction; [|reflexivity]. f_equal. apply (H a eq_refl). exact B. Qed.
Lemma func_same f f' : plain_typ ms (f_ret f) -> Forall (param_written ms) (f_params f) -> func_respaced f f' -> f' = f.
Proof.
  destruct f as [x at0 sp0 ret name ps body cmt], f' as [x' at1 sp1 ret' name' ps' body' cmt']. unfold func_respaced. cbn [f_export f_attrs f_specs f_ret f_name f_params f_body f_comment]. intros PT PW (-> & -> & -> & R & -> & PS & -> & ->).
  f_equal; [eapply typ_same; eauto; eapply typ_tidy; eauto|]. clear - PW PS. induction PS as [|q q' ps ps' PR _ IH]; [reflexivity|]. f_equal; [|apply IH, (Forall_inv_tail PW)]. apply Forall_inv in PW.
  destruct q as [ty nm v], q' as [ty' nm' v']. destruct PW as (t0 & ET & PT & _ & DV). destruct PR as (EN & BT & BV). cbn [p_type p_name p_value] in *. subst ty nm'. f_equal.
  - apply (both_same typ_respaced); [|exact BT]. intros z E y R. injection E as <-. apply (typ_same t0 y); [eapply typ_tidy; eauto|exact R].
  - apply (both_same respaced); [|exact BV]. intros z E y R. subst v. destruct DV as (l & _ & TD & _). destruct R as (_ & R). exact (R TD).
Qed.
Lemma same_function f f' t t' : member ms t -> is_function t = true -> func_respaced f f' -> func_tree f = Some t -> func_tree f' = Some t' -> t' = t.
Proof.
  intros M IS R FT FT'. assert (E : f' = f); [|subst f'; rewrite FT in FT'; injection FT' as <-; reflexivity]. apply func_same; [| |exact R].
  - unfold func_tree in FT. destruct (f_body f); [destruct (f_export f); [discriminate FT|]|destruct (existsb _ _); [discriminate FT|]]; injection FT as <-; inversion M; subst; auto; contradiction.
  - unfold func_tree in FT. destruct (f_body f); [destruct (f_export f); [discriminate FT|]|destruct (existsb _ _); [discriminate FT|]]; injection FT as <-; inversion M; subst; auto; contradiction.
Qed.
Lemma like_same t t' : member ms t -> tree_like t t' -> t' = t.
Proof.
  intros M L. pose proof M as M0. destruct M0 as [|c C|name P|name y P|y name cmt P|specs y name sizes bits value cmt P B NP|t P SH K|name N|name cmt N OC|specs ret name ps cmt LS PR B N PW NC OC|specs ret name ps b LS PR B N PW NC BT].
  - inversion L as [? ? R| |f ? ? ? ? FT ?| | | | |]; subst; [inversion R; reflexivity|]. destruct (no_function _ _ M eq_refl FT).
  - inversion L as [? ? R| |f ? ? ? ? FT ?| | | | |]; subst; [inversion R; reflexivity|]. destruct (no_function _ _ M eq_refl FT).
  - inversion L as [? ? R| |f ? ? ? ? FT ?| | | | |]; subst; [inversion R; reflexivity|]. destruct (no_function _ _ M eq_refl FT).
  - inversion L as [? ? R| |f ? ? ? ? FT ?| | | | |]; subst; [eapply tree_same; eauto|]. destruct (no_function _ _ M eq_refl FT).
  - inversion L as [? ? R|? ? ? ? ? R|f ? ? ? ? FT ?| | | | |]; subst; [eapply tree_same; eauto| |].
    + inversion P; subst. rewrite (typ_same y ty'); auto. eapply typ_tidy; eauto.
    + destruct (no_function _ _ M eq_refl FT).
  - inversion L as [? ? R| |f ? ? ? ? FT ?| | | | |]; subst; [eapply tree_same; eauto|]. destruct (no_function _ _ M eq_refl FT).
  - inversion L as [? ? R|x y y' name cmt R|f ? ? ? ? FT ?| | | | |]; subst; try contradiction; [eapply tree_same; eauto|].
    exfalso. apply (no_function f _ M); [destruct t; try reflexivity; contradiction|exact FT].
  - inversion L as [? ? R| |f ? ? ? ? FT ?| | | | |]; subst; [inversion R; reflexivity|]. destruct (no_function _ _ M eq_refl FT).
  - inversion L as [? ? R| |f ? ? ? ? FT ?| | | | |]; subst; [inversion R; reflexivity|]. destruct (no_function _ _ M eq_refl FT).
  - inversion L as [? ? R| |f f' ? ? FR FT FT'| | | | |]; subst; [inversion R; reflexivity|]. apply (same_function f f' _ _ M eq_refl FR FT FT').
  - inversion L as [? ? R| |f f' ? ? FR FT FT'| | | | |]; subst; [inversion R; reflexivity|]. apply (same_function f f' _ _ M eq_refl FR FT FT').
Qed.
Lemma likes_same l l' : Forall (member ms) l -> Forall2 tree_like l l' -> l' = l.
Proof. intros F L. induction L as [|t t' l l' T _ IH]; [reflexivity|]. f_equal; [apply like_same; [apply (Forall_inv F)|exact T]|apply IH; apply (Forall_inv_tail F)]. Qed.

Lemma file_round l beyond e gl fuel h : begun l -> Forall (member ms) l -> no_outside (flat_map (tokens lx) l) -> quiet beyond -> plain_specifiers ms -> Forall macro_fits ms -> ~ runs_off (file_text l) ->
  Z.of_nat (length (file_text l)) + 2 <= Z.of_nat fuel -> world e h -> own_nodes e gl h ->
  exists h' c, parse_text (parse_body gl) (file_text l) beyond ms e fuel h = Done (h', c) /\ holds h' c (Block l) /\ h_top h <= c /\ unchanged h h'.
Proof.
  intros BG F NO Q PS MF NR FU W OWN. set (src := file_text l) in *. pose proof (file_writes l F) as WS. fold src in WS.
  assert (B : Forall (fun c => 0 <= c < 256) src). { destruct (writes_reads ms _ _ WS) as (l' & R & _). exact (reads_bytes ms _ _ _ R). }
  assert (NE : flat_map (tokens lx) l <> []). { destruct BG as (t & r & -> & NN). cbn [flat_map]. destruct (member_last ms t (Forall_inv F)) as [->|(T & _)]; [contradiction|]. destruct (tokens lx t); [contradiction|discriminate]. }
  destruct (lex_modal src ms fuel _ B FU WS NE) as (toks & L & MD & OL). pose proof (c39_positions_partial src ms fuel toks ms B NR FU L) as PO. pose proof (lined_count _ _ _ _ (modal_lined _ _ _ _ _ MD)) as CN.
  assert (A : at_m src Fresh [] src toks (flat_map (tokens lx) l)). { split; [reflexivity|]. destruct (file_head ms l BG F) as [NB|(u & EU & NB)].
    - apply (modal_any InLine); [|exact MD]. intros [X|[X|[]]]; apply NB; fold src; unfold blank; rewrite <- X; auto.
    - fold src in EU. clear - MD EU. rewrite EU in MD |- *. change (txt " " ++ u) with (32 :: u) in *. inversion MD; subst; [apply md_space; assumption|].
      exfalso. match goal with H : solid_head ?w, E : ?w ++ _ = 32 :: _ |- _ => destruct H as (c & v & -> & NB2); injection E as E _; apply NB2; left; auto end. }
  assert (NM : Forall (fun k => t_type k <> Tok_Preprocess_Macro_Expr) toks). { apply (kinds_tokens src toks _ (fun k => k <> Tok_Preprocess_Macro_Expr) (at_spells src _ _ _ _ (m_at src _ _ _ _ _ A))); [discriminate|]. eapply writes_kinds; exact WS. }
  pose proof (file_members src ms beyond Q ODD l [] toks F A PO OL NO NM) as MB.
  assert (RD : ready src beyond ms e gl fuel h toks).
  { split; [|split; [|split; [exact W|split; [exact OWN|]]]].
    - split; auto. split; auto. split; auto. split; auto. rewrite app_nil_r. split; [lia|]. exists ms. exact L.
    - intros ms' L'. rewrite L in L'. injection L' as <-. exact PS.
    - destruct Q as (a & b & r & -> & _). cbn [length]. lia. }
  destruct (c63_global_body_partial src beyond ms e gl fuel h toks l RD MB) as (h' & c & l' & K1 & K2 & K3 & K4 & K5). rewrite (likes_same l l' F K3) in K2. exists h', c. auto.
Qed.
End W.
