(** A file that was written, as the members of a body. *)
From Coq Require Import String ZArith List Bool Lia ZifyBool ZifyNat.
From Verif Require Import Common HashModel Text EnumModel EnumSpec LexModel LexSpec LexProofs StripSpec AstModel AstSpec SerSpec RelexSpec RelexProofs RelexProofs2 RelexProofs3 RelexProofs4 RelexProofs5 RelexProofs6
  ParseSpec FnSpec GlobalSpec RoundSpec RoundProofs RoundProofs2 RoundProofs3 RoundProofs4 RoundProofs5 RoundProofs6 RoundProofs7 RoundProofs8 FileSpec FileNestSpec FileProofs FileProofs2.
Import ListNotations.
Close Scope string_scope.
Open Scope Z_scope.

Section P.
Variable src : list Z.
Variable ms : macros.
Notation spells := (spells src).
Notation lx := (lexed_as ms).
Notation at_ := (at_ src).
Notation at_m := (at_m src).
Notation file_lexemes := (flat_map (tokens lx)).
Variable beyond : list token.
Hypothesis QUIET : quiet beyond.
Notation no_macro := (Forall (fun k => t_type k <> Tok_Preprocess_Macro_Expr)).

Lemma first_spec_kind s : In s first_specifiers -> exists e l, RelexSpec.spec_tokens s = e :: l /\
  In (snd e) [Tok_Spec_Consteval; Tok_Spec_Constexpr; Tok_Spec_Constinit; Tok_Spec_Extern; Tok_Spec_ForceInline; Tok_Spec_Global; Tok_Spec_Inline; Tok_Spec_Internal_Linkage; Tok_Spec_NeverInline; Tok_Spec_Static].
Proof.
  intros HI. cbn [In first_specifiers] in HI. destruct HI as [<- |[<- |[<- |[<- |[<- |[<- |[]]]]]]]; eexists _, _; (split; [vm_compute; reflexivity|vm_compute; auto 12]).
Qed.
Lemma file_global s : In s file_specifiers -> In s global_specifiers.
Proof. unfold file_specifiers, first_specifiers. cbn [app In]. intros H. vm_compute in H. vm_compute. tauto. Qed.
Lemma tame_not_paren k : tame k -> k <> Tok_Paren_Open.
Proof. intros T ->. discriminate T. Qed.

Lemma paren_init ini rest value bits o r : initial src ini rest value bits -> ini = o :: r -> t_type o = Tok_Paren_Open -> exists v, value = InitParen v.
Proof.
  assert (G : forall g x more, gap g -> g ++ x :: more = o :: r -> t_type o = Tok_Paren_Open -> t_type x = Tok_Paren_Open).
  { intros g x more GP E K. destruct g as [|z g]; cbn [app] in E; injection E as E _; rewrite E in *; auto. apply Forall_inv in GP. unfold fmt in GP. rewrite K in GP. destruct GP as [X|X]; discriminate X. }
  destruct 1; intros E K; try (eexists; reflexivity); try discriminate E.
  all: exfalso; match goal with GP : gap ?g, E : ?g ++ ?x :: ?m = _ :: _ |- _ => specialize (G g x m GP E K) end.
  all: match goal with H : assigns _ |- _ => destruct H as (H & _); unfold kind in H; rewrite H in G; discriminate G | H : kind ?c ?x |- _ => unfold kind in H; rewrite H in G; discriminate G end.
Qed.
Lemma class_spec_kind s : In s first_specifiers -> In s class_specifiers -> exists e l, RelexSpec.spec_tokens s = e :: l /\
  In (snd e) [Tok_Spec_Consteval; Tok_Spec_Constexpr; Tok_Spec_Constinit; Tok_Spec_Explicit; Tok_Spec_ForceInline; Tok_Spec_Inline;
              Tok_Spec_Mutable; Tok_Spec_NeverInline; Tok_Spec_Static; Tok_Spec_Virtual; Tok_Spec_Volatile].
Proof.
  intros HI HC. unfold first_specifiers in HI. cbn [In] in HI. destruct HI as [<- |[<- |[<- |[<- |[<- |[<- |[]]]]]]]; try (exfalso; vm_compute in HC; intuition discriminate); eexists _, _; (split; [vm_compute; reflexivity|vm_compute; auto 14]).
Qed.
Lemma starts_specs inside s r k : In s first_specifiers -> (inside = true -> In s class_specifiers) -> (forall e l, RelexSpec.spec_tokens s = e :: l -> t_type k = snd e) -> starts inside None (s :: r) k.
Proof.
  intros HI HC E. unfold starts. destruct inside.
  - destruct (class_spec_kind s HI (HC eq_refl)) as (e & l & ET & K). rewrite (E e l ET). exact K.
  - destruct (first_spec_kind s HI) as (e & l & ET & K). rewrite (E e l ET). exact K.
Qed.
Lemma variable_declared inside specs y name sizes bits value cmt p toks rest lr :
  let t := Var false None specs y name sizes bits value cmt in
  plain ms t -> class_specs inside specs -> begins ms specs y -> (forall v, value <> InitParen v) -> at_ p (render t ++ rest) toks (tokens lx t ++ lr) -> Forall (positioned src) toks ->
  no_outside (tokens lx t ++ lr) -> well_ended (tokens lx t ++ lr) -> no_macro toks ->
  exists raw R, toks = raw ++ R /\ at_m Fresh (p ++ render t) rest R lr /\ (cmt = None -> closed raw (p ++ render t)) /\
    (ended cmt raw (R ++ beyond) -> declared src beyond inside raw R t).
Proof.
  intros t P CS B NP A PO NO WE NM. pose proof A as A0. assert (FH : ~ blank (hd 0 (render t ++ rest))) by (apply (member_head ms); [apply fm_variable; auto|discriminate|reflexivity]).
  inversion P as [| | | |? ? ? ? ? ? ? ? OS PT N FS OB OV X1 X2 OC| | | |]; subst.
  destruct (variable_parts src ms false specs y name sizes bits value cmt rest lr p toks OS PT N FS OB OV X1 X2 OC A PO) as (ex & pre & sp & ty_ & k & sz & ini & semi_ & more & R & -> & EX & ST & FV & CAP & ES & TT & T1 & K3 & KN & NN & AS & IN & IF & SK & SE & MO & A7 & (q1 & u1 & AT) & (q2 & u2 & AN)).
  destruct EX as [(_ & ->)|(X & _)]; [|discriminate X]. cbn [app] in *. destruct B as (NT & B). destruct (T1 NT) as (y1 & yr & -> & KY & _). clear T1.
  set (tail_ := semi_ :: more) in *. set (raw := pre ++ (y1 :: yr) ++ k :: sz ++ ini ++ tail_).
  assert (RAW : raw = (pre ++ (y1 :: yr) ++ k :: sz ++ ini) ++ semi_ :: more) by (unfold raw; repeat (cbn [app]; rewrite <- app_assoc); auto).
  assert (E0 : pre ++ y1 :: yr ++ k :: sz ++ ini ++ semi_ :: more ++ R = raw ++ R) by (unfold raw, tail_; repeat (cbn [app]; rewrite <- app_assoc); auto).
  assert (EB : (y1 :: yr) ++ k :: sz ++ ini ++ tail_ ++ R = y1 :: yr ++ k :: sz ++ ini ++ semi_ :: more ++ R) by reflexivity.
  exists raw, R. split; [exact E0|]. split; [exact A7|]. split; [intros NC; destruct (MO NC) as (-> & q & SQ & EQ); rewrite RAW; eexists _, semi_, q; split; [reflexivity|split; [exact SQ|exact EQ]]|].
  intros EN. destruct (front_ok src sz ini semi_ more SK IF) as (F1 & F2).
  set (L1 := typ_tokens lx y ++ lx name ++ (sizes_tokens lx sizes ++ (tko bits (fun b => tk ":" :: lx b) ++ init_tokens lx value) ++ end_tokens lx cmt) ++ lr) in *.
  assert (EL : tokens lx t ++ lr = tko specs (flat_map RelexSpec.spec_tokens) ++ L1) by (unfold t, L1; cbn [tokens tks tko app]; repeat (rewrite <- ?app_assoc; cbn [app]); reflexivity).
  rewrite EL in NO, WE. apply suffix_outside in NO. apply suffix_ended in WE.
  assert (TM : Forall (fun k => tame (t_type k)) (y1 :: yr)). { apply (seg_all tame (y1 :: yr) (typ_tokens lx y)); [exact (seg_kinds src _ _ _ _ _ _ _ _ AT AN)|reflexivity|apply type_tame; auto]. }
  assert (ND : no_operator ((y1 :: yr) ++ [k])). { apply Forall_app. split; [eapply Forall_impl; [|exact TM]; cbv beta; intros a T Q; rewrite Q in T; discriminate T|]. constructor; [|constructor]. unfold kind in K3. rewrite K3. discriminate. }
  assert (UA : unambiguous src inside ((y1 :: yr) ++ k :: sz ++ ini ++ tail_ ++ R)).
  { pose proof (at_spells src _ _ _ _ AT) as F. assert (N1 : t_type y1 <> Tok_Paren_Open) by (apply tame_not_paren, (Forall_inv TM)). destruct inside; cbn [unambiguous].
    - destruct yr as [|y2 yr]; cbn [app]; eexists _, _, _; (split; [reflexivity|]); [unfold kind in K3; rewrite K3; discriminate|apply tame_not_paren, (Forall_inv (Forall_inv_tail TM))].
    - destruct yr as [|y2 yr]; cbn [app] in *.
      + eapply calm_ok; [exact F|exact NO|exact WE|exact N1|]. unfold kind in K3. rewrite K3. discriminate.
      + eapply calm_ok; [exact F|exact NO|exact WE|exact N1|]. apply tame_not_paren, (Forall_inv (Forall_inv_tail TM)). }
  assert (N3 : next_three (sz ++ ini ++ tail_ ++ R ++ beyond) decides_variable).
  { assert (G : Forall (fun k => t_type k <> Tok_Preprocess_Macro_Expr) (sz ++ ini ++ semi_ :: more ++ R)). { clear - NM. apply Forall_app in NM. destruct NM as (_ & NM). apply Forall_inv_tail, Forall_app in NM. destruct NM as (_ & NM). apply Forall_inv_tail in NM. exact NM. }
    destruct QUIET as (qa & qb & qr & -> & _ & NQ). assert (O : exists o l, sz ++ ini ++ tail_ ++ R = o :: l /\ ~ fmt o /\ t_type o <> Tok_Paren_Open).
    { destruct IF as ([-> |(o & r & -> & KO)] & IO); cbn [app].
      - destruct IO as [-> |(o & r & -> & KO)]; cbn [app].
        + exists semi_, (more ++ R). split; [reflexivity|]. unfold kind in SK. unfold fmt. rewrite SK. split; [intros [X|X]; discriminate X|discriminate].
        + exists o, (r ++ tail_ ++ R). split; [reflexivity|]. destruct KO as [[KO|[KO|[]]]|(KO & _)].
          * unfold fmt. rewrite <- KO. split; [intros [X|X]; discriminate X|discriminate].
          * exfalso. destruct (paren_init _ _ _ _ _ _ IN eq_refl (eq_sym KO)) as (v & EV). exact (NP v EV).
          * unfold fmt. rewrite KO. split; [intros [X|X]; discriminate X|discriminate].
      - exists o, (r ++ ini ++ tail_ ++ R). split; [reflexivity|]. unfold kind in KO. unfold fmt. rewrite KO. split; [intros [X|X]; discriminate X|discriminate]. }
    destruct O as (o & l & EO & NF & NPO). unfold tail_ in EO. cbn [app] in EO. rewrite EO in G. apply Forall_inv_tail in G.
    assert (EO' : sz ++ ini ++ tail_ ++ R ++ qa :: qb :: qr = o :: l ++ qa :: qb :: qr) by (unfold tail_; change (o :: l ++ qa :: qb :: qr) with ((o :: l) ++ qa :: qb :: qr); rewrite <- EO; repeat (rewrite <- ?app_assoc; cbn [app]); reflexivity).
    rewrite EO'. destruct l as [|a [|b l]]; cbn [app].
    - exists [], o, qa, qb, qr. split; [reflexivity|]. split; [constructor|]. split; [exact NF|]. left. auto.
    - exists [], o, a, qa, (qb :: qr). split; [reflexivity|]. split; [constructor|]. split; [exact NF|]. left. split; [exact NPO|apply (Forall_inv G)].
    - exists [], o, a, b, (l ++ qa :: qb :: qr). split; [reflexivity|]. split; [constructor|]. split; [exact NF|]. left. split; [exact NPO|apply (Forall_inv G)]. }
  assert (VE : variable_end src tail_ R cmt).
  { rewrite RAW in EN. apply ended_last in EN. destruct cmt as [c|]; [left; specialize (SE [] I); rewrite app_nil_r in SE; exact SE|]. destruct (MO eq_refl) as (-> & _). destruct R as [|n r].
    - right. split; [reflexivity|]. split; [reflexivity|]. exists [], semi_. split; [reflexivity|]. split; [constructor|exact SK].
    - left. specialize (SE []). rewrite app_nil_r in SE. apply SE. destruct EN as (n' & r' & E & H). cbn [app] in E. injection E as <- _. exists n, r. split; [reflexivity|exact H]. }
  assert (SP : exists k0 raw0, raw = k0 :: raw0) by (unfold raw; destruct pre; eexists _, _; reflexivity). destruct SP as (k0 & raw0 & SP). rewrite SP.
  assert (SA : starts inside None sp k0 /\ Forall (fun s => In s (specifiers_in inside)) sp).
  { assert (A1 : at_ p (render t ++ rest) ((k0 :: raw0) ++ R) (tko specs (flat_map RelexSpec.spec_tokens) ++ L1)) by (rewrite <- SP, <- E0, <- EL; exact A0). clear A0. rename A1 into A0. cbn [app] in A0. destruct specs as [sl|]; cbn [tko] in A0.
    - destruct B as (FF & s & r & -> & HI). assert (SPE : sp = s :: r) by (destruct sp as [|s0 sp]; [discriminate ES|cbn [ParseSpec.some_specs] in ES; congruence]). rewrite SPE. split.
      + apply starts_specs; [exact HI|intros EI; apply (Forall_inv (CS EI))|]. intros e l ETK. cbn [flat_map] in A0. rewrite ETK in A0. cbn [app] in A0. apply (at_first src _ _ _ _ _ _ A0 FH).
      + destruct inside; cbn [specifiers_in]; [exact (CS eq_refl)|eapply Forall_impl; [|exact FF]; apply file_global].
    - assert (SPE : sp = []) by (destruct sp; [reflexivity|discriminate ES]). rewrite SPE. split; [|constructor].
      cbn [app] in A0. unfold L1, typ_tokens in A0. destruct PT as (EA & _ & (l & ((W & NE & _) & _) & _) & _). rewrite EA, NT in A0. cbn [tko app] in A0. rewrite (lx_ok ms _ _ W NE) in A0. destruct l as [|e l]; [contradiction|]. cbn [app] in A0.
      specialize (B e l W). rewrite <- (at_first src _ _ _ _ _ _ A0 FH) in B. unfold starts. revert B. unfold first_types. cbn [In]. tauto. }
  destruct SA as (SA & FG).
  pose proof (dc_variable src beyond inside [] None pre sp [] (y1 :: yr) y [] [k] name sz sizes ini value bits tail_ R cmt k0 raw0) as G. cbn [app] in G. unfold t. rewrite ES. apply G; auto; try exact (Forall_nil _); clear G.
  - reflexivity.
  - intros k' r' E. injection E as <- _. destruct KY as [KY|KY]; [unfold kind in KY; unfold fmt; rewrite KY; intros [X|X]; discriminate X|unfold native in KY; unfold fmt, Tok_Type_Unsigned, Tok_Type_MS_W64, Tok_NewLine, Tok_Comment in *; lia].
  - apply TT. eapply simple_follows; [|exact K3]. reflexivity.
  - apply PT.
  - rewrite <- KN. apply (nm src k [] []); [exact K3|left; auto|constructor].
Qed.
End P.
