(** Members of a file: how their text begins and their lexemes end; variables as global declarations. *)
From Coq Require Import String ZArith List Bool Lia ZifyBool ZifyNat.
From Verif Require Import Common HashModel Text EnumModel EnumSpec LexModel LexSpec LexProofs StripSpec AstModel AstSpec SerSpec RelexSpec RelexProofs RelexProofs2 RelexProofs3 RelexProofs4 RelexProofs5 RelexProofs6
  ParseSpec FnSpec GlobalSpec RoundSpec RoundProofs RoundProofs2 RoundProofs3 RoundProofs4 RoundProofs5 RoundProofs6 RoundProofs7 RoundProofs8 FileSpec FileProofs.
Import ListNotations.
Close Scope string_scope.
Open Scope Z_scope.

Section P.
Variable src : list Z.
Variable ms : macros.
Notation spells := (spells src).
Notation lx := (lexed_as ms).
Notation at_ := (at_ src).
Notation at_m := (at_m src).

(** *** the first character and the last lexeme *)
Lemma type_head y rest : plain_typ ms y -> ty_tag y = NoTag -> ~ blank (hd 0 (typ_text y ++ rest)).
Proof.
  intros (EA & _ & (l & ((_ & _ & N10 & _ & (c & u & E & N32)) & _) & _) & _) NT. unfold typ_text. rewrite EA, NT. cbn [with_ app txt]. rewrite E. cbn [app hd]. intros [X|X]; [auto|]. apply N10. rewrite E. left. exact X.
Qed.
Lemma first_spec s rest : In s first_specifiers -> ~ blank (hd 0 (spec_text s ++ rest)).
Proof.
  intros HI. assert (G : forallb (fun s => match spec_text s with c :: _ => negb (c =? 32) && negb (c =? 10) | [] => false end) first_specifiers = true) by (vm_compute; reflexivity).
  rewrite forallb_forall in G. specialize (G s HI). destruct (spec_text s) as [|c u]; [discriminate|]. cbn [app hd]. unfold blank. lia.
Qed.
(** functions with specifiers begin with a blank *)
Definition indented (t : tree) : bool := match t with Function _ (Some _) _ _ _ _ | FunctionFwd _ _ (Some _) _ _ _ _ => true | _ => false end.
Lemma member_head t rest : member ms t -> t <> NewLine -> indented t = false -> ~ blank (hd 0 (render t ++ rest)).
Proof.
  intros M NN NI. assert (D : forall c, c <> 32 -> c <> 10 -> ~ blank c) by (intros c H1 H2 [X|X]; contradiction).
  destruct M as [|c (u & -> & _)|name P|name y P|y name cmt P|specs y name sizes bits value cmt P B NP|t P SH K|name N|name cmt N OC|specs ret name ps cmt LS PR B N PW NC OC|specs ret name ps b LS PR B N PW NC BT]; try contradiction; try (apply D; discriminate).
  - cbn [render when with_ app]. destruct B as (NT & B). inversion P; subst. destruct specs as [sl|]; cbn [with_ app].
    + destruct B as (_ & s & r & -> & HI). unfold specs_text. cbn [map concat]. repeat rewrite <- app_assoc. apply first_spec. exact HI.
    + repeat rewrite <- app_assoc. apply type_head; auto.
  - destruct P; try contradiction; apply D; discriminate.
  - destruct specs; [discriminate|]. destruct B as (NT & B). cbn [render when with_ app spec_words present selects orb]. unfold sp. repeat rewrite <- app_assoc. apply type_head; auto.
  - destruct specs; [discriminate|]. destruct B as (NT & B). cbn [render when with_ app spec_words present selects orb]. unfold sp. repeat rewrite <- app_assoc. apply type_head; auto.
Qed.
Lemma first_leading s : In s first_specifiers -> leading s = true.
Proof. intros HI. assert (G : forallb leading first_specifiers = true) by (vm_compute; reflexivity). rewrite forallb_forall in G. auto. Qed.
Lemma leads l : Forall (fun s => In s first_specifiers) l -> filter leading l = l /\ filter trails l = [].
Proof.
  induction 1 as [|s l HI _ (IH1 & IH2)]; [split; reflexivity|]. pose proof (first_leading s HI) as E. unfold leading in *. cbn [filter]. rewrite E, IH1. destruct (trails s); [discriminate|]. rewrite IH2. auto.
Qed.
Lemma indented_head t rest : member ms t -> indented t = true -> exists u, render t ++ rest = txt " " ++ u /\ ~ blank (hd 0 u).
Proof.
  assert (G : forall specs more, lead_specs specs -> match specs with Some _ => True | None => False end -> exists u, spec_words leading specs ++ more = txt " " ++ u /\ ~ blank (hd 0 u)).
  { intros [sl|] more LS; [|contradiction]. intros _. destruct LS as (NE & F & _). destruct (leads sl F) as (E & _). cbn [spec_words with_]. rewrite E. destruct sl as [|s sl]; [contradiction|]. cbn [map concat]. repeat rewrite <- app_assoc. eexists. split; [reflexivity|]. apply first_spec. apply (Forall_inv F). }
  intros M NI. destruct M as [|c C|name P|name y P|y name cmt P|specs y name sizes bits value cmt P B NP|t P SH K|name N|name cmt N OC|specs ret name ps cmt LS PR B N PW NC OC|specs ret name ps b LS PR B N PW NC BT]; try discriminate NI.
  - destruct P; discriminate NI.
  - cbn [render when with_ app]. repeat rewrite <- app_assoc. apply G; auto. destruct specs; [exact I|discriminate NI].
  - cbn [render when with_ app]. repeat rewrite <- app_assoc. apply G; auto. destruct specs; [exact I|discriminate NI].
Qed.
Lemma file_head l : begun l -> Forall (member ms) l -> ~ blank (hd 0 (file_text l)) \/ exists u, file_text l = txt " " ++ u /\ ~ blank (hd 0 u).
Proof.
  intros (t & r & -> & NN) F. unfold file_text. cbn [map concat]. destruct (indented t) eqn:E; [right; apply indented_head|left; apply member_head]; auto; apply (Forall_inv F).
Qed.
Lemma end_finished a cmt : oall line_comment_text cmt -> well_ended (a ++ end_tokens lx cmt).
Proof.
  intros OC b e E. unfold end_tokens in E. destruct cmt as [c|]; cbn [tko oall app] in E.
  - rewrite (comment_lx ms c OC) in E. change [tk ";"; (c, Tok_Comment)] with ([tk ";"] ++ [(c, Tok_Comment)]) in E. rewrite app_assoc in E. apply app_inj_tail in E. destruct E as (_ & <-). right. left. reflexivity.
  - apply app_inj_tail in E. destruct E as (_ & <-). right. right. left. reflexivity.
Qed.
Lemma member_last t : member ms t -> t = NewLine \/ tokens lx t <> [] /\ well_ended (tokens lx t).
Proof.
  assert (G : forall a cmt, oall line_comment_text cmt -> a ++ end_tokens lx cmt <> [] /\ well_ended (a ++ end_tokens lx cmt)) by (intros a cmt OC; split; [destruct a; discriminate|apply end_finished; exact OC]).
  assert (G0 : forall a, a ++ [tk ";"] <> [] /\ well_ended (a ++ [tk ";"])) by (intros a; exact (G a None I)).
  assert (EQ : forall l l', l <> [] /\ well_ended l -> l' = l -> l' <> [] /\ well_ended l') by (intros l l' H ->; exact H).
  intros M. destruct M as [|c C|name P|name y P|y name cmt P|specs y name sizes bits value cmt P B NP|t P SH K|name N|name cmt N OC|specs ret name ps cmt LS PR B N PW NC OC|specs ret name ps b LS PR B N PW NC BT]; [left; auto| | | | | | | | | |]; right.
  - cbn [tokens]. rewrite (comment_lx ms c C). split; [discriminate|]. intros a e E. destruct a as [|x a]; [injection E as <-; right; left; auto|destruct a; discriminate].
  - eapply EQ; [apply (G0 ([tk "using"; tk "namespace"] ++ lx name))|cbn [tokens]; rewrite <- ?app_assoc; reflexivity].
  - destruct y as [(y & ss)|]; cbn [tokens tko].
    + eapply EQ; [apply (G0 ([tk "using"] ++ lx name ++ [tk "="] ++ typ_tokens lx y ++ sizes_tokens lx ss))|cbn [tks tko app]; repeat (rewrite <- ?app_assoc; cbn [app]); reflexivity].
    + eapply EQ; [apply (G0 ([tk "using"] ++ lx name))|cbn [tks tko app]; repeat (rewrite <- ?app_assoc; cbn [app]); rewrite ?app_nil_r; reflexivity].
  - inversion P; subst. eapply EQ; [apply (G ([tk "typedef"] ++ typ_tokens lx y ++ lx name) cmt); auto|cbn [tokens tks app]; repeat (rewrite <- ?app_assoc; cbn [app]); reflexivity].
  - inversion P; subst. eapply EQ; [apply (G (tko specs (flat_map RelexSpec.spec_tokens) ++ typ_tokens lx y ++ lx name ++ sizes_tokens lx sizes ++ tko bits (fun b => tk ":" :: lx b) ++ init_tokens lx value) cmt); auto|cbn [tokens tks tko app]; repeat (rewrite <- ?app_assoc; cbn [app]); reflexivity].
  - destruct P; try contradiction; cbn [tokens tks tko app].
    + eapply EQ; [apply (G0 ([tk "enum"] ++ lx name ++ tko ty (fun t => tk ":" :: typ_tokens lx t) ++ curly (flat_map (tokens lx) entries)))|repeat (rewrite <- ?app_assoc; cbn [app]); reflexivity].
    + eapply EQ; [apply (G0 ([tk "enum"; tk "class"] ++ lx name ++ [tk ":"] ++ typ_tokens lx ty ++ curly (flat_map (tokens lx) entries)))|repeat (rewrite <- ?app_assoc; cbn [app]); reflexivity].
    + eapply EQ; [apply (G ([tk "enum"] ++ lx name ++ tko ty (fun t => tk ":" :: typ_tokens lx t)) cmt); auto|repeat (rewrite <- ?app_assoc; cbn [app]); reflexivity].
    + eapply EQ; [apply (G ([tk "enum"; tk "class"] ++ lx name ++ [tk ":"] ++ typ_tokens lx ty) cmt); auto|repeat (rewrite <- ?app_assoc; cbn [app]); reflexivity].
  - eapply EQ; [apply (G0 ([tk "class"] ++ lx name))|cbn [tokens tks tko app]; rewrite ?app_nil_r; repeat (rewrite <- ?app_assoc; cbn [app]); reflexivity].
  - eapply EQ; [apply (G ([tk "struct"] ++ lx name) cmt); auto|cbn [tokens tks tko app]; repeat (rewrite <- ?app_assoc; cbn [app]); reflexivity].
  - eapply EQ; [apply (G (RelexSpec.some_specs leading specs ++ typ_tokens lx ret ++ lx name ++ parens (RelexSpec.params_tokens lx ps) ++ RelexSpec.some_specs trails specs) cmt); auto|cbn [tokens tks tko app]; repeat (rewrite <- ?app_assoc; cbn [app]); reflexivity].
  - set (a := RelexSpec.some_specs leading specs ++ typ_tokens lx ret ++ lx name ++ parens (RelexSpec.params_tokens lx ps) ++ RelexSpec.some_specs trails specs ++ tk "{" :: flat_map (tokens lx) [Raw b]).
    assert (E : tokens lx (Function None specs (Some ret) name ps [Raw b]) = a ++ [tk "}"]) by (unfold a, curly; cbn [tokens tks tko app]; repeat (rewrite <- ?app_assoc; cbn [app]); reflexivity).
    rewrite E. split; [destruct a; discriminate|]. intros q e Q. apply app_inj_tail in Q. destruct Q as (_ & <-). right. right. right. reflexivity.
Qed.
Notation file_lexemes := (flat_map (tokens lx)).
Lemma well_ended_app a b : (b = [] -> well_ended a) -> well_ended b -> well_ended (a ++ b).
Proof.
  intros A B p e E. destruct b as [|x b]; [rewrite app_nil_r in E; exact (A eq_refl p e E)|]. destruct (exists_last (l := x :: b)) as (q & k & Q); [discriminate|]. rewrite Q in *. rewrite app_assoc in E. apply app_inj_tail in E. destruct E as (_ & <-). exact (B q k eq_refl).
Qed.
Lemma nil_ended : well_ended []. Proof. intros a e E. destruct a; discriminate. Qed.
Lemma file_ended l : Forall (member ms) l -> well_ended (file_lexemes l).
Proof.
  induction 1 as [|t l M _ IH]; cbn [flat_map]; [apply nil_ended|]. apply well_ended_app; auto. intros _. destruct (member_last t M) as [-> |(_ & W)]; [apply nil_ended|exact W].
Qed.
Lemma suffix_ended a b : well_ended (a ++ b) -> well_ended b.
Proof. intros W p e ->. apply (W (a ++ p)). apply app_assoc. Qed.
Lemma suffix_outside a b : no_outside (a ++ b) -> no_outside b.
Proof. intros N p q n o r -> H1 H2. apply (N (a ++ p) q n o r); auto. rewrite <- app_assoc. auto. Qed.
End P.
