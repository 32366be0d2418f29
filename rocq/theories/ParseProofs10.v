(** The flags of the tokens the lexer makes. *)
From Coq Require Import String ZArith List Bool Lia ZifyBool ZifyNat.
From Verif Require Import Common Text HashModel StrOpsModel EnumModel EnumSpec LexModel NavModel ParseSpec.
Import ListNotations.
Close Scope string_scope.
Open Scope Z_scope.

Definition sat {A} (r : run A) (P : A -> Prop) : Prop := forall a, r = Done a -> P a.
Lemma sat_done : forall A (a : A) (P : A -> Prop), P a -> sat (Done a) P.
Proof. intros A a P H b E. injection E as <-. exact H. Qed.
Lemma sat_bind : forall A B (r : run A) (f : A -> run B) (P : A -> Prop) (Q : B -> Prop), sat r P -> (forall a, P a -> sat (f a) Q) -> sat (rbind r f) Q.
Proof. intros A B r f P Q H K b E. destruct r; cbn [rbind] in E; try discriminate E. eapply K; [apply H; reflexivity|exact E]. Qed.
Lemma sat_any : forall A (r : run A), sat r (fun _ => True). Proof. intros A r a _. exact I. Qed.
Lemma sat_undef : forall A (P : A -> Prop), sat Undefined P. Proof. intros A P a E. discriminate E. Qed.
Lemma sat_nofuel : forall A (P : A -> Prop), sat NoFuel P. Proof. intros A P a E. discriminate E. Qed.

Definition is_spec (t : Z) : bool := ((Tok_Spec_Alignas <=? t) && (t <=? Tok_Star)) || (t =? Tok_Ampersand) || (t =? Tok_Ampersand_DBL).
Definition is_macro (t : Z) : bool := (t =? Tok_Preprocess_Macro_Expr) || (t =? Tok_Preprocess_Macro_Stmt) || (t =? Tok_Preprocess_Macro_Typename).
Definition fitb (t f : Z) : bool :=
  is_macro t ||
  (Bool.eqb (bitfield_is_set f TF_Specifier) (is_spec t) && (negb (bitfield_is_set f TF_Attribute) || (t =? Tok_Attribute_GEN_API)) &&
   (negb (bitfield_is_set f TF_Assign) || (t =? Tok_Operator) || (t =? Tok_Star)) &&
   (negb (bitfield_is_set f TF_Identifier) || (t =? Tok_Preprocess_Define) || (t =? Tok_Preprocess_Include)) &&
   Bool.eqb (bitfield_is_set f TF_AccessSpecifier) ((Tok_Access_Private <=? t) && (t <=? Tok_Access_Public))).
Lemma fitb_ok : forall k, fitb (t_type k) (t_flags k) = true -> flags_fit k.
Proof.
  intros k H. unfold fitb in H. apply orb_true_iff in H. destruct H as [H|H].
  - left. unfold is_macro in H. unfold macro_kind. cbn [In]. lia.
  - right. rewrite !andb_true_iff in H. destruct H as ((((H1 & H2) & H3) & H4) & H5). apply eqb_prop in H1, H5. unfold flagged.
    assert (Q : forall m, bitfield_is_set (t_flags k) m = true <-> Z.land m (t_flags k) = m) by (intros m; unfold bitfield_is_set; lia).
    split; [rewrite <- Q, H1; unfold is_spec, spec_kind; lia|]. split; [|split; [|split]]; rewrite <- Q; [intros X; rewrite X in *; cbn [negb orb] in *; lia..|]. rewrite H5. lia.
Qed.
Definition fine (s : lx) : Prop := Forall flags_fit (l_toks s) /\ Forall macro_fits (l_macros s).
Definition looks (t f : Z) (s : lx) : Prop := fine s /\ t_type (l_tok s) = t /\ t_flags (l_tok s) = f.

Lemma range_of : forall w, 0 <= str_to_toktype w < Tok_NumTokens.
Proof.
  assert (G : forall l i h, 0 <= i -> i + Z.of_nat (length l) <= Tok_NumTokens -> 0 <= hash_find l i h < Tok_NumTokens).
  { induction l as [|x l IH]; intros i h A B; [cbn; unfold Tok_NumTokens; lia|]. cbn [hash_find length] in *. destruct (_ =? _); [lia|]. apply IH; lia. }
  intros w. apply G; [lia|]. vm_compute. discriminate.
Qed.

Section L.
Variable src : list Z.
Variable fuel : nat.
Lemma move_sat : forall t f s, looks t f s -> sat (move_forward src s) (looks t f).
Proof. intros t f s L. unfold move_forward. eapply sat_bind; [apply sat_any|]. intros c _. apply sat_done. destruct (c =? 10); exact L. Qed.
Lemma fmove_sat : forall s, fine s -> sat (move_forward src s) fine.
Proof. intros s L. unfold move_forward. eapply sat_bind; [apply sat_any|]. intros c _. apply sat_done. destruct (c =? 10); exact L. Qed.
Lemma take_sat : forall t f s, looks t f s -> sat (take src s) (looks t f).
Proof. intros t f s L. unfold take. eapply sat_bind; [apply move_sat; exact L|]. intros s' L'. apply sat_done. exact L'. Qed.
Lemma while_sat : forall (P : lx -> Prop) p body, (forall s, P s -> sat (body s) P) -> forall n s, P s -> sat (while_left src n p body s) P.
Proof.
  intros P p body B. induction n as [|n IH]; intros s H; cbn [while_left]; (destruct (left src s =? 0); [apply sat_done; exact H|]); (eapply sat_bind; [apply sat_any|]); intros c _; (destruct (p c); [|apply sat_done; exact H]); [apply sat_nofuel|].
  eapply sat_bind; [apply B; exact H|]. intros s' H'. apply IH. exact H'.
Qed.
Lemma if_sat : forall (P : lx -> Prop) c g s, P s -> (forall s, P s -> sat (g s) P) -> sat (if_cur src c g s) P.
Proof. intros P c g s H G. unfold if_cur. eapply sat_bind; [apply sat_any|]. intros x _. destruct (x =? c); [apply G; exact H|apply sat_done; exact H]. Qed.
Lemma mil_sat : forall t f s, looks t f s -> sat (move_if_left src s) (looks t f).
Proof. intros t f s L. unfold move_if_left. destruct (left src s =? 0); [apply sat_done; exact L|apply move_sat; exact L]. Qed.
Lemma skip_sat : forall t f s, looks t f s -> sat (skip_whitespace src fuel s) (looks t f).
Proof. intros t f s L. apply while_sat; [|exact L]. intros x. apply move_sat. Qed.
Lemma fskip_sat : forall s, fine s -> sat (skip_whitespace src fuel s) fine.
Proof. intros s L. apply while_sat; [|exact L]. intros x. apply fmove_sat. Qed.
Lemma end_line_sat : forall t f s, looks t f s -> sat (end_line src fuel s) (looks t f).
Proof.
  intros t f s L. unfold end_line. eapply sat_bind; [apply (while_sat (looks t f)); [intros x; apply move_sat|exact L]|]. intros s1 L1. destruct (left src s1 =? 0); [apply sat_done; exact L1|]. eapply sat_bind; [apply sat_any|]. intros c _.
  destruct (c =? 13); [eapply sat_bind; [apply move_sat; exact L1|]; intros s2 L2; apply move_sat; exact L2|]. destruct (c =? 10); [apply move_sat; exact L1|apply sat_done; exact L1].
Qed.
Lemma grow_sat : forall p n s len, fine s -> sat (grow_while src n p s len) (fun r => fine (fst r)).
Proof.
  intros p. induction n as [|n IH]; intros s len H; cbn [grow_while]; (destruct (left src s =? 0); [apply sat_done; exact H|]); (eapply sat_bind; [apply sat_any|]); intros c _; (destruct (p c); [|apply sat_done; exact H]); [apply sat_nofuel|].
  eapply sat_bind; [apply fmove_sat; exact H|]. intros s' H'. apply IH. exact H'.
Qed.
Lemma back_sat : forall n s, fine s -> sat (skip_backslashes src fuel n s) fine.
Proof.
  induction n as [|n IH]; intros s H; cbn [skip_backslashes]; (eapply sat_bind; [apply sat_any|]); intros c _; (destruct (c =? 92); [|apply sat_done; exact H]); [apply sat_nofuel|].
  eapply sat_bind; [apply fmove_sat; exact H|]. intros s1 H1. eapply sat_bind; [apply fskip_sat; exact H1|]. intros s2 H2. apply IH. exact H2.
Qed.
Lemma append_fine : forall k s, fine s -> fitb (t_type k) (t_flags k) = true -> fine (append k s).
Proof. intros k s (A & B) F. split; [|exact B]. cbn [append l_toks]. apply Forall_app. split; [exact A|]. constructor; [apply fitb_ok; exact F|constructor]. Qed.
Lemma tok_fine : forall t f s, looks t f s -> fitb t f = true -> looks t f (append_tok s).
Proof. intros t f s (A & T & F) H. split; [|split; assumption]. unfold append_tok. apply append_fine; [exact A|rewrite T, F; exact H]. Qed.
Lemma params_sat : forall n s, fine s -> sat (define_params src fuel n s) (fun r => fine (fst r)).
Proof.
  induction n as [|n IH]; intros s H; cbn [define_params]; (destruct (left src s =? 0); [apply sat_done; exact H|]); (eapply sat_bind; [apply sat_any|]); intros c _; (destruct (c =? 41); [apply sat_done; exact H|]); [apply sat_nofuel|].
  eapply sat_bind; [apply fskip_sat; exact H|]. intros s1 H1. eapply sat_bind; [apply sat_any|]. intros c1 _. destruct (_ && _).
  - do 3 (eapply sat_bind; [apply fmove_sat; eassumption|]; intros). eapply sat_bind; [apply fskip_sat; apply append_fine; [eassumption|reflexivity]|]. intros. eapply sat_bind; [apply back_sat; eassumption|]. intros. eapply sat_bind; [apply sat_any|]. intros. apply sat_done. assumption.
  - destruct (c1 =? 92); [|destruct (is_word_start c1); [|apply sat_done; exact H1]].
    + eapply sat_bind; [apply fmove_sat; exact H1|]. intros. eapply sat_bind; [apply fskip_sat; eassumption|]. intros. apply IH. assumption.
    + eapply sat_bind; [apply fmove_sat; exact H1|]. intros s2 H2. eapply sat_bind; [apply grow_sat; exact H2|]. intros (s3 & len) H3. cbn [fst] in H3. eapply sat_bind; [apply fskip_sat; apply append_fine; [exact H3|reflexivity]|]. intros s4 H4.
      eapply sat_bind; [apply sat_any|]. intros c4 _. destruct (c4 =? 41); [apply sat_done; exact H4|]. destruct (negb (c4 =? 44)); [apply sat_done; exact H4|]. eapply sat_bind; [apply fmove_sat; apply append_fine; [exact H4|reflexivity]|]. intros s5 H5. apply IH. exact H5.
Qed.
Lemma define_sat : forall s, fine s -> sat (lex_preprocessor_define src fuel s) (fun r => fine (fst r)).
Proof.
  intros s H. unfold lex_preprocessor_define. eapply sat_bind; [apply fmove_sat; exact H|]. intros s1 H1. eapply sat_bind; [apply grow_sat; exact H1|]. intros (s2 & len) H2. cbn [fst] in H2.
  set (s3 := append _ s2). assert (H3 : fine s3) by (apply append_fine; [exact H2|reflexivity]).
  eapply sat_bind with (P := fun r : lx * Z * flow => fine (fst (fst r))).
  - destruct (left src s3 =? 0); [apply sat_done; exact H3|]. eapply sat_bind; [apply sat_any|]. intros c _. destruct (c =? 40); [|apply sat_done; exact H3].
    eapply sat_bind; [apply fmove_sat; apply append_fine; [exact H3|reflexivity]|]. intros s4 H4. eapply sat_bind; [apply params_sat; exact H4|]. intros (s5 & r) H5. cbn [fst] in H5. destruct r; [|apply sat_done; exact H5].
    eapply sat_bind; [apply sat_any|]. intros c5 _. destruct (negb (c5 =? 41)); [apply sat_done; exact H5|]. eapply sat_bind; [apply fmove_sat; apply append_fine; [exact H5|reflexivity]|]. intros s6 H6. apply sat_done. exact H6.
  - intros ((s4 & fl) & r) H4. cbn [fst] in H4. destruct r; [|apply sat_done; exact H4]. apply sat_done. cbn [fst]. destruct (lookup_macro _ _); [exact H4|]. destruct H4 as (A & B). split; [exact A|]. cbn [with_macros l_macros]. constructor; [unfold macro_fits; cbn; lia|exact B].
Qed.
Lemma unsupported_sat : forall t f n a b s, looks t f s -> sat (unsupported src n a b s) (looks t f).
Proof.
  intros t f. induction n as [|n IH]; intros a b s H; cbn [unsupported]; (destruct (left src s =? 0); [apply sat_done; exact H|]); [apply sat_nofuel|]. eapply sat_bind; [apply sat_any|]. intros c _. cbv zeta. destruct (_ && _ && _).
  - eapply sat_bind; [apply take_sat; exact H|]. intros s1 H1. eapply sat_bind; [apply if_sat; [exact H1|intros; apply take_sat; assumption]|]. intros s2 H2. eapply sat_bind; [apply sat_any|]. intros c2 _. destruct (c2 =? 10); [|apply sat_done; exact H2]. eapply sat_bind; [apply take_sat; exact H2|]. intros s3 H3. apply IH. exact H3.
  - eapply sat_bind; [apply if_sat; [exact H|intros; apply take_sat; assumption]|]. intros s2 H2. eapply sat_bind; [apply sat_any|]. intros c2 _. destruct (c2 =? 10); [apply take_sat; exact H2|]. eapply sat_bind; [apply take_sat; exact H2|]. intros s3 H3. apply IH. exact H3.
Qed.
Lemma content_sat : forall n a b s len, fine s -> sat (content src n a b s len) (fun r => fine (fst (fst r))).
Proof.
  induction n as [|n IH]; intros a b s len H; cbn [content]; (destruct (left src s =? 0); [apply sat_done; exact H|]); [apply sat_nofuel|]. eapply sat_bind; [apply sat_any|]. intros c _. cbv zeta. destruct (_ && _ && _).
  - eapply sat_bind; [apply fmove_sat; exact H|]. intros s1 H1. eapply sat_bind; [apply sat_any|]. intros c1 _. eapply sat_bind with (P := fun r : lx * Z => fine (fst r)).
    { destruct (c1 =? 13); [eapply sat_bind; [apply fmove_sat; exact H1|]; intros; apply sat_done; assumption|apply sat_done; exact H1]. }
    intros (s2 & len2) H2. cbn [fst] in H2. eapply sat_bind; [apply sat_any|]. intros c2 _. destruct (c2 =? 10); [|apply sat_done; exact H2]. eapply sat_bind; [apply fmove_sat; exact H2|]. intros s3 H3. apply IH. exact H3.
  - destruct (c =? 13); [apply sat_done; exact H|]. destruct (c =? 10); [apply sat_done; exact H|]. eapply sat_bind; [apply fmove_sat; exact H|]. intros s3 H3. apply IH. exact H3.
Qed.
Lemma directive_sat : forall s, looks Tok_Invalid TF_Null s -> sat (lex_preprocessor_directive src fuel s) (fun r => fine (fst r)).
Proof.
  intros s (H & T & F). unfold lex_preprocessor_directive. set (s1 := append _ s). assert (L1 : looks Tok_Invalid TF_Null s1) by (split; [apply append_fine; [exact H|reflexivity]|split; assumption]).
  eapply sat_bind; [apply move_sat; exact L1|]. intros s2 L2. eapply sat_bind; [apply skip_sat; exact L2|]. intros s3 L3. cbv zeta. eapply sat_bind; [apply (while_sat (looks Tok_Invalid TF_Null)); [intros x; apply take_sat|exact L3]|]. intros s4 L4. set (w := slice _ _ _). set (type := str_to_toktype w).
  destruct (negb _) eqn:NB.
  - eapply sat_bind; [apply (unsupported_sat Tok_Preprocess_Unsupported TF_Null); destruct L4 as (A & B & C); split; [exact A|split; [reflexivity|exact C]]|]. intros s5 L5. apply sat_done. cbn [fst]. destruct L5 as (A & B & C). unfold append_tok. apply append_fine; [exact A|]. cbn [with_tok l_tok set_text t_type t_flags]. rewrite B, C. reflexivity.
  - assert (R : Tok_Preprocess_Define <= type <= Tok_Preprocess_Pragma) by lia.
    assert (FB : forall f, In f [TF_Null; TF_Preprocess_Cond] -> fitb type f = true).
    { intros f I. unfold fitb. assert (X : is_spec type = false) by (unfold is_spec, Tok_Spec_Alignas, Tok_Star, Tok_Ampersand, Tok_Ampersand_DBL, Tok_Preprocess_Define, Tok_Preprocess_Pragma in *; lia). rewrite X.
      assert (Y : ((Tok_Access_Private <=? type) && (type <=? Tok_Access_Public)) = false) by (unfold Tok_Access_Private, Tok_Access_Public, Tok_Preprocess_Define, Tok_Preprocess_Pragma in *; lia). rewrite Y. clear - I. destruct I as [<-|[<-|[]]]; generalize (is_macro type); intros [|]; reflexivity. }
    destruct L4 as (A4 & B4 & C4). destruct (_ || _).
    + eapply sat_bind with (P := fine); [|intros; apply sat_done; assumption]. intros s5 E5. pose proof (end_line_sat type TF_Preprocess_Cond) as X. eapply X; [|exact E5]. apply tok_fine; [|apply FB; right; left; reflexivity]. split; [exact A4|]. split; [reflexivity|]. cbn [with_tok l_tok or_flags set_flags t_flags set_type]. rewrite C4. reflexivity.
    + set (s5 := if _ && _ then _ else _). assert (L5 : exists f, In f [TF_Null; TF_Preprocess_Cond] /\ looks type f s5).
      { unfold s5. destruct ((type >=? Tok_Preprocess_If) && (type <=? Tok_Preprocess_ElIf)); [exists TF_Preprocess_Cond|exists TF_Null]; (split; [cbn; auto|]); (split; [exact A4|]); (split; [reflexivity|]); [cbn [with_tok l_tok or_flags set_flags t_flags set_type]; rewrite C4; reflexivity|exact C4]. }
      destruct L5 as (f & IF & L5). pose proof (tok_fine _ _ _ L5 (FB f IF)) as (L6 & _). eapply sat_bind; [apply fskip_sat; exact L6|]. intros s7 H7.
      eapply sat_bind with (P := fun r : lx * flow => fine (fst r)); [destruct (_ =? _); [apply define_sat; exact H7|apply sat_done; exact H7]|]. intros (s8 & r) H8. cbn [fst] in H8. destruct r; [|apply sat_done; exact H8]. destruct (_ =? _).
      * eapply sat_bind; [apply sat_any|]. intros c _. destruct (negb (c =? 34) && negb (c =? 60)); [apply sat_done; exact H8|]. eapply sat_bind; [apply fmove_sat; exact H8|]. intros s9 H9. eapply sat_bind; [apply grow_sat; exact H9|]. intros (s10 & len) H10. cbn [fst] in H10. eapply sat_bind; [apply fmove_sat; exact H10|]. intros s11 H11.
        eapply sat_bind; [apply sat_any|]. intros c11 _. eapply sat_bind with (P := fine).
        { destruct (c11 =? 13); [|destruct (c11 =? 10); [apply fmove_sat; exact H11|apply sat_done; exact H11]]. eapply sat_bind; [apply sat_any|]. intros d _. destruct (d =? 10); [|apply sat_done; exact H11]. eapply sat_bind; [apply fmove_sat; exact H11|]. intros. apply fmove_sat. assumption. }
        intros s12 H12. apply sat_done. cbn [fst]. apply append_fine; [exact H12|reflexivity].
      * eapply sat_bind; [apply content_sat; exact H8|]. intros ((s9 & len) & r) H9. cbn [fst] in H9. destruct r; apply sat_done; [|exact H9]. cbn [fst]. apply append_fine; [exact H9|reflexivity].
Qed.
(** a token to be looked up, or a finished one *)
Definition ready (s : lx) : Prop := fine s /\ (t_type (l_tok s) = Tok_Invalid /\ t_flags (l_tok s) = TF_Null \/ t_type (l_tok s) <> Tok_Invalid /\ fitb (t_type (l_tok s)) (t_flags (l_tok s)) = true).
Definition word_flags (type : Z) : Z :=
  let f := if (type =? Tok_Preprocess_Define) || (type =? Tok_Preprocess_Include) then Z.lor TF_Null TF_Identifier else TF_Null in
  let f := if (type <=? Tok_Access_Public) && (type >=? Tok_Access_Private) then Z.lor f TF_AccessSpecifier else f in
  if type >? Tok___Attributes_Start then Z.lor f TF_Attribute else f.
Lemma word_flags_ok : forall type, 0 <= type < Tok_NumTokens ->
  (type = Tok_Decl_Extern_Linkage -> word_flags type = TF_Null) /\
  (is_spec type = true -> fitb type (Z.lor (word_flags type) TF_Specifier) = true) /\ (is_spec type = false -> fitb type (word_flags type) = true) /\
  (type = Tok_Invalid -> word_flags type = TF_Null).
Proof.
  intros type R. assert (X : forallb (fun n => let t := Z.of_nat n in (negb (t =? Tok_Decl_Extern_Linkage) || (word_flags t =? TF_Null)) && (if is_spec t then fitb t (Z.lor (word_flags t) TF_Specifier) else fitb t (word_flags t)) && (negb (t =? Tok_Invalid) || (word_flags t =? TF_Null))) (seq 0 (Z.to_nat Tok_NumTokens)) = true) by (vm_compute; reflexivity).
  rewrite forallb_forall in X. specialize (X (Z.to_nat type)). cbv zeta in X. rewrite Z2Nat.id in X by lia. rewrite !andb_true_iff in X. destruct X as ((X1 & X2) & X3); [apply in_seq; lia|]. split; [lia|]. split; [intros Y; rewrite Y in X2; exact X2|]. split; [intros Y; rewrite Y in X2; exact X2|lia].
Qed.
Lemma lookup_fits : forall ms w m, Forall macro_fits ms -> lookup_macro ms w = Some m -> 0 <= mac_type m <= 2.
Proof. intros ms w m F. induction F as [|(k, x) ms X F IH]; intros E; [discriminate E|]. cbn [lookup_macro] in E. destruct (k =? crc32 w); [injection E as <-; exact X|auto]. Qed.
Lemma found_sat : forall s, ready s -> sat (lex_found_token src fuel s) fine.
Proof.
  intros s (H & R). unfold lex_found_token. destruct (negb (t_type (l_tok s) =? Tok_Invalid)) eqn:N.
  - destruct R as [(R & _)|(_ & R)]; [rewrite R in N; discriminate N|]. apply sat_done. apply append_fine; auto.
  - destruct R as [(T & F)|(R & _)]; [|lia]. set (w := slice _ _ _). set (type := str_to_toktype w). pose proof (range_of w) as RG. fold type in RG. destruct (word_flags_ok type RG) as (W1 & W2 & W3 & W4). cbv zeta.
    set (s1 := if _ || _ then with_tok (or_flags TF_Identifier) s else s). set (s2 := if (type <=? Tok_Access_Public) && (type >=? Tok_Access_Private) then with_tok (or_flags TF_AccessSpecifier) s1 else s1). set (s3 := if type >? Tok___Attributes_Start then with_tok (or_flags TF_Attribute) s2 else s2).
    assert (L3 : looks Tok_Invalid (word_flags type) s3).
    { unfold s3, s2, s1, word_flags. cbv zeta. destruct ((type =? Tok_Preprocess_Define) || (type =? Tok_Preprocess_Include)); destruct ((type <=? Tok_Access_Public) && (type >=? Tok_Access_Private)); destruct (type >? Tok___Attributes_Start); (split; [exact H|]); (split; [exact T|]); cbn [with_tok l_tok or_flags set_flags t_flags]; rewrite F; reflexivity. }
    clearbody s3. destruct (type =? Tok_Decl_Extern_Linkage) eqn:EX.
    + rewrite W1 in L3 by lia. eapply sat_bind; [apply skip_sat; exact L3|]. intros s4 (A & B & C). eapply sat_bind; [apply sat_any|]. intros c _. apply sat_done. apply Z.eqb_eq in EX. rewrite EX.
      destruct (negb (c =? 34)); (apply append_fine; [exact A|]); cbn [with_tok l_tok set_type or_flags set_flags t_type t_flags]; rewrite C; reflexivity.
    + destruct L3 as (A & B & C). destruct (((type <=? Tok_Star) && (type >=? Tok_Spec_Alignas)) || (type =? Tok_Ampersand) || (type =? Tok_Ampersand_DBL)) eqn:SP.
      * apply sat_done. apply append_fine; [exact A|]. cbn [with_tok l_tok set_type or_flags set_flags t_type t_flags]. rewrite C. apply W2. unfold is_spec. lia.
      * assert (NS : is_spec type = false) by (unfold is_spec; lia). destruct (negb (type =? Tok_Invalid)) eqn:NI.
        { apply sat_done. apply append_fine; [exact A|]. cbn [with_tok l_tok set_type t_type t_flags]. rewrite C. apply W3. exact NS. }
        rewrite W4 in C by lia. eapply sat_bind; [apply sat_any|]. intros has_args _. apply sat_done. destruct (lookup_macro (l_macros s3) w) as [m|] eqn:LM.
        -- destruct (Bool.eqb has_args (has_bit (mac_flags m) MF_Functional)); [|apply append_fine; [exact A|cbn [with_tok l_tok set_type t_type t_flags]; rewrite C; reflexivity]].
           pose proof (lookup_fits _ _ _ (proj2 A) LM) as ML. assert (MK : is_macro (macrotype_to_toktype (mac_type m)) = true). { assert (M3 : mac_type m = 0 \/ mac_type m = 1 \/ mac_type m = 2) by lia. destruct M3 as [-> | [-> | ->]]; reflexivity. }
           cbv zeta. unfold append_tok. destruct has_args, (has_bit (mac_flags m) MF_Allow_As_Attribute), (has_bit (mac_flags m) MF_Allow_As_Specifier); (apply append_fine; [exact A|]); cbn [with_tok l_tok set_type or_flags set_flags t_type t_flags]; unfold fitb; rewrite MK; reflexivity.
        -- apply append_fine; [exact A|]. cbn [with_tok l_tok set_type t_type t_flags]. rewrite C. reflexivity.
Qed.
Lemma fresh_looks : forall s, fine s -> looks Tok_Invalid TF_Null (fresh_token s). Proof. intros s H. split; [exact H|split; reflexivity]. Qed.
Lemma newline_sat : forall s, fine s -> sat (newline_after src s) fine.
Proof.
  intros s H. unfold newline_after. eapply sat_bind; [apply (if_sat (looks Tok_Invalid TF_Null)); [apply fresh_looks; exact H|]|].
  - intros s1 L1. eapply sat_bind; [apply move_sat; exact L1|]. intros s2 L2. apply sat_done. exact L2.
  - intros s1 L1. unfold if_cur. eapply sat_bind; [apply sat_any|]. intros c _. destruct (c =? 10); [|apply sat_done; apply L1]. eapply sat_bind; [apply (move_sat Tok_NewLine TF_Null); destruct L1 as (A & B & C); split; [exact A|split; [reflexivity|exact C]]|].
    intros s2 L2. apply sat_done. destruct (tok_fine _ _ _ L2 eq_refl) as (A & _). exact A.
Qed.
Lemma repeats_sat : forall t f n s, looks t f s -> sat (repeats src n s) (looks t f).
Proof.
  intros t f. induction n as [|n IH]; intros s L; cbn [repeats]; (destruct (left src s =? 0); [apply sat_done; exact L|]); (eapply sat_bind; [apply sat_any|]); intros c _; (eapply sat_bind; [apply sat_any|]); intros d _; (destruct ((c =? d) && (t_len (l_tok s) <? 3)); [|apply sat_done; exact L]); [apply sat_nofuel|].
  eapply sat_bind; [apply mil_sat; exact L|]. intros s1 L1. apply IH. exact L1.
Qed.
Lemma block_sat : forall t f n s, looks t f s -> sat (block_comment src n s) (looks t f).
Proof.
  intros t f. induction n as [|n IH]; intros s L; cbn [block_comment]; (eapply sat_bind; [apply sat_any|]); intros a _; (eapply sat_bind; [apply sat_any|]); intros b _; (destruct ((left src s =? 0) || ((a =? 42) && (b =? 47))); [apply sat_done; exact L|]); [apply sat_nofuel|].
  eapply sat_bind; [apply take_sat; exact L|]. intros s1 L1. apply IH. exact L1.
Qed.
Lemma string_sat : forall t f n s, looks t f s -> sat (string_rest src n s) (looks t f).
Proof.
  intros t f. induction n as [|n IH]; intros s L; cbn [string_rest]; (destruct (left src s =? 0); [apply sat_done; exact L|]); (eapply sat_bind; [apply sat_any|]); intros c _; (destruct (c =? 34); [apply move_sat; exact L|]); [apply sat_nofuel|].
  destruct (c =? 92); (eapply sat_bind; [apply take_sat; exact L|]); intros s1 L1; [|apply IH; exact L1]. eapply sat_bind; [destruct (left src s1 =? 0); [apply sat_done; exact L1|apply take_sat; exact L1]|]. intros s2 L2. apply IH. exact L2.
Qed.
Lemma begin_looks : forall t f s, fine s -> looks t f (begin t f s). Proof. intros t f s H. split; [exact H|split; reflexivity]. Qed.
Lemma looks_ready : forall t f s, looks t f s -> t <> Tok_Invalid -> fitb t f = true -> ready s.
Proof. intros t f s (A & B & C) N F. split; [exact A|]. right. rewrite B, C. auto. Qed.
Definition went (r : lx * next) : Prop := match snd r with Found => ready (fst r) | Next => fine (fst r) end.
Lemma found_went : forall t f (r : run lx), sat r (looks t f) -> t <> Tok_Invalid -> fitb t f = true -> sat (rbind r (fun s => Done (s, Found))) went.
Proof. intros t f r H N F. eapply sat_bind; [exact H|]. intros s L. apply sat_done. exact (looks_ready _ _ _ L N F). Qed.
Lemma ready_went : forall (r : run lx), sat r ready -> sat (rbind r (fun s => Done (s, Found))) went.
Proof. intros r H. eapply sat_bind; [exact H|]. intros s L. apply sat_done. exact L. Qed.
Ltac lk := match goal with H : looks _ _ ?s |- looks _ _ _ => let A := fresh "A" in let B := fresh "B" in let C := fresh "C" in destruct H as (A & B & C); split; [exact A|split; cbn [with_tok l_tok set_type set_len or_flags set_flags t_type t_flags]; first [congruence|rewrite B; reflexivity|rewrite C; reflexivity]] end.
Ltac rd := match goal with H : looks _ _ ?s |- ready ?s => exact (looks_ready _ _ _ H ltac:(discriminate) eq_refl) end.
Ltac moved := first [apply sat_done; assumption | apply mil_sat | apply move_sat | apply take_sat | apply end_line_sat | apply repeats_sat | apply string_sat].
Lemma sat_weak : forall A (r : run A) (P Q : A -> Prop), sat r P -> (forall a, P a -> Q a) -> sat r Q.
Proof. intros A r P Q H K a E. apply K, H, E. Qed.
Lemma symbol_sat : forall c s r, fine s -> lex_symbol src fuel c s = Some r -> sat r went.
Proof.
  intros c s r H E. unfold lex_symbol in E. cbv zeta in E.
  assert (ONE : forall t f, t <> Tok_Invalid -> fitb t f = true -> sat (rbind (move_if_left src (begin t f s)) (fun s => Done (s, Found))) went).
  { intros t f N F. eapply found_went; [apply mil_sat, begin_looks, H|exact N|exact F]. }
  destruct (c =? 46).
  { injection E as <-. apply ready_went. eapply sat_bind; [apply mil_sat, begin_looks, H|]. intros s1 L1. unfold if_cur at 1. eapply sat_bind; [apply sat_any|]. intros x _. destruct (x =? 46); [|apply sat_done; rd]. eapply sat_bind; [apply move_sat; exact L1|]. intros s2 L2.
    unfold if_cur. eapply sat_bind; [apply sat_any|]. intros y _. destruct (y =? 46); [|apply sat_done; rd]. eapply sat_weak; [apply (move_sat Tok_Varadic_Argument TF_Null); split; [apply L2|split; reflexivity]|]. intros s3 L3. rd. }
  destruct (c =? 38).
  { injection E as <-. apply ready_went. eapply sat_bind; [apply mil_sat, begin_looks, H|]. intros s1 L1. unfold if_cur. eapply sat_bind; [apply sat_any|]. intros x _. destruct (x =? 38); [|apply sat_done; rd]. eapply sat_weak; [apply (mil_sat Tok_Ampersand_DBL (Z.lor TF_Operator TF_Specifier)); lk|]. intros s3 L3. rd. }
  destruct (c =? 58).
  { injection E as <-. apply ready_went. eapply sat_bind; [apply mil_sat, begin_looks, H|]. intros s1 L1. unfold if_cur. eapply sat_bind; [apply sat_any|]. intros x _. destruct (x =? 58); [|apply sat_done; rd]. eapply sat_bind; [apply take_sat; exact L1|]. intros s2 L2. apply sat_done. assert (L3 : looks Tok_Access_StaticSymbol TF_Null (with_tok (set_type Tok_Access_StaticSymbol) s2)) by lk. rd. }
  destruct (c =? 123). { injection E as <-. apply ONE; [discriminate|reflexivity]. }
  destruct (c =? 125). { injection E as <-. eapply found_went; [eapply sat_bind; [apply mil_sat, begin_looks, H|]; intros; apply end_line_sat; eassumption|discriminate|reflexivity]. }
  destruct (c =? 91).
  { injection E as <-. apply ready_went. set (s0 := begin _ _ s). assert (L0 : looks Tok_BraceSquare_Open TF_Null s0) by (apply begin_looks; exact H). destruct (left src s0 =? 0); [apply sat_done; rd|]. eapply sat_bind; [apply move_sat; exact L0|]. intros s1 L1. unfold if_cur. eapply sat_bind; [apply sat_any|]. intros x _. destruct (x =? 93); [|apply sat_done; rd].
    eapply sat_weak; [apply (move_sat Tok_Operator TF_Null); lk|]. intros s3 L3. rd. }
  destruct (c =? 93). { injection E as <-. apply ONE; [discriminate|reflexivity]. }
  destruct (c =? 40). { injection E as <-. apply ONE; [discriminate|reflexivity]. }
  destruct (c =? 41). { injection E as <-. apply ONE; [discriminate|reflexivity]. }
  destruct (c =? 39).
  { injection E as <-. apply (found_went Tok_Char TF_Literal); [|discriminate|reflexivity]. eapply sat_bind; [apply move_sat, begin_looks, H|]. intros s1 L1. eapply sat_bind with (P := looks Tok_Char TF_Literal).
    { destruct (left src s1 =? 0); [apply sat_done; exact L1|]. apply if_sat; [exact L1|]. intros s2 L2. eapply sat_bind; [apply take_sat; exact L2|]. intros s3 L3. apply if_sat; [exact L3|]. intros s4 L4. apply take_sat. exact L4. }
    intros s2 L2. eapply sat_bind; [apply (while_sat (looks Tok_Char TF_Literal)); [intros x; apply take_sat|exact L2]|]. intros s3 L3. destruct (left src s3 =? 0); [apply sat_done; exact L3|apply take_sat; exact L3]. }
  destruct (c =? 44). { injection E as <-. apply ONE; [discriminate|reflexivity]. }
  destruct (c =? 42).
  { injection E as <-. apply ready_went. eapply sat_bind; [apply mil_sat, begin_looks, H|]. intros s1 L1. unfold if_cur. eapply sat_bind; [apply sat_any|]. intros x _. destruct (x =? 61); [|apply sat_done; rd]. eapply sat_weak; [apply (mil_sat Tok_Star (Z.lor (Z.lor TF_Specifier TF_Operator) TF_Assign)); lk|]. intros s3 L3. rd. }
  destruct (c =? 59). { injection E as <-. eapply found_went; [eapply sat_bind; [apply mil_sat, begin_looks, H|]; intros; apply end_line_sat; eassumption|discriminate|reflexivity]. }
  destruct (c =? 34). { injection E as <-. eapply found_went; [eapply sat_bind; [apply move_sat, begin_looks, H|]; intros; apply string_sat; eassumption|discriminate|reflexivity]. }
  destruct (c =? 63). { injection E as <-. apply ONE; [discriminate|reflexivity]. }
  destruct (c =? 61).
  { injection E as <-. apply ready_went. eapply sat_bind; [apply mil_sat, begin_looks, H|]. intros s1 L1. unfold if_cur. eapply sat_bind; [apply sat_any|]. intros x _. destruct (x =? 61); [|apply sat_done; rd]. eapply sat_weak; [apply (mil_sat Tok_Operator TF_Operator); lk|]. intros s3 L3. rd. }
  destruct (existsb (Z.eqb c) (txt "+%^~!<>|")).
  { injection E as <-. apply ready_went. eapply sat_bind; [apply mil_sat, begin_looks, H|]. intros s1 L1. eapply sat_bind; [apply sat_any|]. intros x _. destruct (x =? 61); [|eapply sat_weak; [apply repeats_sat; exact L1|]; intros s3 L3; rd]. eapply sat_weak; [apply (mil_sat Tok_Operator (Z.lor TF_Operator TF_Assign)); lk|]. intros s3 L3. rd. }
  destruct (c =? 45).
  { injection E as <-. apply ready_went. set (s0 := begin _ _ s). assert (L0 : looks Tok_Operator TF_Operator s0) by (apply begin_looks; exact H). destruct (left src s0 =? 0); [apply sat_done; rd|]. eapply sat_bind; [apply move_sat; exact L0|]. intros s1 L1. eapply sat_bind; [apply sat_any|]. intros x _. destruct (x =? 62).
    { eapply sat_bind; [apply (take_sat Tok_Operator (Z.lor TF_Operator TF_AccessOperator)); lk|]. intros s2 L2. eapply sat_weak; [apply if_sat; [exact L2|]; intros s3 L3; apply take_sat; exact L3|]. intros s3 L3. rd. }
    destruct (x =? 61); [|eapply sat_weak; [apply repeats_sat; exact L1|]; intros s3 L3; rd]. eapply sat_weak; [apply (mil_sat Tok_Operator (Z.lor TF_Operator TF_Assign)); lk|]. intros s3 L3. rd. }
  destruct (c =? 47); [|discriminate E]. injection E as <-.
  eapply sat_bind; [apply move_sat, begin_looks, H|]. intros s1 L1. destruct (left src s1 =? 0); [apply sat_done; unfold went; cbn [fst snd]; rd|]. eapply sat_bind; [apply sat_any|]. intros x _. destruct (x =? 61).
  { eapply sat_bind; [apply take_sat; exact L1|]. intros s2 L2. apply sat_done. unfold went. cbn [fst snd]. assert (L3 : looks Tok_Operator TF_Assign (with_tok (set_flags TF_Assign) s2)) by lk. rd. }
  destruct (x =? 47).
  { eapply sat_bind; [apply (move_sat Tok_Comment TF_Null); lk|]. intros s2 L2. eapply sat_bind; [apply (while_sat (looks Tok_Comment TF_Null)); [intros y; apply take_sat|exact L2]|]. intros s3 L3. eapply sat_bind; [apply if_sat; [exact L3|]; intros y Y; apply take_sat; exact Y|]. intros s4 L4. eapply sat_bind; [apply if_sat; [exact L4|]; intros y Y; apply take_sat; exact Y|]. intros s5 L5. apply sat_done. apply (tok_fine _ _ _ L5 eq_refl). }
  destruct (x =? 42).
  { eapply sat_bind; [apply (move_sat Tok_Comment TF_Null); lk|]. intros s2 L2. eapply sat_bind; [apply block_sat; exact L2|]. intros s3 L3. do 2 (eapply sat_bind; [apply take_sat; eassumption|]; intros). eapply sat_bind; [apply if_sat; [eassumption|]; intros y Y; apply take_sat; exact Y|]. intros s4 L4. eapply sat_bind; [apply if_sat; [exact L4|]; intros y Y; apply take_sat; exact Y|]. intros s5 L5. apply sat_done. apply (tok_fine _ _ _ L5 eq_refl). }
  apply sat_done. unfold went. cbn [fst snd]. rd.
Qed.
Lemma number_sat : forall s, fine s -> sat (lex_number src fuel s) (looks Tok_Number TF_Literal).
Proof.
  intros s H. unfold lex_number. eapply sat_bind; [apply move_sat, begin_looks, H|]. intros s1 L1. cbv zeta. assert (DG : forall p s, looks Tok_Number TF_Literal s -> sat (while_left src fuel p (take src) s) (looks Tok_Number TF_Literal)) by (intros p s0 L0; apply (while_sat (looks Tok_Number TF_Literal)); [intros y; apply take_sat|exact L0]).
  eapply sat_bind; [apply sat_any|]. intros b _. destruct b.
  - eapply sat_bind; [apply take_sat; exact L1|]. intros s2 L2. apply DG. exact L2.
  - eapply sat_bind; [apply DG; exact L1|]. intros s2 L2. eapply sat_bind; [apply sat_any|]. intros b _. destruct b; [|apply sat_done; exact L2]. eapply sat_bind; [apply take_sat; exact L2|]. intros s3 L3. eapply sat_bind; [apply DG; exact L3|]. intros s4 L4. eapply sat_bind; [apply sat_any|]. intros b _. destruct b; [|apply sat_done; exact L4].
    eapply sat_bind; [apply sat_any|]. intros prev _. eapply sat_bind; [apply take_sat; exact L4|]. intros s5 L5. eapply sat_bind; [apply sat_any|]. intros b _. destruct (b && ((prev =? 108) || (prev =? 76))); [apply take_sat; exact L5|apply sat_done; exact L5].
Qed.
Lemma word_sat : forall c s, looks Tok_Invalid TF_Null s -> sat (lex_word src fuel c s) ready.
Proof.
  intros c s L. unfold lex_word. assert (W : forall s, looks Tok_Invalid TF_Null s -> ready s) by (intros s0 (A & B & C); split; auto). destruct (is_word_start c); [|destruct (char_is_digit c)].
  - eapply sat_bind; [apply (move_sat Tok_Invalid TF_Null); exact L|]. intros s1 L1. eapply sat_weak; [apply (while_sat (looks Tok_Invalid TF_Null)); [intros y; apply take_sat|exact L1]|exact W].
  - eapply sat_weak; [apply number_sat; apply L|]. intros s1 L1. rd.
  - eapply sat_weak; [apply (while_sat (looks Tok_Invalid TF_Null)); [intros y; apply move_sat|exact L]|exact W].
Qed.
Lemma ftoken_sat : forall s, ready s -> sat (found_token src fuel s) fine.
Proof. intros s R. unfold found_token. eapply sat_bind; [apply found_sat; exact R|]. intros s1 H1. cbv zeta. destruct (_ || _); [apply newline_sat; exact H1|apply sat_done; exact H1]. Qed.
Lemma iteration_sat : forall s, fine s -> sat (lex_iteration src fuel s) (fun r => match r with Goes s | Stops s => fine s | Fails => True end).
Proof.
  intros s H. unfold lex_iteration. pose proof (fresh_looks s H) as L. set (s0 := fresh_token s) in *. clearbody s0. cbv zeta.
  eapply sat_bind with (P := fun r : lx * bool => if snd r then fine (fst r) else looks Tok_Invalid TF_Null (fst r)).
  - destruct (l_col s0 =? 1); [|apply sat_done; exact L]. eapply sat_bind; [apply (if_sat (looks Tok_Invalid TF_Null)); [exact L|]|].
    + intros s1 L1. eapply sat_bind; [apply move_sat; exact L1|]. intros s2 L2. apply sat_done. exact L2.
    + intros s1 L1. eapply sat_bind; [apply sat_any|]. intros c _. destruct (c =? 10); [|apply sat_done; exact L1]. eapply sat_bind; [apply move_sat; exact L1|]. intros s2 L2. apply sat_done. cbn [fst snd]. apply (tok_fine Tok_NewLine TF_Null); [lk|reflexivity].
  - intros (s1 & nl) L1. cbn [fst snd] in L1. destruct nl; [apply sat_done; exact L1|]. eapply sat_bind; [apply (skip_sat Tok_Invalid TF_Null); exact L1|]. intros s2 L2. destruct (left src s2 <=? 0); [apply sat_done; apply L2|]. eapply sat_bind; [apply sat_any|]. intros c _. destruct (c =? 35).
    + eapply sat_bind; [apply directive_sat; exact L2|]. intros (s3 & r) H3. cbn [fst] in H3. destruct r; [|apply sat_done; exact I]. eapply sat_bind; [apply newline_sat; exact H3|]. intros s4 H4. apply sat_done. exact H4.
    + destruct (lex_symbol src fuel c s2) as [r|] eqn:E.
      * eapply sat_bind; [apply (symbol_sat c s2 r (proj1 L2) E)|]. intros (s3 & n) W. unfold went in W. cbn [fst snd] in W. destruct n; [|apply sat_done; exact W]. eapply sat_bind; [apply ftoken_sat; exact W|]. intros s4 H4. apply sat_done. exact H4.
      * eapply sat_bind; [apply word_sat; exact L2|]. intros s3 R3. eapply sat_bind; [apply ftoken_sat; exact R3|]. intros s4 H4. apply sat_done. exact H4.
Qed.
Lemma loop_sat : forall n s, fine s -> sat (lex_loop src fuel n s) (fun r => match r with Some s => fine s | None => True end).
Proof.
  induction n as [|n IH]; intros s H; cbn [lex_loop]; (destruct (left src s =? 0); [apply sat_done; exact H|]); [apply sat_nofuel|]. eapply sat_bind; [apply iteration_sat; exact H|]. intros r R. destruct r; [apply IH; exact R|apply sat_done; exact R|apply sat_done; exact I].
Qed.
Lemma lex_fits : forall ms toks ms', Forall macro_fits ms -> lex src fuel ms = Done (Some (toks, ms')) -> Forall flags_fit toks /\ Forall macro_fits ms'.
Proof.
  intros ms toks ms' M E. assert (S : sat (lex src fuel ms) (fun r => match r with Some (ts, ms') => Forall flags_fit ts /\ Forall macro_fits ms' | None => True end)).
  { unfold lex. eapply sat_bind; [apply fskip_sat; split; [constructor|exact M]|]. intros s H. destruct (left src s <=? 0); [apply sat_done; exact I|]. eapply sat_bind; [apply loop_sat; exact H|]. intros r R. destruct r as [s1|]; [|apply sat_done; exact I]. destruct (l_toks s1) as [|k ts] eqn:T; apply sat_done; [exact I|]. rewrite <- T. exact R. }
  exact (S _ E).
Qed.
End L.
