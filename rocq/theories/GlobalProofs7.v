(** Variables and functions as members of global bodies. *)
From Coq Require Import String ZArith List Bool Lia ZifyBool ZifyNat.
From Verif Require Import Common Text HashModel StrOpsModel EnumModel EnumSpec EnumProofs LexModel LexSpec NavModel StripModel StripSpec StripProofs AstModel AstSpec AstProofs AstProofs4 UpfrontModel UpfrontSpec UpfrontProofs4 SerSpec SerProofs SerProofs2 ParseModel ParseSpec
  ParseProofs ParseProofs2 ParseProofs3 ParseProofs4 ParseProofs5 ParseProofs6 ParseProofs7 ParseProofs8 ParseProofs9 ParseProofs10 ParseProofs11 FnModel FnSpec FnProofs FnProofs2 FnProofs3 FnProofs4 GlobalModel GlobalSpec GlobalProofs GlobalProofs2 GlobalProofs3 GlobalProofs4 GlobalProofs5 GlobalProofs6.
Import ListNotations.
Close Scope string_scope.
Open Scope Z_scope.
Open Scope parse_scope.
Section P.
Variable src : list Z.
Variable toks beyond : list token.
Variable ms : macros.
Variable e : env.
Variable gl : globals.
Variable fuel : nat.
Hypothesis SRC : Forall (in_source src) toks.
Hypothesis FIT : Forall flags_fit toks.
Hypothesis BYTES : Forall (fun c => 0 <= c < 256) src.
Hypothesis FT : (length toks < fuel)%nat.
Hypothesis FS : (length src < fuel)%nat.
Hypothesis NOM : no_macro_spec ms.
Hypothesis BY : (2 <= length beyond)%nat.
Notation member := (member src toks beyond ms e gl fuel).
Notation reads := (reads src toks beyond ms e gl fuel).
Notation ahead := (ahead toks).

Notation global_decl := (global_decl src toks beyond ms e gl fuel).
Notation global_specs := (global_specs src toks beyond ms e gl fuel).
Notation decl_in := (decl_in src toks beyond ms e gl fuel).

Lemma bind_some : forall (A B : Type) (m : M A) (f : option A -> M B) s, (x <- (r <- m ;; ret (Some r)) ;; f x) s = (r <- m ;; f (Some r)) s.
Proof. intros A B m f s. unfold bind. destruct (m s) as [[x s']| | ]; reflexivity. Qed.
(** ** type and name, and what decides between a function and a variable *)
Lemma decl_ok : forall inc (fn : bool) ty_ ty g nm name B0 ef ca cs Q sc h,
  toks = Q ++ ty_ ++ g ++ nm ++ B0 -> (forall k r, ty_ = k :: r -> ~ fmt k) -> type_tokens src ty_ (g ++ nm ++ B0) ty -> ty_attrs ty = None -> gap g -> named src nm name ->
  next_is B0 (ends_name src) -> unambiguous src inc (ty_ ++ g ++ nm ++ B0) -> no_operator (ty_ ++ nm) -> next_three (B0 ++ beyond) (if fn then decides_function else decides_variable) ->
  (if fn then next_is B0 (kind Tok_Paren_Open) else ef = false) -> world e h ->
  exists Q5 tyc h3 ty' sc', toks = Q5 ++ trim B0 /\
    typ_respaced ty ty' /\ type_result h h3 tyc ty' /\ (ty_specs ty' <> None -> h_top h <= n_specs (h_node h3 tyc)) /\ Forall (fun c => 0 <= c < 256) name /\
    forall p, inside p = inc -> decl_in p ef ca cs (Pst (zlen Q) sc h) = (r <- (if fn then parse_function_after_name src toks beyond ms e (g_varadic gl) fuel 0 ca cs tyc name
      else parse_variable_after_name src toks beyond ms e fuel 0 ca cs tyc name) ;; parser_pop ;;; ret r) (Pst (zlen Q5) (sc' :: sc) h3).
Proof.
  intros inc fn ty_ ty g nm name B0 ef ca cs Q sc h E HN TY TN G NM NX CA NO (g3 & o & a & b & r3 & EN & G3 & FO & DD) FN W.
  assert (NN : exists kn rn, nm = kn :: rn /\ kind Tok_Identifier kn) by (destruct NM as [first a0 q KI _ _]; eauto). destruct NN as (kn & rn & ENM & KN). assert (FKN : ~ fmt kn) by (tk; lia).
  destruct (type_head src toks fuel FT FS _ _ _ TY TN) as (gh & kh & rh & ETY & GH & FH & HH). pose proof (head_plain src toks fuel FT FS kh HH) as (HM & _ & _).
  assert (gh = []) as ->. { destruct gh as [|f gh]; [reflexivity|]. exfalso. apply (HN f (gh ++ kh :: rh)); [rewrite ETY; reflexivity|apply (Forall_inv GH)]. } cbn [app] in ETY.
  destruct (next_head _ _ NX) as (k0 & r0 & EB0 & K0). assert (NK0 : t_type k0 <> Tok_Access_StaticSymbol) by (destruct K0 as [[K0|K0]|(K0 & _)]; [rewrite K0; discriminate|rewrite K0; discriminate|exact K0]).
  destruct (named_last src nm name NM) as (pl & kl & ELN & KL). pose proof (ahead_self _ _ _ E) as A. apply Forall_app in NO. destruct NO as (NO1 & NO2).
  assert (NOG : Forall (fun k => t_type k <> Tok_Decl_Operator) g) by (revert G; apply Forall_impl; intros x [X|X]; rewrite X; discriminate).
  (* the first look for an operator *)
  assert (OP1 : sees_operator toks beyond (Pst (zlen Q) sc h) = Done (false, Pst (zlen Q) sc h)).
  { unfold sees_operator. cbn [p_idx]. rewrite (op_free src toks beyond fuel FT FS BY _ (ty_ ++ g ++ nm) Q k0 r0); [reflexivity| |rewrite ETY; discriminate|apply Forall_app; split; [exact NO1|apply Forall_app; auto]| |exact NK0|].
    - rewrite E, !app_length. lia.
    - intros p x X. rewrite ELN, !app_assoc in X. apply app_inj_tail in X. destruct X as (_ & <-). exact KL.
    - rewrite E, EB0, <- !app_assoc. reflexivity. }
  assert (FIRST : forall p, inside p = inc -> decl_in p ef ca cs (Pst (zlen Q) sc h) = parse_operator_function_or_variable src toks beyond ms e gl fuel ef ca cs (Pst (zlen Q) sc h)).
  { intros [w|d cn] IP; cbn [inside] in IP; subst inc; cbn [decl_in unambiguous] in *.
    - unfold GlobalModel.global_decl. erewrite bind_ok with (a := zlen Q) (s' := Pst (zlen Q) sc h) by reflexivity. unfold bind at 1. rewrite (calm_ok src toks beyond fuel FT FS BY Q _ E CA). cbn [rbind]. change (0 =? 1) with false. change (0 =? 2) with false. cbv iota. erewrite bind_ok by exact OP1. reflexivity.
    - destruct CA as (a1 & a2 & ar & EA & NA2). assert (EA' : toks = Q ++ a1 :: a2 :: ar) by (rewrite E, EA; reflexivity). assert (FA1 : ~ fmt a1) by (apply (HN a1 rh); rewrite ETY in EA |- *; cbn [app] in EA; injection EA as <- _; reflexivity).
      assert (NX2 : nexttok toks beyond (Pst (zlen Q) sc h) = Done (a2, Pst (zlen Q) sc h)).
      { unfold nexttok. cbn [p_idx]. assert (T1 : tok_at toks beyond (zlen Q) = Done a1) by (eapply tok_ok; exact EA'). assert (NL : (t_type a1 =? Tok_NewLine) = false) by (unfold fmt, Tok_NewLine, Tok_Comment in *; lia).
        assert (SK : forall n, skip_lines toks beyond n (zlen Q) = Done (zlen Q)). { intros n. destruct n; cbn [skip_lines]; rewrite T1; cbn [rbind]; rewrite NL; reflexivity. } rewrite SK. cbn [rbind].
        replace (zlen Q + 1) with (zlen (Q ++ [a1])) by zl. rewrite (tok_ok toks beyond (Q ++ [a1]) a2 ar) by (rewrite EA', <- app_assoc; reflexivity). reflexivity. }
      unfold class_decl. erewrite bind_ok by exact NX2. replace (t_type a2 =? Tok_Paren_Open) with false by lia. cbn [andb]. destruct cn; erewrite bind_ok by reflexivity; reflexivity. }
  assert (REST : exists Q5 tyc h3 ty' sc', toks = Q5 ++ trim B0 /\
    typ_respaced ty ty' /\ type_result h h3 tyc ty' /\ (ty_specs ty' <> None -> h_top h <= n_specs (h_node h3 tyc)) /\ Forall (fun c => 0 <= c < 256) name /\
    parse_operator_function_or_variable src toks beyond ms e gl fuel ef ca cs (Pst (zlen Q) sc h) = (r <- (if fn then parse_function_after_name src toks beyond ms e (g_varadic gl) fuel 0 ca cs tyc name
      else parse_variable_after_name src toks beyond ms e fuel 0 ca cs tyc name) ;; parser_pop ;;; ret r) (Pst (zlen Q5) (sc' :: sc) h3)).
  2:{ destruct REST as (Q5 & tyc & h3 & ty' & sc' & R1 & R2 & R3 & R4 & R5 & R6). exists Q5, tyc, h3, ty', sc'. split; [exact R1|]. split; [exact R2|]. split; [exact R3|]. split; [exact R4|]. split; [exact R5|]. intros p IP. rewrite (FIRST p IP). exact R6. }
  unfold parse_operator_function_or_variable, push_scope. unfold bind at 1. cbn [rbind p_idx p_scopes p_heap]. set (s0 := (zlen Q, "parse_operator_function_or_variable"%string)). set (sc' := s0 :: sc).
  assert (EH : toks = Q ++ kh :: rh ++ g ++ nm ++ B0) by (rewrite E, ETY; reflexivity). erewrite bind_ok by (eapply cur_here; [exact EH|exact FH]). assert (NMS : (t_type kh =? Tok_Preprocess_Macro_Stmt) = false) by (tk; lia). rewrite NMS.
  assert (FITN : flags_fit kn). { eapply ahead_fit; [exact FIT|exact A|rewrite ENM, !in_app_iff; right; right; left; left; reflexivity|exact FKN]. }
  assert (NT : next_is (g ++ nm ++ B0) ends_type). { rewrite ENM. cbn [app]. apply next_app; auto. split; [apply not_spec_flag; auto; tk; lia|]. tk. lia. }
  destruct (type_full src toks beyond ms e fuel SRC FIT BYTES FT FS false ty_ _ ty Q sc' h TY A NT ltac:(discriminate) W) as (Q4 & tyc & h3 & ty' & A4 & C5 & RS & TR & TSB & _). erewrite bind_ok by exact C5.
  assert (NA : next_is (g ++ nm ++ B0) (fun k => ~ flagged k TF_Attribute)). { rewrite ENM. cbn [app]. apply next_app; auto. apply not_attr_flag; auto; tk; lia. }
  destruct (no_attributes src toks beyond ms fuel Q4 _ sc' h3 A4 NA) as (Q4' & E4 & C6). erewrite bind_ok by exact C6. change (0 =? 0) with true. cbv iota. erewrite bind_ok by reflexivity.
  assert (NI : (tyc =? e_invalid e) = false) by (destruct TR as (_ & TT & _); destruct W as ((_ & W) & _); lia). rewrite NI.
  rewrite trim_gap, ENM in E4 by exact G. cbn [app] in E4. rewrite trim_sig in E4 by exact FKN. change (kn :: rn ++ B0) with ((kn :: rn) ++ B0) in E4. rewrite <- ENM in E4.
  assert (OP2 : sees_operator toks beyond (Pst (zlen Q4') sc' h3) = Done (false, Pst (zlen Q4') sc' h3)).
  { unfold sees_operator. cbn [p_idx]. rewrite (op_free src toks beyond fuel FT FS BY _ nm Q4' k0 r0); [reflexivity| |rewrite ENM; discriminate|exact NO2| |exact NK0|].
    - rewrite E4, !app_length. lia.
    - intros p x X. rewrite ELN in X. apply app_inj_tail in X. destruct X as (_ & <-). exact KL.
    - rewrite E4, EB0. reflexivity. }
  erewrite bind_ok by exact OP2. cbv iota.
  destruct (identifier_at src toks beyond ms fuel SRC nm name Q4' B0 [] sc' h3 (ahead_self _ _ _ E4) (Forall_nil _) NM NX) as (Q5 & nt & E5 & C7 & TX & TI & _); [lia|]. erewrite bind_ok by exact C7. cbn [name_text]. rewrite TX.
  assert (BN : Forall (fun c => 0 <= c < 256) name). { rewrite <- TX, <- word_text. apply upto_bytes. exact BYTES. }
  assert (EO : exists r0, trim B0 = o :: r0 /\ r0 ++ beyond = a :: b :: r3).
  { destruct NX as (g1 & k1 & r1 & EB1 & G1 & K1 & _). rewrite EB1. rewrite trim_gap, trim_sig by auto. rewrite EB1, <- app_assoc in EN. cbn [app] in EN. apply (f_equal trim) in EN. rewrite !trim_gap, !trim_sig in EN by auto. injection EN as <- EN. eauto. }
  destruct EO as (r1 & ET & ER). assert (EB : toks ++ beyond = Q5 ++ o :: a :: b :: r3) by (rewrite E5, ET, <- app_assoc; cbn [app]; rewrite ER; reflexivity).
  assert (EC : toks = Q5 ++ o :: r1) by (rewrite E5, ET; reflexivity).
  exists Q5, tyc, h3, ty', s0. split; [exact E5|]. split; [exact RS|]. split; [exact TR|]. split; [exact TSB|]. split; [exact BN|].
  assert (CK : check toks beyond Tok_Paren_Open (Pst (zlen Q5) sc' h3) = Done (t_type o =? Tok_Paren_Open, Pst (zlen Q5) sc' h3)).
  { rewrite (check_ok toks beyond [] Q5 o r1 Tok_Paren_Open sc' h3 EC (Forall_nil _) FO). rewrite app_nil_r. reflexivity. }
  assert (T3 : tok toks beyond (zlen Q5 + 2) (Pst (zlen Q5) sc' h3) = Done (b, Pst (zlen Q5) sc' h3)).
  { unfold tok. replace (zlen Q5 + 2) with (zlen (Q5 ++ [o; a])) by zl. rewrite (tok_any src toks beyond fuel FT FS (Q5 ++ [o; a]) b r3) by (rewrite EB, <- app_assoc; reflexivity). reflexivity. }
  assert (N2 : nexttok toks beyond (Pst (zlen Q5) sc' h3) = Done (a, Pst (zlen Q5) sc' h3)).
  { unfold nexttok. cbn [p_idx]. assert (T1 : tok_at toks beyond (zlen Q5) = Done o) by (eapply tok_ok; exact EC). assert (NL : (t_type o =? Tok_NewLine) = false) by (unfold fmt, Tok_NewLine, Tok_Comment in *; lia).
    assert (SK : forall n, skip_lines toks beyond n (zlen Q5) = Done (zlen Q5)). { intros n. destruct n; cbn [skip_lines]; rewrite T1; cbn [rbind]; rewrite NL; reflexivity. } rewrite SK. cbn [rbind].
    replace (zlen Q5 + 1) with (zlen (Q5 ++ [o])) by zl. rewrite (tok_any src toks beyond fuel FT FS (Q5 ++ [o]) a (b :: r3)) by (rewrite EB, <- app_assoc; reflexivity). reflexivity. }
  erewrite bind_ok by exact CK. erewrite bind_ok with (a := zlen Q5) (s' := Pst (zlen Q5) sc' h3) by reflexivity. erewrite bind_ok by exact T3.
  destruct fn.
  - destruct DD as (D1 & D2). assert (KO : t_type o = Tok_Paren_Open). { destruct FN as (g1 & k1 & r2 & EB1 & G1 & K1 & K2). rewrite EB1, trim_gap, trim_sig in ET by auto. injection ET as <- _. exact K2. } rewrite KO. replace (t_type b =? Tok_Comma) with false by lia. change (Tok_Paren_Open =? Tok_Paren_Open) with true. cbv iota zeta. erewrite bind_ok by reflexivity. cbv iota. rewrite bind_assoc. erewrite bind_ok by exact N2.
    replace (t_type a =? Tok_Preprocess_Macro_Expr) with false by lia. cbn [negb]. erewrite bind_ok by reflexivity. cbn [andb negb]. rewrite bind_some. reflexivity.
  - subst ef. cbv zeta. destruct DD as [(D1 & D2)|(D1 & D2)].
    + replace (t_type o =? Tok_Paren_Open) with false by lia. cbn [andb].
      assert (U : exists u, (if t_type b =? Tok_Comma then k <- nexttok toks beyond ;; ret (negb (t_type k =? Tok_Varadic_Argument)) else ret false) (Pst (zlen Q5) sc' h3) = Done (u, Pst (zlen Q5) sc' h3)).
      { destruct (t_type b =? Tok_Comma); [erewrite bind_ok by exact N2; eexists; reflexivity|eexists; reflexivity]. } destruct U as (u & U). erewrite bind_ok by exact U.
      assert (U2 : exists u2, (if u then ret true else k <- nexttok toks beyond ;; if negb (t_type k =? Tok_Preprocess_Macro_Expr) then ret false else
         match lookup_macro ms (text_of src k) with None => ret false | Some m => if bitfield_is_set (mac_flags m) MF_Functional then unmodelled else ret false end) (Pst (zlen Q5) sc' h3) = Done (u2, Pst (zlen Q5) sc' h3)).
      { destruct u; [eexists; reflexivity|]. erewrite bind_ok by exact N2. replace (t_type a =? Tok_Preprocess_Macro_Expr) with false by lia. eexists; reflexivity. } destruct U2 as (u2 & U2). erewrite bind_ok by exact U2.
      rewrite bind_some. reflexivity.
    + replace (t_type b =? Tok_Comma) with true by lia. rewrite bind_assoc. erewrite bind_ok by exact N2. replace (t_type a =? Tok_Varadic_Argument) with false by lia. cbn [negb]. erewrite bind_ok by reflexivity. cbv iota. erewrite bind_ok by reflexivity. cbv iota. cbn [negb]. rewrite andb_false_r.
      rewrite bind_some. reflexivity.
Qed.
End P.
