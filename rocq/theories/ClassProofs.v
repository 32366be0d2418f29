(** Classes and structs: what stands in front of their members. *)
From Coq Require Import String ZArith List Bool Lia ZifyBool ZifyNat.
From Verif Require Import Common Text HashModel StrOpsModel EnumModel EnumSpec EnumProofs LexModel LexSpec NavModel StripModel StripSpec StripProofs AstModel AstSpec AstProofs AstProofs4 UpfrontModel UpfrontSpec UpfrontProofs UpfrontProofs2 UpfrontProofs4 SerSpec SerProofs SerProofs2 ParseModel ParseSpec
  ParseProofs ParseProofs2 ParseProofs3 ParseProofs4 ParseProofs5 ParseProofs6 ParseProofs7 ParseProofs8 ParseProofs9 ParseProofs10 ParseProofs11 FnModel FnSpec FnProofs FnProofs2 FnProofs3 FnProofs4 GlobalModel GlobalSpec GlobalProofs GlobalProofs2 GlobalProofs3 GlobalProofs4.
Import ListNotations.
Close Scope string_scope.
Open Scope Z_scope.
Open Scope parse_scope.
Section P.
Variable src : list Z.
Variable toks beyond : list token.
Variable ms : macros.
Variable e : env.
Variable gl : globals.
Variable fuel : nat.
Hypothesis SRC : Forall (in_source src) toks.
Hypothesis FIT : Forall flags_fit toks.
Hypothesis BYTES : Forall (fun c => 0 <= c < 256) src.
Hypothesis FT : (length toks < fuel)%nat.
Hypothesis FS : (length src < fuel)%nat.
Notation ahead := (ahead toks).
Notation a_currtok := (a_currtok toks beyond).
Notation a_check := (a_check toks beyond).
Notation a_eat := (a_eat src toks beyond ms).
Notation check := (check toks beyond).
Notation eat := (eat src toks beyond ms).
Notation currtok := (currtok toks beyond).
Notation parse_identifier := (parse_identifier src toks beyond ms fuel).

(** the parts of [parse_class_struct] *)
Definition after (body : option token -> M Z) (which : Z) (export : bool) (attributes : Z) (name : option token) (specifiers : Z) (parents : Z * Z * list Z) : M Z :=
  let '(access, parent, interfaces) := parents in
  brace <- check Tok_BraceCurly_Open ;;
  body <- (if brace then body name else ret 0) ;;
  inline_cmt <- end_statement src toks beyond ms ;;
  let opts := {| os_body := body; os_parent := parent; os_access := access; os_attrs := attributes; os_interfaces := interfaces; os_specs := specifiers;
                 os_mflags := if export then ModuleFlag_Export else 0 |} in
  let name_arg := match name with None => None | Some _ => Some (name_text src name) end in
  result <- on_heap (fun h => if which =? Tok_Decl_Class then def_class fuel e h name_arg opts else def_struct fuel e h name_arg opts) ;;
  (if inline_cmt =? 0 then ret tt else edit (fun h => put h result (set_inline inline_cmt))) ;;;
  ret result.
Definition parents_of : M (Z * Z * list Z) :=
  colon <- check Tok_Assign_Classifer ;;
  (if colon then
       eat Tok_Assign_Classifer ;;;
       k <- currtok ;;
       (if tok_is_access_specifier k then eat (t_type k) else ret true) ;;;
       parent_tok <- parse_identifier ;;
       parent <- on_heap (fun h => def_type e h (Some (name_text src parent_tok)) 0 0 0 0) ;;
       interfaces <- interfaces_loop src toks beyond ms e fuel fuel [] ;;
       ret (if tok_is_access_specifier k then t_type k else AccessSpec_Default, parent, interfaces)
     else ret (AccessSpec_Default, 0, [])).
Definition final_of : M Z :=
  final <- check Tok_Spec_Final ;;
  (if final then sp <- on_heap (fun h => def_specifier h Spec_Final) ;; eat Tok_Spec_Final ;;; ret sp else ret 0).
Definition from_kw (body : option token -> M Z) (which : Z) (export : bool) : M Z :=
  eat which ;;;
  attributes <- parse_attributes src toks beyond ms fuel ;;
  b <- check Tok_Identifier ;;
  name <- (if b then parse_identifier else ret None) ;;
  specifiers <- final_of ;;
  parents <- parents_of ;;
  after body which export attributes name specifiers parents.
Lemma class_struct_eq : forall body which s, parse_class_struct src toks beyond ms e fuel body which s =
  (export <- check Tok_Module_Export ;; (if export then eat Tok_Module_Export else ret true) ;;; from_kw body which export) s.
Proof.
  intros body which s. unfold parse_class_struct, from_kw, final_of, parents_of, bind, rbind. repeat (match goal with |- (match ?x with Done _ => _ | Undefined => _ | NoFuel => _ end) = (match ?x with Done _ => _ | Undefined => _ | NoFuel => _ end) => destruct x as [(? & ?)| | ]; try reflexivity end).
  all: repeat match goal with |- context [match ?x with Done _ => _ | Undefined => _ | NoFuel => _ end] => destruct x as [(? & ?)| | ]; try reflexivity end.
Qed.
Definition opens_or_ends (k : token) : Prop := kind Tok_BraceCurly_Open k \/ kind Tok_Statement_End k.
Lemma final_ok : forall final fin L Q sc h, (final = false /\ fin = [] \/ final = true /\ exists gf f, fin = gf ++ [f] /\ gap gf /\ kind Tok_Spec_Final f) ->
  ahead Q (fin ++ L) -> next_is L (fun k => t_type k <> Tok_Spec_Final) -> 0 < h_top h ->
  exists Q' cs h', ahead Q' L /\ final_of (Pst (zlen Q) sc h) = Done (cs, Pst (zlen Q') sc h') /\ grow h h' /\ (if final : bool then specs_at h' cs [Spec_Final] else cs = 0).
Proof.
  intros final fin L Q sc h FI A (g & k & r & EL & G & FK & NK) TP. unfold final_of. destruct FI as [(-> & ->)|(-> & gf & f & -> & GF & KF)].
  - cbn [app] in A. rewrite EL in A. destruct (a_check _ _ _ _ Tok_Spec_Final sc h A G FK) as (Q' & E1 & C1). erewrite bind_ok by exact C1. replace (t_type k =? Tok_Spec_Final) with false by lia. exists Q', 0, h.
    split; [exists (k :: r); split; [exact E1|rewrite EL; symmetry; apply trim_gap, G]|]. split; [reflexivity|]. split; [apply grow_refl|reflexivity].
  - rewrite <- app_assoc in A. cbn [app] in A. unfold kind in KF. assert (FF : ~ fmt f) by (unfold fmt; rewrite KF; intros [X|X]; discriminate X). destruct (a_check _ _ _ _ Tok_Spec_Final sc h A GF FF) as (Q' & E1 & C1). erewrite bind_ok by exact C1. rewrite KF, Z.eqb_refl.
    destruct (def_one h Spec_Final TP) as (h' & D & SA & GR); [vm_compute; auto 30|]. destruct (a_eat Q' f L _ sc h' E1 KF) as (A2 & C2). exists (Q' ++ [f]), (h_top h), h'. split; [exact A2|]. split; [|auto].
    unfold bind at 1. unfold on_heap. cbn [p_heap p_idx p_scopes]. rewrite D. cbn [rbind]. erewrite bind_ok by exact C2. reflexivity.
Qed.
Definition based (h h' : heap) (base : option (Z * typ * list typ)) (acc par : Z) : Prop :=
  match base with
  | None => acc = AccessSpec_Default /\ par = 0
  | Some (a, pty, more) => acc = a /\ more = [] /\ sound_access a /\ typ_at h' par pty /\ typ_ok pty /\ h_top h <= par /\ n_type (h_node h' par) = CT_Typename /\ n_next (h_node h' par) = 0
  end.
Lemma access_flag : forall Q L k, ahead Q L -> In k L -> ~ fmt k -> ~ macro_kind (t_type k) -> tok_is_access_specifier k = ((Tok_Access_Private <=? t_type k) && (t_type k <=? Tok_Access_Public)).
Proof.
  intros Q L k A I F M. destruct (ahead_fit toks FIT Q L k A I F) as [X|X]; [contradiction|]. destruct X as (_ & _ & _ & _ & X). 
  unfold tok_is_access_specifier, bitfield_is_set. unfold flagged in X. destruct (_ =? _) eqn:E1; symmetry; [apply Z.eqb_eq in E1|apply Z.eqb_neq in E1]; [apply X in E1; lia|]. destruct (_ && _) eqn:E2; [|reflexivity]. exfalso. apply E1. apply X. lia.
Qed.
Lemma named_first : forall nm name, named src nm name -> exists k r, nm = k :: r /\ t_type k = Tok_Identifier.
Proof. intros nm name N. destruct N as [first a q K TA QQ]. eauto. Qed.
Lemma base_ok : forall base_ base L Q sc h, base_tokens src base_ base -> ahead Q (base_ ++ L) -> next_is L opens_or_ends -> world e h ->
  exists Q' acc par h', ahead Q' L /\ parents_of (Pst (zlen Q) sc h) = Done ((acc, par, []), Pst (zlen Q') sc h') /\ grow h h' /\ based h h' base acc par.
Proof.
  intros base_ base L Q sc h B A N W. pose proof (world_top src toks e fuel FT FS h W) as TP. destruct N as (g0 & k0 & r0 & EL & G0 & FK0 & NK0). unfold parents_of. destruct base as [((access & parent) & more)|]; cbn [base_tokens] in B.
  - destruct B as (g & colon & g1 & acc & g2 & nm & name & -> & G & KC & G1 & G2 & NM & NE & -> & -> & AC). unfold kind in KC. assert (FC : ~ fmt colon) by (unfold fmt; rewrite KC; intros [X|X]; discriminate X).
    rewrite <- app_assoc in A. cbn [app] in A. destruct (a_check _ _ _ _ Tok_Assign_Classifer sc h A G FC) as (Q1 & E1 & C1). erewrite bind_ok by exact C1. rewrite KC, Z.eqb_refl. destruct (a_eat Q1 colon _ _ sc h E1 KC) as (A2 & C2). erewrite bind_ok by exact C2.
    assert (EN : next_is L (ends_name src)). { rewrite EL. apply next_app; [exact G0|exact FK0|]. destruct NK0 as [X|X]; split; tk; lia. }
    assert (FIN : forall Q3 h3, ahead Q3 (g2 ++ nm ++ L) -> grow h h3 -> forall (a : Z), exists Q' par h', ahead Q' L /\ (parent_tok <- parse_identifier ;; parent <- on_heap (fun h => def_type e h (Some (name_text src parent_tok)) 0 0 0 0) ;; interfaces <- interfaces_loop src toks beyond ms e fuel fuel [] ;; ret (a, parent, interfaces)) (Pst (zlen Q3) sc h3) = Done ((a, par, []), Pst (zlen Q') sc h') /\ grow h h' /\ h_top h <= par /\ valid h' par /\ h_node h' par = set_num 0 (set_body 0 (set_specs 0 (set_attrs 0 (AstModel.set_type CT_Typename (set_name name zero_node)))))).
    { intros Q3 h3 A3 G3 a. destruct (identifier_at src toks beyond ms fuel SRC nm name Q3 L g2 sc h3 A3 G2 NM EN ltac:(lia)) as (Q4 & nt & E4 & C4 & TX & _).
      erewrite bind_ok by exact C4. cbn [name_text]. rewrite TX. assert (D : def_type e h3 (Some name) 0 0 0 0 = Done (make h3 (fun n => set_num 0 (set_body 0 (set_specs 0 (set_attrs 0 (AstModel.set_type CT_Typename (set_name name n)))))))) by (destruct name; [contradiction|reflexivity]).
      destruct (any_make (fun n => set_num 0 (set_body 0 (set_specs 0 (set_attrs 0 (AstModel.set_type CT_Typename (set_name name n)))))) h3 (zlen Q4) sc) as (h4 & M4 & T4 & N4 & G4). unfold bind at 1. unfold on_heap at 1. cbn [p_heap p_idx p_scopes]. rewrite D. unfold on_heap in M4. cbn [p_heap p_idx p_scopes] in M4. rewrite M4. cbn [rbind].
      rewrite EL, trim_gap, trim_sig in E4 by auto. pose proof (ahead_self toks Q4 _ E4) as A4. destruct (a_check Q4 [] k0 r0 Tok_Comma sc h4 A4 ltac:(constructor) FK0) as (Q5 & E5 & C5). replace (t_type k0 =? Tok_Comma) with false in C5 by (destruct NK0 as [X|X]; unfold kind in X; rewrite X; reflexivity).
      assert (IL : interfaces_loop src toks beyond ms e fuel fuel [] (Pst (zlen Q4) sc h4) = Done ([], Pst (zlen Q5) sc h4)) by (destruct fuel; cbn [interfaces_loop]; erewrite bind_ok by exact C5; reflexivity).
      erewrite bind_ok by exact IL. exists Q5, (h_top h3), h4. split; [exists (k0 :: r0); split; [exact E5|rewrite EL; symmetry; apply trim_gap, G0]|]. split; [reflexivity|]. split; [eapply grow_trans; eauto|]. destruct G3 as (G3 & _). split; [lia|]. split; [split; lia|exact N4]. }
    assert (TY : forall h' par a, h_top h <= par -> valid h' par -> h_node h' par = set_num 0 (set_body 0 (set_specs 0 (set_attrs 0 (AstModel.set_type CT_Typename (set_name name zero_node))))) -> sound_access a ->
      based h h' (Some (a, {| ty_tag := NoTag; ty_attrs := None; ty_specs := None; ty_name := name; ty_pack := false |}, [])) a par).
    { intros h' par a LP VP NP SA. cbn [based]. rewrite NP. cbn. split; [reflexivity|]. split; [reflexivity|]. split; [exact SA|]. split; [|split; [discriminate|auto]]. split; [exact VP|]. rewrite NP. cbn. split; [auto|]. split; [reflexivity|]. split; [exact NE|]. split; [reflexivity|]. split; [reflexivity|]. split; [reflexivity|]. split; [intros X; exfalso; apply X; reflexivity|discriminate]. }
    destruct (named_first nm name NM) as (k1 & r1 & EN1 & K1).
    destruct AC as [(-> & -> & ->)|(ka & -> & -> & KA)].
    + cbn [app] in A2. rewrite <- !app_assoc in A2. cbn [app] in A2. rewrite EN1 in A2. cbn [app] in A2. assert (FK1 : ~ fmt k1) by (tk; lia). destruct (a_currtok _ _ _ _ sc h A2 G1 FK1) as (Q3 & E3 & C3). erewrite bind_ok by exact C3.
      assert (AF : tok_is_access_specifier k1 = false). { rewrite (access_flag _ _ k1 A2); [rewrite K1; reflexivity|apply in_or_app; right; left; reflexivity|exact FK1|tk; lia]. } rewrite AF. erewrite bind_ok by reflexivity.
      destruct (FIN Q3 h) with (a := AccessSpec_Default) as (Q' & par & h' & A' & C' & G' & L' & V' & N'); [rewrite EN1; cbn [app]; apply ahead_self; exact E3|apply grow_refl|].
      exists Q', AccessSpec_Default, par, h'. split; [exact A'|]. split; [exact C'|]. split; [exact G'|]. apply TY; auto. left. reflexivity.
    + assert (FA : ~ fmt ka) by (destruct KA as [X|X]; unfold kind in X; unfold fmt; rewrite X; intros [Y|Y]; discriminate Y). rewrite <- !app_assoc in A2. cbn [app] in A2. destruct (a_currtok _ _ _ _ sc h A2 G1 FA) as (Q3 & E3 & C3). erewrite bind_ok by exact C3.
      assert (AF : tok_is_access_specifier ka = true). { rewrite (access_flag _ _ ka A2); [destruct KA as [X|X]; unfold kind in X; rewrite X; reflexivity|apply in_or_app; right; left; reflexivity|exact FA|destruct KA as [X|X]; unfold kind in X; unfold macro_kind; rewrite X; vm_compute; intuition discriminate]. } rewrite AF.
      destruct (a_eat Q3 ka _ _ sc h E3 eq_refl) as (A4 & C4). erewrite bind_ok by exact C4.
      destruct (FIN (Q3 ++ [ka]) h) with (a := t_type ka) as (Q' & par & h' & A' & C' & G' & L' & V' & N'); [exact A4|apply grow_refl|].
      exists Q', (t_type ka), par, h'. split; [exact A'|]. split; [exact C'|]. split; [exact G'|]. apply TY; auto. unfold kind in KA. unfold sound_access. destruct KA as [-> | ->]; vm_compute; auto.
  - subst base_. cbn [app] in A. rewrite EL in A. destruct (a_check _ _ _ _ Tok_Assign_Classifer sc h A G0 FK0) as (Q' & E1 & C1). erewrite bind_ok by exact C1. replace (t_type k0 =? Tok_Assign_Classifer) with false by (destruct NK0 as [X|X]; unfold kind in X; rewrite X; reflexivity).
    exists Q', AccessSpec_Default, 0, h. split; [exists (k0 :: r0); split; [exact E1|rewrite EL; symmetry; apply trim_gap, G0]|]. split; [reflexivity|]. split; [apply grow_refl|]. split; reflexivity.
Qed.
Definition kw_of (hd : head) : Z := if hd_struct hd then Tok_Decl_Struct else Tok_Decl_Class.
(** what reading the head leaves *)
Definition headed (h h' : heap) (hd : head) (ca : Z) (nt : token) (cs acc par : Z) : Prop :=
  maybe (content_at h') ca (hd_attrs hd) /\ none_or h' ca [CT_PlatformAttributes] /\ text_of src nt = hd_name hd /\ hd_name hd <> [] /\
  (if hd_final hd then specs_at h' cs [Spec_Final] else cs = 0) /\ based h h' (hd_base hd) acc par.
Lemma head_next : forall fin (final : bool) base_ base L, (final = false /\ fin = [] \/ final = true /\ exists gf f, fin = gf ++ [f] /\ gap gf /\ kind Tok_Spec_Final f) ->
  base_tokens src base_ base -> next_is L opens_or_ends -> next_is (base_ ++ L) (fun k => t_type k <> Tok_Spec_Final) /\ next_is (fin ++ base_ ++ L) (ends_name src).
Proof.
  intros fin final base_ base L FI B (g0 & k0 & r0 & -> & G0 & FK0 & NK0).
  assert (X : next_is (base_ ++ g0 ++ k0 :: r0) (fun k => t_type k <> Tok_Spec_Final /\ ends_name src k)).
  { destruct base as [((access & parent) & more)|]; cbn [base_tokens] in B.
    - destruct B as (g & colon & g1 & acc & g2 & nm & name & -> & G & KC & _). rewrite <- app_assoc. cbn [app]. unfold kind in KC. assert (FC : ~ fmt colon) by (unfold fmt; rewrite KC; intros [X|X]; discriminate X). apply next_app; [exact G|exact FC|]. split; [rewrite KC; discriminate|]. split; [rewrite KC; discriminate|]. rewrite KC. intros (Y & _). discriminate Y.
    - subst base_. cbn [app]. apply next_app; [exact G0|exact FK0|]. unfold kind in NK0. destruct NK0 as [X|X]; unfold kind in X; (split; [rewrite X; discriminate|]); (split; [rewrite X; discriminate|]); rewrite X; intros (Y & _); discriminate Y. }
  split; [eapply next_impl; [exact X|intros k Y; apply Y]|]. destruct FI as [(-> & ->)|(-> & gf & f & -> & GF & KF)]; [eapply next_impl; [exact X|intros k Y; apply Y]|].
  rewrite <- app_assoc. cbn [app]. unfold kind in KF. assert (FF : ~ fmt f) by (unfold fmt; rewrite KF; intros [Y|Y]; discriminate Y). apply next_app; [exact GF|exact FF|]. split; [rewrite KF; discriminate|]. rewrite KF. intros (Y & _). discriminate Y.
Qed.
Lemma head_ok : forall h_ rest more hd body x Q sc h, class_head src h_ rest hd -> toks = Q ++ h_ ++ rest ++ more -> next_is (rest ++ more) opens_or_ends -> world e h ->
  exists Q' ca nt cs acc par h', ahead Q' (rest ++ more) /\ grow h h' /\ headed h h' hd ca nt cs acc par /\
    from_kw body (kw_of hd) x (Pst (zlen Q) sc h) = after body (kw_of hd) x ca (Some nt) cs (acc, par, []) (Pst (zlen Q') sc h').
Proof.
  intros h_ rest more hd body x Q sc h H E N W. pose proof (world_top src toks e fuel FT FS h W) as TP. remember (rest ++ more) as L eqn:EL.
  destruct H as [st k att at_ g nm name fin final base_ base rest K AT G NM NE FI B]. unfold kw_of. cbn [hd_struct]. unfold from_kw. cbn [app] in E. rewrite <- !app_assoc in E.
  destruct (a_eat Q k _ _ sc h E K) as (A1 & C1). erewrite bind_ok by exact C1. destruct (head_next fin final base_ base L FI B N) as (N1 & N2).
  destruct (named_first nm name NM) as (k1 & r1 & EN1 & K1). assert (FK1 : ~ fmt k1) by (tk; lia).
  set (L2 := fin ++ base_ ++ L) in *. set (L1 := g ++ nm ++ L2) in *.
  assert (AT' : attribute_word src att L1 at_). { apply (attribute_more _ _ _ more) in AT. rewrite <- !app_assoc in AT. rewrite <- EL in AT. exact AT. }
  assert (FITN : flags_fit k1). { eapply ahead_fit; [exact FIT|exact A1| |exact FK1]. unfold L1. rewrite EN1, !in_app_iff. right. right. left. left. reflexivity. }
  destruct (attributes_ok src toks beyond ms fuel SRC BYTES att L1 at_ (Q ++ [k]) sc h AT' A1) as (Q2 & ca & h1 & E2 & C2 & G1 & MA & _); [unfold L1; rewrite EN1; cbn [app]; apply next_app; auto; apply not_attr_flag; auto; tk; lia|exact FT|exact FS|exact TP|].
  erewrite bind_ok by exact C2. pose proof (attributes_kind _ _ _ _ _ _ _ _ C2) as KA. cbn [p_heap] in KA.
  unfold L1 in E2. rewrite EN1 in E2. cbn [app] in E2. rewrite trim_gap, trim_sig in E2 by auto. pose proof (ahead_self toks Q2 _ E2) as A2. destruct (a_check Q2 [] k1 _ Tok_Identifier sc h1 A2 ltac:(constructor) FK1) as (Q3 & E3 & C3). erewrite bind_ok by exact C3. rewrite K1, Z.eqb_refl.
  assert (A3 : ahead Q3 ([] ++ nm ++ L2)) by (rewrite EN1; apply ahead_self; exact E3).
  destruct (identifier_at src toks beyond ms fuel SRC nm name Q3 L2 [] sc h1 A3 ltac:(constructor) NM N2 ltac:(lia)) as (Q4 & nt & E4 & C4 & TX & _). erewrite bind_ok by exact C4. apply stands_ahead in E4. unfold L2 in E4.
  assert (TP1 : 0 < h_top h1) by (destruct G1; lia). destruct (final_ok final fin (base_ ++ L) Q4 sc h1 FI E4 N1 TP1) as (Q5 & cs & h2 & A5 & C5 & G2 & FC). erewrite bind_ok by exact C5.
  assert (W2 : world e h2) by (eapply world_grow; [eapply world_grow; [exact W|exact G1]|exact G2]). destruct (base_ok base_ base L Q5 sc h2 B A5 N W2) as (Q6 & acc & par & h3 & A6 & C6 & G3 & BS). erewrite bind_ok by exact C6.
  exists Q6, ca, nt, cs, acc, par, h3. split; [exact A6|]. pose proof (grow_trans _ _ _ G1 (grow_trans _ _ _ G2 G3)) as G13. split; [exact G13|]. split; [|reflexivity].
  pose proof (grow_trans _ _ _ G2 G3) as G23. split; [revert MA; apply like_maybe; apply like_content; apply grow_like; exact G23|]. cbn [hd_attrs hd_name hd_final hd_base]. split; [|split; [exact TX|split; [exact NE|split]]].
  - destruct (Z.eq_dec ca 0) as [Z0|Z0]; [left; exact Z0|right]. assert (V1 : valid h1 ca) by (destruct at_; [apply MA|contradiction]). specialize (KA Z0). destruct G23 as (T23 & N23). split; [destruct V1; split; lia|]. rewrite N23 by exact V1. rewrite KA. left. reflexivity.
  - destruct final; [|exact FC]. eapply like_specs; [apply grow_like; exact G3|exact FC].
  - unfold based in *. destruct base as [((a & ty_) & mo)|]; [|exact BS]. destruct BS as (B1 & B2 & B3 & B4 & B5 & B6 & B7). destruct G1 as (G1 & _), G2 as (G2 & _). split; [exact B1|]. split; [exact B2|]. split; [exact B3|]. split; [exact B4|]. split; [exact B5|]. split; [lia|exact B7].
Qed.
Definition kinds_of (hd : head) : codetype * codetype * codetype := if hd_struct hd then (CT_Struct, CT_Struct_Fwd, CT_Struct_Body) else (CT_Class, CT_Class_Fwd, CT_Class_Body).
Definition def_of (hd : head) := fst (fst (kinds_of hd)).
Definition fwd_of (hd : head) := snd (fst (kinds_of hd)).
Definition body_of (hd : head) := snd (kinds_of hd).
Lemma define_ok : forall hd h ca cs acc par b fl name, let p := {| os_body := b; os_parent := par; os_access := acc; os_attrs := ca; os_interfaces := []; os_specs := cs; os_mflags := fl |} in
  world e h -> none_or h ca [CT_PlatformAttributes] -> none_or h par [CT_Typename] -> none_or h b [body_of hd] -> name <> [] ->
  exists h', (if kw_of hd =? Tok_Decl_Class then def_class fuel e h (Some name) p else def_struct fuel e h (Some name) p) = Done (h', h_top h) /\ h_top h' = h_top h + 1 /\
    h_node h' (h_top h) = struct_node b par (def_of hd) (fwd_of hd) (Some name) p /\ (forall x, valid h x -> x <> b -> h_node h' x = h_node h x) /\ (b <> 0 -> exists pa, h_node h' b = set_parent pa (h_node h b)).
Proof.
  intros hd h ca cs acc par b fl name p W A P B NE. assert (R : forall c ks, none_or h c ks -> ref h c) by (intros c ks [X|(X & _)]; [left|right]; exact X).
  unfold kw_of, def_of, fwd_of, body_of, kinds_of in *. destruct (hd_struct hd); cbn [fst snd] in *.
  - change (Tok_Decl_Struct =? Tok_Decl_Class) with false. cbv iota. destruct (struct_core e h W fuel (Some name) p (R _ _ A) (R _ _ P) (R _ _ B)) as [(_ & h1 & (T & N & K) & D)|(X & _)]; [|exfalso; apply X; split; [exact A|split; assumption]].
    exists h1. rewrite D. cbn [os_interfaces p add_interfaces rbind]. split; [reflexivity|]. split; [exact T|]. split; [exact N|]. split; [intros x V _; apply K; exact V|]. intros B0. destruct B as [B|(V & _)]; [contradiction|]. exists (n_parent (h_node h b)). rewrite K by exact V. destruct (h_node h b). reflexivity.
  - rewrite Z.eqb_refl. destruct (class_core e h W fuel (Some name) p (R _ _ A) (R _ _ P) (R _ _ B)) as [(_ & h1 & T & N & K & KB & D)|(X & _)].
    + exists h1. rewrite D. cbn [os_interfaces p add_interfaces rbind]. split; [reflexivity|]. split; [exact T|]. split; [exact N|]. split; [exact K|]. eauto.
    + exfalso. apply X. split; [exists name; split; [reflexivity|exact NE]|]. split; [exact A|]. split; [|destruct B as [B|(V & [B|[]])]; [left; exact B|right; split; [exact V|unfold p; cbn [os_body]; rewrite <- B; left; reflexivity]]]. destruct P as [P|(V & [P|[]])]; [left; exact P|right; split; [exact V|unfold p; cbn [os_parent]; rewrite <- P; unfold class_kinds; cbn; auto]].
Qed.
(** the end of a declaration: [hc] comes from the heap [h2] behind its body *)
Lemma tail_ok : forall hd h hh ca nt cs acc par b x fin R cmt Q sc h2, headed h hh hd ca nt cs acc par -> grow h hh -> grow hh h2 -> world e h -> none_or h2 b [body_of hd] -> (b = 0 \/ h_top hh <= b) ->
  (hd_struct hd = true \/ par = 0) -> statement_end src fin (R ++ beyond) cmt -> ahead Q (fin ++ R) ->
  exists Q' h' ci n, toks = Q' ++ R /\ h_top h2 <= n < h_top h' /\ grow hh h' /\ maybe (comment_at h') ci cmt /\ ci < n /\
    h_node h' n = set_inline ci (struct_node b par (def_of hd) (fwd_of hd) (Some (hd_name hd)) {| os_body := b; os_parent := par; os_access := acc; os_attrs := ca; os_interfaces := []; os_specs := cs; os_mflags := if x : bool then ModuleFlag_Export else 0 |}) /\
    (forall y, valid h2 y -> y <> b -> h_node h' y = h_node h2 y) /\ (b <> 0 -> exists pa, h_node h' b = set_parent pa (h_node h2 b)) /\
    (inline_cmt <- end_statement src toks beyond ms ;;
     result <- on_heap (fun h => let p := {| os_body := b; os_parent := par; os_access := acc; os_attrs := ca; os_interfaces := []; os_specs := cs; os_mflags := if x then ModuleFlag_Export else 0 |} in
       if kw_of hd =? Tok_Decl_Class then def_class fuel e h (Some (hd_name hd)) p else def_struct fuel e h (Some (hd_name hd)) p) ;;
     (if inline_cmt =? 0 then ret tt else edit (fun h => put h result (set_inline inline_cmt))) ;;; ret result) (Pst (zlen Q) sc h2) = Done (n, Pst (zlen Q') sc h').
Proof.
  intros hd h hh ca nt cs acc par b x fin R cmt Q sc h2 HD G0 G1 W NB LB SP SE A. destruct HD as (MA & KA & TX & NE & FC & BS).
  assert (W2 : world e h2) by (eapply world_grow; [eapply world_grow; [exact W|exact G0]|exact G1]). pose proof (world_top src toks e fuel FT FS h2 W2) as TP.
  destruct (end_ok src toks beyond ms fuel FT FS fin R cmt Q sc h2 SE A TP) as (Q' & ci & h3 & E3 & C3 & G3 & MC & LC). pose proof (grow_trans _ _ _ G1 G3) as G13.
  assert (W3 : world e h3) by (eapply world_grow; eauto). assert (NG : forall (ha hb : heap) c ks, grow ha hb -> none_or ha c ks -> none_or hb c ks). { intros ha hb c ks (T & N) [Z|(V & I)]; [left; exact Z|right]. split; [destruct V; split; lia|rewrite N by exact V; exact I]. }
  assert (KP : none_or h3 par [CT_Typename]). { apply (NG hh); [exact G13|]. destruct SP as [SP| ->]; [|left; reflexivity]. unfold based in BS. destruct (hd_base hd) as [((a & ty_) & mo)|]; [|left; apply BS]. destruct BS as (_ & _ & _ & TA & _ & _ & TY & _). right. split; [apply TA|left; symmetry; exact TY]. }
  destruct (define_ok hd h3 ca cs acc par b (if x then ModuleFlag_Export else 0) (hd_name hd) W3 (NG _ _ _ _ G13 KA) KP (NG _ _ _ _ G3 NB) NE) as (h4 & D4 & T4 & N4 & K4 & B4).
  set (p := {| os_body := b; os_parent := par; os_access := acc; os_attrs := ca; os_interfaces := []; os_specs := cs; os_mflags := if x then ModuleFlag_Export else 0 |}) in *.
  set (nn := struct_node b par (def_of hd) (fwd_of hd) (Some (hd_name hd)) p) in *. set (n := h_top h3) in *.
  assert (CV : ci = 0 \/ valid h3 ci). { destruct cmt; [right; apply MC|left; exact MC]. } assert (V4 : valid h4 n) by (split; unfold n in *; destruct G3; lia).
  assert (BV : b = 0 \/ valid h2 b) by (destruct NB as [Z|(V & _)]; auto).
  assert (CE : exists h5, (if ci =? 0 then ret tt else edit (fun h => put h n (set_inline ci))) (Pst (zlen Q') sc h4) = Done (tt, Pst (zlen Q') sc h5) /\ h_top h5 = h_top h4 /\ h_node h5 n = set_inline ci nn /\ forall y, y <> n -> h_node h5 y = h_node h4 y).
  { destruct (ci =? 0) eqn:Z0.
    - apply Z.eqb_eq in Z0. exists h4. split; [reflexivity|]. split; [reflexivity|]. split; [|auto]. rewrite N4, Z0. unfold nn, struct_node, with_body. destruct (b =? 0); reflexivity.
    - destruct (any_edit n (set_inline ci) h4 (zlen Q') sc V4) as (h5 & C5 & S5). destruct S5 as (T5 & N5 & O5). exists h5. split; [exact C5|]. split; [exact T5|]. split; [rewrite N5, N4; reflexivity|exact O5]. }
  destruct CE as (h5 & C5 & T5 & N5 & O5). destruct G3 as (T3 & N3).
  assert (KE : forall y, valid h2 y -> y <> b -> h_node h5 y = h_node h2 y). { intros y V Y. rewrite O5 by (destruct V; unfold n; lia). rewrite K4; [apply N3; exact V|destruct V; split; lia|exact Y]. }
  exists Q', h5, ci, n. split; [exact E3|]. split; [unfold n; lia|]. split; [|split; [|split; [|split; [exact N5|split; [exact KE|split]]]]].
  - destruct G1 as (T1 & N1). split; [lia|]. intros y V. rewrite KE; [apply N1; exact V|destruct V; split; lia|]. destruct V. destruct LB; lia.
  - revert MC. apply like_maybe. intros c t. apply like_comment. split; [lia|]. intros y V. destruct (Z.eq_dec y b) as [->|Y].
    + destruct (Z.eq_dec b 0) as [B0|B0]; [destruct V; lia|]. rewrite O5 by (destruct V; unfold n; lia). destruct (B4 B0) as (pa & ->). unfold sim. destruct (h_node h3 b); reflexivity.
    + rewrite O5 by (destruct V; unfold n; lia). rewrite K4 by assumption. reflexivity.
  - destruct CV as [->|(_ & V)]; unfold n; [destruct W3 as ((? & ?) & _); lia|lia].
  - intros B0. destruct BV as [BV|BV]; [contradiction|]. rewrite O5 by (destruct BV; unfold n; lia). destruct (B4 B0) as (pa & ->). exists pa. rewrite N3 by exact BV. reflexivity.
  - erewrite bind_ok by exact C3. erewrite bind_ok with (a := n) (s' := Pst (zlen Q') sc h4) by (unfold on_heap; cbv beta zeta; cbn [p_heap p_idx p_scopes]; revert D4; destruct (kw_of hd =? Tok_Decl_Class); intros D4; rewrite D4; reflexivity). erewrite bind_ok by exact C5. reflexivity.
Qed.
End P.
