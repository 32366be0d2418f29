(** Enums as members of global bodies: how the library tells them from variables. *)
From Coq Require Import String ZArith List Bool Lia ZifyBool ZifyNat.
From Verif Require Import Common Text HashModel StrOpsModel EnumModel EnumSpec EnumProofs LexModel LexSpec NavModel StripModel StripSpec StripProofs AstModel AstSpec AstProofs AstProofs4 UpfrontModel UpfrontSpec UpfrontProofs4 SerSpec SerProofs SerProofs2 ParseModel ParseSpec
  ParseProofs ParseProofs2 ParseProofs3 ParseProofs4 ParseProofs5 ParseProofs6 ParseProofs7 ParseProofs8 ParseProofs9 ParseProofs10 ParseProofs11 FnModel FnSpec FnProofs FnProofs2 FnProofs3 FnProofs4 GlobalModel GlobalSpec GlobalProofs GlobalProofs2 GlobalProofs3.
Import ListNotations.
Close Scope string_scope.
Open Scope Z_scope.
Open Scope parse_scope.

Section P.
Variable src : list Z.
Variable toks beyond : list token.
Variable ms : macros.
Variable e : env.
Variable gl : globals.
Variable fuel : nat.
Hypothesis SRC : Forall (in_source src) toks.
Hypothesis FIT : Forall flags_fit toks.
Hypothesis BYTES : Forall (fun c => 0 <= c < 256) src.
Hypothesis FT : (length toks < fuel)%nat.
Hypothesis FS : (length src < fuel)%nat.
Hypothesis NOM : no_macro_spec ms.
Notation member := (member src toks beyond ms e gl fuel).
Notation definition_end := (definition_end toks beyond).
Notation reads := (reads src toks beyond ms e gl fuel).
Notation memb := (memb src toks beyond ms e gl fuel).
Notation cls_of := (cls_of src toks beyond ms e gl fuel).

Lemma de_step : forall n P k R d, toks = P ++ k :: R -> definition_end (S n) (zlen P) d =
  (let level := if t_type k =? Tok_BraceCurly_Open then d + 1 else d in let level := if t_type k =? Tok_BraceCurly_Close then level - 1 else level in
   if (level =? 0) && (t_type k =? Tok_Statement_End) then Done (zlen P) else definition_end n (zlen (P ++ [k])) level).
Proof.
  intros n P k R d E. cbn [GlobalModel.definition_end]. replace (negb (zlen P <? num toks)) with false by (unfold num; rewrite E; zl). rewrite (tok_ok toks beyond P k R E). cbn [rbind]. replace (zlen P + 1) with (zlen (P ++ [k])) by zl. reflexivity.
Qed.
Lemma de_plain : forall hd_ n P R, plain_tokens hd_ -> toks = P ++ hd_ ++ R -> definition_end (length hd_ + n) (zlen P) 0 = definition_end n (zlen (P ++ hd_)) 0.
Proof.
  induction hd_ as [|k r IH]; intros n P R F E; [rewrite app_nil_r; reflexivity|]. cbn [app length plus] in *. rewrite (de_step _ P k (r ++ R) 0 E). destruct (Forall_inv F) as (F1 & F2 & F3). cbv zeta.
  replace (t_type k =? Tok_BraceCurly_Open) with false by lia. replace (t_type k =? Tok_BraceCurly_Close) with false by lia. replace (t_type k =? Tok_Statement_End) with false by lia. cbn [Z.eqb andb].
  apply at_eat in E. rewrite (IH n _ R (Forall_inv_tail F) E), <- app_assoc. reflexivity.
Qed.
Lemma de_nested : forall d raw, ParseSpec.nested (eq Tok_BraceCurly_Open) (eq Tok_BraceCurly_Close) (fun _ _ => False) d raw -> forall n P R, toks = P ++ raw ++ R ->
  definition_end (length raw + n) (zlen P) (Z.of_nat d + 1) = definition_end n (zlen (P ++ raw)) 1.
Proof.
  intros d raw T. induction T as [|d k r O T IH|d k r O T IH|d k r O1 O2 _ T IH]; intros n P R E; [rewrite app_nil_r; reflexivity| | |]; cbn [app length plus] in *; rewrite (de_step _ P k (r ++ R) _ E); cbv zeta; apply at_eat in E; specialize (IH n _ R E); rewrite <- app_assoc in IH; cbn [app] in IH.
  - rewrite <- O. change (Tok_BraceCurly_Open =? Tok_BraceCurly_Open) with true. change (Tok_BraceCurly_Open =? Tok_BraceCurly_Close) with false. cbv iota. change (Tok_BraceCurly_Open =? Tok_Statement_End) with false. rewrite andb_false_r. rewrite <- IH. f_equal. lia.
  - rewrite <- O. change (Tok_BraceCurly_Close =? Tok_BraceCurly_Open) with false. change (Tok_BraceCurly_Close =? Tok_BraceCurly_Close) with true. cbv iota. change (Tok_BraceCurly_Close =? Tok_Statement_End) with false. rewrite andb_false_r. rewrite <- IH. f_equal. lia.
  - replace (t_type k =? Tok_BraceCurly_Open) with false by lia. replace (t_type k =? Tok_BraceCurly_Close) with false by lia. replace (Z.of_nat d + 1 =? 0) with false by lia. cbn [andb]. exact IH.
Qed.
Lemma de_end : forall n P k R, toks = P ++ k :: R -> kind Tok_Statement_End k -> definition_end n (zlen P) 0 = Done (zlen P).
Proof.
  intros n P k R E K. assert (X : definition_end n (zlen P) 0 = rbind (tok_at toks beyond (zlen P)) (fun k =>
  let level := if t_type k =? Tok_BraceCurly_Open then 0 + 1 else 0 in
  let level := if t_type k =? Tok_BraceCurly_Close then level - 1 else level in
  if (level =? 0) && (t_type k =? Tok_Statement_End) then Done (zlen P) else
  match n with O => NoFuel | S n => definition_end n (zlen P + 1) level end)).
  { destruct n; cbn [GlobalModel.definition_end]; replace (negb (zlen P <? num toks)) with false by (unfold num; rewrite E; zl); reflexivity. }
  rewrite X, (tok_ok toks beyond P k R E). cbn [rbind]. unfold kind in K. rewrite K. reflexivity.
Qed.
Lemma enum_leaf : forall raw R t, enum_tokens src raw R t -> leaf t.
Proof.
  intros raw R t T. destruct T as [k class cl att at_ g nm und ty_ blk body fin rest cmt t K CL AT G KN NE U B SE ET].
  assert (TO : forall y, ty_ = Some y -> typ_ok y). { intros y ->. destruct U as (g0 & colon & ty0 & _ & _ & _ & T). unfold typ_ok, some_ok. eapply type_specs; eauto. }
  assert (RW : forall ts, raws (map Raw ts)) by (intros ts; apply Forall_forall; intros x X; apply in_map_iff in X; destruct X as (y & <- & _); eauto).
  destruct class, body as [ts|]; cbn [enum_tree] in ET; try (destruct ty_ as [y|]; [|discriminate ET]); injection ET as <-; cbn [leaf]; auto.
Qed.
Lemma plain_spec : forall k, In k toks -> ~ fmt k -> ~ macro_kind (t_type k) -> ~ spec_kind (t_type k) -> tok_is_specifier k = false.
Proof.
  intros k I _ M S. pose proof (proj1 (Forall_forall _ _) FIT k I) as F. pose proof (not_spec_flag k F M S) as NF. unfold tok_is_specifier, bitfield_is_set. unfold flagged in NF. destruct (_ =? _) eqn:X; [|reflexivity]. exfalso. apply NF. apply Z.eqb_eq. exact X.
Qed.
(** [parse_complicated_definition] comes to [parse_enum] *)
Lemma complicated_ok : forall cls raw rest Q sc h, enum_shape raw -> toks = Q ++ raw ++ rest -> (exists k r, raw = k :: r /\ t_type k = Tok_Decl_Enum) ->
  parse_complicated_definition src toks beyond ms e gl fuel cls Tok_Decl_Enum (Pst (zlen Q) sc h) = (r <- parse_enum src toks beyond ms e fuel ;; parser_pop ;;; ret r) (Pst (zlen Q) ((zlen Q, "parse_complicated_definition"%string) :: sc) h).
Proof.
  intros cls raw rest Q sc h (front & semi & back & -> & KS & SH) E HD. set (sc' := (zlen Q, "parse_complicated_definition"%string) :: sc).
  unfold parse_complicated_definition, push_scope. unfold bind at 1. cbn [rbind p_idx p_scopes p_heap]. fold sc'. erewrite bind_ok with (a := zlen Q) (s' := Pst (zlen Q) sc' h) by reflexivity. rewrite <- app_assoc in E. cbn [app] in E.
  assert (DE : definition_end (length toks) (zlen Q) 0 = Done (zlen (Q ++ front))).
  { assert (LT : exists n, length toks = (length front + n)%nat). { exists (length toks - length front)%nat. rewrite E, !app_length. lia. } destruct LT as (n & ->).
    destruct SH as [(hd_ & o & inner & c & -> & PL & KO & IB & KC)|SH].
    - rewrite <- app_assoc in E. cbn [app] in E. rewrite <- app_assoc in E. cbn [app] in E. replace (length (hd_ ++ o :: inner ++ [c]) + n)%nat with (length hd_ + S (length inner + S n))%nat by (rewrite !app_length; cbn; rewrite app_length; cbn; lia).
      rewrite (de_plain hd_ _ Q _ PL E). apply at_app in E. rewrite (de_step _ _ o _ 0 E). unfold kind in KO, KC. rewrite KO. cbv zeta. change (Tok_BraceCurly_Open =? Tok_BraceCurly_Open) with true. change (Tok_BraceCurly_Open =? Tok_BraceCurly_Close) with false. cbv iota. change (0 + 1 =? 0) with false. cbn [andb].
      apply at_eat in E. rewrite (de_nested 0 inner IB _ _ _ E : definition_end (length inner + S n) (zlen ((Q ++ hd_) ++ [o])) (0 + 1) = _). apply at_app in E. rewrite (de_step _ _ c _ 1 E), KC. cbv zeta. change (Tok_BraceCurly_Close =? Tok_BraceCurly_Open) with false. change (Tok_BraceCurly_Close =? Tok_BraceCurly_Close) with true. cbv iota. change (Tok_BraceCurly_Close =? Tok_Statement_End) with false. rewrite andb_false_r.
      apply at_eat in E. change (1 - 1) with 0. rewrite (de_end _ _ semi _ E KS). rewrite <- !app_assoc. reflexivity.
    - assert (PL : plain_tokens front) by (destruct SH as [(k & n0 & -> & PL)|(k & c & n0 & co & t & -> & PL & _)]; exact PL). rewrite (de_plain front _ Q _ PL E). apply at_app in E. apply (de_end _ _ semi _ E KS). }
  unfold bind at 1. rewrite DE. cbn [rbind].
  assert (PE : parse_forward_or_definition src toks beyond ms e fuel cls Tok_Decl_Enum = parse_enum src toks beyond ms e fuel) by reflexivity. rewrite PE.
  destruct SH as [(hd_ & o & inner & c & EF & PL & KO & IB & KC)|[(k & n0 & EF & PL)|(k & c & n0 & co & t & EF & PL & KE & KC & KCO & KT)]].
  - destruct (zlen (Q ++ front) - 2 =? zlen Q); [reflexivity|]. unfold kind in KC. assert (EC : toks = (Q ++ hd_ ++ o :: inner) ++ c :: semi :: back ++ rest) by (rewrite E, EF; rewrite <- !app_assoc; cbn [app]; rewrite <- !app_assoc; reflexivity).
    assert (IX : zlen (Q ++ front) - 1 = zlen (Q ++ hd_ ++ o :: inner)) by (rewrite EF; zl). rewrite IX. erewrite bind_ok by (unfold tok; cbn [p_idx]; rewrite (tok_ok toks beyond _ c _ EC); reflexivity).
    assert (NS : tok_is_specifier c = false). { apply plain_spec; [rewrite EC; apply in_or_app; right; left; reflexivity|tk; lia|tk; lia|tk; lia]. } rewrite NS. cbn [andb]. rewrite KC.
    change (Tok_BraceCurly_Close =? Tok_Identifier) with false. change ((Tok_BraceCurly_Close >=? Tok_Type_Unsigned) && (Tok_BraceCurly_Close <=? Tok_Type_MS_W64)) with false. rewrite Z.eqb_refl. reflexivity.
  - replace (zlen (Q ++ front) - 2 =? zlen Q) with true by (rewrite EF; zl). reflexivity.
  - replace (zlen (Q ++ front) - 2 =? zlen Q) with false by (rewrite EF; zl). rewrite EF in E. cbn [app] in E.
    assert (E5 : toks = Q ++ k :: c :: n0 :: co :: t :: semi :: back ++ rest) by exact E.
    assert (T1 : tok_at toks beyond (zlen (Q ++ front) - 1) = Done t) by (replace (zlen (Q ++ front) - 1) with (zlen (Q ++ [k; c; n0; co])) by (rewrite EF; zl); eapply tok_ok; rewrite <- app_assoc; exact E5).
    assert (T2 : tok_at toks beyond (zlen (Q ++ front) - 2) = Done co) by (replace (zlen (Q ++ front) - 2) with (zlen (Q ++ [k; c; n0])) by (rewrite EF; zl); eapply tok_ok; rewrite <- app_assoc; exact E5).
    assert (T4 : tok_at toks beyond (zlen (Q ++ front) - 4) = Done c) by (replace (zlen (Q ++ front) - 4) with (zlen (Q ++ [k])) by (rewrite EF; zl); eapply tok_ok; rewrite <- app_assoc; exact E5).
    assert (T5 : tok_at toks beyond (zlen (Q ++ front) - 5) = Done k) by (replace (zlen (Q ++ front) - 5) with (zlen Q) by (rewrite EF; zl); eapply tok_ok; exact E5).
    assert (TK : forall i x, tok_at toks beyond i = Done x -> tok toks beyond i (Pst (zlen Q) sc' h) = Done (x, Pst (zlen Q) sc' h)) by (intros i x X; unfold tok; rewrite X; reflexivity).
    erewrite bind_ok by (apply TK; exact T1). assert (IT : In t toks) by (rewrite E5; apply in_or_app; right; do 4 right; left; reflexivity).
    assert (NS : tok_is_specifier t = false). { apply plain_spec; [exact IT| | |]; destruct KT; tk; lia. } rewrite NS. cbn [andb]. unfold kind in KCO, KE, KC.
    destruct KT as [KT|KT].
    + rewrite KT. change (Tok_Identifier =? Tok_Identifier) with true. cbv iota. erewrite bind_ok by (apply TK; exact T2). rewrite KCO. change (Tok_Assign_Classifer =? Tok_BraceCurly_Close) with false. change (Tok_Assign_Classifer =? Tok_Identifier) with false. cbv iota. erewrite bind_ok by reflexivity. cbv iota. rewrite Z.eqb_refl. 
      rewrite bind_assoc. erewrite bind_ok by (apply TK; exact T5). rewrite bind_assoc. erewrite bind_ok by (apply TK; exact T4). rewrite KE, KC. erewrite bind_ok by reflexivity. reflexivity.
    + replace (t_type t =? Tok_Identifier) with false by (tk; lia). replace ((t_type t >=? Tok_Type_Unsigned) && (t_type t <=? Tok_Type_MS_W64)) with true by (unfold native in KT; lia).
      erewrite bind_ok by (apply TK; exact T2). rewrite KCO, Z.eqb_refl. rewrite bind_assoc. erewrite bind_ok by (apply TK; exact T5). rewrite bind_assoc. erewrite bind_ok by (apply TK; exact T4). rewrite KE, KC. erewrite bind_ok by reflexivity. reflexivity.
Qed.
Lemma enum_read : forall inc raw rest t, enum_tokens src raw (rest ++ beyond) t -> enum_shape raw -> reads inc raw rest t.
Proof.
  intros inc raw rest t T SH. assert (X : exists k r, raw = k :: r /\ kind Tok_Decl_Enum k) by (destruct T; eauto). destruct X as (k & r & -> & K). unfold kind in K. apply (reads_by src toks beyond ms e gl fuel FT FS); try (rewrite K; discriminate). intros Q sc h E W _.
  pose proof (fun cls => complicated_ok cls (k :: r) rest Q sc h SH E (ex_intro _ k (ex_intro _ r (conj eq_refl K)))) as CO. set (s0 := (zlen Q, "parse_complicated_definition"%string)) in *.
  destruct (enum_ok src toks beyond ms e fuel SRC FIT BYTES FT FS (k :: r) rest t Q (s0 :: sc) h T E W) as (Q' & c & h' & t' & E' & C & TR & H & G & L & Y & P0).
  exists Q', c, h', t'. split; [exact E'|]. pose proof (enum_leaf _ _ _ T) as LF. split.
  - assert (KC : kind_is h' c [CT_Enum; CT_Enum_Class; CT_Enum_Fwd; CT_Enum_Class_Fwd] /\ clear (h_top h) h' c t').
    { assert (SHP : match t with Enum _ _ _ _ _ | EnumClass _ _ _ _ _ | EnumFwd _ _ _ _ _ | EnumClassFwd _ _ _ _ _ => True | _ => False end).
      { clear - T. destruct T as [k0 class cl att at_ g nm und ty_ blk body fin rest0 cmt t K0 CL AT G0 KN NE U B SE ET]. destruct class, body as [ts|]; cbn [enum_tree] in ET; try (destruct ty_ as [y|]; [|discriminate ET]); injection ET as <-; exact I. }
      pose proof (respaced_leaf _ _ TR LF) as LF'. destruct TR; try contradiction; try (destruct t; try contradiction); cbn [holds] in H; destruct H as ((V & [KT|[]]) & H); (split; [split; [exact V|rewrite <- KT; cbn; auto]|]); cbn [clear]; try exact I.
      all: apply Y; first [destruct H as (_ & _ & _ & _ & _ & H & _); destruct H as [((VB & _) & _)|(tt & _ & (VB & _) & _)]; destruct VB; lia|destruct H as (_ & _ & _ & _ & H & _); destruct H as [((VB & _) & _)|(tt & _ & (VB & _) & _)]; destruct VB; lia]. }
    destruct KC as (KC & CL). split; [apply tl_respaced; exact TR|]. split; [eapply respaced_leaf; eauto|]. split; [exact CL|]. split; [exact H|]. split; [exact G|]. split; [apply KC|]. split; [destruct KC as (_ & [<-|[<-|[<-|[<-|[]]]]]); reflexivity|]. split; [auto|]. eapply world_invalid; eauto.
  - intros p n _. rewrite K. replace (memb p n Tok_Decl_Enum) with (c <- parse_complicated_definition src toks beyond ms e gl fuel (cls_of p) Tok_Decl_Enum ;; ret (Some c)) by (destruct p; reflexivity). unfold bind at 1. rewrite CO. erewrite bind_ok by exact C. reflexivity.
Qed.
End P.
