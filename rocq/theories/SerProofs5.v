(** Proofs for C41, continued: code made later does not change a text; the link to C37's formatter. *)
From Coq Require Import String Ascii ZArith List Bool Lia ZifyBool ZifyNat.
From Verif Require Import Common Text ArrayModel StrOpsModel StrModel StrOpsSpec FmtModel FmtSpec FmtProofs EnumModel EnumSpec AstModel AstSpec SerModel SerSpec
  SerProofs SerProofs2 SerProofs3 SerProofs4.
Import ListNotations.
Close Scope string_scope.
Open Scope Z_scope.

Definition leq {A} (r r' : run A) : Prop := forall a, r = Done a -> r' = Done a.
Lemma leq_refl {A} (r : run A) : leq r r. Proof. intros a E. exact E. Qed.
Lemma leq_bind {A B} (r r' : run A) (f f' : A -> run B) : leq r r' -> (forall a, leq (f a) (f' a)) -> leq (rbind r f) (rbind r' f').
Proof. intros H G b. destruct r as [a| |]; cbn [rbind]; try discriminate. rewrite (H a eq_refl). cbn [rbind]. apply G. Qed.
Lemma leq_cat rs rs' : Forall2 leq rs rs' -> leq (cat rs) (cat rs').
Proof. induction 1 as [|r r' rs rs' H _ IH]; [apply leq_refl|]. cbn [cat]. apply leq_bind; [exact H|intros a]. apply leq_bind; [exact IH|intros b; apply leq_refl]. Qed.

Section Ext.
Variables (h h' : heap) (rec rec' : fn -> Z -> run (list Z)) (lf : nat).
Hypothesis Hget : forall c, leq (get h c) (get h' c).
Hypothesis Hrec : forall f c, leq (rec f c) (rec' f c).
Lemma leq_next : forall k f f' c, (forall x, leq (f x) (f' x)) -> leq (next_loop k h f c) (next_loop k h' f' c).
Proof.
  induction k as [|k IH]; intros f f' c Hf; [apply leq_refl|]. cbn [next_loop]. destruct (c =? 0); [apply leq_refl|].
  apply leq_bind; [apply Hf|intros a]. apply leq_bind; [apply Hget|intros n]. apply leq_bind; [apply IH; exact Hf|intros b; apply leq_refl].
Qed.
Lemma leq_body : forall k c, leq (body_loop rec h k c) (body_loop rec' h' k c).
Proof.
  induction k as [|k IH]; intros c; [apply leq_refl|]. cbn [body_loop]. apply leq_bind; [apply Hrec|intros a]. apply leq_bind; [apply Hget|intros n]. apply leq_bind; [apply IH|intros b; apply leq_refl].
Qed.
Ltac mono := repeat match goal with
  | |- leq ?a ?a => apply leq_refl
  | |- leq (rec _ _) (rec' _ _) => apply Hrec
  | |- leq (get h _) (get h' _) => apply Hget
  | |- leq (rbind _ _) (rbind _ _) => apply leq_bind; [|intros]
  | |- leq (cat _) (cat _) => apply leq_cat
  | |- Forall2 _ (_ :: _) (_ :: _) => constructor
  | |- Forall2 _ [] [] => constructor
  | |- leq (next_loop _ _ _ _) (next_loop _ _ _ _) => apply leq_next; intros
  | |- leq (body_loop _ _ _ _) (body_loop _ _ _ _) => apply leq_body
  | |- leq (if ?b then _ else _) _ => destruct b
  | |- leq (match ?x with _ => _ end) _ => destruct x
  end.
Lemma step_ext f c : leq (ser_step rec lf h f c) (ser_step rec' lf h' f c).
Proof.
  destruct f; cbn [ser_step]; unfold code_ref, body_to, typename_ref, params_ref, define_params_ref, specifiers_ref, var_ref, body_ref, body_export,
    class_def, class_fwd, ctor_def, ctor_fwd, ctor_head, dtor_def, dtor_fwd, enum_def, enum_fwd, enum_class_def, enum_class_fwd, extern_to, friend_ref, fn_def, fn_fwd,
    fn_sig, params_close, suffix_specs, module_ref, namespace_ref, op_def, op_fwd, opcast_def, opcast_fwd, define_ref, struct_def, struct_fwd, template_ref, typedef_ref,
    union_def, union_fwd, using_ref, using_ns, in_braces, in_braces_nl; mono.
  all: unfold attrs_sp, content_of, name_of, has_spec, spaced_specs, for_specs, some_spec, end_def, ends_statement, semi_or_comment, opcast_specs, var_arrays, var_init, array_exprs, params_close; mono.
  all: unfold attrs_sp, content_of, name_of, has_spec, spaced_specs, for_specs, some_spec, end_def, ends_statement, semi_or_comment, opcast_specs, var_arrays, var_init, array_exprs; mono.
Qed.
End Ext.
Lemma p41_extends h h' : h_top h <= h_top h' -> (forall x, valid h x -> h_node h' x = h_node h x) ->
  forall m f c t, serialize m h f c = Done t -> serialize m h' f c = Done t.
Proof.
  intros T N. assert (G : forall c, leq (get h c) (get h' c)).
  { intros c a E. unfold get in *. destruct ((0 <? c) && (c <? h_top h)) eqn:K; [|discriminate]. replace ((0 <? c) && (c <? h_top h')) with true by lia.
    rewrite N by (unfold valid; lia). exact E. }
  induction m as [|m IH]; intros f c t; [discriminate|]. cbn [serialize]. apply step_ext; [exact G|exact IH].
Qed.

(** ** the link to the formatter *)
Definition value_conv (c : conv) : Prop := match c with Prefix _ _ | Slice _ _ | Builder _ _ => True | _ => False end.
Definition conv_value (c : conv) : list Z := match c with Prefix _ t | Slice _ t | Builder _ t => t | _ => [] end.
(** literal text as a Coq string *)
Definition string_of (t : list Z) : string := fold_right (fun b s => String (ascii_of_N (Z.to_N b)) s) EmptyString t.
Fixpoint format_parts (segs : list (list Z * conv)) (last : list Z) : list part :=
  match segs with [] => [L (string_of last)] | (lit, c) :: r => L (string_of lit) :: V (conv_value c) :: format_parts r last end.
Lemma txt_string_of t : chars t -> txt (string_of t) = t.
Proof.
  induction 1 as [|b t B _ IH]; [reflexivity|]. unfold txt in *. cbn [string_of fold_right list_ascii_of_string map].
  change (fold_right _ _ t) with (string_of t). rewrite IH. rewrite N_ascii_embedding by lia. f_equal. lia.
Qed.
Lemma format_parts_ok segs last : literal last -> Forall (fun s => literal (fst s) /\ value_conv (snd s)) segs ->
  renders segs last (parts_text (format_parts segs last)).
Proof.
  intros La. induction 1 as [|[lit c] r ((Ch & _) & Vc) _ IH].
  - unfold parts_text. cbn [format_parts map concat part_text]. rewrite txt_string_of by apply La. rewrite app_nil_r. constructor.
  - unfold parts_text in *. cbn [format_parts map concat part_text fst snd] in *. rewrite txt_string_of by exact Ch. constructor; [|exact IH].
    destruct c; try contradiction; reflexivity.
Qed.
Lemma p41_format m num buf fmt segs last fuel :
  byte_mem m -> num <> 0 -> (forall x, buf <= x < buf + FMT_ROOM -> ~ (num <= x < num + 130)) ->
  literal last -> Forall (fun s => literal (fst s) /\ arg_ok m buf FMT_ROOM num (snd s) /\ value_conv (snd s)) segs -> unambiguous segs last ->
  cstr m fmt (format_text segs last) -> apart fmt (zlen (format_text segs last) + 1) buf FMT_ROOM num ->
  fits (parts_text (format_parts segs last)) ->
  (66 <= fuel)%nat -> (List.length segs < fuel)%nat -> (List.length (parts_text (format_parts segs last)) <= fuel)%nat ->
  exists m1 out, append_fmt (format_parts segs last) = Done out /\
    c_str_fmt_va fuel m num buf FMT_ROOM fmt (format_args segs) = Done (m1, zlen out + 1) /\ cstr m1 buf out.
Proof.
  intros Bm Nz Ap La Se Un Cs Af Fi F1 F2 F3. set (out := parts_text (format_parts segs last)) in *.
  assert (Rn : renders segs last out). { apply format_parts_ok; [exact La|]. eapply Forall_impl; [|exact Se]. intros a (A & _ & B). split; assumption. }
  destruct (p37_format m num buf FMT_ROOM fmt segs last out fuel Bm Nz Ap) as (m1 & E & C & _); auto.
  - reflexivity.
  - eapply Forall_impl; [|exact Se]. intros a (A & B & _). split; assumption.
  - unfold fits in Fi. unfold zlen. lia.
  - exists m1, out. split; [apply append_fmt_ok; exact Fi|]. split; [|exact C]. rewrite E. unfold fits in Fi.
    replace (zlen out + 1 =? FMT_ROOM) with false by (unfold zlen; lia). reflexivity.
Qed.
Lemma p41_long_body h c fuel t : valid h c -> n_type (h_node h c) = CT_Namespace -> exports (h_node h c) false ->
  n_name (h_node h c) <> [] -> Z.of_nat (List.length (n_name (h_node h c))) < 100000 ->
  body_to_strbuilder fuel h (n_body (h_node h c)) = Done t -> 131071 < Z.of_nat (List.length t) ->
  code_to_strbuilder (S fuel) h c = Done (txt "namespace " ++ n_name (h_node h c) ++ braces [] ++ NL).
Proof.
  intros Vc T X Ne S B Lt. unfold code_to_strbuilder, body_to_strbuilder in *. cbn [serialize ser_step]. unfold code_ref. rewrite get_valid by assumption. cbn [rbind]. rewrite T.
  unfold namespace_ref. rewrite (export_ok _ _ X), B. cbn [rbind when]. set (nm := n_name (h_node h c)) in *.
  assert (F : fmt_out FMT_ROOM [L "namespace "; N nm; L braces_open; V t; L (line braces_close)] = txt "namespace " ++ nm ++ braces [] ++ NL).
  { cbn [fmt_out]. rewrite named_part by exact Ne. cbn [part_text]. change FMT_ROOM with 131071.
    replace (Z.of_nat (List.length nm) >? 131071) with false by lia. replace (Z.of_nat (List.length t) >? 131071 - Z.of_nat (List.length nm)) with true by lia. reflexivity. }
  unfold append_fmt. rewrite F. unfold braces. change FMT_ROOM with 131071. rewrite !app_length. cbn [List.length].
  replace (_ >=? 131071) with false; [cbn [cat rbind]; norm; reflexivity|]. symmetry. change (List.length (txt "namespace ")) with 10%nat. change (List.length NL) with 1%nat. change (List.length (txt "{")) with 1%nat. change (List.length (txt "}")) with 1%nat. lia.
Qed.
