(** Proofs for C41: every node that holds a tree serializes to the tree's text. *)
From Coq Require Import String ZArith List Bool Lia ZifyBool ZifyNat.
From Verif Require Import Common Text ArrayModel StrOpsModel EnumModel EnumSpec AstModel AstSpec SerModel SerSpec SerProofs.
Import ListNotations.
Close Scope string_scope.
Open Scope Z_scope.

Definition children (t : tree) : list tree :=
  match t with
  | Block l | Namespace _ _ l | Linkage _ l | Struct _ _ _ _ _ _ l | Class _ _ _ _ _ l | Union _ _ _ l | Enum _ _ _ _ l
  | EnumClass _ _ _ _ l | Function _ _ _ _ _ l | Operator _ _ _ _ _ l | Cast _ _ l => l
  | Constructor _ _ _ _ b | Destructor _ _ b | Template _ _ b | Friend b => [b]
  | _ => []
  end.
Lemma tree_children_ind (P : tree -> Prop) : (forall t, (forall s, In s (children t) -> P s) -> P t) -> forall t, P t.
Proof.
  intros H. fix IH 1. intros t. apply H.
  assert (G : forall l, (forall s, In s l -> P s) -> forall s, In s l -> P s) by auto.
  destruct t; cbn [children]; try (intros s []; fail);
    try (revert entries; fix go 1; intros [|x r] s I; [destruct I|destruct I as [<-|I]; [apply IH|exact (go r s I)]]);
    try (intros s [<-|[]]; apply IH).
Qed.

Definition yields (h : heap) (f : fn) (c : Z) (t : list Z) : Prop := exists k, forall m, (k <= m)%nat -> serialize m h f c = Done t.
(** what is proved of a tree *)
Definition good (h : heap) (t : tree) : Prop := forall c, holds h c t -> fits (render t) -> yields h F_code c (render t).

Section Entries.
Variable h : heap.
Fixpoint entries_at (c : Z) (l : list tree) {struct l} : Prop :=
  match l with [] => True | t :: r => holds h c t /\ entries_at (n_next (h_node h c)) r end.
Definition block_at (c : Z) (l : list tree) : Prop :=
  kind_is h c body_kinds /\ n_num (h_node h c) = Z.of_nat (List.length l) /\ entries_at (n_front (h_node h c)) l.
Definition body_at (c : Z) (l : list tree) : Prop :=
  block_at c l \/ exists t, l = [Raw t] /\ kind_is h c [CT_Untyped; CT_Execution] /\ n_content (h_node h c) = t.
End Entries.

Lemma holds_valid h c t : holds h c t -> valid h c.
Proof. destruct t; cbn [holds]; unfold raw_at, kind_is; intros H; try apply H; tauto. Qed.

Lemma entries_ok h : forall l c, (forall s, In s l -> good h s) -> entries_at h c l -> fits (concat (map render l)) ->
  exists k, forall m, (k <= m)%nat -> body_loop (serialize m h) h (List.length l) c = Done (concat (map render l)).
Proof.
  induction l as [|t l IH]; intros c G E F; cbn [entries_at List.length map concat] in *.
  - exists 0%nat. reflexivity.
  - destruct E as (H & E). destruct (G t (or_introl eq_refl) c H ltac:(fit)) as (k1 & K1).
    destruct (IH _ (fun s I => G s (or_intror I)) E ltac:(fit)) as (k2 & K2). exists (k1 + k2)%nat. intros m Hm. cbn [body_loop].
    rewrite K1 by lia. cbn [rbind]. rewrite get_valid by (eapply holds_valid; eauto). cbn [rbind]. rewrite K2 by lia. reflexivity.
Qed.
Lemma body_ref_ok h c l : (forall s, In s l -> good h s) -> block_at h c l -> fits (concat (map render l)) ->
  exists k, forall m, (k <= m)%nat -> body_ref (serialize m h) h (h_node h c) = Done (concat (map render l)).
Proof.
  intros G (K & Nm & E) F. destruct (entries_ok h l _ G E F) as (k & Hk). exists k. intros m Hm. unfold body_ref. rewrite Nm.
  replace (Z.of_nat (List.length l) <? 0) with false by lia. rewrite Nat2Z.id. apply Hk. lia.
Qed.
Ltac kinds H := cbn [In body_kinds] in H; repeat (destruct H as [H|H]; [rewrite <- H|]); [..|destruct H].
Lemma block_code h c l : (forall s, In s l -> good h s) -> block_at h c l -> fits (concat (map render l)) -> yields h F_code c (concat (map render l)).
Proof.
  intros G B F. destruct (body_ref_ok h c l G B F) as (k & Hk). exists (S k). intros m Hm. destruct m as [|m]; [lia|]. cbn [serialize ser_step]. unfold code_ref.
  destruct B as ((Vc & K) & _). rewrite get_valid by assumption. cbn [rbind]. kinds K; apply Hk; lia.
Qed.
Lemma body_ok h c l : (forall s, In s l -> good h s) -> body_at h c l -> fits (concat (map render l)) -> yields h F_body c (concat (map render l)).
Proof.
  intros G [B|(t & -> & (Vc & K) & E)] F.
  - destruct (body_ref_ok h c l G B F) as (k & Hk). exists (S k). intros m Hm. destruct m as [|m]; [lia|]. cbn [serialize ser_step]. unfold body_to.
    destruct B as ((Vc & K) & _). rewrite get_valid by assumption. cbn [rbind]. kinds K; cbn [is_plain_body]; apply Hk; lia.
  - exists 1%nat. intros m Hm. destruct m as [|m]; [lia|]. cbn [serialize ser_step]. unfold body_to. rewrite get_valid by assumption. cbn [rbind].
    cbn [map concat render]. rewrite app_nil_r. subst t. kinds K; reflexivity.
Qed.
Lemma in_braces_ok t : fits (braces t) -> in_braces (Done t) = Done (braces t).
Proof. intros F. unfold in_braces. cbn [rbind]. apply append_fmt_is; [unfold braces; parts|exact F]. Qed.
Lemma in_braces_nl_ok t : fits (braces t ++ NL) -> in_braces_nl (Done t) = Done (braces t ++ NL).
Proof. intros F. unfold in_braces_nl. cbn [rbind]. apply append_fmt_is; [unfold braces; parts|exact F]. Qed.
Lemma braces_len t : (List.length t <= List.length (braces t))%nat.
Proof. unfold braces. lens. lia. Qed.
Lemma body_fits t u : fits u -> (List.length (braces t) <= List.length u)%nat -> fits t.
Proof. intros F H. pose proof (braces_len t). eapply fits_le; [|exact F]. lia. Qed.

Ltac begin_ := let m := fresh "m" in intros m Hm; destruct m as [|m]; [lia|]; cbn [serialize ser_step]; unfold code_ref.
Ltac at_kind K := let Vc := fresh "Vc" in let E := fresh "E" in
  destruct K as (Vc & [E|[]]); rewrite get_valid by exact Vc; cbn [rbind]; rewrite <- E.
Ltac fin := unfold nothing, lit; cbn [cat rbind Z.eqb negb orb map concat]; norm; reflexivity.
Ltac bf B G F := apply (body_ok _ _ _ G) in B; [destruct B as (k & Hk)|eapply body_fits; [exact F|lens; lia]].

Section Kinds.
Variable h : heap.
Lemma good_raw t : good h (Raw t).
Proof.
  intros c H F. exists 1%nat. intros m Hm. destruct m as [|m]; [lia|]. cbn [holds] in H. destruct H as [H|((Vc & K) & E)]; [apply raw_ok; exact H|].
  cbn [serialize ser_step]. unfold code_ref. rewrite get_valid by assumption. cbn [rbind]. cbn [render]. rewrite <- E. kinds K; reflexivity.
Qed.
Lemma good_newline : good h NewLine.
Proof. intros c K F. exists 1%nat. begin_. at_kind K. reflexivity. Qed.
Lemma good_block l : (forall s, In s l -> good h s) -> good h (Block l).
Proof. intros G c B F. apply block_code; assumption. Qed.
Lemma good_namespace x nm l : (forall s, In s l -> good h s) -> good h (Namespace x nm l).
Proof.
  intros G c (K & X & (Nm & Ne) & B) F. cbn [render] in *. bf B G F. exists (S k). begin_. at_kind K. unfold namespace_ref.
  rewrite (export_ok _ _ X), Hk by lia. cbn [rbind]. rewrite Nm. rewrite (append_fmt_is _ (txt "namespace " ++ nm ++ braces (concat (map render l)) ++ NL)); [fin|unfold braces; parts|fit].
Qed.
Lemma good_linkage nm l : (forall s, In s l -> good h s) -> good h (Linkage nm l).
Proof.
  intros G c (K & (Nm & Ne) & B) F. cbn [render] in *.
  assert (Z0 : (n_body (h_node h c) =? 0) = false). { destruct B as [((Vb & _) & _)|(t & _ & (Vb & _) & _)]; apply (valid_nz h); exact Vb. }
  bf B G F. exists (S k). begin_. at_kind K. unfold extern_to. rewrite Z0.
  rewrite Hk by lia. cbn [rbind]. rewrite Nm. apply append_fmt_is; [unfold braces; parts|fit].
Qed.
Lemma comment_head_ok n o : maybe (comment_at h) (n_inline n) o -> fits (with_ o (fun c => txt " // " ++ c)) ->
  (if n_inline n =? 0 then nothing else do c <- content_of h (n_inline n); append_fmt [L " // "; N c]) = Done (with_ o (fun c => txt " // " ++ c)).
Proof.
  destruct o as [t|]; cbn [maybe with_].
  - intros (C & Ne) F. rewrite (valid_nz h) by apply C. rewrite (content_ok _ _ _ C). cbn [rbind]. apply append_fmt_is; [parts|exact F].
  - intros -> _. reflexivity.
Qed.
Lemma access_ok a : sound_access a -> access_spec_to_str a = Done (access_text a).
Proof. intros [<-|[<-|[<-|[]]]]; vm_compute; reflexivity. Qed.
Lemma good_struct x at_ nm final parent cmt l : (forall s, In s l -> good h s) -> good h (Struct x at_ nm final parent cmt l).
Proof.
  intros G c (K & X & At & Nm & Fi & Pa & Cm & B & St) F. cbn [render] in *. bf B G F.
  exists (S (k + 3 + match parent with Some (_, _, is) => List.length is | None => 0 end)). begin_. at_kind K. unfold struct_def.
  set (n := h_node h c) in *. rewrite (export_ok _ _ X), (attrs_ok _ _ _ At), (final_ok _ _ _ Fi), (comment_head_ok _ _ Cm), Hk, in_braces_ok, (end_def_ok _ _ St) by (first [fit|lia]).
  rewrite Nm.
  assert (P : (if n_ret n =? 0 then nothing else
           cat [ (do a <- access_spec_to_str (n_num n); do t <- serialize m h F_typename (n_ret n); append_fmt [L " : "; V a; L " "; V t]);
                 (do p <- get h (n_ret n);
                  cat [ (if n_next p =? 0 then nothing else lit nl);
                        next_loop m h (fun i => do t <- serialize m h F_typename i; append_fmt [L ", "; V t]) (n_next p) ]) ]) =
     Done (with_ parent (fun '(acc, p, is) => txt " : " ++ access_text acc ++ txt " " ++ typ_text p ++
                      (match is with [] => [] | _ => NL end) ++ concat (map (fun i => txt ", " ++ typ_text i) is)))).
  { destruct parent as [[[acc p] is]|]; cbn [maybe with_] in *.
    - destruct Pa as (Na & Sa & Tp & Is). rewrite (typ_nz _ _ _ Tp), Na, (access_ok _ Sa). cbn [rbind]. rewrite (typename_ok _ _ _ _ Tp) by (first [fit|lia]). cbn [rbind].
      rewrite (append_fmt_is _ (txt " : " ++ access_text acc ++ txt " " ++ typ_text p)); [|parts|fit].
      rewrite get_valid by apply Tp. cbn [rbind]. rewrite (typs_ok h m ", " ltac:(lia) _ _ _ Is) by (first [fit|lia]).
      destruct is as [|i is]; cbn [typs_from] in Is; [rewrite Is; fin|]. rewrite (typ_nz h _ i) by apply Is. fin.
    - rewrite Pa. reflexivity. }
  rewrite P. fin.
Qed.
Lemma good_class x at_ nm final cmt l : (forall s, In s l -> good h s) -> good h (Class x at_ nm final cmt l).
Proof.
  intros G c (K & X & At & Nm & Fi & Pa & Cm & B & St) F. cbn [render] in *. bf B G F.
  exists (S k). begin_. at_kind K. unfold class_def. set (n := h_node h c) in *.
  rewrite (export_ok _ _ X), (attrs_ok _ _ _ At), (final_ok _ _ _ Fi), (comment_head_ok _ _ Cm), Hk, in_braces_ok, (end_def_ok _ _ St) by (first [fit|lia]).
  rewrite Nm, Pa. cbn [Z.eqb]. fin.
Qed.
Lemma good_union x at_ nm l : (forall s, In s l -> good h s) -> good h (Union x at_ nm l).
Proof.
  intros G c (K & X & At & Nm & B & St) F. cbn [render] in *. bf B G F.
  exists (S k). begin_. at_kind K. unfold union_def. set (n := h_node h c) in *.
  rewrite (export_ok _ _ X), (attrs_ok _ _ _ At), Hk, (end_def_ok _ _ St) by (first [fit|lia]). cbn [rbind]. unfold unnamed. rewrite Nm.
  rewrite (append_fmt_is _ (nm ++ braces (concat (map render l)))); [fin| |fit]. destruct nm; unfold braces; parts.
Qed.
Lemma good_enum x at_ nm ty l : (forall s, In s l -> good h s) -> good h (Enum x at_ nm ty l).
Proof.
  intros G c (K & X & At & (Nm & Ne) & Ty & Mc & B & St) F. cbn [render] in *. bf B G F.
  exists (S (k + 2)). begin_. at_kind K. unfold enum_def. set (n := h_node h c) in *.
  rewrite (export_ok _ _ X), (attrs_ok _ _ _ At), Hk, (end_def_ok _ _ St) by (first [fit|lia]). rewrite Nm, Mc. cbn [rbind].
  destruct ty as [ty|]; cbn [maybe with_] in *.
  - rewrite (typ_nz _ _ _ Ty), (typename_ok _ _ _ _ Ty) by (first [fit|lia]). cbn [rbind negb orb].
    rewrite (append_fmt_is _ (nm ++ (txt " : " ++ typ_text ty) ++ braces (concat (map render l)))); [|unfold braces; parts|fit]. destruct (n_attrs n =? 0); fin.
  - rewrite Ty. cbn [Z.eqb negb orb]. destruct at_ as [a|]; cbn [maybe with_] in *.
    + rewrite (valid_nz h) by apply At. cbn [negb orb].
      rewrite (append_fmt_is _ (nm ++ braces (concat (map render l)))); [fin|unfold braces; parts|fit].
    + rewrite At. cbn [Z.eqb negb orb].
      rewrite (append_fmt_is _ (txt "enum " ++ nm ++ braces (concat (map render l)))); [fin|unfold braces; parts|fit].
Qed.
Lemma good_enum_class x at_ nm ty l : (forall s, In s l -> good h s) -> good h (EnumClass x at_ nm ty l).
Proof.
  intros G c (K & X & At & (Nm & Ne) & Ty & B & St) F. cbn [render] in *. bf B G F.
  exists (S (k + 2)). begin_. at_kind K. unfold enum_class_def. set (n := h_node h c) in *.
  rewrite (export_ok _ _ X), (attrs_ok _ _ _ At), Hk, (end_def_ok _ _ St) by (first [fit|lia]). rewrite Nm. cbn [rbind].
  rewrite (typ_nz _ _ _ Ty), (typename_ok _ _ _ _ Ty) by (first [fit|lia]). cbn [rbind negb orb].
  rewrite (append_fmt_is _ (nm ++ txt " : " ++ typ_text ty ++ braces (concat (map render l)))); [|unfold braces; parts|fit]. destruct (n_attrs n =? 0); fin.
Qed.
Lemma good_struct_fwd x at_ nm cmt : good h (StructFwd x at_ nm cmt).
Proof.
  intros c (K & X & At & (Nm & Ne) & Cm & St) F. cbn [render] in *. exists 1%nat. begin_. at_kind K. unfold struct_fwd. set (n := h_node h c) in *.
  rewrite (export_ok _ _ X), (semi_ok _ _ _ Cm), (ends_ok _ _ St) by fit. cbn [rbind]. rewrite Nm.
  destruct at_ as [a|]; cbn [maybe with_] in *.
  - rewrite (valid_nz h) by apply At. rewrite (content_ok _ _ _ At). cbn [rbind].
    rewrite (append_fmt_is _ (txt "struct " ++ sp a ++ nm)); [fin|unfold sp; parts|fit].
  - rewrite At. cbn [Z.eqb]. rewrite (append_fmt_is _ (txt "struct " ++ nm)); [fin|parts|fit].
Qed.
Lemma good_class_fwd x at_ nm cmt : good h (ClassFwd x at_ nm cmt).
Proof.
  intros c (K & X & At & (Nm & Ne) & Cm & St) F. cbn [render] in *. exists 1%nat. begin_. at_kind K. unfold class_fwd. set (n := h_node h c) in *.
  rewrite (export_ok _ _ X), (ends_ok _ _ St) by fit. cbn [rbind]. rewrite Nm.
  assert (C : (if n_inline n =? 0 then lit (line ";") else do c <- content_of h (n_inline n); append_fmt [L "; // "; N c; L nl]) = Done (txt ";" ++ with_ cmt (fun c => txt " // " ++ c) ++ NL)).
  { destruct cmt as [t|]; cbn [maybe with_] in *.
    - destruct Cm as (C & Nt). rewrite (valid_nz h) by apply C. rewrite (content_ok _ _ _ C). cbn [rbind]. apply append_fmt_is; [parts|fit].
    - rewrite Cm. reflexivity. }
  rewrite C. destruct at_ as [a|]; cbn [maybe with_] in *.
  - rewrite (valid_nz h) by apply At. rewrite (content_ok _ _ _ At). cbn [rbind].
    rewrite (append_fmt_is _ (txt "class " ++ sp a ++ nm)); [fin|unfold sp; parts|fit].
  - rewrite At. cbn [Z.eqb]. rewrite (append_fmt_is _ (txt "class " ++ nm)); [fin|parts|fit].
Qed.
Lemma good_union_fwd x at_ nm : good h (UnionFwd x at_ nm).
Proof.
  intros c (K & X & At & Nm & St) F. cbn [render] in *. exists 1%nat. begin_. at_kind K. unfold union_fwd. set (n := h_node h c) in *.
  rewrite (export_ok _ _ X), (attrs_ok _ _ _ At), (end_def_ok _ _ St) by fit. unfold unnamed. rewrite Nm. destruct nm as [|b nm]; [fin|].
  rewrite (append_fmt_is _ (b :: nm)); [fin|parts|fit].
Qed.
Lemma good_enum_fwd x at_ nm ty cmt : good h (EnumFwd x at_ nm ty cmt).
Proof.
  intros c (K & X & At & (Nm & Ne) & Ty & Mc & Cm & St) F. cbn [render] in *. exists 3%nat. begin_. at_kind K. unfold enum_fwd. set (n := h_node h c) in *.
  rewrite (export_ok _ _ X), (attrs_ok _ _ _ At), (semi_ok _ _ _ Cm), (ends_ok _ _ St) by fit. cbn [rbind]. rewrite Nm, Mc.
  destruct ty as [ty|]; cbn [maybe with_] in *.
  - rewrite (typ_nz _ _ _ Ty), (typename_ok _ _ _ _ Ty) by (first [fit|lia]). cbn [rbind negb].
    rewrite (append_fmt_is _ (txt "enum " ++ nm ++ (txt " : " ++ typ_text ty))); [fin|parts|fit].
  - rewrite Ty. cbn [Z.eqb negb]. rewrite (append_fmt_is _ (txt "enum " ++ nm)); [fin|parts|fit].
Qed.
Lemma good_enum_class_fwd x at_ nm ty cmt : good h (EnumClassFwd x at_ nm ty cmt).
Proof.
  intros c (K & X & At & (Nm & Ne) & Ty & Cm & St) F. cbn [render] in *. exists 3%nat. begin_. at_kind K. unfold enum_class_fwd. set (n := h_node h c) in *.
  rewrite (export_ok _ _ X), (attrs_ok _ _ _ At), (semi_ok _ _ _ Cm), (ends_ok _ _ St) by fit. cbn [rbind]. rewrite Nm.
  rewrite (typename_ok _ _ _ _ Ty) by (first [fit|lia]). cbn [rbind].
  rewrite (append_fmt_is _ (nm ++ txt " : " ++ typ_text ty)); [fin|parts|fit].
Qed.

(** ** functions *)
Lemma leading_ok s : known_spec s -> not_trailing s = leading s.
Proof. intros K. unfold not_trailing, leading. destruct (spec_to_str_ok s K) as (_ & _ & -> & _). reflexivity. Qed.
Lemma trailing_ok s : known_spec s -> spec_is_trailing s = trails s.
Proof. intros K. apply (spec_to_str_ok s K). Qed.
Lemma params_close_ok n ps m : params_at h (n_params n) ps -> fits (params_text ps ++ txt ")") -> (List.length ps + 3 <= m)%nat ->
  params_close (serialize m h) n = Done (params_text ps ++ txt ")").
Proof.
  intros P F Hm. unfold params_close. destruct ps as [|p r]; [rewrite P; reflexivity|]. rewrite (params_nz h _ _ P) by discriminate.
  rewrite (params_ok h _ _ m P) by (first [discriminate|fit|lia]). cbn [rbind]. apply append_fmt_is; [parts|fit].
Qed.
Lemma fn_sig_ok n ret nm ps m : maybe (typ_at h) (n_ret n) ret -> n_name n = nm -> nm <> [] -> params_at h (n_params n) ps ->
  fits (with_ ret (fun t => sp (typ_text t)) ++ nm ++ txt "(" ++ params_text ps ++ txt ")") -> (List.length ps + 3 <= m)%nat ->
  fn_sig (serialize m h) n = Done (with_ ret (fun t => sp (typ_text t)) ++ nm ++ txt "(" ++ params_text ps ++ txt ")").
Proof.
  intros R Nm Ne P F Hm. unfold fn_sig. rewrite Nm. rewrite (params_close_ok _ _ _ P) by (first [fit|lia]). destruct ret as [ty|]; cbn [maybe with_] in *.
  - rewrite (typ_nz _ _ _ R), (typename_ok _ _ _ _ R) by (first [unfold sp in F; fit|lia]). cbn [rbind].
    rewrite (append_fmt_is _ (sp (typ_text ty) ++ nm ++ txt "(")); [fin|unfold sp; parts|fit].
  - rewrite R. cbn [Z.eqb]. rewrite (append_fmt_is _ (nm ++ txt "(")); [fin|parts|fit].
Qed.
Lemma good_function at_ specs ret nm ps l : (forall s, In s l -> good h s) -> good h (Function at_ specs ret nm ps l).
Proof.
  intros G c (K & X & At & Sp & R & (Nm & Ne) & P & Su & B) F. cbn [render] in *. bf B G F.
  exists (S (k + List.length ps + 3)). begin_. at_kind K. unfold fn_def. set (n := h_node h c) in *.
  rewrite (spaced_ok h _ _ not_trailing leading Sp) by (intros; apply leading_ok; auto). rewrite (spaced_ok h _ _ spec_is_trailing trails Sp) by (intros; apply trailing_ok; auto).
  rewrite (some_ok h _ _ not_trailing leading Sp) by (intros; apply leading_ok; auto). rewrite (fn_sig_ok _ _ _ _ _ R Nm Ne P) by (first [fit|lia]).
  unfold suffix_specs. rewrite Su, Hk, in_braces_nl_ok by (first [fit|lia]). cbn [rbind Z.eqb].
  assert (E0 : (if flag_set n ModuleFlag_Export then lit "export" else nothing) = Done []).
  { apply export_ok in X. unfold export_kw in X. destruct (flag_set n ModuleFlag_Export); [discriminate|reflexivity]. }
  rewrite E0. destruct at_ as [a|]; cbn [maybe with_ present] in *.
  - rewrite (valid_nz h) by apply At. rewrite (content_ok _ _ _ At). cbn [rbind negb orb].
    rewrite (append_fmt_is _ (txt " " ++ a ++ txt " ")); [fin|parts|fit].
  - rewrite At. cbn [Z.eqb negb orb]. destruct (selects leading specs); fin.
Qed.
Lemma good_function_fwd x at_ specs ret nm ps cmt : good h (FunctionFwd x at_ specs ret nm ps cmt).
Proof.
  intros c (K & X & At & Sp & Np & R & (Nm & Ne) & P & Su & Bo & Cm) F. cbn [render] in *.
  exists (S (List.length ps + 3)). begin_. at_kind K. unfold fn_fwd. set (n := h_node h c) in *.
  assert (Q : forall s, known_spec s -> (forall l, specs = Some l -> In s l) -> specs <> None -> fwd_prefix s = leading s).
  { intros s Ks I Nn. destruct specs as [l|]; [|contradiction]. destruct (Np l eq_refl) as (A & _). unfold fwd_prefix. change (negb (spec_is_trailing s)) with (not_trailing s). rewrite leading_ok by assumption.
    destruct (Z.eqb_spec s Spec_Pure) as [->|]; [exfalso; apply A, I; reflexivity|apply orb_false_r]. }
  assert (Q1 : spaced_specs h (n_specs n) fwd_prefix = Done (spec_words leading specs)).
  { destruct specs as [l|]; [apply spaced_ok; [exact Sp|intros; apply Q; auto; discriminate]|]. cbn [maybe] in Sp. rewrite Sp. reflexivity. }
  assert (Q2 : some_spec h (n_specs n) fwd_prefix = Done (selects leading specs)).
  { destruct specs as [l|]; [apply some_ok; [exact Sp|intros; apply Q; auto; discriminate]|]. cbn [maybe] in Sp. rewrite Sp. reflexivity. }
  assert (Q3 : (if n_specs n =? 0 then nothing else
           do pure <- has_spec h (n_specs n) Spec_Pure; if pure then lit " = 0" else
           do del <- has_spec h (n_specs n) Spec_Delete; if del then lit " = delete" else nothing) = Done []).
  { destruct specs as [l|]; cbn [maybe] in Sp; [|rewrite Sp; reflexivity]. destruct (Np l eq_refl) as (A & D). rewrite (valid_nz h) by apply Sp.
    rewrite !(has_spec_ok _ _ _ _ Sp). cbn [rbind]. rewrite !existsb_not_in by assumption. reflexivity. }
  rewrite Q1, Q2, Q3. rewrite (spaced_ok h _ _ spec_is_trailing trails Sp) by (intros; apply trailing_ok; auto).
  rewrite (export_ok _ _ X), (attrs_ok _ _ _ At), (fn_sig_ok _ _ _ _ _ R Nm Ne P), (semi_ok _ _ _ Cm) by (first [fit|lia]).
  unfold suffix_specs. rewrite Su, Bo. cbn [rbind Z.eqb].
  destruct at_ as [a|]; cbn [maybe present] in *.
  - rewrite (valid_nz h) by apply At. cbn [negb orb]. fin.
  - rewrite At. cbn [Z.eqb negb orb]. destruct (selects leading specs); fin.
Qed.
End Kinds.
