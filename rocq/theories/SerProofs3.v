(** Proofs for C41, continued: operators, casts, constructors, variables and the rest. *)
From Coq Require Import String ZArith List Bool Lia ZifyBool ZifyNat.
From Verif Require Import Common Text ArrayModel StrOpsModel EnumModel EnumSpec AstModel AstSpec SerModel SerSpec SerProofs SerProofs2.
Import ListNotations.
Close Scope string_scope.
Open Scope Z_scope.

Ltac at_kind2 K := let Vc := fresh "Vc" in let E := fresh "E" in
  destruct K as (Vc & [E|[E|[]]]); rewrite get_valid by exact Vc; cbn [rbind]; rewrite <- E.

Section Kinds.
Variable h : heap.
Lemma good_operator x specs ret nm ps l : (forall s, In s l -> good h s) -> good h (Operator x specs ret nm ps l).
Proof.
  intros G c (K & X & At & Sp & R & (Nm & Ne) & P & B) F. cbn [render] in *. bf B G F.
  exists (S (k + List.length ps + 3)). begin_.
  assert (Z : op_def (serialize m h) h (h_node h c) = Done
     (when x "export " ++ spec_words leading specs ++ (if present specs then NL else []) ++
      sp (typ_text ret) ++ nm ++ txt " (" ++ params_text ps ++ txt ")" ++ spec_words trails specs ++ braces (concat (map render l)) ++ NL)).
  { unfold op_def. set (n := h_node h c) in *. unfold attrs_sp. rewrite At. cbn [Z.eqb negb orb].
    rewrite (spaced_ok h _ _ not_trailing leading Sp) by (intros; apply leading_ok; auto). rewrite (spaced_ok h _ _ spec_is_trailing trails Sp) by (intros; apply trailing_ok; auto).
    rewrite (export_ok _ _ X), (typ_nz _ _ _ R), (typename_ok _ _ _ _ R), (params_close_ok _ _ _ _ P), Hk, in_braces_nl_ok by (first [fit|unfold sp in F; fit|lia]).
    cbn [rbind]. rewrite Nm. rewrite (append_fmt_is _ (sp (typ_text ret) ++ nm ++ txt " (")); [|unfold sp; parts|fit].
    destruct specs as [s|]; cbn [maybe present] in *; [rewrite (valid_nz h) by apply Sp|rewrite Sp]; fin. }
  at_kind2 K; exact Z.
Qed.
Lemma good_operator_fwd x at_ specs ret nm ps cmt : good h (OperatorFwd x at_ specs ret nm ps cmt).
Proof.
  intros c (K & X & At & Sp & R & (Nm & Ne) & P & Cm) F. cbn [render] in *.
  exists (S (List.length ps + 3)). begin_.
  assert (Z : op_fwd (serialize m h) h (h_node h c) = Done
     (when x "export " ++ with_ at_ (fun a => a ++ NL) ++ spec_words leading specs ++
      (if present at_ || present specs then NL else []) ++
      sp (typ_text ret) ++ nm ++ txt " (" ++ params_text ps ++ txt ")" ++ spec_words trails specs ++ semi cmt)).
  { unfold op_fwd. set (n := h_node h c) in *.
    rewrite (spaced_ok h _ _ not_trailing leading Sp) by (intros; apply leading_ok; auto). rewrite (spaced_ok h _ _ spec_is_trailing trails Sp) by (intros; apply trailing_ok; auto).
    rewrite (export_ok _ _ X), (typename_ok _ _ _ _ R), (params_close_ok _ _ _ _ P), (semi_ok _ _ _ Cm) by (first [fit|unfold sp in F; fit|lia]).
    cbn [rbind]. rewrite Nm. rewrite (append_fmt_is _ (sp (typ_text ret) ++ nm ++ txt " (")); [|unfold sp; parts|fit].
    destruct at_ as [a|]; cbn [maybe present with_] in *.
    - rewrite (valid_nz h) by apply At. rewrite (content_ok _ _ _ At). cbn [rbind]. rewrite (append_fmt_is _ (a ++ NL)); [|parts|fit]. fin.
    - rewrite At. destruct specs as [s|]; cbn [maybe present] in *; [rewrite (valid_nz h (n_specs n)) by apply Sp|rewrite Sp]; fin. }
  at_kind2 K; exact Z.
Qed.
Lemma opcast_specs_ok n specs : maybe (specs_at h) (n_specs n) specs ->
  opcast_specs h n = Done (with_ specs (fun s => concat (map (fun s => sp (spec_text s)) (filter leading s)))).
Proof.
  unfold opcast_specs. destruct specs as [l|]; cbn [maybe with_].
  - intros S. rewrite (valid_nz h) by apply S.
    rewrite (for_specs_ok _ _ _ _ (fun s => if leading s then sp (spec_text s) else []) S).
    + f_equal. apply (filter_concat leading (fun s => sp (spec_text s))).
    + intros s I K. rewrite leading_ok by assumption. destruct (spec_to_str_ok s K) as (T & B & _). destruct (leading s); [|reflexivity]. rewrite T. cbn [rbind].
      apply append_fmt_is; [unfold sp; parts|]. apply short_fits. unfold sp. rewrite app_length. change (List.length (txt " ")) with 1%nat. lia.
  - intros ->. reflexivity.
Qed.
Lemma good_cast specs ty l : (forall s, In s l -> good h s) -> good h (Cast specs ty l).
Proof.
  intros G c (K & Sp & Ty & Nm & B) F. cbn [render] in *. bf B G F. exists (S (k + 2)). begin_. at_kind K. unfold opcast_def. set (n := h_node h c) in *.
  rewrite (spaced_ok h _ _ spec_is_trailing trails Sp) by (intros; apply trailing_ok; auto).
  rewrite (opcast_specs_ok _ _ Sp), (typename_ok _ _ _ _ Ty), Hk, in_braces_nl_ok by (first [fit|lia]). cbn [rbind]. unfold unnamed. rewrite Nm.
  rewrite (append_fmt_is _ (txt "operator " ++ typ_text ty ++ txt "()")); [fin|parts|fit].
Qed.
Lemma good_cast_fwd specs ty : good h (CastFwd specs ty).
Proof.
  intros c (K & Sp & Ty & Ci) F. cbn [render] in *. exists 3%nat. begin_. at_kind K. unfold opcast_fwd. set (n := h_node h c) in *.
  rewrite (spaced_ok h _ _ spec_is_trailing trails Sp) by (intros; apply trailing_ok; auto).
  rewrite (opcast_specs_ok _ _ Sp), (typename_ok _ _ _ _ Ty) by (first [fit|lia]). cbn [rbind]. unfold semi_or_comment. rewrite Ci. cbn [Z.eqb].
  destruct specs as [s|]; cbn [maybe with_] in *.
  - rewrite (valid_nz h) by apply Sp. rewrite (append_fmt_is _ (txt "operator " ++ typ_text ty ++ txt "()")); [fin|parts|fit].
  - rewrite Sp. cbn [Z.eqb]. apply append_fmt_is; [|fit]. unfold spec_words. cbn [with_ app]. parts.
Qed.

(** ** constructors and destructors *)
Lemma ctor_head_ok c class ps m : class <> [] -> valid h (n_parent (h_node h c)) ->
  ((n_parent (h_node h (n_parent (h_node h c))) = 0 /\ n_name (h_node h c) = class) \/
   (valid h (n_parent (h_node h (n_parent (h_node h c)))) /\ n_name (h_node h (n_parent (h_node h (n_parent (h_node h c))))) = class)) ->
  params_at h (n_params (h_node h c)) ps -> fits (match ps with [] => txt "()" | _ => txt "( " ++ params_text ps ++ txt " )" end) -> (List.length ps + 3 <= m)%nat ->
  ctor_head (serialize m h) h (h_node h c) = Done (class ++ match ps with [] => txt "()" | _ => txt "( " ++ params_text ps ++ txt " )" end).
Proof.
  intros Ne Vp D P F Hm. unfold ctor_head. rewrite get_valid by assumption. cbn [rbind].
  assert (A : (if n_parent (h_node h (n_parent (h_node h c))) =? 0 then Done (n_name (h_node h c)) else name_of h (n_parent (h_node h (n_parent (h_node h c))))) = Done class).
  { destruct D as [(-> & ->)|(Vg & <-)]; [reflexivity|]. rewrite (valid_nz h) by assumption. unfold name_of. rewrite get_valid by assumption. reflexivity. }
  rewrite A. destruct ps as [|p r]; [cbn [params_at] in P; rewrite P; fin|]. rewrite (params_nz h _ _ P) by discriminate.
  rewrite (params_ok h _ _ m P) by (first [discriminate|fit|lia]). cbn [rbind]. rewrite (append_fmt_is _ (txt "( " ++ params_text (p :: r) ++ txt " )")); [fin|parts|fit].
Qed.
Lemma good_constructor class ps inits cmt b : good h b -> good h (Constructor class ps inits cmt b).
Proof.
  intros G c (K & (Ne & Vp & D) & P & I & Cm & B) F. cbn [render] in *. destruct (G _ B) as (k & Hk); [eapply body_fits; [exact F|lens; lia]|].
  exists (S (k + List.length ps + 3)). begin_. at_kind K. unfold ctor_def.
  rewrite (ctor_head_ok _ class ps) by (first [assumption|fit|lia]). rewrite (comment_head_ok _ _ _ Cm), Hk, in_braces_nl_ok by (first [fit|lia]).
  assert (A : (if n_ret (h_node h c) =? 0 then nothing else do t <- serialize m h F_code (n_ret (h_node h c)); append_fmt [L " : "; V t]) = Done (with_ inits (fun t => txt " : " ++ t))).
  { destruct inits as [t|]; cbn [maybe with_] in *; [|rewrite I; reflexivity]. rewrite (raw_nz _ _ _ I). destruct m as [|m]; [lia|]. rewrite (raw_ok _ _ _ _ I). cbn [rbind].
    apply append_fmt_is; [parts|fit]. }
  rewrite A. fin.
Qed.
Lemma good_constructor_fwd class ps value cmt : good h (ConstructorFwd class ps value cmt).
Proof.
  intros c (K & (Ne & Vp & D) & P & I & Cm) F. cbn [render] in *.
  exists (S (List.length ps + 3)). begin_. at_kind K. unfold ctor_fwd.
  rewrite (ctor_head_ok _ class ps) by (first [assumption|fit|lia]).
  assert (A : (if n_body (h_node h c) =? 0 then nothing else do t <- serialize m h F_code (n_body (h_node h c)); append_fmt [L " = "; V t]) = Done (with_ value (fun t => txt " = " ++ t))).
  { destruct value as [t|]; cbn [maybe with_] in *; [|rewrite I; reflexivity]. rewrite (raw_nz _ _ _ I). destruct m as [|m]; [lia|]. rewrite (raw_ok _ _ _ _ I). cbn [rbind].
    apply append_fmt_is; [parts|fit]. }
  rewrite A.
  assert (C : (if n_inline (h_node h c) =? 0 then lit (line ";") else do t <- content_of h (n_inline (h_node h c)); append_fmt [L "; // "; N t; L nl]) = Done (txt ";" ++ with_ cmt (fun c => txt " // " ++ c) ++ NL)).
  { destruct cmt as [t|]; cbn [maybe with_] in *.
    - destruct Cm as (C & Nt). rewrite (valid_nz h) by apply C. rewrite (content_ok _ _ _ C). cbn [rbind]. apply append_fmt_is; [parts|fit].
    - rewrite Cm. reflexivity. }
  rewrite C. fin.
Qed.
Lemma name_ok c t : valid h c -> n_name (h_node h c) = t -> name_of h c = Done t.
Proof. intros Vc <-. unfold name_of. rewrite get_valid by assumption. reflexivity. Qed.
Lemma good_destructor v class b : good h b -> good h (Destructor v class b).
Proof.
  intros G c (K & Nm & Vp & Cl & Ne & Vi & B) F. cbn [render] in *. destruct (G _ B) as (k & Hk); [eapply body_fits; [exact F|lens; lia]|].
  exists (S k). begin_. at_kind K. unfold dtor_def, unnamed. rewrite Nm. rewrite Hk, in_braces_nl_ok by (first [fit|lia]). rewrite (name_ok _ _ Vp Cl). cbn [rbind].
  assert (A : (if n_specs (h_node h c) =? 0 then Done false else has_spec h (n_specs (h_node h c)) Spec_Virtual) = Done v).
  { destruct v.
    - destruct Vi as (l & S & I). rewrite (valid_nz h) by apply S. rewrite (has_spec_ok _ _ _ _ S), existsb_in by assumption. reflexivity.
    - destruct Vi as [->|(l & S & I)]; [reflexivity|]. rewrite (valid_nz h) by apply S. rewrite (has_spec_ok _ _ _ _ S), existsb_not_in by assumption. reflexivity. }
  rewrite A. cbn [rbind]. destruct v; cbn [when] in *.
  - rewrite (append_fmt_is _ (txt "virtual ~" ++ class ++ txt "()")); [fin|parts|]. eapply fits_le; [|exact F]. lens. change (txt "virtual ~") with (txt "virtual " ++ txt "~"). lens. lia.
  - rewrite (append_fmt_is _ (txt "~" ++ class ++ txt "()")); [fin|parts|fit].
Qed.
Lemma good_destructor_fwd class : good h (DestructorFwd class).
Proof.
  intros c (K & Sp & Vp & Cl & Ne & Ci) F. cbn [render] in *. exists 1%nat. begin_. at_kind K. unfold dtor_fwd. rewrite Sp, Ci, (name_ok _ _ Vp Cl). cbn [rbind Z.eqb].
  rewrite (append_fmt_is _ (txt "~" ++ class ++ txt "();")); [fin|parts|fit].
Qed.

(** ** typedef, using, variables *)
Lemma good_typedef x ty nm cmt : good h (Typedef x ty nm cmt).
Proof.
  intros c (K & X & Ty & (Vt & Kt) & Rt & Bt & (Nm & Ne) & Cm) F. cbn [render] in *. exists 4%nat. begin_. at_kind K. unfold typedef_ref. set (n := h_node h c) in *.
  rewrite get_valid by assumption. cbn [rbind]. rewrite Rt, Bt. cbn [Z.eqb negb]. rewrite andb_false_r. rewrite (export_ok _ _ X).
  assert (T : serialize m h F_code (n_ret n) = Done (typ_text ty)).
  { destruct m as [|m]; [lia|]. rewrite <- (typename_ok h (n_ret n) ty (S m) Ty) by (first [fit|lia]). cbn [serialize ser_step]. unfold code_ref. rewrite get_valid by assumption. cbn [rbind].
    destruct Kt as [<-|[]]. reflexivity. }
  rewrite T. cbn [rbind]. rewrite Nm. rewrite (append_fmt_is _ (typ_text ty ++ txt " " ++ nm)); [|parts|fit].
  unfold semi in *. destruct cmt as [t|]; cbn [maybe] in *.
  - destruct Cm as (C & Nt). rewrite (valid_nz h) by apply C. rewrite (content_ok _ _ _ C). cbn [rbind]. rewrite (append_fmt_is _ (txt "  " ++ t)); [fin|parts|fit].
  - rewrite Cm. fin.
Qed.
Lemma arrays_ok ss c m k : raws_from h c ss -> fits (sizes_text ss) -> (List.length ss < k)%nat -> (1 <= m)%nat -> array_exprs (serialize m h) k h c "" = Done (sizes_text ss).
Proof. intros R F Hk Hm. unfold array_exprs. destruct m as [|m]; [lia|]. apply raws_ok; assumption. Qed.
Lemma good_using x at_ nm ty cmt : good h (Using x at_ nm ty cmt).
Proof.
  intros c (K & X & At & (Nm & Ne) & Ty & Cm) F. cbn [render] in *. exists (S (3 + match ty with Some (_, ss) => List.length ss | None => 0 end)). begin_. at_kind K. unfold using_ref. set (n := h_node h c) in *.
  rewrite (export_ok _ _ X), (attrs_ok _ _ _ At) by fit. rewrite Nm.
  assert (A : (if n_inline n =? 0 then lit nl else do t <- content_of h (n_inline n); append_fmt [L "  "; N t; L nl]) = Done (with_ cmt (fun c => txt "  " ++ c) ++ NL)).
  { destruct cmt as [t|]; cbn [maybe with_] in *; [|rewrite Cm; reflexivity]. destruct Cm as (C & Nt). rewrite (valid_nz h) by apply C. rewrite (content_ok _ _ _ C). cbn [rbind].
    apply append_fmt_is; [parts|fit]. }
  rewrite A. destruct ty as [[ty ss]|]; cbn [maybe with_] in *.
  - destruct Ty as (Ty & R). rewrite (typ_nz _ _ _ Ty). rewrite get_valid by apply Ty. cbn [rbind]. rewrite (typename_ok _ _ _ _ Ty), (arrays_ok ss) by (first [assumption|fit|lia]). cbn [rbind].
    rewrite (append_fmt_is _ (txt "using " ++ nm ++ txt " = " ++ typ_text ty)); [fin|parts|fit].
  - rewrite Ty. cbn [Z.eqb]. rewrite (append_fmt_is _ (txt "using " ++ nm ++ txt ";")); [fin|parts|fit].
Qed.
Lemma good_using_namespace nm : good h (UsingNamespace nm).
Proof.
  intros c (K & (Nm & Ne) & Ci) F. cbn [render] in *. exists 1%nat. begin_. at_kind K. unfold using_ns. rewrite Ci, Nm. cbn [Z.eqb]. apply append_fmt_is; [parts|fit].
Qed.
Lemma var_init_ok n value m : match value with
      | NoInit => n_body n = 0 /\ n_num n = 0
      | InitEq v => raw_at h (n_body n) v /\ n_num n = 0
      | InitParen v => raw_at h (n_body n) v /\ n_num n <> 0
      end -> n_suffix n = 0 -> fits (init_text value) -> (1 <= m)%nat -> var_init (serialize m h) n = Done (init_text value).
Proof.
  intros D Su F Hm. destruct m as [|m]; [lia|]. unfold var_init. rewrite Su. destruct value as [|v|v]; cbn [init_text] in *; destruct D as (A & B).
  - rewrite A, B. reflexivity.
  - rewrite (raw_nz _ _ _ A), B, (raw_ok _ _ _ _ A). cbn [rbind Z.eqb]. rewrite (append_fmt_is _ (txt " = " ++ v)); [fin|parts|fit].
  - apply Z.eqb_neq in B. rewrite (raw_nz _ _ _ A), B, (raw_ok _ _ _ _ A). cbn [rbind Z.eqb]. rewrite (append_fmt_is _ (txt "( " ++ v ++ txt " ")); [fin|parts|].
    eapply fits_le; [|exact F]. lens. change (List.length (txt "  )")) with 3%nat. change (List.length (txt " ")) with 1%nat. lia.
Qed.
Lemma good_var x at_ specs ty nm sizes bits value cmt : good h (Var x at_ specs ty nm sizes bits value cmt).
Proof.
  intros c (K & Pa & X & At & Sp & Ty & (Nm & Ne) & R & Bi & SB & Va & Su & Cm) F. cbn [render] in *.
  exists (S (3 + List.length sizes)). begin_. at_kind K. unfold var_ref. set (n := h_node h c) in *.
  assert (P : (if n_parent n =? 0 then Done false else do p <- get h (n_parent n); Done (ct_eqb (n_type p) CT_Variable)) = Done false).
  { destruct Pa as [->|(Vp & Np)]; [reflexivity|]. rewrite (valid_nz h) by assumption. rewrite get_valid by assumption. cbn [rbind]. unfold ct_eqb. destruct (ct_eq_dec _ CT_Variable); [contradiction|reflexivity]. }
  rewrite P. cbn [rbind]. rewrite (export_ok _ _ X), (attrs_ok _ _ _ At), (var_init_ok _ value), (semi_ok _ _ _ Cm), (typename_ok _ _ _ _ Ty) by (first [assumption|fit|lia]). rewrite Nm.
  assert (VA : var_arrays (serialize m h) m h n = Done (sizes_text sizes)).
  { unfold var_arrays. rewrite (typ_nz _ _ _ Ty). rewrite get_valid by apply Ty. cbn [rbind]. apply arrays_ok; first [assumption|fit|lia]. }
  assert (BA : (if n_params n =? 0 then nothing else do b <- serialize m h F_code (n_params n); append_fmt [L " : "; V b]) = Done (with_ bits (fun b => txt " : " ++ b))).
  { destruct bits as [b|]; cbn [maybe with_] in *; [|rewrite Bi; reflexivity]. rewrite (raw_nz _ _ _ Bi). destruct m as [|m]; [lia|]. rewrite (raw_ok _ _ _ _ Bi). cbn [rbind].
    apply append_fmt_is; [parts|fit]. }
  rewrite VA, BA. cbn [rbind]. rewrite (append_fmt_is [V (typ_text ty); L " "; N nm] (typ_text ty ++ txt " " ++ nm)); [|parts|fit].
  assert (SA : (if n_specs n =? 0 then nothing else do s <- serialize m h F_specifiers (n_specs n); append_fmt [V s]) = Done (with_ specs specs_text)).
  { destruct specs as [s|]; cbn [maybe with_] in *; [|rewrite Sp; reflexivity]. rewrite (valid_nz h) by apply Sp. destruct m as [|m]; [lia|]. rewrite (specifiers_ok _ _ _ _ Sp). cbn [rbind].
    apply append_fmt_is; [parts|fit]. }
  rewrite SA. destruct (negb (n_attrs n =? 0) || negb (n_specs n =? 0)) eqn:Z; [fin|].
  assert (A0 : at_ = None). { destruct at_ as [a|]; [|reflexivity]. cbn [maybe] in At. rewrite (valid_nz h) in Z by apply At. discriminate. }
  assert (S0 : specs = None). { destruct specs as [s|]; [|reflexivity]. cbn [maybe] in Sp. rewrite (valid_nz h (n_specs n)) in Z by apply Sp. cbn [negb] in Z. rewrite orb_true_r in Z. discriminate. }
  subst at_ specs. cbn [with_ app] in *.
  assert (C : (if n_inline n =? 0 then lit nl else do t <- content_of h (n_inline n); append_fmt [L "  "; N t]) = Done (match cmt with None => NL | Some c => txt "  " ++ c end)).
  { unfold semi in F. destruct cmt as [t|]; cbn [maybe] in *; [|rewrite Cm; reflexivity]. destruct Cm as (C & Nt). rewrite (valid_nz h) by apply C. rewrite (content_ok _ _ _ C). cbn [rbind].
    apply append_fmt_is; [parts|fit]. }
  rewrite C. unfold semi in *. destruct bits as [b|]; cbn [maybe with_] in *.
  - rewrite (raw_nz _ _ _ Bi). destruct SB as [->|]; [|discriminate]. destruct m as [|m]; [lia|]. rewrite (raw_ok _ _ _ _ Bi). cbn [rbind negb].
    rewrite (append_fmt_is _ (typ_text ty ++ txt " " ++ nm ++ txt " : " ++ b)); [fin|parts|fit].
  - rewrite Bi. cbn [Z.eqb negb]. rewrite get_valid by apply Ty. cbn [rbind]. destruct sizes as [|s ss]; cbn [raws_from] in R.
    + rewrite R. fin.
    + destruct R as (R1 & R2). rewrite (raw_nz _ _ _ R1). cbn [negb]. unfold sizes_text in F. cbn [map concat] in F. fold (sizes_text ss) in F. cbn [List.length] in Hm.
      destruct m as [|m]; [lia|]. rewrite (raw_ok _ _ _ _ R1). cbn [rbind]. rewrite get_valid by apply R1. cbn [rbind]. rewrite (arrays_ok ss) by (first [assumption|fit|lia]).
      rewrite (append_fmt_is _ (typ_text ty ++ txt " " ++ nm ++ txt "[ " ++ s ++ txt " ]")); [|parts|fit].
      unfold sizes_text at 2. cbn [map concat]. fold (sizes_text ss). fin.
Qed.

(** ** templates, friends, modules, preprocessor lines *)
Lemma good_template x ps d : good h d -> good h (Template x ps d).
Proof.
  intros G c (K & X & P & B) F. cbn [render] in *. destruct (G _ B ltac:(fit)) as (k & Hk). exists (S (k + List.length ps + 3)). begin_. at_kind K. unfold template_ref.
  rewrite (export_ok _ _ X), Hk by lia. cbn [rbind]. destruct ps as [|p r].
  - cbn [params_at] in P. rewrite P. cbn [Z.eqb]. rewrite (append_fmt_is _ (txt "template<>" ++ NL ++ render d)); [fin|parts|fit].
  - rewrite (params_nz h _ _ P) by discriminate. rewrite (params_ok h _ _ m P) by (first [discriminate|fit|lia]). cbn [rbind].
    rewrite (append_fmt_is _ (txt "template< " ++ params_text (p :: r) ++ txt " >" ++ NL ++ render d)); [fin|parts|fit].
Qed.
Lemma good_friend d : good h d -> good h (Friend d).
Proof.
  intros G c (K & B & Ci & D) F. cbn [render] in *. destruct (G _ B ltac:(fit)) as (k & Hk). exists (S k). begin_. at_kind K. unfold friend_ref.
  rewrite Hk by lia. cbn [rbind]. rewrite (append_fmt_is _ (txt "friend " ++ render d)); [|parts|fit]. cbn [rbind].
  rewrite get_valid by (eapply holds_valid; eauto). cbn [rbind]. rewrite Ci. cbn [Z.eqb].
  assert (L : (if negb (ct_eqb (n_type (h_node h (n_body (h_node h c)))) CT_Function) && negb (ct_eqb (n_type (h_node h (n_body (h_node h c)))) CT_Operator) &&
      negb (last (txt "friend " ++ render d) 0 =? 59) then lit ";" else nothing) = Done (if is_def d then [] else txt ";")); [|rewrite L; fin].
  assert (LN : forall t, last (txt "friend " ++ t ++ NL) 0 = 10). { intros t. rewrite app_assoc. apply last_last. }
  assert (RN : match d with StructFwd _ _ _ None | ClassFwd _ _ _ _ | FunctionFwd _ _ _ _ _ _ None | OperatorFwd _ _ _ _ _ _ None => exists t, render d = t ++ NL | _ => True end).
  { destruct d; try exact I; try (destruct comment; try exact I); cbn [render]; unfold semi; eexists; rewrite !app_assoc; reflexivity. }
  assert (LL : match d with StructFwd _ _ _ None | ClassFwd _ _ _ _ | FunctionFwd _ _ _ _ _ _ None | OperatorFwd _ _ _ _ _ _ None => (last (txt "friend " ++ render d) 0 =? 59) = false | _ => True end).
  { destruct d; try exact I; try (destruct comment; try exact I); destruct RN as (t & ->); rewrite LN; reflexivity. }
  unfold ct_eqb.
  destruct d; try contradiction; cbn [is_def];
    try (destruct comment; try contradiction); cbn [holds] in B; destruct B as ((_ & Kd) & _);
    cbn [In] in Kd; repeat (destruct Kd as [Kd|Kd]); try contradiction; try (rewrite D in Kd; discriminate); rewrite <- Kd; cbn -[last txt render Z.eqb lit nothing]; try rewrite LL; reflexivity.
Qed.
Lemma good_module x i nm : good h (Module x i nm).
Proof.
  intros c (K & X & I & (Nm & Ne)) F. cbn [render] in *. exists 1%nat. begin_. at_kind K. unfold module_ref. rewrite (export_ok _ _ X), (import_ok _ _ I), Nm.
  rewrite (append_fmt_is _ (nm ++ txt ";" ++ NL)); [|parts|fit]. destruct i; fin.
Qed.
Lemma good_define nm b : good h (Define nm b).
Proof.
  intros c (K & (Nm & Ne) & P & (Vb & Cb) & Nb) F. cbn [render] in *. exists 1%nat. begin_. at_kind K. unfold define_ref. rewrite P, Nm. rewrite get_valid by assumption. cbn [rbind Z.eqb]. rewrite Cb.
  apply append_fmt_is; [parts|fit].
Qed.
Ltac pp := intros c H F; cbn [render holds] in *; exists 1%nat; begin_; destruct H as (K & C & Ne); at_kind K; rewrite C; apply append_fmt_is; [parts|fit].
Lemma good_ifdef t : good h (IfDef t). Proof. pp. Qed.
Lemma good_elif t : good h (ElIf t). Proof. pp. Qed.
Lemma good_include t : good h (Include t). Proof. pp. Qed.
Lemma good_pragma t : good h (Pragma t). Proof. pp. Qed.
Lemma good_else : good h Else. Proof. intros c K F. exists 1%nat. begin_. at_kind K. reflexivity. Qed.
Lemma good_endif : good h EndIf. Proof. intros c K F. exists 1%nat. begin_. at_kind K. reflexivity. Qed.

(** every node that holds a tree is serialized to the text of the tree *)
Lemma p41_text : forall t, good h t.
Proof.
  apply tree_children_ind. intros t IH.
  destruct t; cbn [children] in IH; first
    [ apply good_raw | apply good_newline | apply good_block; exact IH | apply good_namespace; exact IH | apply good_linkage; exact IH
    | apply good_struct; exact IH | apply good_class; exact IH | apply good_union; exact IH | apply good_enum; exact IH | apply good_enum_class; exact IH
    | apply good_struct_fwd | apply good_class_fwd | apply good_union_fwd | apply good_enum_fwd | apply good_enum_class_fwd
    | apply good_function; exact IH | apply good_function_fwd | apply good_operator; exact IH | apply good_operator_fwd | apply good_cast; exact IH | apply good_cast_fwd
    | apply good_constructor; apply IH; left; reflexivity | apply good_constructor_fwd | apply good_destructor; apply IH; left; reflexivity | apply good_destructor_fwd
    | apply good_typedef | apply good_using | apply good_using_namespace | apply good_var | apply good_template; apply IH; left; reflexivity
    | apply good_friend; apply IH; left; reflexivity | apply good_module | apply good_define | apply good_ifdef | apply good_elif | apply good_else | apply good_endif
    | apply good_include | apply good_pragma ].
Qed.
End Kinds.
