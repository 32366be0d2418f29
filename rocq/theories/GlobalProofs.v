(** Trees that do not change when their root is put into a body (for C63). *)
From Coq Require Import String ZArith List Bool Lia ZifyBool ZifyNat.
From Verif Require Import Common Text HashModel EnumModel EnumSpec LexModel LexSpec StripSpec AstModel AstSpec AstProofs UpfrontModel UpfrontSpec SerSpec ParseSpec FnSpec GlobalSpec ParseProofs3 ParseProofs5 ParseProofs9.
Import ListNotations.
Close Scope string_scope.
Open Scope Z_scope.

Definition nspace_kinds := [CT_Global_Body; CT_Namespace_Body; CT_Extern_Linkage_Body; CT_Class_Body; CT_Struct_Body; CT_Union_Body].
(** a body under construction *)
Definition form (n : node) : Prop :=
  n_name n = [] /\ n_content n = [] /\ n_ret n = 0 /\ n_arr n = n_arr zero_node /\ In (n_type n) nspace_kinds.
(** the same node in another list *)
Definition relinked (n n' : node) : Prop := exists fr nx pa, n' = set_front fr (set_next nx (set_parent pa n)).
Lemma relinked_refl : forall n, relinked n n.
Proof. intros n. exists (n_front n), (n_next n), (n_parent n). destruct n. reflexivity. Qed.
Lemma relinked_trans : forall a b c, relinked a b -> relinked b c -> relinked a c.
Proof. intros a b c (f & x & p & ->) (f' & x' & p' & ->). exists f', x', p'. reflexivity. Qed.

(** the same, but that the body of an extern block may have been added *)
Definition loose (n n' : node) : Prop := exists fr nx pa bo, n' = set_front fr (set_next nx (set_parent pa (set_body bo n))) /\ (n_type n = CT_Extern_Linkage \/ bo = n_body n).
Lemma loose_relinked : forall n n', relinked n n' -> loose n n'.
Proof. intros n n' (f & x & p & ->). exists f, x, p, (n_body n). destruct n. split; [reflexivity|auto]. Qed.
Lemma loose_refl : forall n, loose n n. Proof. intros n. apply loose_relinked, relinked_refl. Qed.
Lemma loose_trans : forall a b c, loose a b -> loose b c -> loose a c.
Proof. intros a b c (f & x & p & o & -> & E) (f' & x' & p' & o' & -> & E'). exists f', x', p', o'. split; [reflexivity|]. cbn in E'. destruct E as [E|E], E' as [E'|E']; auto. right. congruence. Qed.

Section Touch.
Variable O : Z -> Prop.
(** [h'] is [h] but for the bodies [O], the links of the nodes older than [B] and those of [c], which stands at [c'] *)
Record touch (B : Z) (h h' : heap) (c c' : Z) : Prop := {
  tc_top : h_top h <= h_top h';
  tc_same : forall x, valid h x -> B <= x -> x <> c -> h_node h' x = h_node h x;
  tc_rel : forall x, valid h x -> ~ O x -> loose (h_node h x) (h_node h' x);
  tc_open : forall x, O x -> valid h' x /\ form (h_node h' x);
  tc_was : forall x, O x -> valid h x -> form (h_node h x);
  tc_valid : valid h' c';
  tc_moved : relinked (h_node h c) (h_node h' c');
  tc_parent : n_parent (h_node h' c') = n_parent (h_node h c) \/ n_parent (h_node h' c') = 0 \/ O (n_parent (h_node h' c')) }.
(** the tree at [c], whose nodes are from [B] to [T], stays when links of older nodes and its own are changed *)
Definition firm (B T : Z) (h : heap) (c : Z) (t : tree) : Prop :=
  forall h', T <= h_top h' -> (forall x, B <= x < T -> x <> c -> h_node h' x = h_node h x) -> (forall x, 0 < x < B -> ~ O x -> loose (h_node h x) (h_node h' x)) ->
    (forall x, O x -> valid h' x /\ form (h_node h' x)) -> relinked (h_node h c) (h_node h' c) ->
    (n_parent (h_node h' c) = n_parent (h_node h c) \/ n_parent (h_node h' c) = 0 \/ O (n_parent (h_node h' c))) -> holds h' c t.

Definition clear (B : Z) (h : heap) (c : Z) (t : tree) : Prop :=
  let n := h_node h c in
  match t with
  | Var _ _ _ _ _ _ _ _ _ | Using _ _ _ _ _ => sized B h n t
  | Enum _ _ _ _ l | EnumClass _ _ _ _ l => young B h (n_body n)
  | Function _ _ _ _ ps l => fresh B h (n_params n) (length ps) /\ young B h (n_body n)
  | FunctionFwd _ _ _ _ _ ps _ => fresh B h (n_params n) (length ps)
  | _ => True
  end.

Section Leaf.
Variables (h h' : heap) (B c c' : Z).
Hypothesis (OD : forall x, O x \/ ~ O x).
Hypothesis TC : touch B h h' c c'.
Hypothesis OB : forall x, O x -> x < B.
Hypothesis NO : ~ O c.
Hypothesis VC : valid h c.

Lemma tv : forall x, valid h x -> valid h' x. Proof. intros x (A1 & A2). destruct TC. split; lia. Qed.
(** a node: unchanged, the root, or an open body *)
Lemma cases : forall x, valid h x -> loose (h_node h x) (h_node h' x) \/ O x.
Proof. intros x V. destruct (OD x) as [X|X]; [auto|]. left. apply (tc_rel _ _ _ _ _ TC); auto. Qed.
Ltac rl := match goal with R : relinked ?a ?b |- _ => destruct R as (? & ? & ? & R); rewrite R; cbn end.

Lemma t_content : forall x t, content_at h x t -> content_at h' x t.
Proof.
  intros x t (V & C). split; [apply tv, V|]. destruct (cases x V) as [(f & n & p & o & -> & _)|X].
  - exact C.
  - destruct (tc_open _ _ _ _ _ TC x X) as (_ & _ & F & _). destruct (tc_was _ _ _ _ _ TC x X V) as (_ & F' & _). congruence.
Qed.
Lemma t_comment : forall x t, comment_at h x t -> comment_at h' x t. Proof. intros x t (A1 & A2). split; [apply t_content; exact A1|exact A2]. Qed.
Lemma open_kind : forall x ks, O x -> kind_is h x ks -> exists k, In k ks /\ In k nspace_kinds.
Proof. intros x ks X (V & K). destruct (tc_was _ _ _ _ _ TC x X V) as (_ & _ & _ & _ & F). eauto. Qed.
Lemma t_kind : forall x ks, kind_is h x ks -> (forall k, In k ks -> ~ In k nspace_kinds) -> kind_is h' x ks.
Proof.
  intros x ks K D. pose proof K as (V & I). split; [apply tv, V|]. destruct (cases x V) as [(f & n & p & o & -> & _)|X].
  - exact I.
  - destruct (open_kind x ks X K) as (k & K1 & K2). destruct (D k K1 K2).
Qed.
Ltac nok := intros k I; cbn in I; repeat (destruct I as [<-|I]; [cbn; intros Y; repeat (destruct Y as [Y|Y]; [discriminate Y|]); exact Y|]); destruct I.
Lemma t_raw : forall x t, raw_at h x t -> raw_at h' x t.
Proof. intros x t (K & C). split; [apply t_kind; [exact K|nok]|]. destruct K as (V & _). apply t_content. split; assumption. Qed.
Lemma t_specs : forall x l, l <> [] -> specs_at h x l -> specs_at h' x l.
Proof.
  intros x l N (V & OK & SP & K). split; [apply tv, V|]. assert (X : ~ O x).
  { intros X. destruct (tc_was _ _ _ _ _ TC x X V) as (_ & _ & _ & F & _). unfold specs_of in SP. rewrite F in SP. destruct l as [|s l]; [contradiction|].
    assert (s = 0). { destruct (Z.to_nat (n_num (h_node h x))); cbn in SP; [discriminate SP|]. injection SP as <- _. reflexivity. } subst s. apply Forall_inv in K. vm_compute in K. repeat (destruct K as [K|K]; [discriminate K|]). exact K. }
  destruct (cases x V) as [(f & n & p & o & -> & _)|Y]; [|contradiction]. unfold specs_ok, specs_of in *. cbn. auto.
Qed.
Definition some_ok (o : option (list Z)) : Prop := o <> Some [].
Lemma t_mspecs : forall x o, some_ok o -> maybe (specs_at h) x o -> maybe (specs_at h') x o.
Proof. intros x [l|] S M; [|exact M]. cbn in *. apply t_specs; [|exact M]. intros ->. apply S. reflexivity. Qed.
Lemma t_maybe : forall A (P P' : Z -> A -> Prop) x o, (forall c a, P c a -> P' c a) -> maybe P x o -> maybe P' x o.
Proof. intros A P P' x [a|] I M; [cbn in *; auto|exact M]. Qed.
Definition typ_ok (t : typ) : Prop := some_ok (ty_specs t).
Lemma t_typ : forall x t, typ_ok t -> typ_at h x t -> typ_at h' x t.
Proof.
  intros x t S (V & A1 & A2 & A3 & A4 & A5 & A6). split; [apply tv, V|].
  assert (E : exists n, loose n (h_node h' x) /\ n = h_node h x).
  { exists (h_node h x). split; [|reflexivity]. destruct (cases x V) as [R|X]; [exact R|]. exfalso. destruct (tc_was _ _ _ _ _ TC x X V) as (F & _). congruence. }
  destruct E as (n & (f & y & p & o & E & _) & ->). rewrite E. cbn. split; [exact A1|]. split; [exact A2|]. split; [exact A3|]. split; [revert A4; apply t_maybe, t_content|]. split; [apply t_mspecs; [exact S|exact A5]|exact A6].
Qed.
Lemma t_mtyp : forall x o, (forall t, o = Some t -> typ_ok t) -> maybe (typ_at h) x o -> maybe (typ_at h') x o.
Proof. intros x [t|] S M; [|exact M]. cbn in *. apply t_typ; auto. Qed.
(** a node of a kind that is neither that of the root nor that of a body is unchanged *)
Lemma t_other : forall x ks, (B <= x) -> kind_is h x ks -> (forall k, In k ks -> ~ In k nspace_kinds) -> ~ In (n_type (h_node h c)) ks -> h_node h' x = h_node h x.
Proof.
  intros x ks XZ K D N. pose proof K as (V & I). apply (tc_same _ _ _ _ _ TC); [exact V|exact XZ|intros ->; contradiction].
Qed.
Lemma t_raws : forall l x, fresh B h x (length l) -> ~ In (n_type (h_node h c)) text_kinds -> raws_from h x l -> raws_from h' x l.
Proof.
  induction l as [|t l IH]; intros x F N R; [exact R|]. destruct R as (R & M), F as (F & F'). split; [apply t_raw; exact R|]. destruct R as (K & _). rewrite (t_other x text_kinds F K); [apply IH; assumption|nok|exact N].
Qed.
Definition param_ok (p : param) : Prop := exists t, p_type p = Some t /\ typ_ok t.
(** the parameters of the root: their Params is null, that of the root is not *)
Lemma t_param : forall x p, B <= x -> param_ok p -> n_params (h_node h c) <> 0 -> param_at h x p -> param_at h' x p /\ h_node h' x = h_node h x.
Proof.
  intros x p XB (ty & ET & TO) NP (V & A1 & A2 & A3 & A4 & A5). assert (E : h_node h' x = h_node h x).
  { apply (tc_same _ _ _ _ _ TC); [exact V|lia|intros ->; contradiction]. }
  split; [|exact E]. split; [apply tv, V|]. rewrite E. cbv zeta. split; [exact A1|]. split; [exact A2|]. split; [exact A3|]. split; [apply t_mtyp; [intros t; congruence|exact A4]|]. revert A5. apply t_maybe, t_raw.
Qed.
Lemma t_params_from : forall l x, fresh B h x (length l) -> Forall param_ok l -> n_params (h_node h c) <> 0 -> params_from h x l -> params_from h' x l.
Proof.
  induction l as [|p l IH]; intros x FR F NP P; [exact P|]. destruct P as (P1 & P2 & P3), FR as (FR & FR'). destruct (t_param x p FR (Forall_inv F) NP P1) as (Q1 & E). cbn. rewrite E. split; [exact Q1|]. split; [exact P2|]. apply IH; [exact FR'|exact (Forall_inv_tail F)|assumption..].
Qed.
Lemma t_params : forall l, fresh B h (n_params (h_node h c)) (length l) -> Forall param_ok l -> params_at h (n_params (h_node h c)) l -> params_at h' (n_params (h_node h c)) l.
Proof.
  intros [|p l] FR F P; [exact P|]. cbn in P. destruct FR as (FR & FR'). destruct P as (P1 & P2 & P3). assert (NP : n_params (h_node h c) <> 0) by (destruct P1 as ((V & _) & _); lia).
  destruct (t_param _ p FR (Forall_inv F) NP P1) as (Q1 & E). cbn. rewrite E. split; [exact Q1|]. split; [exact P2|]. intros N. apply t_params_from; [exact FR'|exact (Forall_inv_tail F)|exact NP|auto].
Qed.
(** bodies of texts *)
Definition raws (l : list tree) : Prop := Forall (fun t => exists x, t = Raw x) l.
Definition entry_kinds := text_kinds ++ [CT_Access_Private; CT_Access_Protected; CT_Access_Public].
Definition rows (h : heap) := fix rows (x : Z) (l : list tree) {struct l} : Prop := match l with [] => True | t :: r => holds h x t /\ rows (n_next (h_node h x)) r end.
Lemma t_rows : forall l x, fresh B h x (length l) -> raws l -> ~ In (n_type (h_node h c)) entry_kinds -> rows h x l -> rows h' x l.
Proof.
  induction l as [|t l IH]; intros x F R N H; [exact I|]. destruct H as (H1 & H2), F as (F & F'). destruct (Forall_inv R) as (s & ->). cbn [holds] in H1.
  assert (K : kind_is h x entry_kinds). { destruct H1 as [((V & I) & _)|((V & I) & _)]; (split; [exact V|]); unfold entry_kinds; apply in_or_app; auto. }
  assert (E : h_node h' x = h_node h x) by (apply (t_other x entry_kinds F K); [nok|exact N]).
  cbn [rows]. rewrite E. split; [|apply IH; [exact F'|exact (Forall_inv_tail R)|assumption..]]. cbn [holds]. destruct H1 as [H1|(K1 & H1)]; [left; apply t_raw; exact H1|right]. rewrite E. split; [apply t_kind; [exact K1|nok]|exact H1].
Qed.
Definition bodied (h : heap) (x : Z) (l : list tree) : Prop :=
  (kind_is h x body_kinds /\ n_num (h_node h x) = Z.of_nat (length l) /\ rows h (n_front (h_node h x)) l) \/
  exists t, l = [Raw t] /\ kind_is h x [CT_Untyped; CT_Execution] /\ n_content (h_node h x) = t.
Lemma t_bodied : forall l x, young B h x -> raws l -> ~ In (n_type (h_node h c)) entry_kinds -> ~ In (n_type (h_node h c)) body_kinds -> bodied h x l -> bodied h' x l.
Proof.
  intros l x (BX & FR) R N1 N2 [((V & K) & NU & BR)|(t & E & K & C)].
  - left. assert (E : h_node h' x = h_node h x) by (apply (tc_same _ _ _ _ _ TC); [exact V|lia|intros ->; contradiction]). unfold kind_is. rewrite E. split; [split; [apply tv, V|exact K]|]. split; [exact NU|]. rewrite NU, Nat2Z.id in FR. apply t_rows; assumption.
  - right. exists t. split; [exact E|]. split; [apply t_kind; [exact K|nok]|]. destruct K as (V & _). destruct (t_content x t (conj V C)) as (_ & C'). exact C'.
Qed.

Definition leaf (t : tree) : Prop :=
  match t with
  | Raw _ | NewLine | UsingNamespace _ | Include _ | IfDef _ | ElIf _ | Pragma _ | Else | EndIf => True
  | Using _ _ _ o _ => forall y ss, o = Some (y, ss) -> typ_ok y
  | Typedef _ y _ _ => typ_ok y
  | Var _ _ sp y _ _ _ _ _ => some_ok sp /\ typ_ok y
  | Enum _ _ _ o l => (forall y, o = Some y -> typ_ok y) /\ raws l
  | EnumClass _ _ _ y l => typ_ok y /\ raws l
  | EnumFwd _ _ _ o _ => forall y, o = Some y -> typ_ok y
  | EnumClassFwd _ _ _ y _ => typ_ok y
  | Function _ sp o _ ps l => some_ok sp /\ (forall y, o = Some y -> typ_ok y) /\ Forall param_ok ps /\ raws l
  | FunctionFwd _ _ sp o _ ps _ => some_ok sp /\ (forall y, o = Some y -> typ_ok y) /\ Forall param_ok ps
  | _ => False
  end.
Lemma t_statement : forall n n', relinked n n' -> (n_parent n' = n_parent n \/ n_parent n' = 0 \/ O (n_parent n')) -> statement h n -> statement h' n'.
Proof.
  intros n n' R P S. unfold statement in *. destruct P as [P|[P|P]]; [|auto|].
  - rewrite P. destruct S as [S|(V & S1 & S2)]; [auto|right]. split; [apply tv, V|]. destruct (cases _ V) as [(f & y & p & o & E & _)|X].
    + rewrite E. cbn. auto.
    + destruct (tc_open _ _ _ _ _ TC _ X) as (_ & _ & _ & _ & _ & F). cbn in F. destruct F as [<-|[<-|[<-|[<-|[<-|[<-|[]]]]]]]; split; discriminate.
  - right. destruct (tc_open _ _ _ _ _ TC _ P) as (V & _ & _ & _ & _ & F). split; [exact V|]. cbn in F. destruct F as [<-|[<-|[<-|[<-|[<-|[<-|[]]]]]]]; split; discriminate.
Qed.
Lemma t_moved : forall ks, kind_is h c ks -> kind_is h' c' ks.
Proof. intros ks (V & I). split; [exact (tc_valid _ _ _ _ _ TC)|]. destruct (tc_moved _ _ _ _ _ TC) as (f & y & p & ->). exact I. Qed.
Lemma kind_at : forall k, kind_is h c [k] -> n_type (h_node h c) = k. Proof. intros k (_ & [<-|[]]). reflexivity. Qed.
Ltac notin K := rewrite (kind_at _ K); cbn; intros Y; repeat (destruct Y as [Y|Y]; [discriminate Y|]); exact Y.
Ltac moved M := destruct (tc_moved _ _ _ _ _ TC) as (?f & ?y & ?p & M); rewrite M; cbn; rewrite <- M.

Lemma leaf_holds : forall t, leaf t -> clear B h c t -> holds h c t -> holds h' c' t.
Proof.
  intros t L CL H. pose proof (tc_moved _ _ _ _ _ TC) as RM. pose proof (tc_parent _ _ _ _ _ TC) as RP. pose proof RM as (mf & my & mp & EM).
  destruct t; cbn [leaf] in L; try contradiction; cbn [holds] in H |- *; cbn [clear] in CL.
  - destruct H as [((V & K) & C)|(K & C)]; [left|right].
    + split; [apply t_moved; split; assumption|]. rewrite EM. exact C.
    + split; [apply t_moved; exact K|]. rewrite EM. exact C.
  - apply t_moved. exact H.
  - change (kind_is h c [CT_Enum] /\ exports (h_node h c) export /\ maybe (content_at h) (n_attrs (h_node h c)) attrs /\ (n_name (h_node h c) = name /\ name <> []) /\ maybe (typ_at h) (n_ret (h_node h c)) underlying /\ n_params (h_node h c) = 0 /\ bodied h (n_body (h_node h c)) entries /\ statement h (h_node h c)) in H.
    change (kind_is h' c' [CT_Enum] /\ exports (h_node h' c') export /\ maybe (content_at h') (n_attrs (h_node h' c')) attrs /\ (n_name (h_node h' c') = name /\ name <> []) /\ maybe (typ_at h') (n_ret (h_node h' c')) underlying /\ n_params (h_node h' c') = 0 /\ bodied h' (n_body (h_node h' c')) entries /\ statement h' (h_node h' c')).
    destruct H as (K & X & A & N & T & P & BD & ST). split; [apply t_moved; exact K|]. pose proof (t_statement _ _ RM RP ST) as ST'. rewrite EM in ST' |- *. cbn. split; [exact X|]. split; [revert A; apply t_maybe, t_content|]. split; [exact N|]. split; [apply t_mtyp; [apply L|exact T]|]. split; [exact P|]. split; [|exact ST'].
    apply t_bodied; [exact CL|apply L|notin K|notin K|exact BD].
  - change (kind_is h c [CT_Enum_Class] /\ exports (h_node h c) export /\ maybe (content_at h) (n_attrs (h_node h c)) attrs /\ (n_name (h_node h c) = name /\ name <> []) /\ typ_at h (n_ret (h_node h c)) underlying /\ bodied h (n_body (h_node h c)) entries /\ statement h (h_node h c)) in H.
    change (kind_is h' c' [CT_Enum_Class] /\ exports (h_node h' c') export /\ maybe (content_at h') (n_attrs (h_node h' c')) attrs /\ (n_name (h_node h' c') = name /\ name <> []) /\ typ_at h' (n_ret (h_node h' c')) underlying /\ bodied h' (n_body (h_node h' c')) entries /\ statement h' (h_node h' c')).
    destruct H as (K & X & A & N & T & BD & ST). split; [apply t_moved; exact K|]. pose proof (t_statement _ _ RM RP ST) as ST'. rewrite EM in ST' |- *. cbn. split; [exact X|]. split; [revert A; apply t_maybe, t_content|]. split; [exact N|]. split; [apply t_typ; [apply L|exact T]|]. split; [|exact ST'].
    apply t_bodied; [exact CL|apply L|notin K|notin K|exact BD].
  - destruct H as (K & X & A & N & T & P & C & ST). split; [apply t_moved; exact K|]. pose proof (t_statement _ _ RM RP ST) as ST'. rewrite EM in ST' |- *. cbn. split; [exact X|]. split; [revert A; apply t_maybe, t_content|]. split; [exact N|]. split; [apply t_mtyp; [apply L|exact T]|]. split; [exact P|]. split; [revert C; apply t_maybe, t_comment|exact ST'].
  - destruct H as (K & X & A & N & T & C & ST). split; [apply t_moved; exact K|]. pose proof (t_statement _ _ RM RP ST) as ST'. rewrite EM in ST' |- *. cbn. split; [exact X|]. split; [revert A; apply t_maybe, t_content|]. split; [exact N|]. split; [apply t_typ; [apply L|exact T]|]. split; [revert C; apply t_maybe, t_comment|exact ST'].
  - change (kind_is h c [CT_Function] /\ exports (h_node h c) false /\ maybe (content_at h) (n_attrs (h_node h c)) attrs /\ maybe (specs_at h) (n_specs (h_node h c)) specs /\ maybe (typ_at h) (n_ret (h_node h c)) ret /\ (n_name (h_node h c) = name /\ name <> []) /\ params_at h (n_params (h_node h c)) params /\ n_suffix (h_node h c) = 0 /\ bodied h (n_body (h_node h c)) entries) in H.
    change (kind_is h' c' [CT_Function] /\ exports (h_node h' c') false /\ maybe (content_at h') (n_attrs (h_node h' c')) attrs /\ maybe (specs_at h') (n_specs (h_node h' c')) specs /\ maybe (typ_at h') (n_ret (h_node h' c')) ret /\ (n_name (h_node h' c') = name /\ name <> []) /\ params_at h' (n_params (h_node h' c')) params /\ n_suffix (h_node h' c') = 0 /\ bodied h' (n_body (h_node h' c')) entries).
    destruct H as (K & X & A & SP & T & N & P & SX & BD). destruct L as (L1 & L2 & L3 & L4). split; [apply t_moved; exact K|]. rewrite EM. cbn. split; [exact X|]. split; [revert A; apply t_maybe, t_content|]. split; [apply t_mspecs; assumption|]. split; [apply t_mtyp; assumption|]. split; [exact N|]. split; [apply t_params; [apply CL|assumption..]|]. split; [exact SX|].
    apply t_bodied; [apply CL|exact L4|notin K|notin K|exact BD].
  - destruct H as (K & X & A & SP & PD & T & N & P & SX & BD & C). destruct L as (L1 & L2 & L3). split; [apply t_moved; exact K|]. rewrite EM. cbn. split; [exact X|]. split; [revert A; apply t_maybe, t_content|]. split; [apply t_mspecs; assumption|]. split; [exact PD|]. split; [apply t_mtyp; assumption|]. split; [exact N|]. split; [apply t_params; [exact CL|assumption..]|]. split; [exact SX|]. split; [exact BD|]. revert C. apply t_maybe, t_comment.
  - destruct H as (K & X & T & KT & R0 & B0 & N & C). split; [apply t_moved; exact K|]. rewrite EM. cbn.
    assert (E : loose (h_node h (n_ret (h_node h c))) (h_node h' (n_ret (h_node h c)))). { destruct (cases _ (proj1 KT)) as [E|X']; [exact E|]. destruct (open_kind _ _ X' KT) as (k & [<-|[]] & Y). cbn in Y. intuition discriminate. }
    pose proof E as (e1 & e2 & e3 & e4 & E' & E5). destruct E5 as [E5|E5]; [destruct KT as (_ & [KT|[]]); congruence|]. subst e4.
    split; [exact X|]. split; [apply t_typ; assumption|]. split; [apply t_kind; [exact KT|nok]|]. rewrite E'. cbn. split; [exact R0|]. split; [exact B0|]. split; [exact N|]. revert C. apply t_maybe, t_comment.
  - destruct H as (K & X & A & N & T & C). split; [apply t_moved; exact K|]. rewrite EM. cbn. split; [exact X|]. split; [revert A; apply t_maybe, t_content|]. split; [exact N|]. split; [|revert C; apply t_maybe, t_comment].
    destruct ty as [(t & ss)|]; [|exact T]. cbn in T |- *. destruct T as (T & R). split; [apply t_typ; [eapply L; reflexivity|exact T]|]. destruct T as (V & _ & TN & TE & _).
    assert (E : n_body (h_node h' (n_ret (h_node h c))) = n_body (h_node h (n_ret (h_node h c)))).
    { destruct (cases _ V) as [(a1 & a2 & a3 & a4 & -> & A5)|Y]; [destruct CL as (CK & _); destruct A5 as [A5|A5]; [congruence|exact A5]|]. exfalso. destruct (tc_was _ _ _ _ _ TC _ Y V) as (F & _). congruence. } rewrite E.
    apply t_raws; [apply CL|notin K|exact R].
  - destruct H as (K & N & C). split; [apply t_moved; exact K|]. rewrite EM. cbn. auto.
  - destruct H as (K & P & X & A & SP & T & N & R & BD & SB & VA & SX & C). destruct L as (L1 & L2). split; [apply t_moved; exact K|]. split.
    { destruct RP as [RP|[RP|RP]]; [|auto|]; [rewrite RP; destruct P as [P|(V & P)]; [auto|right]; split; [apply tv, V|]|].
      - destruct (cases _ V) as [(a1 & a2 & a3 & a4 & -> & _)|Y]; [exact P|]. destruct (tc_open _ _ _ _ _ TC _ Y) as (_ & _ & _ & _ & _ & F). cbn in F. destruct F as [<-|[<-|[<-|[<-|[<-|[<-|[]]]]]]]; discriminate.
      - right. destruct (tc_open _ _ _ _ _ TC _ RP) as (V & _ & _ & _ & _ & F). split; [exact V|]. cbn in F. destruct F as [<-|[<-|[<-|[<-|[<-|[<-|[]]]]]]]; discriminate. }
    rewrite EM. cbn. split; [exact X|]. split; [revert A; apply t_maybe, t_content|]. split; [apply t_mspecs; assumption|]. split; [apply t_typ; assumption|]. split; [exact N|]. split.
    { destruct T as (V & _ & TN & TE & _). assert (E : n_body (h_node h' (n_ret (h_node h c))) = n_body (h_node h (n_ret (h_node h c)))).
      { destruct (cases _ V) as [(a1 & a2 & a3 & a4 & -> & A5)|Y]; [destruct CL as (CK & _); destruct A5 as [A5|A5]; [congruence|exact A5]|]. exfalso. destruct (tc_was _ _ _ _ _ TC _ Y V) as (F & _). congruence. } rewrite E.
      apply t_raws; [apply CL|notin K|exact R]. }
    split; [revert BD; apply t_maybe, t_raw|]. split; [exact SB|]. split; [|split; [exact SX|revert C; apply t_maybe, t_comment]].
    destruct value as [|v|v]; destruct VA as (VA & VN); (split; [|exact VN]); try exact VA; apply t_raw; exact VA.
  - destruct H as (K & C). split; [apply t_moved; exact K|]. rewrite EM. cbn. auto.
  - destruct H as (K & C). split; [apply t_moved; exact K|]. rewrite EM. cbn. auto.
  - apply t_moved. exact H.
  - apply t_moved. exact H.
  - destruct H as (K & C). split; [apply t_moved; exact K|]. rewrite EM. cbn. auto.
  - destruct H as (K & C). split; [apply t_moved; exact K|]. rewrite EM. cbn. auto.
Qed.
End Leaf.
End Touch.
