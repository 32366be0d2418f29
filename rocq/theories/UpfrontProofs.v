From Coq Require Import String ZArith List Bool Lia.
From Coq Require Import ZifyBool ZifyNat.
From Verif Require Import Common Text AstModel AstSpec AstProofs EqModel EqSpec EqProofs EnumModel UpfrontModel UpfrontSpec.
Import ListNotations.
Open Scope Z_scope.

Lemma kind_in_iff t ts : kind_in t ts = true <-> In t ts.
Proof.
  unfold kind_in. rewrite existsb_exists. split.
  - intros (x & I & E). apply ct_eqb_eq in E. now subst.
  - intros I. exists t. split; auto. now apply ct_eqb_eq.
Qed.
Lemma name_check_iff s : name_check s = true <-> has_name s.
Proof.
  unfold has_name, named. destruct s as [[|x t]|]; cbn.
  - split; [discriminate|]. intros (u & [= <-] & N). now elim N.
  - split; [intros _; exists (x :: t); split; [reflexivity|discriminate]|reflexivity].
  - split; [discriminate|]. intros (u & [=] & _).
Qed.

(** one new node *)
Definition is_new (h h1 : heap) (n : node) : Prop :=
  h_top h1 = h_top h + 1 /\ h_node h1 (h_top h) = n /\ forall c, valid h c -> h_node h1 c = h_node h c.
Lemma make_new h f : 0 < h_top h -> exists h1, make h f = (h1, h_top h) /\ is_new h h1 (f zero_node).
Proof.
  intros P. unfold make, new_code. eexists. split; [reflexivity|]. repeat split; cbn.
  - now rewrite !Z.eqb_refl.
  - intros c V. unfold valid in V. replace (c =? h_top h) with false by lia. reflexivity.
Qed.
Lemma upd_new h h1 n f : is_new h h1 n -> is_new h (upd h1 (h_top h) f) (f n).
Proof.
  intros (T & N & K). repeat split; cbn; auto.
  - now rewrite Z.eqb_refl, N.
  - intros c V. pose proof V as V'. unfold valid in V. replace (c =? h_top h) with false by lia. auto.
Qed.
Lemma new_kept h h1 n : is_new h h1 n -> kept h h1.
Proof. intros (T & _ & K). split; [lia|]. auto. Qed.
Lemma new_creates h h1 n m : 0 < h_top h -> is_new h h1 n -> n = m -> creates h (Done (h1, h_top h)) m.
Proof.
  intros P N <-. exists h1, (h_top h). pose proof N as (T & M & _). split; [reflexivity|].
  split; [unfold valid; lia|]. split; [unfold valid; lia|]. split; [exact M|]. apply (new_kept _ _ _ N).
Qed.
Lemma new_valid h h1 n c : is_new h h1 n -> valid h c -> valid h1 c.
Proof. intros (T & _) V. unfold valid in *. lia. Qed.
Lemma new_is_kind h h1 n c ts : is_new h h1 n -> valid h c -> is_kind h1 c ts = is_kind h c ts.
Proof.
  intros N V. unfold is_kind. rewrite (AstProofs.get_valid h), (AstProofs.get_valid h1); auto using (new_valid h h1 n c N V).
  destruct N as (_ & _ & K). now rewrite K.
Qed.
Lemma rejects_now e h h1 : kept h h1 -> rejects e h (invalid e h1).
Proof. intros K. exists h1. auto. Qed.
Lemma kept_refl h : kept h h.
Proof. split; [lia|auto]. Qed.

(** the checks *)
Lemma req_name e h s k : (require e h (Done (name_check s)) k = k /\ has_name s) \/ (require e h (Done (name_check s)) k = invalid e h /\ ~ has_name s).
Proof.
  unfold require. cbn [rbind]. destruct (name_check s) eqn:N; [left|right]; (split; [reflexivity|]).
  - now apply name_check_iff.
  - intros H. apply name_check_iff in H. congruence.
Qed.
Lemma is_kind_val h c ts : valid h c -> exists b, is_kind h c ts = Done b /\ (b = true <-> In (n_type (h_node h c)) ts).
Proof. intros V. unfold is_kind. rewrite AstProofs.get_valid by auto. cbn [rbind]. eexists. split; [reflexivity|apply kind_in_iff]. Qed.
Lemma req_is e h h1 c ts k : valid h c -> is_kind h1 c ts = is_kind h c ts ->
  (require e h1 (is_kind h1 c ts) k = k /\ is_a h c ts) \/ (require e h1 (is_kind h1 c ts) k = invalid e h1 /\ ~ is_a h c ts).
Proof.
  intros V E. rewrite E. destruct (is_kind_val h c ts V) as (b & -> & B). unfold require. cbn [rbind].
  destruct b; [left|right]; (split; [reflexivity|]).
  - split; auto. now apply B.
  - intros [_ I]. apply B in I. discriminate.
Qed.
Lemma req_opt e h c ts k : ref h c ->
  (require e h (opt_kind h c ts) k = k /\ none_or h c ts) \/ (require e h (opt_kind h c ts) k = invalid e h /\ ~ none_or h c ts).
Proof.
  intros [->|V]; [left; split; [reflexivity|now left]|]. unfold opt_kind. pose proof V as V'. unfold valid in V'.
  replace (c =? 0) with false by lia.
  destruct (req_is e h h c ts k V eq_refl) as [[-> I]|[-> I]]; [left|right]; (split; [reflexivity|]).
  - now right.
  - intros [->|J]; [lia|contradiction].
Qed.
Lemma req_null e h c k : (require e h (Done (null_check c)) k = k /\ c <> 0) \/ (require e h (Done (null_check c)) k = invalid e h /\ c = 0).
Proof. unfold require, null_check. cbn [rbind]. destruct (c =? 0) eqn:E; [right|left]; (split; [reflexivity|lia]). Qed.
Lemma req_name_null e h s c k : (require e h (Done (name_check s && null_check c)) k = k /\ has_name s /\ c <> 0) \/
  (require e h (Done (name_check s && null_check c)) k = invalid e h /\ ~ (has_name s /\ c <> 0)).
Proof.
  unfold require, null_check. cbn [rbind]. destruct (name_check s) eqn:N; cbn [andb].
  - apply name_check_iff in N. destruct (c =? 0) eqn:E; [right|left]; (split; [reflexivity|]).
    + intros [_ X]. lia.
    + split; [auto|lia].
  - right. split; [reflexivity|]. intros [X _]. apply name_check_iff in X. congruence.
Qed.
Lemma nonnull h c : ref h c -> c <> 0 -> valid h c.
Proof. intros [?|?]; [contradiction|auto]. Qed.

Ltac reject := right; split; [unfold none_or in *; tauto|apply rejects_now; eauto using kept_refl, new_kept].
(** node equality: both sides are stacks of setters over zero_node *)
Ltac node_eq := unfold node_of, with_body; cbn; reflexivity.

Section Ctors.
  Context (e : env) (h : heap) (W : world e h).
  Lemma top_pos : 0 < h_top h.
  Proof. destruct W as [V _]. unfold valid in V. lia. Qed.

  Lemma simple_ctor s f n : f zero_node = n ->
    accepts_iff e h (require e h (Done (name_check s)) (Done (make h f))) (has_name s) n.
  Proof.
    intros E. destruct (req_name e h s (Done (make h f))) as [[-> N]|[-> N]]; [left|reject]. split; auto.
    destruct (make_new h f top_pos) as (h1 & -> & I). now apply (new_creates h h1 (f zero_node)); [apply top_pos| |].
  Qed.

  (** the optional body: definition or forward declaration *)
  Lemma body_part h1 m n body ts (td tf : codetype) (fd ff : node -> node) :
    is_new h h1 m -> ref h body ->
    fd m = set_body body (set_type td m) -> ff m = set_type tf m ->
    forall finish g, (forall h2 k, is_new h h2 k -> exists h3, finish h2 = Done (h3, h_top h) /\ is_new h h3 (g k)) ->
    g (with_body body td tf m) = n ->
    let r := if negb (body =? 0) then require e h1 (is_kind h1 body ts) (finish (upd h1 (h_top h) fd)) else finish (upd h1 (h_top h) ff) in
    (none_or h body ts /\ creates h r n) \/ (~ none_or h body ts /\ rejects e h r).
  Proof.
    intros N R FD FF finish g FIN G. cbn zeta. destruct R as [->|V].
    - cbn [negb Z.eqb]. left. split; [now left|]. destruct (FIN _ _ (upd_new _ _ _ ff N)) as (h3 & -> & I).
      apply (new_creates _ _ _ _ top_pos I). rewrite FF. exact G.
    - pose proof V as V'. unfold valid in V'. replace (body =? 0) with false by lia. cbn [negb].
      destruct (req_is e h h1 body ts (finish (upd h1 (h_top h) fd)) V (new_is_kind _ _ _ _ _ N V)) as [[-> A]|[-> A]].
      + left. split; [now right|]. destruct (FIN _ _ (upd_new _ _ _ fd N)) as (h3 & -> & I).
        apply (new_creates _ _ _ _ top_pos I). rewrite FD. rewrite <- G. unfold with_body. replace (body =? 0) with false by lia. reflexivity.
      + right. split; [intros [->|B]; [lia|contradiction]|]. apply rejects_now. eauto using new_kept.
  Qed.
End Ctors.

Definition id_finish (r : Z) (h : heap) : result := Done (h, r).

Section Each.
  Context (e : env) (h : heap) (W : world e h).
  Notation tp := (top_pos e h W).

  Lemma p32_attributes s : accepts_iff e h (def_attributes e h s) (has_name s)
    (set_content (str_text s) (node_of CT_PlatformAttributes (str_text s))).
  Proof. apply (simple_ctor e h W). reflexivity. Qed.
  Lemma p32_execution s : accepts_iff e h (def_execution e h s) (has_name s) (set_content (str_text s) (node_of CT_Execution [])).
  Proof. apply (simple_ctor e h W). reflexivity. Qed.
  Lemma p32_module s fl : accepts_iff e h (def_module e h s fl) (has_name s) (set_flags fl (node_of CT_Module (str_text s))).
  Proof. apply (simple_ctor e h W). reflexivity. Qed.
  Lemma p32_pragma s : accepts_iff e h (def_pragma e h s) (has_name s) (set_content (str_text s) (node_of CT_Preprocess_Pragma [])).
  Proof. apply (simple_ctor e h W). reflexivity. Qed.
  Lemma p32_using_namespace s : accepts_iff e h (def_using_namespace e h s) (has_name s) (node_of CT_Using_Namespace (str_text s)).
  Proof. apply (simple_ctor e h W). reflexivity. Qed.
  Lemma p32_cond c s : accepts_iff e h (def_preprocess_cond e h c s) (has_name s)
    (set_content (str_text s) (node_of (match c with PC_If => CT_Preprocess_If | PC_IfDef => CT_Preprocess_IfDef
       | PC_IfNotDef => CT_Preprocess_IfNotDef | PC_ElIf => CT_Preprocess_ElIf end) [])).
  Proof. apply (simple_ctor e h W). destruct c; reflexivity. Qed.
  Lemma p32_include s (foreign : bool) : accepts_iff e h (def_include e h s foreign) (has_name s)
    (let t := if foreign then [60] ++ str_text s ++ [62] else [34] ++ str_text s ++ [34] in set_content t (node_of CT_Preprocess_Include t)).
  Proof. apply (simple_ctor e h W). reflexivity. Qed.

  Ltac fin := match goal with |- context [make h ?f] => let h1 := fresh in let I := fresh in destruct (make_new h f tp) as (h1 & -> & I); apply (new_creates h h1 _ _ tp I); node_eq end.

  Lemma p32_constructor params init body : ref h params -> ref h body ->
    accepts_iff e h (def_constructor e h params init body) (none_or h params [CT_Parameters] /\ none_or h body [CT_Function_Body; CT_Untyped])
      (with_body body CT_Constructor CT_Constructor_Fwd (set_ret init (set_params params zero_node))).
  Proof.
    intros R1 R2. unfold def_constructor.
    match goal with |- context [require e h (opt_kind h params ?ts) ?k] => destruct (req_opt e h params ts k R1) as [[-> P]|[-> P]] end; [|reject].
    destruct (make_new h (fun n => set_ret init (set_params params n)) tp) as (h1 & -> & I).
    pose proof (body_part e h W h1 _ _ body [CT_Function_Body; CT_Untyped] CT_Constructor CT_Constructor_Fwd (fun n => set_body body (set_type CT_Constructor n))
      (set_type CT_Constructor_Fwd) I R2 eq_refl eq_refl (id_finish (h_top h)) (fun n => n)
      (fun h2 k K => ex_intro _ h2 (conj eq_refl K)) eq_refl) as [[Q C]|[Q C]]; [left|right]; split; auto; tauto.
  Qed.
  Lemma p32_destructor body specs : ref h body -> ref h specs ->
    accepts_iff e h (def_destructor e h body specs) (none_or h specs [CT_Specifiers] /\ none_or h body [CT_Function_Body; CT_Untyped])
      (with_body body CT_Destructor CT_Destructor_Fwd (set_specs specs zero_node)).
  Proof.
    intros R1 R2. unfold def_destructor.
    match goal with |- context [require e h (opt_kind h specs ?ts) ?k] => destruct (req_opt e h specs ts k R2) as [[-> P]|[-> P]] end; [|reject].
    destruct (make_new h (set_specs specs) tp) as (h1 & -> & I).
    pose proof (body_part e h W h1 _ _ body [CT_Function_Body; CT_Untyped] CT_Destructor CT_Destructor_Fwd (fun n => set_body body (set_type CT_Destructor n))
      (set_type CT_Destructor_Fwd) I R1 eq_refl eq_refl (id_finish (h_top h)) (fun n => n)
      (fun h2 k K => ex_intro _ h2 (conj eq_refl K)) eq_refl) as [[Q C]|[Q C]]; [left|right]; split; auto; tauto.
  Qed.

  Ltac check_name := match goal with |- context [require e h (Done (name_check ?s)) ?k] => destruct (req_name e h s k) as [[-> ?]|[-> ?]]; [|reject] end.
  Ltac check_opt := match goal with
    | R : ref h ?c |- context [require e h (opt_kind h ?c ?ts) ?k] => destruct (req_opt e h c ts k R) as [[-> ?]|[-> ?]]; [|reject] end.
  Ltac check_null := match goal with |- context [require e h (Done (null_check ?s)) ?k] => destruct (req_null e h s k) as [[-> ?]|[-> ?]] end.
  Ltac check_nn := match goal with |- context [require e h (Done (name_check ?s && null_check ?c)) ?k] => destruct (req_name_null e h s c k) as [[-> [? ?]]|[-> ?]] end.
  Ltac not_zero := let X := fresh in right; split; [intros X; unfold is_a, valid in X; lia|apply rejects_now, kept_refl].
  Ltac check_is := match goal with
    | R : ref h ?c, N : ?c <> 0 |- context [require e h (is_kind h ?c ?ts) ?k] =>
        destruct (req_is e h h c ts k (nonnull h c R N) eq_refl) as [[-> ?]|[-> ?]]; [|reject] end.

  Lemma p32_function s p : ref h (of_params p) -> ref h (of_ret p) -> ref h (of_specs p) -> ref h (of_attrs p) -> ref h (of_body p) ->
    accepts_iff e h (def_function e h s p)
      (has_name s /\ none_or h (of_params p) [CT_Parameters] /\ none_or h (of_ret p) [CT_Typename] /\ none_or h (of_specs p) [CT_Specifiers] /\
       none_or h (of_attrs p) [CT_PlatformAttributes] /\ none_or h (of_body p) [CT_Function_Body; CT_Execution; CT_Untyped])
      (set_ret (if of_ret p =? 0 then e_void e else of_ret p) (set_params (of_params p) (set_specs (of_specs p) (set_attrs (of_attrs p)
        (set_flags (of_mflags p) (with_body (of_body p) CT_Function CT_Function_Fwd (set_name (str_text s) zero_node))))))).
  Proof.
    intros R1 R2 R3 R4 R5. unfold def_function. check_name. check_opt. check_opt. check_opt. check_opt.
    destruct (make_new h (fun n => set_flags (of_mflags p) (set_name (str_text s) n)) tp) as (h1 & -> & I).
    match goal with |- accepts_iff _ _ _ _ ?nn => 
    pose proof (body_part e h W h1 _ nn (of_body p) [CT_Function_Body; CT_Execution; CT_Untyped] CT_Function CT_Function_Fwd
      (fun n => set_body (of_body p) (set_type CT_Function n)) (set_type CT_Function_Fwd) I R5 eq_refl eq_refl
      (fun h => Done (upd h (h_top h1 - 1) (fun n => set_ret (if negb (of_ret p =? 0) then of_ret p else e_void e)
         (set_params (of_params p) (set_specs (of_specs p) (set_attrs (of_attrs p) n)))), h_top h1 - 1))
      (fun n => set_ret (if negb (of_ret p =? 0) then of_ret p else e_void e)
         (set_params (of_params p) (set_specs (of_specs p) (set_attrs (of_attrs p) n))))) as B end.
    assert (T : h_top h1 - 1 = h_top h) by (destruct I as [T _]; lia). rewrite T in B.
    destruct B as [[Q C]|[Q C]].
    - intros h2 k K. eexists. split; [reflexivity|]. match goal with |- is_new _ (upd _ _ ?f) _ => exact (upd_new _ _ _ f K) end.
    - unfold with_body. destruct (of_body p =? 0); destruct (of_ret p =? 0); reflexivity.
    - left. split; [tauto|exact C].
    - right. split; [tauto|exact C].
  Qed.

  Lemma p32_extern_link s body : ref h body ->
    accepts_iff e h (def_extern_link e h s body) (has_name s /\ is_a h body [CT_Extern_Linkage_Body; CT_Untyped])
      (set_body body (node_of CT_Extern_Linkage (str_text s))).
  Proof.
    intros R. unfold def_extern_link. check_nn.
    2:{ right. split; [intros [A [B _]]; unfold valid in B; apply H; split; [auto|lia]|apply rejects_now, kept_refl]. }
    check_is. left. split; [tauto|]. fin.
  Qed.
  Lemma p32_friend d : ref h d ->
    accepts_iff e h (def_friend e h d)
      (is_a h d [CT_Class_Fwd; CT_Function_Fwd; CT_Operator_Fwd; CT_Struct_Fwd; CT_Class; CT_Function; CT_Operator; CT_Struct])
      (set_body d (node_of CT_Friend [])).
  Proof.
    intros R. unfold def_friend. check_null; [|not_zero]. check_is. left. split; [tauto|]. fin.
  Qed.
  Lemma p32_namespace s body fl : ref h body ->
    accepts_iff e h (def_namespace e h s body fl) (has_name s /\ is_a h body [CT_Namespace_Body; CT_Untyped])
      (set_body body (set_flags fl (node_of CT_Namespace (str_text s)))).
  Proof.
    intros R. unfold def_namespace. check_name. check_null.
    2:{ right. split; [intros [_ [B _]]; unfold valid in B; lia|apply rejects_now, kept_refl]. }
    check_opt. left. split; [split; auto; destruct H1; [contradiction|auto]|]. fin.
  Qed.
  Lemma p32_param ty s v : ref h ty -> ref h v ->
    accepts_iff e h (def_param e h ty s v) (has_name s /\ is_a h ty [CT_Typename] /\ none_or h v [CT_Untyped])
      (set_num 1 (set_body v (set_ret ty (node_of CT_Parameters (str_text s))))).
  Proof.
    intros R1 R2. unfold def_param. check_nn.
    2:{ right. split; [intros [A [[B _] _]]; unfold valid in B; apply H; split; [auto|lia]|apply rejects_now, kept_refl]. }
    check_is. check_opt. left. split; [tauto|]. fin.
  Qed.
  Lemma p32_variable ty s p : ref h ty -> ref h (ov_attrs p) -> ref h (ov_specs p) -> ref h (ov_value p) ->
    accepts_iff e h (def_variable e h ty s p)
      (has_name s /\ is_a h ty [CT_Typename] /\ none_or h (ov_attrs p) [CT_PlatformAttributes] /\ none_or h (ov_specs p) [CT_Specifiers] /\
       none_or h (ov_value p) [CT_Untyped])
      (set_ret ty (set_attrs (ov_attrs p) (set_specs (ov_specs p) (set_body (ov_value p) (set_flags (ov_mflags p) (node_of CT_Variable (str_text s))))))).
  Proof.
    intros R1 R2 R3 R4. unfold def_variable. check_nn.
    2:{ right. split; [intros [A [[B _] _]]; unfold valid in B; apply H; split; [auto|lia]|apply rejects_now, kept_refl]. }
    check_opt. check_opt. check_is. check_opt. left. split; [tauto|]. fin.
  Qed.
  Lemma p32_type s arr attrs specs tag : ref h arr -> ref h attrs -> ref h specs ->
    accepts_iff e h (def_type e h s arr attrs specs tag)
      (has_name s /\ none_or h attrs [CT_PlatformAttributes] /\ none_or h specs [CT_Specifiers] /\ none_or h arr [CT_Untyped])
      (set_num (2 ^ 16 * tag) (set_body arr (set_specs specs (set_attrs attrs (node_of CT_Typename (str_text s)))))).
  Proof.
    intros R1 R2 R3. unfold def_type. check_name. check_opt. check_opt. check_opt. left. split; [tauto|]. fin.
  Qed.
  Lemma p32_union s body attrs fl : ref h body -> ref h attrs ->
    accepts_iff e h (def_union e h s body attrs fl) (is_a h body [CT_Union_Body] /\ none_or h attrs [CT_PlatformAttributes])
      (set_attrs attrs (set_body body (set_flags fl (node_of CT_Union (str_text s))))).
  Proof.
    intros R1 R2. unfold def_union. check_null.
    2:{ right. split; [intros [[B _] _]; unfold valid in B; lia|apply rejects_now, kept_refl]. }
    check_is. check_opt. left. split; [tauto|]. destruct s; fin.
  Qed.
  Lemma p32_template params d fl : ref h params -> ref h d ->
    accepts_iff e h (def_template e h params d fl) (d <> 0 /\ none_or h params [CT_Parameters])
      (set_body d (set_params params (set_flags fl (node_of CT_Template [])))).
  Proof.
    intros R1 R2. unfold def_template. check_null; [|right; split; [tauto|apply rejects_now, kept_refl]].
    check_opt. rewrite (AstProofs.get_valid h d) by (now apply nonnull). cbn [rbind]. left. split; [tauto|]. fin.
  Qed.
  Lemma p32_operator_cast ty body specs : ref h ty -> ref h body ->
    accepts_iff e h (def_operator_cast e h ty body specs) (is_a h ty [CT_Typename] /\ none_or h body [CT_Function_Body; CT_Execution])
      (set_ret ty (set_specs specs (with_body body CT_Operator_Cast CT_Operator_Cast_Fwd zero_node))).
  Proof.
    intros R1 R2. unfold def_operator_cast. check_null.
    2:{ right. split; [intros [[B _] _]; unfold valid in B; lia|apply rejects_now, kept_refl]. }
    check_is. destruct (make_new h (fun n => n) tp) as (h1 & -> & I).
    destruct R2 as [->|V].
    - cbn [negb Z.eqb]. left. split; [split; [auto|now left]|].
      refine (new_creates h _ _ _ tp (upd_new _ _ _ _ (upd_new _ _ _ _ I)) _). node_eq.
    - pose proof V as V'. unfold valid in V'. replace (body =? 0) with false by lia. cbn [negb].
      pose proof (upd_new _ _ _ (set_type CT_Operator_Cast) I) as I2.
      match goal with |- context [require e ?g (is_kind ?g body ?ts) ?k] =>
        destruct (req_is e h g body ts k V (new_is_kind _ _ _ _ _ I2 V)) as [[-> A]|[-> A]] end.
      + left. split; [split; [auto|now right]|].
        refine (new_creates h _ _ _ tp (upd_new _ _ _ _ (upd_new _ _ _ _ I2)) _). unfold with_body. replace (body =? 0) with false by lia. reflexivity.
      + right. split; [intros [_ [->|B]]; [lia|contradiction]|apply rejects_now; eauto using new_kept].
  Qed.
  Lemma p32_body t : accepts_iff e h (def_body e h t)
    (In t [CT_Class_Body; CT_Enum_Body; CT_Export_Body; CT_Extern_Linkage; CT_Function_Body; CT_Global_Body; CT_Namespace_Body; CT_Struct_Body; CT_Union_Body])
    (node_of t []).
  Proof.
    unfold def_body, require. cbn [rbind]. destruct (kind_in _ _) eqn:K.
    - left. split; [now apply kind_in_iff|]. fin.
    - right. split; [intros I; apply kind_in_iff in I; congruence|apply rejects_now, kept_refl].
  Qed.

  (** enum: what the code accepts is inverted *)
  Lemma p32_enum s p : ref h (oe_type p) -> ref h (oe_attrs p) -> ref h (oe_body p) ->
    accepts_iff e h (def_enum e h s p)
      (has_name s /\ none_or h (oe_type p) [CT_Typename] /\ none_or h (oe_attrs p) [CT_PlatformAttributes] /\
       none_or h (oe_body p) [CT_Enum_Body; CT_Untyped] /\
       ~ (oe_body p <> 0 /\ oe_type p = 0 /\ oe_macro p = 0))
      (let n := set_attrs (oe_attrs p) (set_flags (oe_mflags p)
          (with_body (oe_body p) (if oe_class p then CT_Enum_Class else CT_Enum) (if oe_class p then CT_Enum_Class_Fwd else CT_Enum_Fwd) (set_name (str_text s) zero_node))) in
       if oe_type p =? 0 then set_params (oe_macro p) n else set_ret (oe_type p) n).
  Proof.
    intros R1 R2 R3. unfold def_enum. check_name. check_opt. check_opt.
    destruct (make_new h (fun n => set_flags (oe_mflags p) (set_name (str_text s) n)) tp) as (h1 & -> & I).
    assert (GT : forall h2 n, is_new h h2 n -> get h2 (h_top h) = Done n).
    { intros h2 n (T & N & _). rewrite AstProofs.get_valid; [now rewrite N|]. unfold valid. pose proof tp. lia. }
    destruct R3 as [B0|V].
    - rewrite B0. cbn [negb Z.eqb]. left. split; [repeat (split; auto); [now left|intros [X _]; auto]|].
      pose proof (upd_new _ _ _ (set_type (if oe_class p then CT_Enum_Class_Fwd else CT_Enum_Fwd)) I) as I2.
      pose proof (upd_new _ _ _ (set_attrs (oe_attrs p)) I2) as I3.
      destruct (oe_type p =? 0) eqn:T; cbn [negb].
      + destruct (oe_macro p =? 0) eqn:M; cbn [negb].
        * rewrite (GT _ _ I3). cbn [rbind].
          match goal with |- context [if ?b then _ else _] => replace b with false by (destruct (oe_class p); reflexivity) end.
          refine (new_creates h _ _ _ tp I3 _). apply Z.eqb_eq in M. rewrite M. node_eq.
        * refine (new_creates h _ _ _ tp (upd_new _ _ _ _ I3) _). node_eq.
      + refine (new_creates h _ _ _ tp (upd_new _ _ _ _ I3) _). node_eq.
    - pose proof V as V'. unfold valid in V'. replace (oe_body p =? 0) with false by lia. cbn [negb].
      match goal with |- context [require e h1 (is_kind h1 (oe_body p) ?ts) ?k] =>
        destruct (req_is e h h1 (oe_body p) ts k V (new_is_kind _ _ _ _ _ I V)) as [[-> A]|[-> A]] end.
      2:{ right. split; [intros (_ & _ & _ & [X|X] & _); [lia|contradiction]|apply rejects_now; eauto using new_kept]. }
      pose proof (upd_new _ _ _ (fun n => set_body (oe_body p) (set_type (if oe_class p then CT_Enum_Class else CT_Enum) n)) I) as I2.
      pose proof (upd_new _ _ _ (set_attrs (oe_attrs p)) I2) as I3.
      destruct (oe_type p =? 0) eqn:T; cbn [negb].
      + destruct (oe_macro p =? 0) eqn:M; cbn [negb].
        * rewrite (GT _ _ I3). cbn [rbind].
          match goal with |- context [if ?b then _ else _] => replace b with true by (destruct (oe_class p); reflexivity) end.
          right. split; [intros (_ & _ & _ & _ & X); apply X; lia|apply rejects_now; eauto using new_kept].
        * left. split; [repeat (split; auto); [now right|lia]|].
          refine (new_creates h _ _ _ tp (upd_new _ _ _ _ I3) _). unfold with_body. replace (oe_body p =? 0) with false by lia. reflexivity.
      + left. split; [repeat (split; auto); [now right|lia]|].
        refine (new_creates h _ _ _ tp (upd_new _ _ _ _ I3) _). unfold with_body. replace (oe_body p =? 0) with false by lia. reflexivity.
  Qed.

  (** two nodes in a row: the second is the result *)
  Lemma second_creates h1 n1 h2 n2 m : is_new h h1 n1 -> is_new h1 h2 n2 -> n2 = m -> creates h (Done (h2, h_top h1)) m.
  Proof.
    intros I J <-. destruct J as (T2 & N2 & K2). pose proof I as (T1 & N1 & K1). pose proof tp.
    exists h2, (h_top h1). repeat split; auto; unfold valid; try lia.
    intros c V _. rewrite K2 by (apply (new_valid _ _ _ _ I V)). auto.
  Qed.
  Lemma p32_typedef s ty attrs fl : ref h ty -> ref h attrs ->
    accepts_iff e h (def_typedef e h s ty attrs fl)
      (has_name s /\ is_a h ty [CT_Class; CT_Class_Fwd; CT_Enum; CT_Enum_Fwd; CT_Enum_Class; CT_Enum_Class_Fwd; CT_Function_Fwd;
                                CT_Struct; CT_Struct_Fwd; CT_Union; CT_Typename] /\ none_or h attrs [CT_PlatformAttributes])
      (set_ret ty (set_flags fl (node_of CT_Typedef (str_text s)))).
  Proof.
    intros R1 R2. unfold def_typedef. check_null.
    2:{ right. split; [intros [_ [[B _] _]]; unfold valid in B; lia|apply rejects_now, kept_refl]. }
    check_is. check_opt. pose proof (nonnull _ _ R1 H) as V.
    unfold def_type, opt_kind. cbn [Z.eqb].
    match goal with |- context [require e h (Done (name_check s)) ?k] => destruct (req_name e h s k) as [[-> N]|[-> N]] end.
    - unfold require. cbn [rbind]. destruct (make_new h (fun n => set_num (2 ^ 16 * 0) (set_body 0 (set_specs 0 (set_attrs 0 (set_type CT_Typename (set_name (str_text s) n)))))) tp) as (h1 & -> & I).
      cbn [rbind]. pose proof tp. replace (h_top h =? 0) with false by lia. cbn [negb].
      assert (P1 : 0 < h_top h1) by (destruct I as (T & _); lia).
      destruct (make_new h1 (fun n => set_ret ty (set_flags fl (set_type CT_Typedef n))) P1) as (h2 & -> & J).
      apply name_check_iff in N. rewrite N. left. split; [apply name_check_iff in N; tauto|].
      refine (second_creates h1 _ _ _ _ I (upd_new _ _ _ _ J) _). node_eq.
    - unfold invalid at 1. cbn [rbind]. unfold require. cbn [rbind].
      destruct W as [WI _]. unfold valid in WI. replace (e_invalid e =? 0) with false by lia. cbn [negb].
      destruct (make_new h (fun n => set_ret ty (set_flags fl (set_type CT_Typedef n))) tp) as (h2 & -> & J).
      replace (name_check s) with false by (symmetry; apply not_true_is_false; intros X; apply name_check_iff in X; contradiction).
      rewrite AstProofs.get_valid by (apply (new_valid _ _ _ _ J V)). cbn [rbind].
      pose proof J as (_ & _ & K). rewrite (K ty V). destruct H0 as [_ H0].
      replace (ct_eqb (n_type (h_node h ty)) CT_Untyped) with false.
      2:{ symmetry. apply not_true_is_false. intros X. apply ct_eqb_eq in X. rewrite X in H0. cbn in H0. intuition discriminate. }
      cbn [negb]. right. split; [tauto|apply rejects_now; eauto using new_kept].
  Qed.
  Lemma p32_using_rejected s ty attrs fl : ty <> 0 -> def_using e h s ty attrs fl = invalid e h.
  Proof. intros N. unfold def_using, null_check. replace (ty =? 0) with false by lia. cbn. now rewrite orb_true_r. Qed.
  Lemma p32_using_null s attrs fl : ref h attrs ->
    accepts_iff e h (def_using e h s 0 attrs fl) (has_name s /\ none_or h attrs [CT_PlatformAttributes])
      (set_attrs attrs (set_flags fl (node_of CT_Using (str_text s)))).
  Proof.
    intros R. unfold def_using, null_check. cbn [Z.eqb negb]. rewrite orb_false_r.
    destruct (name_check s) eqn:N; cbn [negb].
    - unfold def_type, opt_kind. cbn [Z.eqb]. unfold require at 2 3 4 5. rewrite N. cbn [rbind].
      destruct (make_new h (fun n => set_num (2 ^ 16 * 0) (set_body 0 (set_specs 0 (set_attrs 0 (set_type CT_Typename (set_name (str_text s) n)))))) tp) as (h1 & -> & I).
      cbn [rbind]. pose proof tp. unfold require at 1. cbn [rbind]. replace (h_top h =? 0) with false by lia. cbn [negb].
      apply name_check_iff in N.
      assert (P1 : 0 < h_top h1) by (destruct I as (T & _); lia).
      assert (R1 : ref h1 attrs) by (destruct R; [now left|right; eauto using new_valid]).
      assert (EQ : none_or h1 attrs [CT_PlatformAttributes] <-> none_or h attrs [CT_PlatformAttributes]).
      { unfold none_or, is_a. destruct R as [->|V]; [intuition|]. pose proof I as (_ & _ & K). rewrite (K _ V). pose proof (new_valid _ _ _ _ I V). tauto. }
      change (if attrs =? 0 then Done true else is_kind h1 attrs [CT_PlatformAttributes]) with (opt_kind h1 attrs [CT_PlatformAttributes]).
      match goal with |- context [require e h1 (opt_kind h1 attrs ?ts) ?k] => destruct (req_opt e h1 attrs ts k R1) as [[-> ?]|[-> ?]] end.
      + left. split; [tauto|].
        destruct (make_new h1 (fun n => set_attrs attrs (set_ret 0 (set_type CT_Using (set_flags fl (set_name (str_text s) n))))) P1) as (h2 & -> & J).
        refine (second_creates h1 _ _ _ _ I J _). node_eq.
      + right. split; [tauto|apply rejects_now; eauto using new_kept].
    - right. split; [intros [X _]; apply name_check_iff in X; congruence|apply rejects_now, kept_refl].
  Qed.
  Lemma p32_define s params content : has_name s -> exists h' c b,
    def_define e h s params content = Done (h', c) /\ ~ valid h c /\ valid h' c /\ ~ valid h b /\ valid h' b /\ kept h h' /\
    h_node h' c = set_body b (set_params params (node_of CT_Preprocess_Define (str_text s))) /\
    (let t := str_text content ++ [10] in h_node h' b = set_content t (node_of CT_Untyped t)).
  Proof.
    intros N. unfold def_define. match goal with |- context [require e h (Done (name_check s)) ?k] => destruct (req_name e h s k) as [[-> ?]|[-> ?]] end; [|contradiction].
    destruct (make_new h (fun n => set_params params (set_name (str_text s) (set_type CT_Preprocess_Define n))) tp) as (h1 & -> & I).
    assert (P1 : 0 < h_top h1) by (destruct I as (T & _); pose proof tp; lia).
    assert (E : (if name_check content then str_text content ++ [10] else [10]) = str_text content ++ [10]).
    { destruct content as [[|x t]|]; reflexivity. }
    rewrite E. unfold untyped_str.
    destruct (str_text content ++ [10]) as [|x t] eqn:X; [destruct (str_text content); discriminate|].
    destruct (make_new h1 (fun n => set_content (x :: t) (set_type CT_Untyped (set_name (x :: t) n))) P1) as (h2 & -> & J).
    cbn [rbind]. pose proof I as (T1 & N1 & K1). pose proof J as (T2 & N2 & K2). pose proof tp.
    exists (upd h2 (h_top h) (set_body (h_top h1))), (h_top h), (h_top h1). split; [reflexivity|].
    assert (VB : valid h2 (h_top h1)) by (unfold valid; lia).
    split; [unfold valid; lia|]. split; [unfold valid; cbn [upd h_top]; lia|].
    split; [unfold valid; lia|]. split; [unfold valid; cbn [upd h_top]; lia|].
    split; [split; [cbn [upd h_top]; lia|]; intros c V _; cbn [upd h_node]; pose proof V as V'; unfold valid in V';
            replace (c =? h_top h) with false by lia; rewrite K2 by (apply (new_valid _ _ _ _ I V)); auto|].
    split; cbn [upd h_node].
    - rewrite Z.eqb_refl. rewrite K2 by (unfold valid; lia). rewrite N1. reflexivity.
    - replace (h_top h1 =? h_top h) with false by lia. rewrite N2. reflexivity.
  Qed.
End Each.
