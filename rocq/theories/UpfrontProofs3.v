From Coq Require Import String ZArith List Bool Lia.
From Coq Require Import ZifyBool ZifyNat.
From Verif Require Import Common Text AstModel AstSpec AstProofs AstProofs2 AstProofs4 EqModel EqSpec EqProofs EnumModel EnumSpec EnumProofs UpfrontModel UpfrontSpec UpfrontProofs.
Import ListNotations.
Close Scope string_scope.
Open Scope Z_scope.

Definition fit_of (v : op_validate) : fit := match v with OpFail => Impossible | OpGlobal => Global | OpMember => Member end.
Definition verdict_of (f : fit) : op_validate := match f with Impossible => OpFail | Global => OpGlobal | Member => OpMember end.

Section Ops.
  Context (e : env) (h : heap) (W : world e h).
  Notation tp := (top_pos e h W).
  Ltac check_opt := match goal with
    | R : ref h ?c |- context [require e h (opt_kind h ?c ?ts) ?k] => destruct (req_opt e h c ts k R) as [[-> ?]|[-> ?]]; [|reject] end.

  Lemma operator_general fuel op sp ns p v : ref h (oo_attrs p) -> ref h (oo_specs p) -> ref h (oo_body p) ->
    operator_to_str op = Done sp -> operator_validate fuel e h op (oo_params p) (oo_ret p) = Done v ->
    accepts_iff e h (def_operator fuel e h op ns p)
      (none_or h (oo_attrs p) [CT_PlatformAttributes] /\ none_or h (oo_specs p) [CT_Specifiers] /\ v <> OpFail /\
       none_or h (oo_body p) [CT_Function_Body; CT_Execution; CT_Untyped])
      (operator_node op sp ns (fit_of v) p).
  Proof.
    intros R1 R2 R3 S V. unfold def_operator. check_opt. check_opt. rewrite V. cbn [rbind].
    destruct v; [right; split; [tauto|apply rejects_now, kept_refl]| |]; rewrite S; cbn [rbind];
    match goal with |- context [make h ?f] => destruct (make_new h f tp) as (h1 & -> & I) end.
    1: set (td := CT_Operator); set (tf := CT_Operator_Fwd). 2: set (td := CT_Operator_Member); set (tf := CT_Operator_Member_Fwd).
    all: cbn [fit_of];
      match goal with |- accepts_iff _ _ _ _ ?nn =>
        pose proof (body_part e h W h1 _ nn (oo_body p) [CT_Function_Body; CT_Execution; CT_Untyped] td tf
          (fun n => set_body (oo_body p) (set_type td n)) (set_type tf) I R3 eq_refl eq_refl
          (fun h => Done (upd h (h_top h1 - 1) (fun n => set_params (oo_params p) (set_ret (oo_ret p) (set_specs (oo_specs p) (set_attrs (oo_attrs p) n)))), h_top h1 - 1))
          (fun n => set_params (oo_params p) (set_ret (oo_ret p) (set_specs (oo_specs p) (set_attrs (oo_attrs p) n))))) as B end;
      assert (T : h_top h1 - 1 = h_top h) by (destruct I as [T _]; lia); rewrite T in B;
      (destruct B as [[Q C]|[Q C]];
       [intros h2 k K; eexists; split; [reflexivity|]; match goal with |- is_new _ (upd _ _ ?f) _ => exact (upd_new _ _ _ f K) end
       |unfold operator_node, with_body; destruct (oo_body p =? 0); reflexivity
       |left; split; [repeat split; auto; discriminate|exact C]
       |right; split; [tauto|exact C]]).
  Qed.

  Lemma spelled_op op : In op (map fst operator_spelling) -> exists s, operator_to_str op = Done (txt s) /\ In (op, s) operator_spelling.
  Proof. intros I. apply in_map_iff in I as ((k & s) & <- & I). exists s. split; [now apply p22_op|exact I]. Qed.
End Ops.

(** one_of computes on concrete operators *)
Lemma one_of_iff op ops : one_of op ops = true <-> In op ops.
Proof.
  unfold one_of. rewrite existsb_exists. split; [intros (x & I & E); apply Z.eqb_eq in E; now subst|].
  intros I. exists op. split; auto. apply Z.eqb_refl.
Qed.

Section Validate.
  Context (e : env) (h : heap) (fuel : nat).
  Lemma ret_bad op params ret : valid h ret -> n_type (h_node h ret) <> CT_Typename -> op <> Op_Invalid ->
    operator_validate fuel e h op params ret = Done OpFail.
  Proof.
    intros V N O. unfold operator_validate. replace (op =? Op_Invalid) with false by lia. rewrite AstProofs.get_valid by auto. cbn [rbind].
    destruct (ct_eqb _ _) eqn:E; [apply ct_eqb_eq in E; contradiction|reflexivity].
  Qed.
  Ltac start V T := unfold operator_validate; rewrite (AstProofs.get_valid h _ V); cbn [rbind]; rewrite T; change (negb (ct_eqb CT_Typename CT_Typename)) with false.
  (** pick a branch by computing the membership tests on a concrete operator *)
  Ltac pick := repeat match goal with |- context [one_of ?o ?l] => let b := eval vm_compute in (one_of o l) in change (one_of o l) with b end;
    match goal with |- context [?o =? Op_Invalid] => let b := eval vm_compute in (o =? Op_Invalid) in change (o =? Op_Invalid) with b end; cbv iota.

  Lemma params_case (params : Z) : ref h params -> params = 0 \/ (valid h params /\ params <> 0 /\ (params =? 0) = false).
  Proof. intros [->|V]; [auto|right; unfold valid in *; lia]. Qed.

  Definition ruled (op : Z) : option (Z -> fit) :=
    if one_of op binary_ops then Some binary_rule else if op =? Op_Assign then Some assign_rule else if op =? Op_BNot then Some unary_rule else None.
  Lemma typ_dec params : valid h params -> (n_type (h_node h params) = CT_Parameters /\ ct_eqb (n_type (h_node h params)) CT_Parameters = true) \/
    (n_type (h_node h params) <> CT_Parameters /\ ct_eqb (n_type (h_node h params)) CT_Parameters = false).
  Proof. intros _. unfold ct_eqb. destruct (ct_eq_dec _ _); [left|right]; auto. Qed.

  Lemma ruled_ok op rule params ret : ruled op = Some rule -> valid h ret -> n_type (h_node h ret) = CT_Typename -> ref h params -> params_ok h params ->
    exists v, operator_validate fuel e h op params ret = Done v /\
      (v <> OpFail <-> none_or h params [CT_Parameters] /\ rule (arity h params) <> Impossible) /\
      (v <> OpFail -> fit_of v = rule (arity h params)).
  Proof.
    intros R V T RP PO. unfold arity, params_ok, none_or, is_a in *.
    assert (OPS : In op (binary_ops ++ [Op_Assign; Op_BNot])).
    { unfold ruled in R. apply in_or_app. destruct (one_of op binary_ops) eqn:B; [left; now apply one_of_iff|right].
      destruct (op =? Op_Assign) eqn:A; [left; lia|]. destruct (op =? Op_BNot) eqn:C; [right; left; lia|discriminate]. }
    start V T.
    assert (BIN : forall op', In op' binary_ops -> binary_rule = rule ->
      exists v, (if params =? 0 then Done OpFail else do p <- get h params; if negb (ct_eqb (n_type p) CT_Parameters) then Done OpFail
        else if n_num p =? 1 then Done OpMember else if n_num p =? 2 then Done OpGlobal else Done OpFail) = Done v /\
      (v <> OpFail <-> (params = 0 \/ valid h params /\ In (n_type (h_node h params)) [CT_Parameters]) /\ rule (if params =? 0 then 0 else n_num (h_node h params)) <> Impossible) /\
      (v <> OpFail -> fit_of v = rule (if params =? 0 then 0 else n_num (h_node h params)))).
    { intros op' _ <-. unfold binary_rule. destruct (params_case params RP) as [->|(VP & N0 & E0)].
      - exists OpFail. cbn. intuition congruence.
      - rewrite E0, AstProofs.get_valid by auto. cbn [rbind]. destruct (typ_dec params VP) as [[TY ->]|[TY ->]]; cbn [negb].
        + rewrite TY. assert (1 <= n_num (h_node h params)) by (apply PO; split; auto; now left).
          destruct (n_num (h_node h params) =? 1) eqn:N1; [|destruct (n_num (h_node h params) =? 2) eqn:N2]; eexists; (split; [reflexivity|]); cbn; intuition congruence.
        + eexists. split; [reflexivity|]. cbn. intuition congruence. }
    cbn [binary_ops app In] in OPS.
    assert (RULE : forall o, op = o -> ruled o = Some rule) by (intros; subst; auto).
    repeat (destruct OPS as [<-|OPS];
      [pick; match type of R with ruled ?o = _ => let r := eval vm_compute in (ruled o) in change (ruled o) with r in R end;
       match type of R with Some ?r = Some _ =>
         first [ assert (RB : binary_rule = rule) by exact (f_equal (fun x => match x with Some f => f | None => binary_rule end) R); apply (BIN Op_Add); [now left|exact RB] | idtac ] end|]).
    all: try contradiction.
    - (* assign *)
      assert (RB : assign_rule = rule) by exact (f_equal (fun x => match x with Some f => f | None => binary_rule end) R). rewrite <- RB. unfold assign_rule.
      destruct (params_case params RP) as [->|(VP & N0 & E0)].
      + exists OpFail. cbn. intuition congruence.
      + rewrite E0, AstProofs.get_valid by auto. cbn [rbind]. destruct (typ_dec params VP) as [[TY ->]|[TY ->]]; cbn [negb].
        * rewrite TY. assert (1 <= n_num (h_node h params)) by (apply PO; split; auto; now left).
          destruct (n_num (h_node h params) >? 1) eqn:N1; [replace (n_num (h_node h params) =? 1) with false by lia|replace (n_num (h_node h params) =? 1) with true by lia];
          eexists; (split; [reflexivity|]); cbn; intuition congruence.
        * eexists. split; [reflexivity|]. cbn. intuition congruence.
    - (* bnot *)
      assert (RB : unary_rule = rule) by exact (f_equal (fun x => match x with Some f => f | None => binary_rule end) R). rewrite <- RB. unfold unary_rule.
      destruct (params_case params RP) as [->|(VP & N0 & E0)].
      + exists OpMember. cbn. intuition congruence.
      + rewrite E0, AstProofs.get_valid by auto. cbn [rbind]. destruct (typ_dec params VP) as [[TY ->]|[TY ->]]; cbn [negb].
        * rewrite TY. assert (1 <= n_num (h_node h params)) by (apply PO; split; auto; now left).
          replace (n_num (h_node h params) =? 0) with false by lia.
          destruct (n_num (h_node h params) >? 1) eqn:N1; [replace (n_num (h_node h params) =? 1) with false by lia|replace (n_num (h_node h params) =? 1) with true by lia];
          eexists; (split; [reflexivity|]); cbn; intuition congruence.
        * eexists. split; [reflexivity|]. cbn. intuition congruence.
  Qed.

  (** logical not: also needs a bool result *)
  Lemma not_ok params ret q : valid h ret -> n_type (h_node h ret) = CT_Typename -> ref h params -> params_ok h params ->
    code_is_equal fuel h ret (e_bool e) = Done q ->
    exists v, operator_validate fuel e h Op_UnaryNot params ret = Done v /\
      (v <> OpFail <-> q = true /\ none_or h params [CT_Parameters] /\ unary_rule (arity h params) <> Impossible) /\
      (v <> OpFail -> fit_of v = unary_rule (arity h params)).
  Proof.
    intros V T RP PO Q. unfold arity, params_ok, none_or, is_a, unary_rule in *. start V T. pick. rewrite Q.
    destruct (params_case params RP) as [->|(VP & N0 & E0)].
    - cbn. destruct q; eexists; (split; [reflexivity|]); cbn; intuition congruence.
    - rewrite E0, AstProofs.get_valid by auto. cbn [rbind]. destruct (typ_dec params VP) as [[TY ->]|[TY ->]]; cbn [negb].
      + rewrite TY. assert (1 <= n_num (h_node h params)) by (apply PO; split; auto; now left).
        replace (n_num (h_node h params) =? 0) with false by lia.
        destruct (n_num (h_node h params) =? 1) eqn:N1; cbn [negb]; destruct q; eexists; (split; [reflexivity|]); cbn; intuition congruence.
      + eexists. split; [reflexivity|]. cbn. intuition congruence.
  Qed.

  (** compound assignment: the global form also needs the first parameter's type to be the result type *)
  Lemma compound_ok op params ret q : In op compound_ops -> valid h ret -> n_type (h_node h ret) = CT_Typename -> ref h params -> params_ok h params ->
    code_is_equal fuel h (n_ret (h_node h params)) ret = Done q ->
    exists v, operator_validate fuel e h op params ret = Done v /\
      (v <> OpFail <-> params <> 0 /\ none_or h params [CT_Parameters] /\ (arity h params = 1 \/ arity h params = 2 /\ q = true)) /\
      (v <> OpFail -> fit_of v = binary_rule (arity h params)).
  Proof.
    intros OPS V T RP PO Q. unfold arity, params_ok, none_or, is_a, binary_rule in *. start V T.
    assert (BODY : exists v, (if params =? 0 then Done OpFail else do p <- get h params; if negb (ct_eqb (n_type p) CT_Parameters) then Done OpFail
        else if n_num p =? 1 then Done OpMember else do q <- code_is_equal fuel h (n_ret p) ret; if q then if n_num p >? 2 then Done OpFail else Done OpGlobal else Done OpFail) = Done v /\
      (v <> OpFail <-> params <> 0 /\ (params = 0 \/ valid h params /\ In (n_type (h_node h params)) [CT_Parameters]) /\
         ((if params =? 0 then 0 else n_num (h_node h params)) = 1 \/ (if params =? 0 then 0 else n_num (h_node h params)) = 2 /\ q = true)) /\
      (v <> OpFail -> fit_of v = if (if params =? 0 then 0 else n_num (h_node h params)) =? 1 then Member else if (if params =? 0 then 0 else n_num (h_node h params)) =? 2 then Global else Impossible)).
    { destruct (params_case params RP) as [->|(VP & N0 & E0)].
      - cbn. eexists; (split; [reflexivity|]); cbn; intuition congruence.
      - rewrite E0, AstProofs.get_valid by auto. cbn [rbind]. destruct (typ_dec params VP) as [[TY ->]|[TY ->]]; cbn [negb].
        + rewrite TY. assert (1 <= n_num (h_node h params)) by (apply PO; split; auto; now left).
          destruct (n_num (h_node h params) =? 1) eqn:N1.
          * eexists. split; [reflexivity|]. cbn. split; [split; [intros _; split; auto; split; [right; auto|left; lia]|intros _; discriminate]|auto].
          * rewrite Q. cbn [rbind]. destruct q; [destruct (n_num (h_node h params) >? 2) eqn:N2|]; eexists; (split; [reflexivity|]); cbn.
            -- split; [split; [congruence|intros (_ & _ & [X|[X _]]); lia]|congruence].
            -- replace (n_num (h_node h params) =? 2) with true by lia. split; [split; [intros _; split; auto; split; [right; auto|right; split; [lia|auto]]|intros _; discriminate]|auto].
            -- split; [split; [congruence|intros (_ & _ & [X|[_ X]]); [lia|discriminate]]|congruence].
        + eexists. split; [reflexivity|]. cbn. intuition congruence. }
    cbn [compound_ops In] in OPS.
    repeat (destruct OPS as [<-|OPS]; [pick; exact BODY|]). contradiction.
  Qed.

  (** what the code does with the other operators *)
  Lemma incdec_none op ret : In op [Op_Increment; Op_Decrement] -> valid h ret -> n_type (h_node h ret) = CT_Typename ->
    operator_validate fuel e h op 0 ret = Done OpGlobal.
  Proof. intros [<-|[<-|[]]] V T; start V T; pick; reflexivity. Qed.
  Lemma incdec_two op params ret l : In op [Op_Increment; Op_Decrement] -> valid h ret -> n_type (h_node h ret) = CT_Typename ->
    plist h params l -> length l = 2%nat -> n_type (h_node h params) = CT_Parameters -> valid h (e_int e) ->
    code_is_equal fuel h (n_ret (h_node h params)) ret = Done true -> (0 < fuel)%nat ->
    operator_validate fuel e h op params ret = Undefined.
  Proof.
    intros O V T P L TY VI Q F. pose proof P as ((r & El & _) & N & VL & _). assert (VP : valid h params) by (apply VL; rewrite El; now left).
    assert (N2 : n_num (h_node h params) = 2) by (rewrite N, L; reflexivity).
    assert (E0 : (params =? 0) = false) by (unfold valid in VP; lia).
    assert (C : code_is_equal fuel h 0 (e_int e) = Undefined).
    { destruct fuel as [|f]; [lia|]. cbn [code_is_equal]. unfold is_equal_step. replace (e_int e =? 0) with false by (unfold valid in VI; lia). reflexivity. }
    destruct O as [<-|[<-|[]]]; start V T; pick; rewrite E0, (AstProofs.get_valid h params VP); cbn [rbind]; rewrite TY;
      change (negb (ct_eqb CT_Parameters CT_Parameters)) with false; rewrite N2; cbn [Z.eqb]; rewrite Q; cbn [rbind];
      rewrite (p28_get_many h params l fuel 1 P) by lia; cbn [rbind]; change (2 =? 1) with false; change (2 =? 2) with true; cbv iota; rewrite C; reflexivity.
  Qed.
  Lemma unary_pm op params ret q : In op [Op_Unary_Plus; Op_Unary_Minus] -> valid h ret -> n_type (h_node h ret) = CT_Typename ->
    is_a h params [CT_Parameters] -> n_num (h_node h params) = 1 -> code_is_equal fuel h (n_ret (h_node h params)) ret = Done q ->
    operator_validate fuel e h op params ret = Done (if q then OpFail else OpGlobal).
  Proof.
    intros O V T [VP [TY|[]]] N Q. symmetry in TY. assert (E0 : (params =? 0) = false) by (unfold valid in VP; lia).
    destruct O as [<-|[<-|[]]]; start V T; pick; rewrite E0, (AstProofs.get_valid h params VP); cbn [rbind]; rewrite TY;
      change (negb (ct_eqb CT_Parameters CT_Parameters)) with false; cbv iota; rewrite Q; cbn [rbind]; destruct q; auto; rewrite N; reflexivity.
  Qed.
  Lemma deref_one op params ret : In op [Op_Indirection; Op_AddressOf] -> valid h ret -> n_type (h_node h ret) = CT_Typename ->
    valid h params -> n_num (h_node h params) = 1 -> operator_validate fuel e h op params ret = Done OpMember.
  Proof.
    intros O V T VP N. assert (E0 : (params =? 0) = false) by (unfold valid in VP; lia).
    destruct O as [<-|[<-|[]]]; start V T; pick; rewrite E0, (AstProofs.get_valid h params VP); cbn [rbind]; rewrite N; reflexivity.
  Qed.
  Lemma must_be_member op params ret : In op [Op_Subscript; Op_FunctionCall] -> valid h ret -> n_type (h_node h ret) = CT_Typename ->
    is_a h params [CT_Parameters] -> operator_validate fuel e h op params ret = Done OpGlobal.
  Proof.
    intros O V T [VP [TY|[]]]. symmetry in TY. assert (E0 : (params =? 0) = false) by (unfold valid in VP; lia).
    destruct O as [<-|[<-|[]]]; start V T; pick; rewrite E0, (AstProofs.get_valid h params VP); cbn [rbind]; rewrite TY; reflexivity.
  Qed.
  Lemma null_ret op params : op <> Op_Invalid -> operator_validate fuel e h op params 0 = Undefined.
  Proof. intros O. unfold operator_validate. replace (op =? Op_Invalid) with false by lia. reflexivity. Qed.
End Validate.

Lemma rule_ruled op rule : op_rule op rule -> ruled op = Some rule /\ exists s, operator_to_str op = Done (txt s) /\ In (op, s) operator_spelling.
Proof.
  assert (SP : forall op, In op (map fst operator_spelling) -> exists s, operator_to_str op = Done (txt s) /\ In (op, s) operator_spelling) by apply spelled_op.
  intros [o I| |].
  - split; [unfold ruled; apply one_of_iff in I; now rewrite I|]. apply SP. revert I. unfold binary_ops. cbn [In map fst operator_spelling]. intuition.
  - split; [reflexivity|]. apply SP. cbn. auto.
  - split; [reflexivity|]. apply SP. cbn. intuition.
Qed.
Section Final.
  Context (e : env) (h : heap) (W : world e h).
  Lemma final_step fuel op sp ns p v (Q : Prop) f : op_refs h p -> op <> Op_Invalid -> operator_to_str op = Done sp ->
    (n_type (h_node h (oo_ret p)) = CT_Typename -> operator_validate fuel e h op (oo_params p) (oo_ret p) = Done v /\
       (v <> OpFail <-> none_or h (oo_params p) [CT_Parameters] /\ Q) /\ (v <> OpFail -> fit_of v = f)) ->
    accepts_iff e h (def_operator fuel e h op ns p) (operator_parts_ok h p /\ Q) (operator_node op sp ns f p).
  Proof.
    intros (R1 & R2 & R3 & R4 & R5) O S V. unfold operator_parts_ok.
    destruct (ct_eq_dec (n_type (h_node h (oo_ret p))) CT_Typename) as [T|T].
    - destruct (V T) as (E & I & F). destruct (operator_general e h W fuel op sp ns p v R1 R2 R3 S E) as [[A C]|[A C]].
      + left. split; [|rewrite <- F by tauto; exact C]. split; [|tauto]. destruct A as (A1 & A2 & A3 & A4). split; [exact A1|]. split; [exact A2|]. split; [split; [exact R5|left; congruence]|]. split; [tauto|exact A4].
      + right. split; [tauto|exact C].
    - pose proof (ret_bad e h fuel op (oo_params p) (oo_ret p) R5 T O) as E.
      destruct (operator_general e h W fuel op sp ns p OpFail R1 R2 R3 S E) as [[A C]|[A C]]; [tauto|].
      right. split; [|exact C]. intros ((_ & _ & (_ & [X|[]]) & _) & _). congruence.
  Qed.
  Lemma p33_ruled fuel op rule ns p : op_rule op rule -> op_refs h p -> params_ok h (oo_params p) ->
    exists sp, In (op, sp) operator_spelling /\
    accepts_iff e h (def_operator fuel e h op ns p) (operator_parts_ok h p /\ rule (arity h (oo_params p)) <> Impossible)
      (operator_node op (txt sp) ns (rule (arity h (oo_params p))) p).
  Proof.
    intros R RF PO. destruct (rule_ruled op rule R) as (RU & s & S & IN). exists s. split; auto.
    destruct (ct_eq_dec (n_type (h_node h (oo_ret p))) CT_Typename) as [T|T].
    - destruct (ruled_ok e h fuel op rule (oo_params p) (oo_ret p) RU) as (v & V); try apply RF; auto.
      apply (final_step fuel op (txt s) ns p v); auto. destruct R as [o I| |]; try discriminate. intros ->. revert I. vm_compute. intuition discriminate.
    - apply (final_step fuel op (txt s) ns p OpFail); auto; [|congruence]. destruct R as [o I| |]; try discriminate. intros ->. revert I. vm_compute. intuition discriminate.
  Qed.
  Lemma p33_not fuel ns p q : op_refs h p -> params_ok h (oo_params p) -> code_is_equal fuel h (oo_ret p) (e_bool e) = Done q ->
    accepts_iff e h (def_operator fuel e h Op_UnaryNot ns p)
      (operator_parts_ok h p /\ q = true /\ unary_rule (arity h (oo_params p)) <> Impossible)
      (operator_node Op_UnaryNot (txt "!") ns (unary_rule (arity h (oo_params p))) p).
  Proof.
    intros RF PO Q. destruct (ct_eq_dec (n_type (h_node h (oo_ret p))) CT_Typename) as [T|T].
    - destruct (not_ok e h fuel (oo_params p) (oo_ret p) q) as (v & A & B & C); try apply RF; auto.
      apply (final_step fuel Op_UnaryNot (txt "!") ns p v); auto; [discriminate|]. intros _. split; [exact A|]. split; [tauto|exact C].
    - apply (final_step fuel Op_UnaryNot (txt "!") ns p OpFail); auto; [discriminate|congruence].
  Qed.
  Lemma p33_compound fuel op ns p q : In op compound_ops -> op_refs h p -> params_ok h (oo_params p) -> code_is_equal fuel h (n_ret (h_node h (oo_params p))) (oo_ret p) = Done q ->
    exists sp, In (op, sp) operator_spelling /\
    accepts_iff e h (def_operator fuel e h op ns p)
      (operator_parts_ok h p /\ (arity h (oo_params p) = 1 \/ arity h (oo_params p) = 2 /\ q = true))
      (operator_node op (txt sp) ns (binary_rule (arity h (oo_params p))) p).
  Proof.
    intros O RF PO Q. destruct (spelled_op op) as (s & S & IN).
    { revert O. unfold compound_ops. cbn [In map fst operator_spelling]. intuition. }
    exists s. split; auto. assert (NI : op <> Op_Invalid) by (intros ->; revert O; vm_compute; intuition discriminate).
    destruct (ct_eq_dec (n_type (h_node h (oo_ret p))) CT_Typename) as [T|T].
    - destruct (compound_ok e h fuel op (oo_params p) (oo_ret p) q) as (v & A & B & C); try apply RF; auto.
      apply (final_step fuel op (txt s) ns p v); auto. intros _. split; [exact A|]. split; [|exact C].
      rewrite B. unfold arity. destruct (Z.eq_dec (oo_params p) 0) as [E|E]; [rewrite E; cbn; lia|]. tauto.
    - apply (final_step fuel op (txt s) ns p OpFail); auto; congruence.
  Qed.
  Lemma p33_invalid fuel ns p : op_refs h p -> rejects e h (def_operator fuel e h Op_Invalid ns p).
  Proof.
    intros (R1 & R2 & _). unfold def_operator.
    match goal with |- context [require e h (opt_kind h (oo_attrs p) ?ts) ?k] => destruct (req_opt e h (oo_attrs p) ts k R1) as [[-> ?]|[-> ?]]; [|apply rejects_now, kept_refl] end.
    match goal with |- context [require e h (opt_kind h (oo_specs p) ?ts) ?k] => destruct (req_opt e h (oo_specs p) ts k R2) as [[-> ?]|[-> ?]]; [|apply rejects_now, kept_refl] end.
    apply rejects_now, kept_refl.
  Qed.
  (** ** the deviations, at the level of def_operator *)
  Lemma dev_step fuel op ns p v : op_refs h p -> operator_parts_ok h p -> In op (map fst operator_spelling) ->
    operator_validate fuel e h op (oo_params p) (oo_ret p) = Done v -> v <> OpFail ->
    exists sp, creates h (def_operator fuel e h op ns p) (operator_node op (txt sp) ns (fit_of v) p).
  Proof.
    intros (R1 & R2 & R3 & R4 & R5) (P1 & P2 & P3 & P4 & P5) I E N. destruct (spelled_op op I) as (s & S & _). exists s.
    destruct (operator_general e h W fuel op (txt s) ns p v R1 R2 R3 S E) as [[A C]|[A C]]; [exact C|tauto].
  Qed.
  Lemma spell_in op l : In op l -> forallb (fun o => one_of o (map fst operator_spelling)) l = true -> In op (map fst operator_spelling).
  Proof. intros I F. rewrite forallb_forall in F. apply one_of_iff. auto. Qed.
  Lemma is_tn p : operator_parts_ok h p -> valid h (oo_ret p) /\ n_type (h_node h (oo_ret p)) = CT_Typename.
  Proof. intros (_ & _ & (V & [T|[]]) & _). auto. Qed.
  Lemma p33_incdec_none fuel op ns p : In op [Op_Increment; Op_Decrement] -> op_refs h p -> operator_parts_ok h p -> oo_params p = 0 ->
    exists sp, creates h (def_operator fuel e h op ns p) (operator_node op (txt sp) ns Global p).
  Proof.
    intros I RF P Z0. apply (dev_step fuel op ns p OpGlobal RF P); [eapply spell_in; [exact I|reflexivity]| |discriminate].
    rewrite Z0. now apply incdec_none; try apply is_tn.
  Qed.
  Lemma p33_deref_one fuel op ns p : In op [Op_Indirection; Op_AddressOf] -> op_refs h p -> operator_parts_ok h p -> arity h (oo_params p) = 1 ->
    exists sp, creates h (def_operator fuel e h op ns p) (operator_node op (txt sp) ns Member p).
  Proof.
    intros I RF P A. apply (dev_step fuel op ns p OpMember RF P); [eapply spell_in; [exact I|reflexivity]| |discriminate].
    unfold arity in A. destruct (oo_params p =? 0) eqn:E; [discriminate|]. destruct RF as (_ & _ & _ & R & _).
    apply deref_one; auto; try apply (is_tn _ P). apply nonnull; auto. lia.
  Qed.
  Lemma p33_must_member fuel op ns p : In op [Op_Subscript; Op_FunctionCall] -> op_refs h p -> operator_parts_ok h p -> oo_params p <> 0 ->
    exists sp, creates h (def_operator fuel e h op ns p) (operator_node op (txt sp) ns Global p).
  Proof.
    intros I RF P A. apply (dev_step fuel op ns p OpGlobal RF P); [eapply spell_in; [exact I|reflexivity]| |discriminate].
    apply must_be_member; auto; try apply (is_tn _ P). destruct P as (_ & _ & _ & [X|X] & _); [contradiction|exact X].
  Qed.
  Lemma p33_unary_pm fuel op ns p : In op [Op_Unary_Plus; Op_Unary_Minus] -> op_refs h p -> operator_parts_ok h p -> arity h (oo_params p) = 1 ->
    code_is_equal fuel h (n_ret (h_node h (oo_params p))) (oo_ret p) = Done true ->
    rejects e h (def_operator fuel e h op ns p).
  Proof.
    intros I RF P A Q. pose proof RF as (R1 & R2 & R3 & R & _). unfold arity in A. destruct (oo_params p =? 0) eqn:E; [discriminate|].
    assert (V : operator_validate fuel e h op (oo_params p) (oo_ret p) = Done OpFail).
    { rewrite (unary_pm e h fuel op _ _ true); auto; try apply (is_tn _ P). destruct P as (_ & _ & _ & [X|X] & _); [lia|exact X]. }
    destruct (spelled_op op) as (s & S & _); [eapply spell_in; [exact I|reflexivity]|].
    destruct (operator_general e h W fuel op (txt s) ns p OpFail R1 R2 R3 S V) as [[X _]|[_ C]]; [tauto|exact C].
  Qed.
  Lemma undef_step fuel op ns p : op_refs h p -> operator_parts_ok h p -> operator_validate fuel e h op (oo_params p) (oo_ret p) = Undefined ->
    def_operator fuel e h op ns p = Undefined.
  Proof.
    intros (R1 & R2 & _) (P1 & P2 & _) V. unfold def_operator.
    match goal with |- context [require e h (opt_kind h (oo_attrs p) ?ts) ?k] => destruct (req_opt e h (oo_attrs p) ts k R1) as [[-> ?]|[-> ?]]; [|contradiction] end.
    match goal with |- context [require e h (opt_kind h (oo_specs p) ?ts) ?k] => destruct (req_opt e h (oo_specs p) ts k R2) as [[-> ?]|[-> ?]]; [|contradiction] end.
    now rewrite V.
  Qed.
  Lemma p33_incdec_two fuel op ns p l : In op [Op_Increment; Op_Decrement] -> op_refs h p -> operator_parts_ok h p ->
    plist h (oo_params p) l -> length l = 2%nat -> code_is_equal fuel h (n_ret (h_node h (oo_params p))) (oo_ret p) = Done true -> (0 < fuel)%nat ->
    def_operator fuel e h op ns p = Undefined.
  Proof.
    intros I RF P PL L Q F. apply undef_step; auto. destruct (is_tn _ P) as [V T].
    apply (incdec_two e h fuel op (oo_params p) (oo_ret p) l); auto.
    - pose proof P as (_ & _ & _ & [X|(_ & [X|[]])] & _); auto. exfalso. destruct PL as ((r & -> & _) & _ & VL & _). specialize (VL _ (or_introl eq_refl)). unfold valid in VL. lia.
    - apply W.
  Qed.
  Lemma p33_null_ret fuel op ns p : op <> Op_Invalid -> none_or h (oo_attrs p) [CT_PlatformAttributes] -> none_or h (oo_specs p) [CT_Specifiers] -> oo_ret p = 0 ->
    def_operator fuel e h op ns p = Undefined.
  Proof.
    intros O A B Z0. assert (R1 : ref h (oo_attrs p)) by (destruct A as [A|[A _]]; [now left|now right]).
    assert (R2 : ref h (oo_specs p)) by (destruct B as [B|[B _]]; [now left|now right]). unfold def_operator.
    match goal with |- context [require e h (opt_kind h (oo_attrs p) ?ts) ?k] => destruct (req_opt e h (oo_attrs p) ts k R1) as [[-> ?]|[-> ?]]; [|contradiction] end.
    match goal with |- context [require e h (opt_kind h (oo_specs p) ?ts) ?k] => destruct (req_opt e h (oo_specs p) ts k R2) as [[-> ?]|[-> ?]]; [|contradiction] end.
    rewrite Z0, null_ret by auto. reflexivity.
  Qed.
End Final.
