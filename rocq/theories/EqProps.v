(** C30: structural equality; C31: body validation. *)
From Coq Require Import String ZArith List Bool.
From Verif Require Import Common Text AstModel AstSpec EqModel EqSpec EqProofs.
Import ListNotations.
Open Scope Z_scope.

(** ** C30 *)

(** Adding fuel never changes an answer: an answer at some fuel is the answer of the code. *)
Theorem c30_answer_is_stable fuel more h a b r : (fuel <= more)%nat ->
  code_is_equal fuel h a b = Done r -> code_is_equal more h a b = Done r.
Proof. exact (is_equal_more fuel more h a b r). Qed.
Print Assumptions c30_answer_is_stable.

(** Nothing equals a null code, and nodes of different kinds are never equal. *)
Theorem c30_null_and_kinds fuel h a b :
  code_is_equal (S fuel) h a 0 = Done false /\
  (valid h a -> valid h b -> n_type (h_node h a) <> n_type (h_node h b) -> code_is_equal (S fuel) h a b = Done false).
Proof. exact (conj (p30_null fuel h a) (p30_kinds fuel h a b)). Qed.
Print Assumptions c30_null_and_kinds.

(** Separation (what is missing: see the _refuted theorems). Whenever the answer is true, both are nodes of
    the same kind; declarations have the same name and the same module flags; and every part that the left
    declaration has, the right one has too and the two parts compare equal. *)
Theorem c30_equal_declarations_agree_partial fuel h a b : code_is_equal fuel h a b = Done true ->
  let s := h_node h a in let o := h_node h b in
  valid h a /\ valid h b /\ n_type s = n_type o /\
  (name_compared (n_type s) -> n_name s = n_name o) /\
  (flags_compared (n_type s) -> n_flags s = n_flags o) /\
  (In (n_type s) [CT_Class; CT_Struct; CT_Class_Fwd; CT_Struct_Fwd; CT_Typedef; CT_Typename] -> n_num s = n_num o) /\
  (forall part, In part (parts_compared (n_type s)) ->
     part s = 0 \/ (part o <> 0 /\ exists fuel', code_is_equal fuel' h (part s) (part o) = Done true)).
Proof.
  exact (fun H => match is_equal_true_inv _ _ _ _ H with
   | ex_intro _ _ (conj _ (conj Va (conj Vb T))) =>
     conj Va (conj Vb (conj T (conj (p30_name _ _ _ _ H) (conj (p30_flags _ _ _ _ H) (conj (p30_nums _ _ _ _ H) (fun p => p30_parts _ _ _ _ p H))))))
   end).
Qed.
Print Assumptions c30_equal_declarations_agree_partial.

(** Equal bodies have the same number of entries, and those are pairwise equal, in order. *)
Theorem c30_equal_bodies_agree fuel h a b la lb : listed_body (n_type (h_node h a)) -> body_of h a la -> body_of h b lb ->
  code_is_equal fuel h a b = Done true ->
  Forall2 (fun x y => exists fuel', code_is_equal fuel' h x y = Done true) la lb.
Proof. exact (p30_bodies fuel h a b la lb). Qed.
Print Assumptions c30_equal_bodies_agree.

(** Two specifier lists are equal exactly when they hold the same specifiers in the same order (and name). *)
Theorem c30_specifiers fuel h a b : valid h a -> valid h b ->
  n_type (h_node h a) = CT_Specifiers -> n_type (h_node h b) = CT_Specifiers ->
  specs_ok (h_node h a) -> specs_ok (h_node h b) ->
  exists r, code_is_equal (S fuel) h a b = Done r /\
   (r = true <-> specs_of (h_node h a) = specs_of (h_node h b) /\ n_name (h_node h a) = n_name (h_node h b)).
Proof. exact (p30_specs fuel h a b). Qed.
Print Assumptions c30_specifiers.

(** Reflexivity on copies: a node-for-node copy of a tree without multi-parameter lists compares equal to
    it (in particular such a tree equals itself), whatever its height and widths. *)
Theorem c30_copies_are_equal_partial d h a b : plain_copy d h a b ->
  exists F, forall fuel, (F <= fuel)%nat -> code_is_equal fuel h a b = Done true.
Proof. exact (p30_copy d h a b). Qed.
Print Assumptions c30_copies_are_equal_partial.

(** Refuted: reflexivity. EVERY parameter list of two or more parameters differs from itself, and so does
    every declaration that has one. *)
Theorem c30_reflexivity_refuted h p : valid h p -> n_type (h_node h p) = CT_Parameters -> 1 < n_num (h_node h p) ->
  (forall fuel, code_is_equal (S fuel) h p p = Done false) /\
  (forall fuel d, In n_params (parts_compared (n_type (h_node h d))) -> n_params (h_node h d) = p ->
     code_is_equal fuel h d d <> Done true).
Proof. exact (fun V T N => conj (fun f => p30_params_self f h p V T N) (fun f d I P => p30_owner_self f h d p I P V T N)). Qed.
Print Assumptions c30_reflexivity_refuted.

(** Refuted: separation. Any two nodes of these kinds are equal, whatever text or entries they hold ... *)
Theorem c30_contents_ignored_refuted fuel h a b : valid h a -> valid h b -> contents_ignored (n_type (h_node h a)) ->
  n_type (h_node h b) = n_type (h_node h a) -> code_is_equal (S fuel) h a b = Done true.
Proof. exact (p30_contents fuel h a b). Qed.
Print Assumptions c30_contents_ignored_refuted.

Definition mk (t : codetype) (name : string) : node := set_type t (set_name (txt name) zero_node).
Definition heap_of (ns : list node) : heap := {| h_node := fun c => nth (Z.to_nat (c - 1)) ns zero_node; h_top := Z.of_nat (length ns) + 1 |}.
(** 1, 2: functions f without / with attributes (3) *)
Definition asym : heap := heap_of
  [mk CT_Function_Fwd "f"; set_attrs 3 (mk CT_Function_Fwd "f"); set_content (txt "[[nodiscard]]") (mk CT_PlatformAttributes "")].
(** ... and a member missing on the left is not compared, so equality is not symmetric. *)
Theorem c30_symmetry_refuted : exists h a b,
  valid h a /\ valid h b /\ code_is_equal 5 h a b = Done true /\ code_is_equal 5 h b a = Done false.
Proof. exists asym, 1, 2. vm_compute. auto 10. Qed.
Print Assumptions c30_symmetry_refuted.

(** Hypotheses met: a class with a body of two entries, and its copy. *)
Definition two_classes : heap := heap_of
  [set_body 2 (set_attrs 9 (mk CT_Class "A"));
   set_front 3 (set_next 4 (set_num 2 (mk CT_Class_Body "")));
   set_next 4 (set_parent 2 (set_ret 9 (mk CT_Variable "x")));
   set_front 3 (set_parent 2 (mk CT_Access_Public ""));
   set_body 6 (set_attrs 9 (mk CT_Class "A"));
   set_front 7 (set_next 8 (set_num 2 (mk CT_Class_Body "")));
   set_next 8 (set_parent 6 (set_ret 9 (mk CT_Variable "x")));
   set_front 7 (set_parent 6 (mk CT_Access_Public ""));
   mk CT_Typename "int"].
Lemma body2 h b x y : valid h b -> n_num (h_node h b) = 2 -> valid h x -> valid h y -> n_parent (h_node h x) = b ->
  n_parent (h_node h y) = b -> x <> y -> b <> x -> b <> y -> n_front (h_node h b) = x -> n_next (h_node h b) = y ->
  n_next (h_node h x) = y -> n_next (h_node h y) = 0 -> body_of h b [x; y].
Proof.
  intros Vb N Vx Vy Px Py Nxy Nbx Nby F B X Y. split; [|intros _; exact Y]. unfold entries. cbn [length hd last linked].
  split; [exact Vb|]. split; [exact N|]. split; [intros c [<-|[<-|[]]]; auto|].
  split; [constructor; [intros [?|[]]; auto|]; constructor; [intros []|constructor]|].
  split; [intros [?|[?|[]]]; auto|]. auto.
Qed.
Example c30_hypotheses_met : plain_copy 4 two_classes 1 5 /\ body_of two_classes 2 [3; 4] /\ body_of two_classes 6 [7; 8] /\
  code_is_equal 10 two_classes 1 5 = Done true.
Proof.
  assert (B2 : body_of two_classes 2 [3; 4]) by (apply body2; try (vm_compute; auto; fail); discriminate).
  assert (B6 : body_of two_classes 6 [7; 8]) by (apply body2; try (vm_compute; auto; fail); discriminate).
  split; [|split; [exact B2|split; [exact B6|vm_compute; reflexivity]]].
  assert (TN : forall d, plain_copy (S d) two_classes 9 9).
  { intros. cbn [plain_copy]. repeat (split; [vm_compute; auto; try discriminate; fail|]).
    repeat (split; [now left|]). repeat (split; [vm_compute; try discriminate; auto; fail|]).
    intros L. unfold listed_body in L. vm_compute in L. exfalso. intuition discriminate. }
  assert (V : forall d, plain_copy (S (S d)) two_classes 3 7).
  { intros. change (plain_copy (S (S d)) two_classes 3 7) with (let d := S d in plain_copy (S d) two_classes 3 7). intros d'. cbn [plain_copy].
    do 8 (split; [vm_compute; auto; fail|]). do 2 (split; [now left|]). split; [right; apply TN|]. do 3 (split; [now left|]).
    repeat (split; [vm_compute; try discriminate; auto; fail|]).
    intros L. unfold listed_body in L. vm_compute in L. exfalso. intuition discriminate. }
  assert (AC : forall d, plain_copy (S d) two_classes 4 8).
  { intros. cbn [plain_copy]. do 8 (split; [vm_compute; auto; fail|]).
    do 6 (split; [now left|]). repeat (split; [vm_compute; try discriminate; auto; fail|]).
    intros L. unfold listed_body in L. vm_compute in L. exfalso. intuition discriminate. }
  assert (BD : plain_copy 3 two_classes 2 6).
  { set (d := 2%nat). change 3%nat with (S d). cbn [plain_copy]. do 8 (split; [vm_compute; auto; fail|]).
    do 6 (split; [now left|]). repeat (split; [vm_compute; try discriminate; auto; fail|]).
    intros _. exists [3; 4], [7; 8]. split; [exact B2|]. split; [exact B6|].
    constructor; [apply V|constructor; [apply AC|constructor]]. }
  set (d := 3%nat). change 4%nat with (S d). cbn [plain_copy]. do 8 (split; [vm_compute; auto; fail|]).
  split; [right; apply TN|]. do 3 (split; [now left|]). split; [right; exact BD|]. split; [now left|].
  repeat (split; [vm_compute; try discriminate; auto; fail|]).
  intros L. unfold listed_body in L. vm_compute in L. exfalso. intuition discriminate.
Qed.

(** ** C31 (the property fails; these theorems say how) *)

(** code_validate_body never answers true, for any body. *)
Theorem c31_never_true_refuted fuel h b : code_validate_body fuel h b <> Done true.
Proof. exact (p31_never_true fuel h b). Qed.
Print Assumptions c31_never_true_refuted.

(** If the first entry is of an allowed kind the loop never ends: no number of steps suffices. *)
Theorem c31_allowed_first_entry_diverges_refuted h b c l : body_of h b (c :: l) ->
  allowed_in (n_type (h_node h b)) (n_type (h_node h c)) -> forall fuel, code_validate_body fuel h b = NoFuel.
Proof. exact (fun B A fuel => p31_diverges h b c l fuel B A). Qed.
Print Assumptions c31_allowed_first_entry_diverges_refuted.

(** An empty body is read through its null Back pointer. *)
Theorem c31_empty_body_refuted h b fuel : entries h b [] ->
  plain_body (n_type (h_node h b)) \/ untyped_only (n_type (h_node h b)) -> code_validate_body (S fuel) h b = Undefined.
Proof. exact (p31_empty h b fuel). Qed.
Print Assumptions c31_empty_body_refuted.

(** What holds: a body whose first entry is forbidden is rejected, and so is anything that is not a body.
    Missing: the verdict depends on later entries, and good bodies are accepted. *)
Theorem c31_forbidden_first_entry_rejected_partial h b c l fuel : body_of h b (c :: l) ->
  forbidden_in (n_type (h_node h b)) (n_type (h_node h c)) -> code_validate_body (S fuel) h b = Done false.
Proof. exact (p31_forbidden h b c l fuel). Qed.
Print Assumptions c31_forbidden_first_entry_rejected_partial.
Theorem c31_not_a_body_rejected_partial h b fuel : valid h b -> ~ In (n_type (h_node h b))
    [CT_Class_Body; CT_Struct_Body; CT_Enum_Body; CT_Union_Body; CT_Export_Body; CT_Extern_Linkage; CT_Global_Body;
     CT_Function_Body; CT_Namespace_Body] -> code_validate_body fuel h b = Done false.
Proof. exact (p31_not_body h b fuel). Qed.
Print Assumptions c31_not_a_body_rejected_partial.

Example c31_hypotheses_met : body_of two_classes 2 [3; 4] /\ allowed_in CT_Class_Body CT_Variable /\
  forbidden_in CT_Class_Body CT_Namespace /\ forbidden_in CT_Enum_Body CT_Comment.
Proof.
  split; [apply c30_hypotheses_met|]. unfold allowed_in, forbidden_in, plain_body, untyped_only. cbn [In body_forbids].
  split; [left; split; [tauto|intuition discriminate]|]. split; [left; tauto|right; split; [tauto|discriminate]].
Qed.
