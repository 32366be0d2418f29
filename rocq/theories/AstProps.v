(** Property theorems C25-C29, C49 (lists of AST nodes, specifier lists). *)
From Coq Require Import ZArith List Bool Lia.
From Verif Require Import Common Text AstModel AstSpec AstProofs AstProofs2 AstProofs3 AstProofs4.
Import ListNotations.
Open Scope Z_scope.

(** a heap of k zeroed nodes, as k calls of make_code leave it (C24) *)
Definition zero_heap (k : Z) : heap := {| h_node := fun _ => zero_node; h_top := k |}.

(** *** C25: appending keeps order and count *)
Theorem c25_append_keeps_order_and_count : forall h b cs,
  valid h b -> n_num (h_node h b) = 0 -> n_front (h_node h b) = 0 -> n_next (h_node h b) = 0 ->
  (forall c, In c cs -> valid h c /\ n_parent (h_node h c) = 0 /\ n_next (h_node h c) = 0) -> NoDup cs -> ~ In b cs ->
  exists h', append_all h b cs = Done h' /\
    n_num (h_node h' b) = Z.of_nat (length cs) /\ n_front (h_node h' b) = hd 0 cs /\ n_next (h_node h' b) = last cs 0 /\
    (cs <> [] -> forall fuel, (length cs < fuel)%nat -> range_for fuel h' b = Done cs) /\
    count_for h' b = Done cs /\
    (forall i, 0 <= i < Z.of_nat (length cs) -> code_entry h' b i = Done (nth (Z.to_nat i) cs 0)) /\
    (forall x, x <> b -> same_content (h_node h x) (h_node h' x)).
Proof. exact p25. Qed.
Print Assumptions c25_append_keeps_order_and_count.

(** one append to a body that already has entries: nothing but the body, the new entry and the last entry's
    link changes *)
Theorem c25_append_step : forall h self e l,
  entries h self l -> valid h e -> self <> e -> n_parent (h_node h e) = 0 ->
  exists h', code_append h self e = Done h' /\ entries h' self (l ++ [e]) /\
    n_next (h_node h' e) = n_next (h_node h e) /\
    (forall x, x <> self -> same_content (h_node h x) (h_node h' x)) /\
    same_but_count (h_node h self) (h_node h' self) /\
    (forall x, x <> self -> x <> e -> (l = [] \/ x <> last l 0) -> h_node h' x = h_node h x).
Proof. exact p25_step. Qed.
Print Assumptions c25_append_step.

(** iterating a body with begin/end/next when it has no entries is undefined: end_CodeBody reads the Next of
    the null Back *)
Theorem c25_range_for_empty_body_refuted : forall h b fuel, entries h b [] -> (0 < fuel)%nat -> range_for fuel h b = Undefined.
Proof. exact p25_range_empty. Qed.
Print Assumptions c25_range_for_empty_body_refuted.

Example c25_hypotheses_met : match append_all (zero_heap 6) 1 [4; 2; 5] with
  | Done h' => n_num (h_node h' 1) = 3 /\ range_for 9 h' 1 = Done [4; 2; 5] /\ count_for h' 1 = Done [4; 2; 5]
  | _ => False end.
Proof. vm_compute. auto. Qed.
Example c25_empty_met : entries (zero_heap 3) 1 [] .
Proof. apply empty_entries; try reflexivity. unfold valid. cbn. lia. Qed.

(** *** C26: appending a code in use adds an independent copy *)
Theorem c26_append_in_use_copies_partial : forall h self e l b2 l2,
  entries h self l -> valid h e -> self <> e -> n_parent (h_node h e) <> 0 -> b2 <> self -> entries h b2 l2 -> ~ In self l2 ->
  exists h' d, code_append h self e = Done h' /\ d = h_top h /\ entries h' self (l ++ [d]) /\
    same_content (h_node h e) (h_node h' d) /\ n_parent (h_node h' d) = self /\ n_next (h_node h' d) = n_next (h_node h e) /\
    count_for h' self = Done (l ++ [d]) /\
    (~ In (n_next (h_node h e)) (l ++ [d]) -> forall fuel, (length l + 1 < fuel)%nat -> range_for fuel h' self = Done (l ++ [d])) /\
    (~ In b2 l -> entries h' b2 l2 /\ h_node h' b2 = h_node h b2) /\ (forall x, In x l2 -> h_node h' x = h_node h x) /\
    (forall x, valid h x -> x <> self -> (l = [] \/ x <> last l 0) -> h_node h' x = h_node h x).
Proof. exact p26. Qed.
Print Assumptions c26_append_in_use_copies_partial.

(** appending an entry of the same body again truncates its iteration: the copy's Next still points to the
    original's successor, and the loop stops there *)
Theorem c26_append_same_list_refuted : forall h self pre a x suf fuel,
  entries h self (pre ++ a :: x :: suf) -> (length pre + 1 < fuel)%nat ->
  exists h' d, code_append h self a = Done h' /\ count_for h' self = Done (pre ++ a :: x :: suf ++ [d]) /\
    range_for fuel h' self = Done (pre ++ [a]).
Proof. exact p26_same. Qed.
Print Assumptions c26_append_same_list_refuted.

Example c26_hypotheses_met : match append_all (zero_heap 6) 1 [3; 4] with
  | Done h' => match code_append h' 2 3 with
     | Done h2 => range_for 9 h2 2 = Done [6] /\ range_for 9 h2 1 = Done [3; 4] /\
        match code_append h2 1 3 with Done h3 => count_for h3 1 = Done [3; 4; 7] /\ range_for 9 h3 1 = Done [3] | _ => False end
     | _ => False end
  | _ => False end.
Proof. vm_compute. auto. Qed.

(** *** C27: appending a body splices (copies of) its entries *)
Theorem c27_body_append_body_partial : forall h self body l lb fuel,
  self <> body -> entries h self l -> entries h body lb -> ~ In self lb -> ~ In body l ->
  lb <> [] -> ~ In (n_next (h_node h (last lb 0))) lb -> (forall c, In c lb -> is_body_type (n_type (h_node h c)) = false) ->
  (length lb + 2 < fuel)%nat ->
  exists h' ds, body_append_body fuel h self body = Done h' /\ entries h' self (l ++ ds) /\
    Forall2 (fun c d => same_content (h_node h c) (h_node h' d)) lb ds /\ (forall d, In d ds -> ~ valid h d) /\
    count_for h' self = Done (l ++ ds) /\
    (n_next (h_node h (last lb 0)) = 0 -> forall fuel', (length (l ++ ds) < fuel')%nat -> range_for fuel' h' self = Done (l ++ ds)) /\
    entries h' body lb /\ h_node h' body = h_node h body /\ (forall x, In x lb -> h_node h' x = h_node h x) /\
    (forall x, valid h x -> x <> self -> same_content (h_node h x) (h_node h' x)) /\ same_but_count (h_node h self) (h_node h' self).
Proof. exact p27. Qed.
Print Assumptions c27_body_append_body_partial.
Theorem c27_append_empty_body_refuted : forall h self body fuel,
  self <> body -> entries h body [] -> (1 < fuel)%nat -> body_append_body fuel h self body = Undefined.
Proof. exact p27_empty. Qed.
Print Assumptions c27_append_empty_body_refuted.

Example c27_hypotheses_met : match append_all (zero_heap 6) 1 [3; 4; 5] with
  | Done h' => match body_append_body 20 h' 2 1 with
     | Done h2 => range_for 9 h2 2 = Done [6; 7; 8] /\ range_for 9 h2 1 = Done [3; 4; 5] | _ => False end
  | _ => False end.
Proof. vm_compute. auto. Qed.

(** *** C28: parameter lists *)
Theorem c28_params_order_and_count_partial : forall h p cs,
  valid h p -> n_num (h_node h p) = 1 -> n_front (h_node h p) = 0 -> n_next (h_node h p) = 0 ->
  (forall c, In c cs -> valid h c /\ n_parent (h_node h c) = 0 /\ n_next (h_node h c) = 0) -> NoDup (p :: cs) ->
  exists h', params_append_all h p cs = Done h' /\ n_num (h_node h' p) = 1 + Z.of_nat (length cs) /\ plist h' p (p :: cs) /\
    (forall fuel, (length cs + 1 < fuel)%nat -> params_iter fuel h' p = Done (p :: cs)) /\
    (forall x, x <> p -> same_content (h_node h x) (h_node h' x)) /\ same_but_count (h_node h p) (h_node h' p).
Proof. exact p28. Qed.
Print Assumptions c28_params_order_and_count_partial.
(** a parameter in use is appended as a copy *)
Theorem c28_params_append_in_use_copies_partial : forall h p e l suf,
  plist h p l -> valid h e -> e <> p -> n_parent (h_node h e) <> 0 -> NoDup (l ++ suf) ->
  linked h (e :: suf) -> (forall c, In c suf -> valid h c) -> n_next (h_node h (last (e :: suf) 0)) = 0 ->
  exists h', params_append h p e = Done h' /\ h_top h' = h_top h + 1 /\
    n_num (h_node h' p) = n_num (h_node h p) + 1 /\ same_content (h_node h e) (h_node h' (h_top h)) /\
    (forall fuel, (length l + 1 + length suf < fuel)%nat -> params_iter fuel h' p = Done (l ++ h_top h :: suf)) /\
    (suf = [] -> plist h' p (l ++ [h_top h])) /\
    (forall x, valid h x -> x <> p -> x <> last l 0 -> h_node h' x = h_node h x).
Proof. exact p28_dup. Qed.
Print Assumptions c28_params_append_in_use_copies_partial.
(** appending a list of several parameters: iteration visits them all, but the count grows by one only *)
Theorem c28_params_append_list_count_refuted : forall h p e l y suf,
  plist h p l -> plist h e (e :: y :: suf) -> n_parent (h_node h e) = 0 -> NoDup (l ++ e :: y :: suf) ->
  exists h', params_append h p e = Done h' /\ n_num (h_node h' p) = Z.of_nat (length l) + 1 /\
    forall fuel, (length (l ++ e :: y :: suf) < fuel)%nat -> params_iter fuel h' p = Done (l ++ e :: y :: suf).
Proof.
  intros h p e l y suf HP HE Hp ND. pose proof HE as (_ & _ & HV & _ & HL & HT). pose proof HP as (_ & HN & _).
  destruct (pa_chain h p e l (y :: suf) HP) as (h' & E & _ & N & _ & _ & _ & I & _); auto; [apply HV; now left|intros; apply HV; now right|].
  exists h'. split; auto. split; auto. rewrite N, HN. reflexivity.
Qed.
Print Assumptions c28_params_append_list_count_refuted.
(** indexed access never works: null for every list of two or more, a null dereference for a single one *)
Theorem c28_params_get_refuted : forall h p l fuel i, plist h p l -> (0 < fuel)%nat ->
  ((2 <= length l)%nat -> params_get fuel h p i = Done 0) /\ (length l = 1%nat -> params_get fuel h p i = Undefined).
Proof.
  intros h p l fuel i HP Hf. split; [intros; eapply p28_get_many; eauto|].
  intros Hl. apply p28_get_one; auto. pose proof HP as ((r & -> & _) & _). destruct r; [exact HP|discriminate].
Qed.
Print Assumptions c28_params_get_refuted.

(** a heap of parameters as def_param leaves them *)
Definition param_heap (k : Z) : heap := {| h_node := fun _ => set_num 1 (set_type CT_Parameters zero_node); h_top := k |}.
Example c28_hypotheses_met : match params_append_all (param_heap 6) 1 [4; 2] with
  | Done h' => n_num (h_node h' 1) = 3 /\ params_iter 9 h' 1 = Done [1; 4; 2] /\ params_get 5 h' 1 1 = Done 0 /\
     match params_append h' 3 4 with
     | Done h2 => n_num (h_node h2 3) = 2 /\ params_iter 9 h2 3 = Done [3; 6; 2] | _ => False end
  | _ => False end.
Proof. vm_compute. auto. Qed.

(** *** C29: specifier lists *)
Theorem c29_append : forall n s, specs_ok n -> n_num n < 14 ->
  exists n', specifiers_append n s = Done (n', true) /\ specs_of n' = specs_of n ++ [s] /\ specs_ok n' /\ same_but_specs n n'.
Proof. exact p29_append. Qed.
Print Assumptions c29_append.
Theorem c29_append_full : forall n s, n_num n = 14 -> specifiers_append n s = Done (n, false).
Proof. exact p29_full. Qed.
Print Assumptions c29_append_full.
Theorem c29_has : forall n s, specs_ok n -> exists b, specifiers_has n s = Done b /\ (b = true <-> In s (specs_of n)).
Proof. exact p29_has. Qed.
Print Assumptions c29_has.
Theorem c29_index_of : forall n s, specs_ok n -> exists r, specifiers_index_of n s = Done r /\
  ((r = -1 /\ ~ In s (specs_of n)) \/
   (0 <= r < n_num n /\ nth (Z.to_nat r) (specs_of n) 0 = s /\ forall j, 0 <= j < r -> nth (Z.to_nat j) (specs_of n) 0 <> s)).
Proof. exact p29_index. Qed.
Print Assumptions c29_index_of.
Theorem c29_remove_partial : forall n s pre suf, specs_ok n -> n_num n < 14 -> specs_of n = pre ++ s :: suf -> ~ In s pre -> ~ In s suf ->
  exists n', specifiers_remove n s = Done (n', Z.of_nat (length pre)) /\ specs_of n' = pre ++ suf /\ specs_ok n' /\ same_but_specs n n'.
Proof. exact p29_remove. Qed.
Print Assumptions c29_remove_partial.
Theorem c29_remove_absent : forall n s, specs_ok n -> n_num n < 14 -> ~ In s (specs_of n) -> specifiers_remove n s = Done (n, -1).
Proof. exact p29_remove_absent. Qed.
Print Assumptions c29_remove_absent.
(** nothing can be removed from a full list, whatever it contains *)
Theorem c29_remove_from_full_refuted : forall n s, n_num n = 14 -> specifiers_remove n s = Done (n, -1).
Proof. exact p29_remove_full. Qed.
Print Assumptions c29_remove_from_full_refuted.
(** a specifier present twice with another in between: removing it removes the other one *)
Definition specs_node (l : list Z) : node :=
  set_num (Z.of_nat (length l)) (set_arr (l ++ repeat 0 (14 - length l)) (set_type CT_Specifiers zero_node)).
Theorem c29_remove_duplicate_refuted : forall a b, a <> b -> specs_ok (specs_node [a; b; a]) /\ specs_of (specs_node [a; b; a]) = [a; b; a] /\
  exists n', specifiers_remove (specs_node [a; b; a]) a = Done (n', 2) /\ specs_of n' = [b; b].
Proof.
  intros a b H. split; [split; cbn; lia|]. split; [reflexivity|]. unfold specifiers_remove.
  change (n_num (specs_node [a; b; a]) =? SPECS_CAP) with false. cbv iota. change (Z.to_nat (n_num (specs_node [a; b; a]))) with 3%nat.
  cbn [remove_loop]. change (negb (0 <? n_num (specs_node [a; b; a]))) with false. cbv iota. change (arr_at (specs_node [a; b; a]) 0) with (Done a). cbn [rbind]. rewrite Z.eqb_refl. 
  change (0 + 1 >=? n_num (specs_node [a; b; a])) with false. cbv iota. change (arr_at (specs_node [a; b; a]) (0 + 1)) with (Done b). cbn [rbind].
  rewrite arr_put_ok by lia. cbn [rbind]. change (negb (0 + 1 + 1 <? n_num (set_arr (list_set (n_arr (specs_node [a; b; a])) (Z.to_nat 0) b) (specs_node [a; b; a])))) with false. cbv iota.
  rewrite arr_at_ok by lia. cbn [rbind]. match goal with |- context [if ?x =? a then _ else _] => change x with a end. rewrite Z.eqb_refl. cbn [n_num set_arr].
  change (0 + 1 + 1 + 1 >=? n_num (specs_node [a; b; a])) with true. cbv iota. cbn [rbind].
  eexists. split; reflexivity.
Qed.
Print Assumptions c29_remove_duplicate_refuted.
Example c29_hypotheses_met : specs_ok (specs_node [5; 7; 9]) /\ specs_of (specs_node [5; 7; 9]) = [5] ++ 7 :: [9] /\
  exists n', specifiers_remove (specs_node [5; 7; 9]) 7 = Done (n', 1) /\ specs_of n' = [5; 9].
Proof. split; [split; cbn; lia|]. split; [reflexivity|]. eexists. split; reflexivity. Qed.

(** *** C49: adding an interface to a class or struct appends to its chain of base types *)
Theorem c49_add_interface_partial : forall h self ty l fuel,
  valid h self -> chain_of h (n_ret (h_node h self)) l -> ~ In self l -> valid h ty -> ty <> self -> ~ In ty l -> n_next (h_node h ty) = 0 -> (length l < fuel)%nat ->
  exists h', add_interface fuel h self ty = Done h' /\ n_num (h_node h' self) = 3 /\ chain_of h' (n_ret (h_node h' self)) (l ++ [ty]) /\
    h_node h' ty = h_node h ty /\ (forall x, x <> self -> same_content (h_node h x) (h_node h' x)) /\ h_node h' self = set_num 3 (h_node h self).
Proof. exact p49. Qed.
Print Assumptions c49_add_interface_partial.
(** without a base type it reads through null *)
Theorem c49_add_interface_without_base_refuted : forall h self ty fuel,
  valid h self -> n_ret (h_node h self) = 0 -> (0 < fuel)%nat -> add_interface fuel h self ty = Undefined.
Proof. exact p49_none. Qed.
Print Assumptions c49_add_interface_without_base_refuted.
Example c49_hypotheses_met : let h := upd (upd (zero_heap 5) 1 (set_ret 2)) 2 (set_next 3) in
  chain_of h (n_ret (h_node h 1)) [2; 3] /\
  match add_interface 9 h 1 4 with Done h' => n_num (h_node h' 1) = 3 /\ n_next (h_node h' 3) = 4 | _ => False end.
Proof.
  cbn zeta. split.
  - split; [discriminate|]. split; [reflexivity|]. split; [intros c [<-|[<-|[]]]; unfold valid; cbn; lia|]. split; [repeat constructor; cbn; intuition discriminate|]. split; [cbn; auto|reflexivity].
  - vm_compute. auto.
Qed.
