(** What a user of the node lists relies on, stated on the heap of nodes. *)
From Coq Require Import ZArith List Bool.
From Verif Require Import Common Text AstModel.
Import ListNotations.
Open Scope Z_scope.

(** consecutive members are joined by Next; the last member's Next is unconstrained *)
Fixpoint linked (h : heap) (l : list Z) : Prop :=
  match l with
  | x :: (y :: _) as r => n_next (h_node h x) = y /\ linked h r
  | _ => True
  end.

(** the body [b] holds exactly the entries [l], in this order *)
Definition entries (h : heap) (b : Z) (l : list Z) : Prop :=
  valid h b /\ n_num (h_node h b) = Z.of_nat (length l) /\
  (forall c, In c l -> valid h c /\ n_parent (h_node h c) = b) /\ NoDup l /\ ~ In b l /\
  n_front (h_node h b) = hd 0 l /\ n_next (h_node h b) = last l 0 /\ linked h l.

(** the parameter list headed by [p] consists of exactly the parameters [l] (its head is [p]) *)
Definition plist (h : heap) (p : Z) (l : list Z) : Prop :=
  (exists r, l = p :: r /\ n_front (h_node h p) = last r 0) /\
  n_num (h_node h p) = Z.of_nat (length l) /\ (forall c, In c l -> valid h c) /\ NoDup l /\ linked h l /\
  n_next (h_node h (last l 0)) = 0.

(** same node up to its position in a list (Prev, Next, Parent) *)
Definition same_content (n n' : node) : Prop :=
  n_type n' = n_type n /\ n_flags n' = n_flags n /\ n_name n' = n_name n /\ n_content n' = n_content n /\
  n_inline n' = n_inline n /\ n_attrs n' = n_attrs n /\ n_specs n' = n_specs n /\ n_ret n' = n_ret n /\
  n_params n' = n_params n /\ n_body n' = n_body n /\ n_suffix n' = n_suffix n /\ n_arr n' = n_arr n /\
  n_token n' = n_token n /\ n_num n' = n_num n.
(** ... additionally up to the entry count (for the body appended to) *)
Definition same_but_count (n n' : node) : Prop := same_content n (set_num (n_num n) n').

(** appending codes one after the other with code_append *)
Fixpoint append_all (h : heap) (b : Z) (cs : list Z) : run heap :=
  match cs with [] => Done h | c :: r => rbind (code_append h b c) (fun h => append_all h b r) end.

(** a specifier list's contents *)
Definition specs_of (n : node) : list Z := firstn (Z.to_nat (n_num n)) (n_arr n).
Definition specs_ok (n : node) : Prop := 0 <= n_num n <= 14 /\ length (n_arr n) = 14%nat.
(** the node with another specifier array and count, everything else the same *)
Definition same_but_specs (n n' : node) : Prop := set_arr (n_arr n) (set_num (n_num n) n') = n.
(** appending parameters one after the other with params_append *)
Fixpoint params_append_all (h : heap) (p : Z) (cs : list Z) : run heap :=
  match cs with [] => Done h | c :: r => rbind (params_append h p c) (fun h => params_append_all h p r) end.
(** the chain of types reached from [t] over Next is exactly [l] *)
Definition chain_of (h : heap) (t : Z) (l : list Z) : Prop :=
  l <> [] /\ t = hd 0 l /\ (forall c, In c l -> valid h c) /\ NoDup l /\ linked h l /\ n_next (h_node h (last l 0)) = 0.
