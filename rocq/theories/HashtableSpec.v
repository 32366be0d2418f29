(** What a map does under the same history. *)
From Coq Require Import ZArith List Bool.
From Verif Require Import HashtableModel.
Import ListNotations.
Open Scope Z_scope.

Definition map_step {V} (f : Z -> option V) (o : ht_op V) : Z -> option V :=
  match o with
  | HSet k v => fun x => if x =? k then Some v else f x
  | HClear => fun _ => None
  | HRemove k => fun x => if x =? k then None else f x
  | HGrow | HRehash _ => f
  end.
Definition map_run {V} (f : Z -> option V) (ops : list (ht_op V)) : Z -> option V := fold_left map_step ops f.

(** arguments: keys are u64; explicit rehash needs at least one slot *)
Definition ht_op_wf {V} (o : ht_op V) : Prop :=
  match o with HSet k _ | HRemove k => 0 <= k < 2 ^ 64 | HRehash n => 0 < n | _ => True end.

(** following [e_next] from [start] in [es] visits exactly the indices [l] and then ends *)
Inductive chain {V} (es : list (entry V)) : Z -> list Z -> Prop :=
| chain_end i : i < 0 -> chain es i []
| chain_cons i e l : at_ es i = Some e -> chain es (e_next e) l -> chain es i (i :: l).
