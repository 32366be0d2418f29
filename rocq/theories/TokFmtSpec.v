(** What token substitution means. *)
From Coq Require Import String ZArith List Bool.
From Verif Require Import Common Text ArrayModel HashModel StrOpsSpec.
Import ListNotations.
Open Scope Z_scope.

(** [T] with every <name> that [lookup] knows replaced by its value is [out]; '<' is byte 60, '>' is 62.
    Names are what stands between a '<' and the next '>'. *)
Inductive substituted (lookup : list Z -> option (list Z)) : list Z -> list Z -> Prop :=
| sub_end : substituted lookup [] []
| sub_text c r o : c <> 60 -> substituted lookup r o -> substituted lookup (c :: r) (c :: o)
| sub_token name v r o : ~ In 62 name -> lookup name = Some v -> substituted lookup r o ->
    substituted lookup (60 :: name ++ 62 :: r) (v ++ o)
| sub_unknown name r o : ~ In 62 name -> lookup name = None -> substituted lookup (name ++ 62 :: r) o ->
    substituted lookup (60 :: name ++ 62 :: r) (60 :: o).

(** the value given last for a name *)
Definition beq (a b : list Z) : bool := if list_eq_dec Z.eq_dec a b then true else false.
Definition binding (pairs : list (list Z * list Z)) (name : list Z) : option (list Z) :=
  fold_left (fun acc p => if beq (fst p) name then Some (snd p) else acc) pairs None.
(** the value given last for a name with the same crc32 *)
Definition binding_crc (pairs : list (list Z * list Z)) (name : list Z) : option (list Z) :=
  fold_left (fun acc p => if crc32 (fst p) =? crc32 name then Some (snd p) else acc) pairs None.

(** [name] stands between a '<' and the next '>' of [T] *)
Definition occurs (name T : list Z) : Prop := exists a b, T = a ++ 60 :: name ++ 62 :: b /\ ~ In 62 name.

(** a token argument: address and text of its name, address and text of its value *)
Record tok := { t_ptr : Z; t_name : list Z; v_ptr : Z; v_text : list Z }.
Definition tok_pair (t : tok) : list Z * list Z := (t_name t, v_text t).
Definition tok_arg (t : tok) : Z * (Z * Z) := (t_ptr t, (v_ptr t, zlen (v_text t))).
Definition disjoint (a n b k : Z) : Prop := forall x, a <= x < a + n -> ~ (b <= x < b + k).
(** the token's name and value lie in memory, the value outside the output buffer *)
Definition tok_ok (m : mem) (buf size : Z) (t : tok) : Prop :=
  t_ptr t <> 0 /\ cstr m (t_ptr t) (t_name t) /\
  load_bytes m (v_ptr t) (length (v_text t)) = v_text t /\ disjoint (v_ptr t) (zlen (v_text t)) buf size.
