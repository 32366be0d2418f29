(** What a user of cache_str / register_macro relies on. *)
From Coq Require Import ZArith List Bool.
From Verif Require Import Common AllocModel ArrayModel HashModel StrOpsSpec StrSpec InternModel.
Import ListNotations.
Open Scope Z_scope.

(** address [x] lies in the memory of arena [a]; in its still free part *)
Definition in_arena (a : arena) (x : Z) : Prop := ar_start a <= x < ar_start a + ar_size a.
Definition in_free (a : arena) (x : Z) : Prop := ar_start a + ar_used a <= x < ar_start a + ar_size a.
Definition in_used (a : arena) (x : Z) : Prop := ar_start a <= x < ar_start a + ar_used a.

(** The source text [p,p+l) of a call does not lie in memory the arenas have not handed out. *)
Definition source_readable (cx : ctx) (p l : Z) : Prop :=
  0 < p /\ 0 <= l < 2 ^ 31 - 48 /\ forall a x, In a (cx_arenas cx) -> p <= x < p + l -> ~ in_free a x.

(** Contract of the backing allocator when asked for a new arena while [p,p+l) is being read: a
    16-aligned block apart from everything in use, nothing in use is changed. *)
Definition backing_ok (m : mem) (cx : ctx) (p l : Z) (bk : mem -> Z -> mem * Z) : Prop :=
  let '(m1, a) := bk m (cx_per_arena cx) in
  byte_mem m1 /\ 0 < a /\ (16 | a) /\ a + cx_per_arena cx + 16 <= 2 ^ 60 /\
  (forall x, p <= x < p + l -> m1 x = m x /\ ~ (a <= x < a + cx_per_arena cx)) /\
  (forall ar x, In ar (cx_arenas cx) -> in_arena ar x -> m1 x = m x /\ ~ (a <= x < a + cx_per_arena cx)).

Definition op_source (o : cs_op) : Z * Z := match o with OCache p l | ORegister p l _ _ | ORegisterBatch p l _ _ => (p, l) end.

(** One entry per completed cache_str call or macro registration, oldest first: the text, the result
    (for cache_str) and the macro's type and flags (for registrations). *)
Inductive event := EvCache (t : list Z) (r : Z * Z) | EvMacro (t : list Z) (ty fl : Z).
Definition event_text (e : event) : list Z := match e with EvCache t _ | EvMacro t _ _ => t end.
Definition event_of (t : list Z) (o : cs_op) (r : option (Z * Z)) : event :=
  match o, r with
  | OCache _ _, Some r => EvCache t r
  | OCache _ _, None => EvCache t (0, 0)
  | ORegister _ _ ty fl, _ | ORegisterBatch _ _ ty fl, _ => EvMacro t ty fl
  end.

(** A history of calls from context [cx0], with arbitrary other writes outside the handed-out parts of
    the arenas in between. *)
Inductive cs_history (m0 : mem) (cx0 : ctx) : mem -> ctx -> list event -> Prop :=
| CS_start : cs_history m0 cx0 m0 cx0 []
| CS_env m cx log m1 : cs_history m0 cx0 m cx log -> byte_mem m1 ->
    (forall a x, In a (cx_arenas cx) -> in_used a x -> m1 x = m x) -> cs_history m0 cx0 m1 cx log
| CS_op m cx log bk o m1 cx1 r : cs_history m0 cx0 m cx log ->
    source_readable cx (fst (op_source o)) (snd (op_source o)) ->
    backing_ok m cx (fst (op_source o)) (snd (op_source o)) bk ->
    cs_step bk m cx o = Ok (m1, cx1, r) ->
    cs_history m0 cx0 m1 cx1 (log ++ [event_of (load_bytes m (fst (op_source o)) (Z.to_nat (snd (op_source o)))) o r]).

(** no two different texts short enough to be shared have the same CRC-32 *)
Definition collision_free (max : Z) (ts : list (list Z)) : Prop :=
  forall t1 t2, In t1 ts -> In t2 ts -> zlen t1 <= max -> zlen t2 <= max -> crc32 t1 = crc32 t2 -> t1 = t2.

(** the memory of an interned string: header, text, terminator *)
Definition str_block (r : Z * Z) (x : Z) : Prop := fst r - 32 <= x <= fst r + snd r.

(** last macro registered under a name satisfying [f] *)
Fixpoint last_macro (f : list Z -> bool) (log : list event) : option (list Z * Z * Z) :=
  match log with
  | [] => None
  | e :: r => match last_macro f r with
              | Some x => Some x
              | None => match e with EvMacro t ty fl => if f t then Some (t, ty, fl) else None | _ => None end
              end
  end.

(** the context as init leaves it: a 16-aligned first string arena of [per] bytes *)
Definition start_ok (m0 : mem) (start per : Z) : Prop := byte_mem m0 /\ 0 < start /\ (16 | start) /\ 0 <= per /\ start + per + 16 <= 2 ^ 60.
