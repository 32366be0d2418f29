(** What it means for a builder to hold a text, what the operations do to texts, and what is required
    of the allocator. *)
From Coq Require Import ZArith List Bool.
From Verif Require Import Common Text ArrayModel StrOpsModel StrOpsSpec StrModel.
Import ListNotations.
Open Scope Z_scope.

(** bytes owned by the builder [s] of capacity [cap]: header, text and terminator *)
Definition sb_owned (s cap x : Z) : Prop := s - 32 <= x <= s + cap.

(** [s] is a builder with text [t] and capacity [cap]; addresses below 2^60 *)
Definition is_builder (m : mem) (s : Z) (t : list Z) (cap : Z) : Prop :=
  byte_mem m /\ 32 < s /\ s + cap < 2 ^ 60 /\ ld64 m (s - 16) = cap /\ ld64 m (s - 8) = zlen t /\
  zlen t <= cap /\ load_bytes m s (length t) = t.
Definition terminated (m : mem) (s : Z) (t : list Z) : Prop := m (s + zlen t) = 0.

(** text without its leading / its surrounding elements satisfying [f] *)
Fixpoint drop_while (f : Z -> bool) (l : list Z) : list Z :=
  match l with [] => [] | b :: r => if f b then drop_while f r else l end.
Definition trimmed (f : Z -> bool) (t : list Z) : list Z := rev (drop_while f (rev (drop_while f t))).

(** [sub] occurs in [t] *)
Definition is_substring (sub t : list Z) : Prop := exists a b, t = a ++ sub ++ b.
Definition is_prefix (sub t : list Z) : Prop := exists b, t = sub ++ b.
(** the Str (p,l) denotes the text [t] *)
Definition str_is (m : mem) (p l : Z) (t : list Z) : Prop := l = zlen t /\ load_bytes m p (length t) = t.

(** [src, src+n) lies outside what the builder owns *)
Definition apart (s cap src n : Z) : Prop := forall x, src <= x < src + n -> ~ sb_owned s cap x.

(** Contract of the allocator's resize for the block of builder [s] while [src,src+n) is live:
    nullptr with the builder untouched, or a block (possibly the old one) holding the first
    [old] bytes; live memory is neither changed nor handed out. *)
Definition resize_respects (m : mem) (s cap src n : Z) (rs : mem -> Z -> Z -> Z -> mem * Z) : Prop :=
  forall old new, old <= 32 + cap + 1 -> old <= new ->
  let '(m1, p) := rs m (s - 32) old new in
  byte_mem m1 /\ (forall x, src <= x < src + n -> m1 x = m x) /\
  if p =? 0 then forall x, sb_owned s cap x -> m1 x = m x
  else 0 < p /\ p + new <= 2 ^ 60 /\ (forall i, 0 <= i < old -> m1 (p + i) = m (s - 32 + i)) /\
       (forall x, src <= x < src + n -> ~ (p <= x < p + new)).

(** arguments of an operation are meaningful: [Some t2] is the appended text *)
Definition source_ok (m : mem) (s cap p : Z) (t2 : list Z) : Prop :=
  0 < p /\ load_bytes m p (length t2) = t2 /\ zlen t2 < 2 ^ 57 /\ apart s cap p (zlen t2).

(** effect of each operation on the text; [r] is the returned success *)
Inductive sb_effect (m : mem) (s cap : Z) (rs : mem -> Z -> Z -> Z -> mem * Z) (fuel : nat) :
  sb_op -> list Z -> bool -> list Z -> Prop :=
| E_append p n t t2 (r : bool) : str_is m p n t2 -> source_ok m s cap p t2 -> resize_respects m s cap p (zlen t2) rs ->
    sb_effect m s cap rs fuel (SAppend p n) t r (if r then t ++ t2 else t)
| E_append_cstr p t t2 (r : bool) : cstr m p t2 -> source_ok m s cap p t2 -> resize_respects m s cap p (zlen t2) rs -> (length t2 <= fuel)%nat ->
    sb_effect m s cap rs fuel (SAppendCStr p) t r (if r then t ++ t2 else t)
| E_append_builder other t t2 cap2 (r : bool) : is_builder m other t2 cap2 -> source_ok m s cap other t2 -> resize_respects m s cap other (zlen t2) rs ->
    sb_effect m s cap rs fuel (SAppendBuilder other) t r (if r then t ++ t2 else t)
| E_clear t : sb_effect m s cap rs fuel SClear t true []
| E_trim cut cs t : cstr m cut cs -> (length cs <= fuel)%nat -> (forall x, cut <= x <= cut + zlen cs -> ~ sb_owned s cap x) ->
    sb_effect m s cap rs fuel (STrim cut) t true (trimmed (fun b => (b =? 0) || existsb (Z.eqb b) cs) t)
| E_strip t : terminated m s t -> Forall (fun b => b <> 0) t -> (length t <= fuel)%nat ->
    sb_effect m s cap rs fuel SStripSpace t true (filter (fun b => negb (char_is_space b)) t).

(** Histories: the client's operations on one builder (current Data pointer [s], capacity [cap], text),
    interleaved with writes by others to bytes the builder does not own. *)
Inductive sb_history : mem -> Z -> list Z -> list sb_op -> mem -> Z -> list Z -> Prop :=
| SB_nil m s t : sb_history m s t [] m s t
| SB_env m m1 s t ops m2 s2 t2 : byte_mem m1 -> (forall x, sb_owned s (sb_capacity m s) x -> m1 x = m x) ->
    sb_history m1 s t ops m2 s2 t2 -> sb_history m s t ops m2 s2 t2
| SB_op m s t o rs fuel m1 s1 r t1 ops m2 s2 t2 :
    sb_step rs fuel m s o = Done (m1, s1, r) -> sb_effect m s (sb_capacity m s) rs fuel o t r t1 ->
    zlen t1 < 2 ^ 57 ->
    sb_history m1 s1 t1 ops m2 s2 t2 -> sb_history m s t (o :: ops) m2 s2 t2.

(** Contract of the allocator's alloc while [src,src+n) is live. *)
Definition alloc_ok (m : mem) (src n : Z) (al : mem -> Z -> mem * Z) : Prop :=
  forall size, let '(m1, p) := al m size in
  byte_mem m1 /\ (forall x, src <= x < src + n -> m1 x = m x) /\
  (p = 0 \/ (0 < p /\ p + size <= 2 ^ 60 /\ forall x, src <= x < src + n -> ~ (p <= x < p + size))).

(** A run of successful appends of the texts [ts], interleaved with writes by others outside the builder. *)
Inductive sb_appends : mem -> Z -> list (list Z) -> mem -> Z -> Prop :=
| SA_nil m s : sb_appends m s [] m s
| SA_env m m1 s ts m2 s2 : byte_mem m1 -> (forall x, sb_owned s (sb_capacity m s) x -> m1 x = m x) ->
    sb_appends m1 s ts m2 s2 -> sb_appends m s ts m2 s2
| SA_app m s t2 p rs m1 s1 ts m2 s2 : source_ok m s (sb_capacity m s) p t2 -> resize_respects m s (sb_capacity m s) p (zlen t2) rs ->
    strbuilder_append_str rs m s p (zlen t2) = Done (m1, s1, true) ->
    sb_appends m1 s1 ts m2 s2 -> sb_appends m s (t2 :: ts) m2 s2.

(** text after the first line: what follows the first "\n", "\r" or "\r\n" *)
Fixpoint after_line (t : list Z) : list Z :=
  match t with
  | [] => []
  | b :: r => if b =? 10 then r
              else if b =? 13 then match r with c :: r' => if c =? 10 then r' else r | [] => [] end
              else after_line r
  end.
