(** Byte-level model of gencpp's dynamic array: base/dependencies/containers.hpp, region Array.
    An array variable of type Array<Type> is the 8-byte cell at address [h] holding Data; the
    ArrayHeader sits in the 32 bytes below Data.  [sz] = sizeof(Type); a Type value is its list of
    object bytes.  The allocator stored in the header is a pair of functions
    [al] (EAllocation_ALLOC: memory, size -> memory, address; 0 = nullptr) and
    [fr] (EAllocation_FREE: memory, address -> memory).  Writing header->Allocator is not modelled
    (its two words are copied with the header but never interpreted). *)
From Coq Require Import ZArith List Bool.
From Verif Require Import Common MemModel AllocModel.
Import ListNotations.
Open Scope Z_scope.

Definition ld64 (m : mem) (a : Z) : Z := load_le 8 m a.
Definition st64 (m : mem) (a v : Z) : mem := store_le 8 m a v.
Definition w64 (z : Z) : Z := z mod 2 ^ 64.

(** assignment of a Type value (its object bytes) to the object at [a] *)
Fixpoint store_bytes (m : mem) (a : Z) (bs : list Z) : mem :=
  match bs with [] => m | b :: r => store_bytes (store8 m a b) (a + 1) r end.
(** reading the object bytes of a Type at [a] *)
Definition load_bytes (m : mem) (a : Z) (n : nat) : list Z := map (fun i => m (a + Z.of_nat i)) (seq 0 n).

(** struct ArrayHeader, containers.hpp:56-60: Allocator (16 bytes), Capacity, Num *)
Definition HEADER_SIZE : Z := 32.
Definition hdr_cap (d : Z) : Z := d - 16.
Definition hdr_num (d : Z) : Z := d - 8.

Definition bind {A B} (o : outcome A) (f : A -> outcome B) : outcome B :=
  match o with Ok a => f a | Fatal => Fatal | AssertFail => AssertFail end.

(** containers.hpp:160-163 [array_grow_formula] (usize arithmetic) *)
Definition array_grow_formula (v : Z) : Z := w64 (2 * v + 8).

Section Alloc.
Variable al : mem -> Z -> mem * Z.
Variable fr : mem -> Z -> mem.
Variable sz : Z.

(** containers.hpp:143-158 [array_init_reserve]; [h] is the variable the result is assigned to *)
Definition array_init_reserve (m : mem) (h capacity : Z) : outcome mem :=
  if capacity >? 0 then
    let '(m1, p) := al m (w64 (HEADER_SIZE + sz * capacity)) in
    if p =? 0 then Ok (st64 m1 h 0) else
    let d := p + HEADER_SIZE in
    Ok (st64 (st64 (st64 m1 (hdr_cap d) capacity) (hdr_num d) 0) h d)
  else AssertFail.

(** containers.hpp:138-141 [array_init] *)
Definition array_init (m : mem) (h : Z) : outcome mem := array_init_reserve m h (array_grow_formula 0).

(** containers.hpp:388-419 [array_set_capacity] *)
Definition array_set_capacity (m : mem) (h new_capacity : Z) : outcome (mem * bool) :=
  let d := ld64 m h in
  if d =? 0 then AssertFail else
  let cap := ld64 m (hdr_cap d) in
  let num := ld64 m (hdr_num d) in
  if new_capacity =? cap then Ok (m, true) else
  if new_capacity <? num then Ok (st64 m (hdr_num d) new_capacity, true) else
  let '(m1, p) := al m (w64 (HEADER_SIZE + sz * new_capacity)) in
  if p =? 0 then Ok (m1, false) else
  match mem_move m1 p (d - HEADER_SIZE) (w64 (HEADER_SIZE + sz * num)) with
  | None => AssertFail                       (* mem_move always finishes: C05 *)
  | Some m2 =>
    let m3 := st64 m2 (hdr_cap (p + HEADER_SIZE)) new_capacity in
    let m4 := fr m3 (d - HEADER_SIZE) in
    Ok (st64 m4 h (p + HEADER_SIZE), true)
  end.

(** containers.hpp:321-334 [array_grow] *)
Definition array_grow (m : mem) (h min_capacity : Z) : outcome (mem * bool) :=
  let d := ld64 m h in
  if d =? 0 then AssertFail else
  if min_capacity >? 0 then
    let new_capacity := array_grow_formula (ld64 m (hdr_cap d)) in
    let new_capacity := if new_capacity <? min_capacity then min_capacity else new_capacity in
    array_set_capacity m h new_capacity
  else AssertFail.

(** containers.hpp:170-188 [array_append] *)
Definition array_append (m : mem) (h : Z) (value : list Z) : outcome (mem * bool) :=
  let d := ld64 m h in
  if d =? 0 then AssertFail else
  let finish (m : mem) :=
    let d := ld64 m h in
    let num := ld64 m (hdr_num d) in
    let m1 := store_bytes m (d + num * sz) value in
    Ok (st64 m1 (hdr_num d) (w64 (num + 1)), true) in
  if ld64 m (hdr_num d) =? ld64 m (hdr_cap d) then
    bind (array_grow m h (ld64 m (hdr_cap d))) (fun '(m1, ok) => if ok then finish m1 else Ok (m1, false))
  else finish m.

(** containers.hpp:190-210 [array_append_items]: note that the destination of mem_copy is computed
    from the address of the array variable, [(Type* )array + header->Num], not from its Data. *)
Definition array_append_items (m : mem) (h items item_num : Z) : outcome (mem * bool) :=
  let d := ld64 m h in
  if (d =? 0) || (items =? 0) then AssertFail else
  if item_num >? 0 then
    let finish (m : mem) :=
      let d := ld64 m h in
      let num := ld64 m (hdr_num d) in
      let m1 := mem_copy m (h + num * sz) items (item_num * sz) in
      Ok (st64 m1 (hdr_num d) (w64 (num + item_num)), true) in
    if ld64 m (hdr_num d) + item_num >? ld64 m (hdr_cap d) then
      bind (array_grow m h (ld64 m (hdr_cap d) + item_num))
           (fun '(m1, ok) => if ok then finish m1 else Ok (m1, false))
    else finish m
  else AssertFail.

(** containers.hpp:165-168 [array_append_array] *)
Definition array_append_array (m : mem) (h : Z) (other : Z) : outcome (mem * bool) :=
  if other =? 0 then AssertFail else array_append_items m h other (ld64 m (hdr_num other)).

(** containers.hpp:212-241 [array_append_at]: [item] is never stored. [slot] is an ssize. *)
Definition array_append_at (m : mem) (h : Z) (item : list Z) (idx : Z) : outcome (mem * bool) :=
  let d := ld64 m h in
  if d =? 0 then AssertFail else
  let num := ld64 m (hdr_num d) in
  let slot := if idx >=? num then num - 1 else idx in
  let slot := if slot <? 0 then 0 else slot in
  let finish (m : mem) :=
    let d := ld64 m h in
    let num := ld64 m (hdr_num d) in
    let target := d + slot * sz in
    match mem_move m (target + sz) target ((num - slot) * sz) with
    | None => AssertFail
    | Some m1 => Ok (st64 m1 (hdr_num d) (w64 (num + 1)), true)
    end in
  if ld64 m (hdr_cap d) <? num + 1 then
    bind (array_grow m h (ld64 m (hdr_cap d) + 1)) (fun '(m1, ok) => if ok then finish m1 else Ok (m1, false))
  else finish m.

(** containers.hpp:371-386 [array_resize] *)
Definition array_resize (m : mem) (h num : Z) : outcome (mem * bool) :=
  let d := ld64 m h in
  if d =? 0 then AssertFail else
  let finish (m : mem) := Ok (st64 m (hdr_num (ld64 m h)) num, true) in
  if ld64 m (hdr_cap d) <? num then
    bind (array_grow m h num) (fun '(m1, ok) => if ok then finish m1 else Ok (m1, false))
  else finish m.

(** containers.hpp:302-310 [array_free] *)
Definition array_free (m : mem) (h : Z) : outcome mem :=
  let d := ld64 m h in
  if d =? 0 then AssertFail else Ok (st64 (fr m (d - HEADER_SIZE)) h 0).

(** containers.hpp:269-279 [array_back]; the argument is the array value (Data) *)
Definition array_back (m : mem) (d : Z) : outcome Z :=
  if d =? 0 then AssertFail else
  let num := ld64 m (hdr_num d) in
  if num <=? 0 then Ok 0 else Ok (d + (num - 1) * sz).

(** containers.hpp:336-340 [array_num] *)
Definition array_num (m : mem) (d : Z) : outcome Z :=
  if d =? 0 then AssertFail else Ok (ld64 m (hdr_num d)).

(** containers.hpp:281-286 [array_clear] *)
Definition array_clear (m : mem) (d : Z) : outcome mem :=
  if d =? 0 then AssertFail else Ok (st64 m (hdr_num d) 0).

(** the for loop of [array_fill], containers.hpp:296-298 *)
Fixpoint fill_loop (n : nat) (m : mem) (d idx : Z) (value : list Z) : mem :=
  match n with O => m | S k => fill_loop k (store_bytes m (d + idx * sz) value) d (idx + 1) value end.

(** containers.hpp:288-301 [array_fill] ([begin], [end] are unsigned: begin < 0 never holds) *)
Definition array_fill (m : mem) (d begin end_ : Z) (value : list Z) : outcome (mem * bool) :=
  if (d =? 0) || negb (begin <=? end_) then AssertFail else
  if end_ >? ld64 m (hdr_num d) then Ok (m, false) else
  Ok (fill_loop (Z.to_nat (end_ - begin)) m d begin value, true).

(** containers.hpp:342-348 [array_pop] *)
Definition array_pop (m : mem) (d : Z) : outcome mem :=
  if d =? 0 then AssertFail else
  let num := ld64 m (hdr_num d) in
  if num >? 0 then Ok (st64 m (hdr_num d) (w64 (num - 1))) else AssertFail.

(** containers.hpp:350-359 [array_remove_at] *)
Definition array_remove_at (m : mem) (d idx : Z) : outcome mem :=
  if d =? 0 then AssertFail else
  let num := ld64 m (hdr_num d) in
  if idx <? num then
    match mem_move m (d + idx * sz) (d + (idx + 1) * sz) (sz * (num - idx - 1)) with
    | None => AssertFail
    | Some m1 => Ok (st64 m1 (hdr_num d) (w64 (num - 1)))
    end
  else AssertFail.

End Alloc.

(** the operations a client applies to one array variable; void functions return [true] here *)
Inductive arr_op :=
| AAppend (v : list Z) | APop | AClear | ARemoveAt (i : Z) | AFill (b e : Z) (v : list Z)
| AResize (n : Z) | ASetCapacity (n : Z).

Definition arr_step (al : mem -> Z -> mem * Z) (fr : mem -> Z -> mem) (sz : Z) (m : mem) (h : Z) (o : arr_op)
  : outcome (mem * bool) :=
  let void (x : outcome mem) := bind x (fun m' => Ok (m', true)) in
  match o with
  | AAppend v => array_append al fr sz m h v
  | APop => void (array_pop m (ld64 m h))
  | AClear => void (array_clear m (ld64 m h))
  | ARemoveAt i => void (array_remove_at sz m (ld64 m h) i)
  | AFill b e v => array_fill sz m (ld64 m h) b e v
  | AResize n => array_resize al fr sz m h n
  | ASetCapacity n => array_set_capacity al fr sz m h n
  end.
