(** Model of gencpp's hash table: base/dependencies/containers.hpp:441-770.
    The two arrays are mathematical sequences (the array itself is modelled and proved in
    ArrayModel/C08); allocation is assumed to succeed (the code ignores array_append's result).
    Several functions (hashtable_remove, hashtable_rehash_fast, hashtable_remove_entry, hashtable_slot)
    call unqualified names such as [find] and [num]; they are modelled as what those names evidently
    mean.  Out-of-range indexing and a chain walk that does not finish give [None]. *)
From Coq Require Import ZArith List Bool.
Import ListNotations.
Open Scope Z_scope.

Section HT.
Variable V : Type.
Variable dflt : V.      (* the value-initialised Type of "HashTableEntry<Type> entry = { key, -1 }" *)

(** struct HashTableEntry, containers.hpp:458-463 *)
Record entry := { e_key : Z; e_next : Z; e_val : V }.
(** struct HashTable, containers.hpp:487-512 *)
Record table := { hashes : list Z; entries : list entry }.
(** struct HashTableFindResult, containers.hpp:451-455 *)
Record find_result := { HashIndex : Z; PrevIndex : Z; EntryIndex : Z }.

(** array subscript [a[i]] *)
Definition at_ {A} (l : list A) (i : Z) : option A := if i <? 0 then None else nth_error l (Z.to_nat i).
(** assignment through a subscript *)
Fixpoint upd_nat {A} (l : list A) (i : nat) (x : A) : list A :=
  match l, i with [], _ => [] | _ :: r, O => x :: r | a :: r, S j => a :: upd_nat r j x end.
Definition upd {A} (l : list A) (i : Z) (x : A) : option (list A) :=
  if (0 <=? i) && (i <? Z.of_nat (length l)) then Some (upd_nat l (Z.to_nat i) x) else None.
Definition bindo {A B} (o : option A) (f : A -> option B) : option B := match o with Some a => f a | None => None end.

(** containers.hpp:528-540 [hashtable_init_reserve] *)
Definition ht_init_reserve (num : Z) : table := {| hashes := repeat (-1) (Z.to_nat num); entries := [] |}.
(** containers.hpp:522-526 [hashtable_init] *)
Definition ht_init : table := ht_init_reserve 8.
(** containers.hpp:542-548 [hashtable_clear] *)
Definition ht_clear (t : table) : table := {| hashes := map (fun _ => -1) (hashes t); entries := [] |}.

(** the while loop of [hashtable__find], containers.hpp:751-758; [None]: out of fuel or range *)
Fixpoint find_loop (fuel : nat) (es : list entry) (key hi prev idx : Z) : option find_result :=
  if idx <? 0 then Some {| HashIndex := hi; PrevIndex := prev; EntryIndex := idx |} else
  match fuel with
  | O => None
  | S f =>
    match at_ es idx with
    | None => None
    | Some e => if e_key e =? key then Some {| HashIndex := hi; PrevIndex := prev; EntryIndex := idx |}
                else find_loop f es key hi idx (e_next e)
    end
  end.
(** containers.hpp:738-762 [hashtable__find] *)
Definition ht_find (t : table) (key : Z) : option find_result :=
  let n := Z.of_nat (length (hashes t)) in
  if n >? 0 then
    let hi := key mod n in
    bindo (at_ (hashes t) hi) (fun idx => find_loop (S (length (entries t))) (entries t) key hi (-1) idx)
  else Some {| HashIndex := -1; PrevIndex := -1; EntryIndex := -1 |}.

(** containers.hpp:560-570 [hashtable_get]; outer None = undefined behaviour, inner None = nullptr *)
Definition ht_get (t : table) (key : Z) : option (option V) :=
  bindo (ht_find t key) (fun r =>
    if EntryIndex r >=? 0 then option_map (fun e => Some (e_val e)) (at_ (entries t) (EntryIndex r)) else Some None).

(** containers.hpp:724-736 [hashtable__add_entry] *)
Definition ht_add_entry (t : table) (key : Z) : table * Z :=
  ({| hashes := hashes t; entries := entries t ++ [{| e_key := key; e_next := -1; e_val := dflt |}] |},
   Z.of_nat (length (entries t))).

Definition set_hash (t : table) (i v : Z) : option table :=
  option_map (fun h => {| hashes := h; entries := entries t |}) (upd (hashes t) i v).
Definition set_entry (t : table) (i : Z) (f : entry -> entry) : option table :=
  bindo (at_ (entries t) i) (fun e => option_map (fun es => {| hashes := hashes t; entries := es |}) (upd (entries t) i (f e))).
Definition with_next (n : Z) (e : entry) : entry := {| e_key := e_key e; e_next := n; e_val := e_val e |}.
Definition with_val (v : V) (e : entry) : entry := {| e_key := e_key e; e_next := e_next e; e_val := v |}.

(** one iteration of the loop of [hashtable_rehash], containers.hpp:612-628 *)
Definition rehash_step (nt : option table) (e : entry) : option table :=
  bindo nt (fun nt =>
  bindo (ht_find nt (e_key e)) (fun r =>
  let '(nt1, last) := ht_add_entry nt (e_key e) in
  bindo (if PrevIndex r <? 0 then set_hash nt1 (HashIndex r) last else set_entry nt1 (PrevIndex r) (with_next last)) (fun nt2 =>
  bindo (set_entry nt2 last (with_next (EntryIndex r))) (fun nt3 =>
  set_entry nt3 last (with_val (e_val e)))))).
(** containers.hpp:603-632 [hashtable_rehash] *)
Definition ht_rehash (t : table) (new_num : Z) : option table :=
  fold_left rehash_step (entries t) (Some (ht_init_reserve new_num)).

(** containers.hpp:594-601 [hashtable_grow]; array_grow_formula(n) = 2n+8 *)
Definition ht_grow (t : table) : option table := ht_rehash t (2 * Z.of_nat (length (entries t)) + 8).

(** ** the load test: containers.hpp:765-772 [hashtable_full], in IEEE single precision.
    An f32 value that is a non-negative integer multiple of 2^-24 is represented by that multiple. *)
(** round-to-nearest-even of the non-negative integer z to 24 significant bits *)
Definition round24 (z : Z) : Z :=
  let e := Z.max 0 (Z.log2 z - 23) in
  let q := z / 2 ^ e in let r := z mod 2 ^ e in let half := 2 ^ e / 2 in
  let q' := if (r >? half) || ((r =? half) && (0 <? e) && Z.odd q) then q + 1 else q in
  q' * 2 ^ e.
(** 0.7f = 11744051 * 2^-24 (HashTable_CriticalLoadScale, containers.hpp:485) *)
Definition critical_load (num_hashes : Z) : Z := round24 (11744051 * round24 num_hashes) / 2 ^ 24.
Definition ht_full (t : table) : bool :=
  Z.of_nat (length (entries t)) >? critical_load (Z.of_nat (length (hashes t))).

(** containers.hpp:679-711 [hashtable_set] *)
Definition ht_set (t : table) (key : Z) (value : V) : option table :=
  bindo (if ht_full t then ht_grow t else Some t) (fun t =>
  bindo (ht_find t key) (fun r =>
  bindo (if EntryIndex r >=? 0 then Some (t, EntryIndex r) else
         let '(t1, idx) := ht_add_entry t key in
         option_map (fun t2 => (t2, idx))
           (if PrevIndex r >=? 0 then set_entry t1 (PrevIndex r) (with_next idx) else set_hash t1 (HashIndex r) idx))
        (fun '(t2, idx) =>
  bindo (set_entry t2 idx (with_val value)) (fun t3 =>
  if ht_full t3 then ht_grow t3 else Some t3)))).

(** the second loop of [hashtable_rehash_fast], containers.hpp:647-660 *)
Fixpoint rehash_fast_loop (idx : Z) (ks : list Z) (t : table) : option table :=
  match ks with
  | [] => Some t
  | k :: r =>
    bindo (ht_find t k) (fun fr =>
    bindo (if PrevIndex fr <? 0 then set_hash t (HashIndex fr) idx else set_entry t (PrevIndex fr) (with_next idx)) (fun t1 =>
    rehash_fast_loop (idx + 1) r t1))
  end.
(** containers.hpp:634-661 [hashtable_rehash_fast]; entry keys are not changed by the loop *)
Definition ht_rehash_fast (t : table) : option table :=
  let t0 := {| hashes := map (fun _ => -1) (hashes t); entries := map (with_next (-1)) (entries t) |} in
  rehash_fast_loop 0 (map e_key (entries t)) t0.

(** array remove_at on a sequence (C08) *)
Definition remove_nth {A} (i : nat) (l : list A) : list A := firstn i l ++ skipn (i + 1) l.

(** containers.hpp:670-675 [hashtable_remove_entry] *)
Definition ht_remove_entry (t : table) (idx : Z) : option table :=
  if (0 <=? idx) && (idx <? Z.of_nat (length (entries t))) then
    Some {| hashes := hashes t; entries := remove_nth (Z.to_nat idx) (entries t) |}
  else None.
(** containers.hpp:663-668 [hashtable_remove] *)
Definition ht_remove (t : table) (key : Z) : option table :=
  bindo (ht_find t key) (fun r =>
    if EntryIndex r >=? 0 then bindo (ht_remove_entry t (EntryIndex r)) ht_rehash_fast else Some t).

(** containers.hpp:572-581 [hashtable_map]: the sequence of (key, value) calls *)
Definition ht_map_calls (t : table) : list (Z * V) := map (fun e => (e_key e, e_val e)) (entries t).

Inductive ht_op := HSet (k : Z) (v : V) | HClear | HRemove (k : Z) | HGrow | HRehash (n : Z).
Definition ht_step (t : table) (o : ht_op) : option table :=
  match o with
  | HSet k v => ht_set t k v
  | HClear => Some (ht_clear t)
  | HRemove k => ht_remove t k
  | HGrow => ht_grow t
  | HRehash n => ht_rehash t n
  end.
Definition ht_run (t : table) (ops : list ht_op) : option table :=
  fold_left (fun t o => bindo t (fun t => ht_step t o)) ops (Some t).
End HT.
Arguments e_key {V}. Arguments e_next {V}. Arguments e_val {V}.
Arguments hashes {V}. Arguments entries {V}. Arguments with_next {V}. Arguments with_val {V}.
Arguments ht_get {V}. Arguments ht_find {V}. Arguments ht_full {V}. Arguments ht_clear {V}. Arguments ht_remove {V}.
Arguments ht_rehash_fast {V}. Arguments find_loop {V}. Arguments ht_remove_entry {V}. Arguments ht_map_calls {V}.
Arguments set_entry {V}. Arguments set_hash {V}. Arguments rehash_fast_loop {V}.
Arguments HSet {V}. Arguments HClear {V}. Arguments HRemove {V}. Arguments HGrow {V}. Arguments HRehash {V}.
