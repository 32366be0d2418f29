(** Byte-level model of gencpp's strings: base/dependencies/strings.hpp and strings.cpp.
    A Str is (Ptr, Len); a StrBuilder is its Data pointer [s] (0 = null), with the StrBuilderHeader
    {AllocatorInfo (16 bytes); Capacity; Length} in the 32 bytes below it.  Functions that take a
    [StrBuilder* ] return the new Data pointer instead of writing it through the pointer.
    The allocator is a pair of functions: [al] (ALLOC: memory, size -> memory, address) and
    [rs] (RESIZE: memory, pointer, old size, new size -> memory, address); address 0 is nullptr.
    Writing header->Allocator is not modelled. *)
From Coq Require Import String ZArith List Bool.
From Verif Require Import Common MemModel Text ArrayModel StrOpsModel.
Import ListNotations.
Open Scope Z_scope.

(** memcpy with a negative length (converted to a huge size_t) is undefined; memory.cpp:8-16 *)
Definition mem_copy_s (m : mem) (dst src n : Z) : run mem :=
  if n <? 0 then Undefined else Done (mem_copy m dst src n).

(** ** Str *)
(** strings.hpp:61-72 [str_are_equal]: the comparison loop *)
Fixpoint equal_loop (n : nat) (m : mem) (a b : Z) : bool :=
  match n with O => true | S n' => if m a =? m b then equal_loop n' m (a + 1) (b + 1) else false end.
Definition str_are_equal (m : mem) (lp ll rp rl : Z) : bool :=
  if negb (ll =? rl) then false else equal_loop (Z.to_nat ll) m lp rp.

(** strings.hpp:87-92: for idx = 0 .. main_len - sub_len *)
Fixpoint contains_loop (n : nat) (m : mem) (p sub subl : Z) : option bool :=
  match n with
  | O => Some false
  | S n' => match c_str_compare_len m p sub subl with
            | None => None
            | Some c => if c =? 0 then Some true else contains_loop n' m (p + 1) sub subl
            end
  end.
(** strings.hpp:79-93 [str_contains] *)
Definition str_contains (m : mem) (p l sub subl : Z) : option bool :=
  if subl >? l then Some false else contains_loop (Z.to_nat (l - subl + 1)) m p sub subl.
(** strings.hpp:95-102 [str_starts_with] *)
Definition str_starts_with (m : mem) (p l sub subl : Z) : option bool :=
  if subl >? l then Some false else option_map (fun c => c =? 0) (c_str_compare_len m p sub subl).

(** ** StrBuilder *)
(** strings.hpp:161-165 *)
Definition SB_HEADER : Z := 32.
Definition sb_capacity (m : mem) (s : Z) : Z := ld64 m (s - 16).      (* strings.hpp:464-468 *)
Definition sb_length (m : mem) (s : Z) : Z := ld64 m (s - 8).         (* strings.hpp:495-500 *)
Definition sb_avail_space (m : mem) (s : Z) : Z := sb_capacity m s - sb_length m s.  (* :413-417 *)
Definition sb_set_length (m : mem) (s n : Z) : mem := st64 m (s - 8) n.
Definition sb_set_capacity (m : mem) (s n : Z) : mem := st64 m (s - 16) n.

(** strings.hpp:292-296 *)
Definition strbuilder_grow_formula (v : Z) : Z := w64 (4 * v + 8).

Section Alloc.
Variable al : mem -> Z -> mem * Z.
Variable rs : mem -> Z -> Z -> Z -> mem * Z.

(** strings.cpp:8-36 [strbuilder_make_length]; alloc_size is an s32 *)
Definition strbuilder_make_length (m : mem) (str length : Z) : run (mem * Z) :=
  let alloc_size := to_s32 (SB_HEADER + length + 1) in
  let '(m, p) := al m alloc_size in
  if p =? 0 then Done (m, 0) else
  let s := p + SB_HEADER in
  let m := sb_set_length (sb_set_capacity m s length) s length in
  rbind (if negb (length =? 0) && negb (str =? 0) then mem_copy_s m s str length
         else of_opt (mem_set m s 0 (alloc_size - SB_HEADER))) (fun m =>
  Done (store8 m (s + length) 0, s)).

(** strings.cpp:38-59 [strbuilder_make_reserve] *)
Definition strbuilder_make_reserve (m : mem) (capacity : Z) : run (mem * Z) :=
  let alloc_size := to_s32 (SB_HEADER + capacity + 1) in
  let '(m, p) := al m alloc_size in
  if p =? 0 then Done (m, 0) else
  rbind (of_opt (mem_set m p 0 alloc_size)) (fun m =>
  let s := p + SB_HEADER in
  Done (sb_set_length (sb_set_capacity m s capacity) s 0, s)).

(** strings.cpp:61-96 [strbuilder_make_space_for]; result: memory, Data, success *)
Definition strbuilder_make_space_for (m : mem) (s add_len : Z) : mem * Z * bool :=
  if sb_avail_space m s >=? add_len then (m, s, true) else
  let new_len := strbuilder_grow_formula (sb_length m s + add_len) in
  let ptr := s - SB_HEADER in
  let old_size := SB_HEADER + sb_length m s + 1 in
  let new_size := SB_HEADER + new_len + 1 in
  let '(m, p) := rs m ptr old_size new_size in
  if p =? 0 then (m, s, false) else
  (sb_set_capacity m (p + SB_HEADER) new_len, p + SB_HEADER, true).

(** strings.cpp:98-118 [strbuilder_append_c_str_len] *)
Definition strbuilder_append_c_str_len (m : mem) (s str n : Z) : run (mem * Z * bool) :=
  if str >? 0 then
    let curr_len := sb_length m s in
    let '(m, s, ok) := strbuilder_make_space_for m s n in
    if ok then
      rbind (mem_copy_s m (s + curr_len) str n) (fun m =>
      let m := store8 m (s + curr_len + n) 0 in
      Done (sb_set_length m s (curr_len + n), s, true))
    else Done (m, s, false)
  else Done (m, s, negb (str =? 0)).

(** strings.hpp:355-371 [strbuilder_append_c_str], [_append_str], [_append_string] *)
Definition strbuilder_append_c_str (fuel : nat) (m : mem) (s str : Z) : run (mem * Z * bool) :=
  rbind (of_opt (c_str_len fuel m str)) (fun n => strbuilder_append_c_str_len m s str n).
Definition strbuilder_append_str (m : mem) (s p l : Z) : run (mem * Z * bool) := strbuilder_append_c_str_len m s p l.
Definition strbuilder_append_string (m : mem) (s other : Z) : run (mem * Z * bool) :=
  strbuilder_append_c_str_len m s other (sb_length m other).
(** strings.hpp:475-478 [strbuilder_duplicate], strings.hpp:583-587 [str_duplicate] *)
Definition strbuilder_duplicate (m : mem) (s : Z) : run (mem * Z) := strbuilder_make_length m s (sb_length m s).

(** strings.hpp:333-347 [strbuilder_join]: [glue] and [parts] are C strings; [empty] is the address of "" *)
Fixpoint join_loop (fuel : nat) (m : mem) (s : Z) (parts : list Z) (glue : Z) : run (mem * Z) :=
  match parts with
  | [] => Done (m, s)
  | p :: rest =>
    rbind (strbuilder_append_c_str fuel m s p) (fun '(m, s, _) =>
    match rest with
    | [] => Done (m, s)
    | _ => rbind (strbuilder_append_c_str fuel m s glue) (fun '(m, s, _) => join_loop fuel m s rest glue)
    end)
  end.
Definition strbuilder_join (fuel : nat) (m : mem) (parts : list Z) (glue empty : Z) : run (mem * Z) :=
  rbind (strbuilder_make_length m empty 0) (fun '(m, s) => join_loop fuel m s parts glue).
End Alloc.

(** strings.hpp:470-473 [strbuilder_clear]: only the length is reset *)
Definition strbuilder_clear (m : mem) (s : Z) : mem := sb_set_length m s 0.

(** strings.hpp:387-411 [strbuilder_are_equal_string], [strbuilder_are_equal_str] *)
Definition strbuilder_are_equal_string (m : mem) (a b : Z) : bool :=
  if negb (sb_length m a =? sb_length m b) then false else equal_loop (Z.to_nat (sb_length m a)) m a b.
Definition strbuilder_are_equal_str (m : mem) (a p l : Z) : bool :=
  if negb (sb_length m a =? l) then false else equal_loop (Z.to_nat (sb_length m a)) m a p.
(** strings.hpp:424-462 [strbuilder_contains_StrC], [strbuilder_contains_string] *)
Definition strbuilder_contains_StrC (m : mem) (s p l : Z) : option bool := str_contains m s (sb_length m s) p l.
Definition strbuilder_contains_string (m : mem) (s sub : Z) : option bool := str_contains m s (sb_length m s) sub (sb_length m sub).
(** strings.hpp:502-509 [strbuilder_starts_with_str] *)
Definition strbuilder_starts_with_str (m : mem) (s p l : Z) : option bool := str_starts_with m s (sb_length m s) p l.
(** strings.hpp:511-518 [strbuilder_starts_with_string]: compares one char less than the prefix has *)
Definition strbuilder_starts_with_string (m : mem) (s sub : Z) : option bool :=
  if sb_length m sub >? sb_length m s then Some false else
  option_map (fun c => c =? 0) (c_str_compare_len m s sub (sb_length m sub - 1)).

(** is [c] in the C string [cut]? (string_ops.hpp:41-51, result as a boolean; [None]: no result in the fuel) *)
Definition in_cut (fuel : nat) (m : mem) (cut c : Z) : option bool :=
  option_map (fun r => match r with Some _ => true | None => false end) (char_first_occurence fuel m cut c).
(** strings.cpp:127-128 *)
Fixpoint trim_front (fuel cf : nat) (m : mem) (cut start fin : Z) : option Z :=
  if start <=? fin then
    match in_cut cf m cut (m start) with
    | None => None
    | Some false => Some start
    | Some true => match fuel with O => None | S f => trim_front f cf m cut (start + 1) fin end
    end
  else Some start.
(** strings.cpp:130-131 *)
Fixpoint trim_back (fuel cf : nat) (m : mem) (cut start fin : Z) : option Z :=
  if fin >? start then
    match in_cut cf m cut (m fin) with
    | None => None
    | Some false => Some fin
    | Some true => match fuel with O => None | S f => trim_back f cf m cut start (fin - 1) end
    end
  else Some fin.
(** strings.cpp:120-141 [strbuilder_trim] *)
Definition strbuilder_trim (cf : nat) (m : mem) (s cut : Z) : run mem :=
  let fuel := S (Z.to_nat (sb_length m s)) in
  rbind (of_opt (trim_front fuel cf m cut s (s + sb_length m s - 1))) (fun start =>
  rbind (of_opt (trim_back fuel cf m cut start (s + sb_length m s - 1))) (fun fin =>
  let len := if start >? fin then 0 else fin - start + 1 in
  rbind (if negb (s =? start) then of_opt (mem_move m s start len) else Done m) (fun m =>
  Done (sb_set_length (store8 m (s + len) 0) s len)))).

(** strings.hpp:548-556, the loop of [strbuilder_strip_space] *)
Fixpoint strip_loop (fuel : nat) (m : mem) (w r : Z) : run (mem * Z) :=
  if m r =? 0 then Done (m, w) else
  match fuel with
  | O => NoFuel
  | S f => if char_is_space (m r) then strip_loop f m w (r + 1)
           else strip_loop f (store8 m w (m r)) (w + 1) (r + 1)
  end.
(** strings.hpp:542-561 [strbuilder_strip_space] *)
Definition strbuilder_strip_space (fuel : nat) (m : mem) (s : Z) : run mem :=
  rbind (strip_loop fuel m s s) (fun '(m, w) => Done (sb_set_length (store8 m w 0) s (w - s))).

(** strings.hpp:520-540 [strbuilder_skip_line]; new_length is an s32 *)
Definition strbuilder_skip_line (fuel : nat) (m : mem) (s : Z) : run mem :=
  rbind (of_opt (while fuel (fun p => negb (m p =? 13) && negb (m p =? 10)) (fun p => p + 1) s)) (fun p =>
  let new_length := to_s32 (p - s) in
  let new_length := if m p =? 13 then new_length + 1 else new_length in
  rbind (of_opt (mem_move m s p new_length)) (fun m => Done (sb_set_length m s new_length))).

(** operations of a client on one builder, used for histories *)
Inductive sb_op := SAppend (p n : Z) | SAppendCStr (p : Z) | SAppendBuilder (other : Z) | SClear | STrim (cut : Z) | SStripSpace.
Definition sb_step (rs : mem -> Z -> Z -> Z -> mem * Z) (fuel : nat) (m : mem) (s : Z) (o : sb_op) : run (mem * Z * bool) :=
  match o with
  | SAppend p n => strbuilder_append_str rs m s p n
  | SAppendCStr p => strbuilder_append_c_str rs fuel m s p
  | SAppendBuilder other => strbuilder_append_string rs m s other
  | SClear => Done (strbuilder_clear m s, s, true)
  | STrim cut => rbind (strbuilder_trim fuel m s cut) (fun m => Done (m, s, true))
  | SStripSpace => rbind (strbuilder_strip_space fuel m s) (fun m => Done (m, s, true))
  end.
