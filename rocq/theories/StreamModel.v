(** Memory streams: filesystem.cpp:462-660 and the file_* calls of filesystem.hpp:298-384 on them.
    The buffer of a stream is a byte function with the number of bytes allocated for it ([s_room]); a cloned buffer is an
    Array (containers.hpp) whose header fields Num and Capacity are kept. Memory that an allocation hands out has
    arbitrary content ([junk]). Allocations are taken to succeed. Reading or writing outside the allocation, or a
    negative length, is Undefined. Integers are unbounded (sizes below 2^63). *)
From Coq Require Import ZArith List Bool.
From Verif Require Import Common Text.
Import ListNotations.
Open Scope Z_scope.

(** EFileStream_CLONE_WRITABLE, EFileStream_WRITABLE, or neither (filesystem.hpp:260-270) *)
Inductive stream_flags := CLONE_WRITABLE | WRITABLE | READ_ONLY.

(** filesystem.cpp:463-473 [_memory_fd], with the header of the array *)
Record stream := { s_bytes : Z -> Z; s_room : Z; s_cap : Z; s_cursor : Z; s_flags : stream_flags; s_num : Z; s_capacity : Z }.
Definition set_cursor (c : Z) (s : stream) : stream :=
  {| s_bytes := s_bytes s; s_room := s_room s; s_cap := s_cap s; s_cursor := c; s_flags := s_flags s; s_num := s_num s; s_capacity := s_capacity s |}.

(** containers.hpp: array_grow_formula *)
Definition grow_formula (v : Z) : Z := 2 * v + 8.

Section Streams.
Variable junk : Z -> Z.

(** filesystem.cpp:496-523 [file_stream_new]; array_init reserves grow_formula(0); the cursor is not initialised *)
Definition file_stream_new (cursor : Z) : stream :=
  {| s_bytes := junk; s_room := grow_formula 0; s_cap := 0; s_cursor := cursor; s_flags := CLONE_WRITABLE; s_num := 0; s_capacity := grow_formula 0 |}.

(** filesystem.cpp:525-560 [file_stream_open] over the given bytes; array_init_reserve asserts size > 0 *)
Definition file_stream_open (cursor : Z) (buffer : list Z) (flags : stream_flags) : run stream :=
  let size := Z.of_nat (length buffer) in
  match flags with
  | CLONE_WRITABLE =>
    if size <=? 0 then Undefined else
    Done {| s_bytes := fun i => if i <? size then nth (Z.to_nat i) buffer 0 else junk i; s_room := size; s_cap := size; s_cursor := cursor; s_flags := flags; s_num := size; s_capacity := size |}
  | _ => Done {| s_bytes := fun i => nth (Z.to_nat i) buffer 0; s_room := size; s_cap := size; s_cursor := cursor; s_flags := flags; s_num := 0; s_capacity := 0 |}
  end.

(** mem_copy out of and into the buffer *)
Definition bytes_at (s : stream) (offset size : Z) : run (list Z) :=
  if (size <? 0) || (offset <? 0) || (s_room s <? offset + size) then Undefined else
  Done (map (fun i => s_bytes s (offset + Z.of_nat i)) (seq 0 (Z.to_nat size))).
Definition put_bytes (s : stream) (offset : Z) (data : list Z) (size : Z) : run stream :=
  if (size <? 0) || (offset <? 0) || (s_room s <? offset + size) || (Z.of_nat (length data) <? size) then Undefined else
  Done {| s_bytes := fun i => if (offset <=? i) && (i <? offset + size) then nth (Z.to_nat (i - offset)) data 0 else s_bytes s i;
          s_room := s_room s; s_cap := s_cap s; s_cursor := s_cursor s; s_flags := s_flags s; s_num := s_num s; s_capacity := s_capacity s |}.

(** filesystem.cpp:570-585 [_memory_file_seek]; [whence] 0 begin, 1 current, 2 end *)
Definition memory_seek (s : stream) (offset whence : Z) : stream * Z :=
  let buflen := s_cap s in
  let cursor := if whence =? 0 then 0 else if whence =? 2 then buflen else s_cursor s in
  let cursor := Z.max 0 (Z.min (Z.max (cursor + offset) 0) buflen) in
  (set_cursor cursor s, cursor).

(** filesystem.cpp:587-596 [_memory_file_read]: bytes_read is always [size] *)
Definition memory_read (s : stream) (size offset : Z) : run (list Z) := bytes_at s offset size.

(** containers.hpp:313-326, 383-414 [array_grow] and [array_set_capacity] on the buffer: a new allocation, into which the
    first Num bytes are moved *)
Definition array_grow (s : stream) (min_capacity : Z) : stream :=
  let new_capacity := Z.max (grow_formula (s_capacity s)) min_capacity in
  {| s_bytes := fun i => if i <? s_num s then s_bytes s i else junk i; s_room := new_capacity; s_cap := s_cap s; s_cursor := s_cursor s; s_flags := s_flags s;
     s_num := s_num s; s_capacity := new_capacity |}.

(** filesystem.cpp:598-641 [_memory_file_write]; result: the stream, success, bytes_written *)
Definition memory_write (s : stream) (data : list Z) (offset : Z) : run (stream * bool * Z) :=
  match s_flags s with
  | READ_ONLY => Done (s, false, 0)
  | flags =>
    let size := Z.of_nat (length data) in
    let buflen := s_cap s in
    let extralen := Z.max 0 (size - (buflen - offset)) in
    let rwlen := size - extralen in
    let new_cap := buflen + extralen in
    let s := match flags with CLONE_WRITABLE => if s_capacity s <? new_cap then array_grow s new_cap else s | _ => s end in
    rbind (put_bytes s offset data rwlen) (fun s =>
    match flags with
    | CLONE_WRITABLE =>
      if 0 <? extralen then
        rbind (put_bytes s (offset + rwlen) (skipn (Z.to_nat rwlen) data) extralen) (fun s =>
        Done ({| s_bytes := s_bytes s; s_room := s_room s; s_cap := new_cap; s_cursor := s_cursor s; s_flags := s_flags s; s_num := s_num s; s_capacity := new_cap |}, true, rwlen + extralen))
      else Done (s, true, rwlen)
    | _ => Done (s, true, rwlen)
    end)
  end.

(** filesystem.hpp:298-309, 324-334 [file_seek], [file_tell]; filesystem.cpp:422-433 [file_size] *)
Definition file_seek (s : stream) (offset : Z) : stream * Z := memory_seek s offset 0.
Definition file_tell (s : stream) : stream * Z := memory_seek s 0 1.
Definition file_size (s : stream) : stream * Z :=
  let '(s, prev_offset) := file_tell s in
  let '(s, _) := memory_seek s 0 2 in
  let '(s, size) := file_tell s in
  (fst (file_seek s prev_offset), size).
(** filesystem.hpp:336-343 [file_read]; result: the stream and the bytes *)
Definition file_read (s : stream) (size : Z) : run (stream * list Z) :=
  let '(s, cur_offset) := file_tell s in
  let '(s, at_) := file_tell s in
  rbind (memory_read s size at_) (fun b => Done (fst (file_seek s (cur_offset + size)), b)).
(** filesystem.hpp:359-369 [file_write] *)
Definition file_write (s : stream) (data : list Z) : run (stream * bool) :=
  let '(s, cur_offset) := file_tell s in
  let '(s, at_) := file_tell s in
  rbind (memory_write s data at_) (fun '(s, ok, _) => Done (fst (file_seek s (cur_offset + Z.of_nat (length data))), ok)).

(** the calls, and what they return *)
Inductive stream_op := SWriteAt (data : list Z) (offset : Z) | SReadAt (size offset : Z) | SSeek (offset : Z) | STell | SSize | SRead (size : Z) | SWrite (data : list Z).
Inductive answer := AOk (b : bool) | ABytes (b : list Z) | APos (p : Z).
Definition stream_step (s : stream) (o : stream_op) : run (stream * answer) :=
  match o with
  | SWriteAt data offset => rbind (memory_write s data offset) (fun '(s, ok, _) => Done (s, AOk ok))
  | SReadAt size offset => rbind (memory_read s size offset) (fun b => Done (s, ABytes b))
  | SSeek offset => let '(s, p) := file_seek s offset in Done (s, APos p)
  | STell => let '(s, p) := file_tell s in Done (s, APos p)
  | SSize => let '(s, p) := file_size s in Done (s, APos p)
  | SRead size => rbind (file_read s size) (fun '(s, b) => Done (s, ABytes b))
  | SWrite data => rbind (file_write s data) (fun '(s, ok) => Done (s, AOk ok))
  end.
Fixpoint stream_run (s : stream) (ops : list stream_op) : run (stream * list answer) :=
  match ops with
  | [] => Done (s, [])
  | o :: r => rbind (stream_step s o) (fun '(s, a) => rbind (stream_run s r) (fun '(s, l) => Done (s, a :: l)))
  end.
End Streams.
