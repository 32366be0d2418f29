(** Model of the raw memory routines of gencpp.
    base/dependencies/memory.hpp and base/dependencies/memory.cpp.
    [NULL] is address 0.  [ssize]/[uptr] are modelled as unbounded [Z]; the routines are
    used with addresses for which address + length does not wrap. *)
From Coq Require Import ZArith List Bool.
From Verif Require Import Common.
Import ListNotations.
Open Scope Z_scope.

(** base/dependencies/memory.hpp:441-446 [is_power_of_two] *)
Definition is_power_of_two (x : Z) : bool :=
  if x <=? 0 then false else Z.land x (x - 1) =? 0.

(** base/dependencies/memory.hpp:448-456 [align_forward]; [None] = failed GEN_ASSERT.
    [uptr] arithmetic wraps modulo 2^64; [alignment] is converted to uptr. *)
Definition align_forward (p a : Z) : option Z :=
  if is_power_of_two a then
    Some (Z.land ((p + (a - 1)) mod 2 ^ 64) (Z.lnot (a - 1) mod 2 ^ 64))
  else None.

(** base/dependencies/memory.hpp:458 [align_forward_s64]; C [%] truncates towards zero (Z.rem). *)
Definition align_forward_s64 (v a : Z) : Z := v + Z.rem (a - Z.rem v a) a.

(** base/dependencies/memory.cpp:8-16 [mem_copy] (memcpy on non-overlapping regions; on
    overlapping regions memcpy is undefined and this model is not meant to describe it). *)
Definition mem_copy (m : mem) (dst src n : Z) : mem :=
  if dst =? 0 then m else copy_region m dst src n.

(** one byte copy [*d = *s] *)
Definition copy1 (m : mem) (d s : Z) : mem := store8 m d (m s).
(** one 8-byte copy through ssize*  *)
Definition copy8 (m : mem) (d s : Z) : mem := store_le 8 m d (load_le 8 m s).

(** forward loops, base/dependencies/memory.hpp:484-505: state (memory, dest, src, count) *)
Definition mv_st := (mem * Z * Z * Z)%type.

(** memory.hpp:488-494: [while (dest%8) { if (!count--) return; *dest++ = *src++; }] as a loop that
    stops when aligned or out of bytes; the early return is the case "not aligned at exit". *)
Definition fwd_align_cond (s : mv_st) : bool :=
  let '(m, d, sr, n) := s in negb (d mod 8 =? 0) && negb (n =? 0).
Definition fwd_byte (s : mv_st) : mv_st :=
  let '(m, d, sr, n) := s in (copy1 m d sr, d + 1, sr + 1, n - 1).
(** memory.hpp:495-501 *)
Definition word_cond (s : mv_st) : bool := let '(m, d, sr, n) := s in 8 <=? n.
Definition fwd_word (s : mv_st) : mv_st :=
  let '(m, d, sr, n) := s in (copy8 m d sr, d + 8, sr + 8, n - 8).
(** memory.hpp:503-504 *)
Definition rest_cond (s : mv_st) : bool := let '(m, d, sr, n) := s in negb (n =? 0).

(** backward loops, memory.hpp:506-525: dest and src fixed, count decreases *)
Definition bwd_align_cond (s : mv_st) : bool :=
  let '(m, d, sr, n) := s in negb ((d + n) mod 8 =? 0) && negb (n =? 0).
Definition bwd_byte (s : mv_st) : mv_st :=
  let '(m, d, sr, n) := s in (copy1 m (d + (n - 1)) (sr + (n - 1)), d, sr, n - 1).
Definition bwd_word (s : mv_st) : mv_st :=
  let '(m, d, sr, n) := s in (copy8 m (d + (n - 8)) (sr + (n - 8)), d, sr, n - 8).

Definition st_mem (s : mv_st) : mem := let '(m, _, _, _) := s in m.

(** base/dependencies/memory.hpp:467-528 [mem_move]; [None] would mean a loop did not finish. *)
Definition mem_move (m : mem) (dst src n : Z) : option mem :=
  if dst =? 0 then Some m else
  if dst =? src then Some m else
  if (src + n <=? dst) || (dst + n <=? src) then Some (mem_copy m dst src n) else
  let fuel := Z.to_nat n in
  if dst <? src then
    let s0 : mv_st := (m, dst, src, n) in
    if (src mod 8 =? dst mod 8) then
      match while fuel fwd_align_cond fwd_byte s0 with
      | None => None
      | Some s1 =>
        let '(m1, d1, sr1, n1) := s1 in
        if negb (d1 mod 8 =? 0) then Some m1 (* early return *) else
        match while fuel word_cond fwd_word s1 with
        | None => None
        | Some s2 => option_map st_mem (while fuel rest_cond fwd_byte s2)
        end
      end
    else option_map st_mem (while fuel rest_cond fwd_byte s0)
  else
    let s0 : mv_st := (m, dst, src, n) in
    if (src mod 8 =? dst mod 8) then
      match while fuel bwd_align_cond bwd_byte s0 with
      | None => None
      | Some s1 =>
        let '(m1, d1, sr1, n1) := s1 in
        if negb ((d1 + n1) mod 8 =? 0) then Some m1 else
        match while fuel word_cond bwd_word s1 with
        | None => None
        | Some s2 => option_map st_mem (while fuel rest_cond bwd_byte s2)
        end
      end
    else option_map st_mem (while fuel rest_cond bwd_byte s0).

(** base/dependencies/memory.hpp:540 [fill_word] (u32 arithmetic) *)
Definition fill_word (c : Z) : Z := (4294967295 / 255 * c) mod 2 ^ 32.
(** memory.hpp:589 [fill_doubleword] *)
Definition fill_doubleword (c : Z) : Z :=
  Z.lor (Z.shiftl (fill_word c) 32 mod 2 ^ 64) (fill_word c).

(** memory.hpp:590-599: state (memory, dest, count) *)
Definition set_st := (mem * Z * Z)%type.
Definition set_cond (s : set_st) : bool := let '(m, d, n) := s in 31 <? n.
Definition set_body (c : Z) (s : set_st) : set_st :=
  let '(m, d, n) := s in
  let w := fill_doubleword c in
  (store_le 8 (store_le 8 (store_le 8 (store_le 8 m (d + 0) w) (d + 8) w) (d + 16) w) (d + 24) w,
   d + 32, n - 32).

(** base/dependencies/memory.hpp:530-603 [mem_set]. Line 584 is written
    [24 + to_uptr(dest_ptr) & 4], which C parses as [(24 + dest) & 4]: modelled so. *)
Definition mem_set (m : mem) (dst c n : Z) : option mem :=
  if dst =? 0 then Some m else
  if n =? 0 then Some m else
  let m := store8 (store8 m (dst + (n - 1)) c) (dst + 0) c in
  if n <? 3 then Some m else
  let m := store8 (store8 m (dst + (n - 2)) c) (dst + 1) c in
  let m := store8 (store8 m (dst + (n - 3)) c) (dst + 2) c in
  if n <? 7 then Some m else
  let m := store8 (store8 m (dst + (n - 4)) c) (dst + 3) c in
  if n <? 9 then Some m else
  let off := Z.land (- dst) 3 in
  let d := dst + off in
  let n := Z.land (n - off) (-4) in
  let w := fill_word c in
  let m := store_le 4 m (d + 0) w in
  let m := store_le 4 m (d + n - 4) w in
  if n <? 9 then Some m else
  let m := store_le 4 m (d + 4) w in
  let m := store_le 4 m (d + 8) w in
  let m := store_le 4 m (d + n - 12) w in
  let m := store_le 4 m (d + n - 8) w in
  if n <? 25 then Some m else
  let m := store_le 4 m (d + 12) w in
  let m := store_le 4 m (d + 16) w in
  let m := store_le 4 m (d + 20) w in
  let m := store_le 4 m (d + 24) w in
  let m := store_le 4 m (d + n - 28) w in
  let m := store_le 4 m (d + n - 24) w in
  let m := store_le 4 m (d + n - 20) w in
  let m := store_le 4 m (d + n - 16) w in
  let off2 := Z.land (24 + d) 4 in
  let d := d + off2 in
  let n := n - off2 in
  match while (Z.to_nat n) set_cond (set_body c) (m, d, n) with
  | None => None
  | Some (m, _, _) => Some m
  end.

(** base/dependencies/memory.hpp:667-670 [zero_size] *)
Definition zero_size (m : mem) (p n : Z) : option mem := mem_set m p 0 n.

(** base/dependencies/memory.hpp:13-15 GEN__ONES, GEN__HIGHS, GEN__HAS_ZERO (64-bit usize) *)
Definition GEN_ONES : Z := (2 ^ 64 - 1) / 255.
Definition GEN_HIGHS : Z := GEN_ONES * (255 / 2 + 1).
Definition GEN_HAS_ZERO (x : Z) : bool :=
  negb (Z.land (Z.land ((x - GEN_ONES) mod 2 ^ 64) (Z.lnot x mod 2 ^ 64)) GEN_HIGHS =? 0).

(** loops of [mem_find]: state (s, n) *)
Definition mf_st := (Z * Z)%type.
Definition mf_align_cond (m : mem) (c : Z) (st : mf_st) : bool :=
  let '(s, n) := st in negb (Z.land s 7 =? 0) && negb (n =? 0) && negb (m s =? c).
Definition mf_step1 (st : mf_st) : mf_st := let '(s, n) := st in (s + 1, n - 1).
Definition mf_word_cond (m : mem) (c : Z) (st : mf_st) : bool :=
  let '(s, n) := st in
  (8 <=? n) && negb (GEN_HAS_ZERO (Z.lxor (load_le 8 m s) ((GEN_ONES * c) mod 2 ^ 64))).
Definition mf_step8 (st : mf_st) : mf_st := let '(s, n) := st in (s + 8, n - 8).
Definition mf_rest_cond (m : mem) (c : Z) (st : mf_st) : bool :=
  let '(s, n) := st in negb (n =? 0) && negb (m s =? c).

(** base/dependencies/memory.cpp:18-46 [mem_find]. Outer [None]: a loop did not finish;
    inner [None]: NULL. The words read through [ssize const*] are viewed as unsigned 64-bit
    (the expression GEN__HAS_ZERO converts to usize). *)
Definition mem_find (m : mem) (data c n : Z) : option (option Z) :=
  let fuel := Z.to_nat n in
  match while fuel (mf_align_cond m c) mf_step1 (data, n) with
  | None => None
  | Some (s1, n1) =>
    let fin (st : mf_st) := let '(s, n) := st in if n =? 0 then None else Some s in
    if negb (n1 =? 0) && negb (m s1 =? c) then
      match while fuel (mf_word_cond m c) mf_step8 (s1, n1) with
      | None => None
      | Some st2 => option_map fin (while fuel (mf_rest_cond m c) mf_step1 st2)
      end
    else Some (fin (s1, n1))
  end.

(** base/dependencies/string_ops.hpp:207-213 [c_str_len_capped] *)
Definition c_str_len_capped (m : mem) (str maxlen : Z) : option Z :=
  match mem_find m str 0 maxlen with
  | None => None
  | Some (Some e) => Some (e - str)
  | Some None => Some maxlen
  end.
