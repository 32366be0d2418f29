(** Model of gencpp's C string helpers: base/dependencies/string_ops.hpp and string_ops.cpp.
    A [char*] is an address into byte memory; chars are bytes 0..255 and [sc] gives the signed value
    on which C compares and subtracts.  Loops take explicit fuel; [NoFuel] is "still running". *)
From Coq Require Import String ZArith List Bool.
From Verif Require Import Common Text.
Import ListNotations.
Open Scope Z_scope.

(** ** characters *)
(** string_ops.hpp:53-59 *)
Definition char_is_alpha (b : Z) : bool :=
  let c := sc b in ((c >=? 65) && (c <=? 90)) || ((c >=? 97) && (c <=? 122)).
(** string_ops.hpp:67-73 *)
Definition char_is_digit (b : Z) : bool := let c := sc b in (c >=? 48) && (c <=? 57).
(** string_ops.hpp:61-65 *)
Definition char_is_alphanumeric (b : Z) : bool := char_is_alpha b || char_is_digit b.
(** string_ops.hpp:75-81 *)
Definition char_is_hex_digit (b : Z) : bool :=
  let c := sc b in char_is_digit b || ((c >=? 97) && (c <=? 102)) || ((c >=? 65) && (c <=? 70)).
(** string_ops.hpp:83-89: ' ' \t \n \r \f \v *)
Definition char_is_space (b : Z) : bool :=
  let c := sc b in (c =? 32) || (c =? 9) || (c =? 10) || (c =? 13) || (c =? 12) || (c =? 11).
(** string_ops.hpp:91-97; the result is converted back to a byte *)
Definition char_to_lower (b : Z) : Z :=
  let c := sc b in if (c >=? 65) && (c <=? 90) then (97 + (c - 65)) mod 256 else b.
(** string_ops.hpp:99-104 *)
Definition char_to_upper (b : Z) : Z :=
  let c := sc b in if (c >=? 97) && (c <=? 122) then (65 + (c - 97)) mod 256 else b.
(** string_ops.hpp:106-110 *)
Definition digit_to_int (b : Z) : Z := if char_is_digit b then sc b - 48 else sc b - 87.
(** string_ops.hpp:112-122 *)
Definition hex_digit_to_int (b : Z) : Z :=
  let c := sc b in
  if char_is_digit b then digit_to_int b
  else if (97 <=? c) && (c <=? 102) then c - 97 + 10
  else if (65 <=? c) && (c <=? 70) then c - 65 + 10
  else -1.

(** ** C strings *)
(** string_ops.hpp:41-51 [char_first_occurence]; [None] inside is NULL *)
Definition char_first_occurence (fuel : nat) (m : mem) (s c : Z) : option (option Z) :=
  match while fuel (fun s => negb (m s =? c) && negb (m s =? 0)) (fun s => s + 1) s with
  | None => None
  | Some s => Some (if m s =? c then Some s else None)
  end.

(** string_ops.hpp:124-132 [c_str_compare] *)
Definition c_str_compare (fuel : nat) (m : mem) (s1 s2 : Z) : option Z :=
  match while fuel (fun '(a, b) => negb (m a =? 0) && (m a =? m b)) (fun '(a, b) => (a + 1, b + 1)) (s1, s2) with
  | None => None
  | Some (a, b) => Some (m a - m b)
  end.

(** string_ops.hpp:134-145 [c_str_compare_len]: the sign compares the two *pointers* *)
Definition c_str_compare_len (m : mem) (s1 s2 len : Z) : option Z :=
  match while (Z.to_nat len)
          (fun '(a, b, l) => (l >? 0) && (m a =? m b) && negb (m a =? 0))
          (fun '(a, b, l) => (a + 1, b + 1, l - 1)) (s1, s2, len) with
  | None => None
  | Some (a, b, l) =>
    if l >? 0 then if negb (m a =? m b) then Some (if a <? b then -1 else 1) else Some 0 else Some 0
  end.

(** string_ops.hpp:153-163 the two copy loops shared by [c_str_copy] and [c_str_copy_nulpad];
    result: memory and the advanced source pointer *)
Definition copy_loops (m : mem) (dest source len : Z) : option (mem * Z) :=
  match while (Z.to_nat len)
          (fun '(m, d, s, l) => (l >? 0) && negb (m s =? 0))
          (fun '(m, d, s, l) => (store8 m d (m s), d + 1, s + 1, l - 1)) (m, dest, source, len) with
  | None => None
  | Some (m1, d1, s1, l1) =>
    match while (Z.to_nat len)
            (fun '(m, d, l) => l >? 0)
            (fun '(m, d, l) => (store8 m d 0, d + 1, l - 1)) (m1, d1, l1) with
    | None => None
    | Some (m2, _, _) => Some (m2, s1)
    end
  end.
(** string_ops.hpp:147-166 [c_str_copy] (returns dest) *)
Definition c_str_copy (m : mem) (dest source len : Z) : option (mem * Z) :=
  if source =? 0 then Some (m, dest) else
  option_map (fun '(m1, _) => (m1, dest)) (copy_loops m dest source len).
(** string_ops.hpp:168-191 [c_str_copy_nulpad] (returns the number of bytes taken from source) *)
Definition c_str_copy_nulpad (m : mem) (dest source len : Z) : option (mem * Z) :=
  if source =? 0 then Some (m, 0) else
  option_map (fun '(m1, s1) => (m1, s1 - source)) (copy_loops m dest source len).

(** string_ops.hpp:193-204 [c_str_len] *)
Definition c_str_len (fuel : nat) (m : mem) (str : Z) : option Z :=
  if str =? 0 then Some 0 else
  option_map (fun e => e - str) (while fuel (fun s => negb (m s =? 0)) (fun s => s + 1) str).

(** memory.hpp:16-25 [swap] on two chars in memory *)
Definition swap8 (m : mem) (a b : Z) : mem := store8 (store8 m a (m b)) b (m a).

(** string_ops.hpp:215-228 [c_str_reverse] *)
Definition c_str_reverse (fuel : nat) (m : mem) (str : Z) : option mem :=
  match c_str_len fuel m str with
  | None => None
  | Some len =>
    option_map (fun '(m, _, _, _) => m)
      (while fuel (fun '(m, a, b, l) => negb (l =? 0))
                  (fun '(m, a, b, l) => (swap8 m a b, a + 1, b - 1, l - 1))
                  (m, str, str + len - 1, Z.quot len 2))
  end.

(** string_ops.hpp:230-238 [c_str_skip] *)
Definition c_str_skip (fuel : nat) (m : mem) (str c : Z) : option Z :=
  while fuel (fun s => negb (m s =? 0) && negb (m s =? c)) (fun s => s + 1) str.

(** string_ops.hpp:240-251 [c_str_skip_any] *)
Fixpoint skip_any_loop (fuel : nat) (m : mem) (str list : Z) (n : nat) (i closest : Z) : option Z :=
  match n with
  | O => Some closest
  | S n' => match c_str_skip fuel m str (m (list + i)) with
            | None => None
            | Some p => skip_any_loop fuel m str list n' (i + 1) (Z.min closest p)
            end
  end.
Definition c_str_skip_any (fuel : nat) (m : mem) (str list : Z) : option Z :=
  match c_str_len fuel m str, c_str_len fuel m list with
  | Some l, Some n => skip_any_loop fuel m str list (Z.to_nat n) 0 (str + l)
  | _, _ => None
  end.

(** string_ops.hpp:253-261 [c_str_trim] *)
Definition c_str_trim (fuel : nat) (m : mem) (str : Z) (catch_newline : bool) : option Z :=
  while fuel (fun s => negb (m s =? 0) && char_is_space (m s) &&
                       (negb catch_newline || (catch_newline && negb (m s =? 10))))
             (fun s => s + 1) str.

(** string_ops.hpp:263-285 [c_str_to_lower], [c_str_to_upper]: apply [f] to every char *)
Definition c_str_map (f : Z -> Z) (fuel : nat) (m : mem) (str : Z) : option mem :=
  if str =? 0 then Some m else
  option_map fst (while fuel (fun '(m, s) => negb (m s =? 0)) (fun '(m, s) => (store8 m s (f (m s)), s + 1)) (m, str)).
Definition c_str_to_lower := c_str_map char_to_lower.
Definition c_str_to_upper := c_str_map char_to_upper.

(** ** integers *)
Definition s64_ok (z : Z) : bool := (- 2 ^ 63 <=? z) && (z <? 2 ^ 63).

(** string_ops.cpp:24-37, the digit loop of [_scan_zpl_i64]; signed overflow is undefined *)
Fixpoint scan_loop (fuel : nat) (m : mem) (base text result : Z) : run (Z * Z) :=
  let digit := if char_is_digit (m text) then Some (sc (m text) - 48)
               else if (base =? 16) && char_is_hex_digit (m text) then Some (hex_digit_to_int (m text))
               else None in
  match digit with
  | None => Done (text, result)
  | Some v =>
    match fuel with
    | O => NoFuel
    | S f => if s64_ok (result * base) && s64_ok (result * base + v)
             then scan_loop f m base (text + 1) (result * base + v)
             else Undefined
    end
  end.
(** string_ops.cpp:8-47 [_scan_zpl_i64]; comparing with the literal "0x" for 2 chars (string_ops.hpp:134)
    is written out as two byte comparisons. Result: (bytes consumed, value). *)
Definition scan_i64 (fuel : nat) (m : mem) (text0 base : Z) : run (Z * Z) :=
  let negative := m text0 =? 45 in
  let text := if negative then text0 + 1 else text0 in
  let text := if (base =? 16) && ((m text =? 48) && (m (text + 1) =? 120)) then text + 2 else text in
  rbind (scan_loop fuel m base text 0) (fun '(text, result) =>
    if negative then if s64_ok (- result) then Done (text - text0, - result) else Undefined
    else Done (text - text0, result)).

(** string_ops.cpp:56-73 [c_str_to_i64]; result: (value, end pointer) *)
Definition c_str_to_i64 (fuel : nat) (m : mem) (str base : Z) : run (Z * Z) :=
  rbind (if base =? 0 then
           rbind (of_opt (c_str_len fuel m str)) (fun l =>
             Done (if (l >? 2) && ((m str =? 48) && (m (str + 1) =? 120)) then 16 else 10))
         else Done base) (fun base =>
  rbind (scan_i64 fuel m str base) (fun '(len, value) => Done (value, str + len))).

(** string_ops.cpp:50-54 [_num_to_char_table] *)
Definition num_to_char_table : list Z :=
  txt "0123456789ABCDEFGHIJKLMNOPQRSTUVWXYZabcdefghijklmnopqrstuvwxyz@$".
(** the table has 65 bytes (its NUL included); other indices are out of bounds *)
Definition num_to_char (i : Z) : option Z :=
  if i <? 0 then None else nth_error (num_to_char_table ++ [0]) (Z.to_nat i).

(** string_ops.cpp:90-94 / 112-116: digits least significant first. [base] converted to u64. *)
Fixpoint digits_loop (fuel : nat) (m : mem) (buf v base : Z) : run (mem * Z) :=
  if v >? 0 then
    match fuel with
    | O => NoFuel
    | S f =>
      let b := base mod 2 ^ 64 in
      if b =? 0 then Undefined else
      match num_to_char (v mod b) with
      | None => Undefined
      | Some c => digits_loop f (store8 m buf c) (buf + 1) (v / b) base
      end
    end
  else Done (m, buf).

(** string_ops.cpp:106-125 [u64_to_str] *)
Definition u64_to_str (fuel : nat) (m : mem) (value string base : Z) : run mem :=
  rbind (if negb (value =? 0) then digits_loop fuel m string value base
         else Done (store8 m string 48, string + 1)) (fun '(m, buf) =>
  of_opt (c_str_reverse fuel (store8 m buf 0) string)).

(** string_ops.cpp:75-104 [i64_to_str]; [-value] overflows for INT64_MIN *)
Definition i64_to_str (fuel : nat) (m : mem) (value string base : Z) : run mem :=
  let negative := value <? 0 in
  if negative && negb (s64_ok (- value)) then Undefined else
  let v := if negative then - value else value in
  rbind (if negb (v =? 0) then digits_loop fuel m string v base
         else Done (store8 m string 48, string + 1)) (fun '(m, buf) =>
  let '(m, buf) := if negative then (store8 m buf 45, buf + 1) else (m, buf) in
  of_opt (c_str_reverse fuel (store8 m buf 0) string)).
