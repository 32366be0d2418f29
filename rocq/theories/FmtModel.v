(** Byte-level model of gencpp's printf-style formatter: base/dependencies/printing.cpp.
    Memory is [mem]; [text] and [fmt] are addresses.  The variable arguments are a list of typed
    values; reading an argument of the wrong kind, or one too many, is [Undefined], as in C.
    [num] is the address of the local arrays [num] (130 bytes) and [str] (2 bytes) of the print
    helpers.  Floating point conversions (%f %F %g %G %a %A, printing.cpp:142-239) are not modelled:
    they give [Undefined]. *)
From Coq Require Import String ZArith List Bool.
From Verif Require Import Common Text ArrayModel StrOpsModel StrModel.
Import ListNotations.
Open Scope Z_scope.

(** printing.cpp:8-32 *)
Definition FMT_MINUS := 2 ^ 0.
Definition FMT_PLUS := 2 ^ 1.
Definition FMT_ALT := 2 ^ 2.
Definition FMT_SPACE := 2 ^ 3.
Definition FMT_ZERO := 2 ^ 4.
Definition FMT_CHAR := 2 ^ 5.
Definition FMT_SHORT := 2 ^ 6.
Definition FMT_INT := 2 ^ 7.
Definition FMT_LONG := 2 ^ 8.
Definition FMT_LLONG := 2 ^ 9.
Definition FMT_SIZE := 2 ^ 10.
Definition FMT_INTPTR := 2 ^ 11.
Definition FMT_UNSIGNED := 2 ^ 12.
Definition FMT_LOWER := 2 ^ 13.
Definition FMT_UPPER := 2 ^ 14.
Definition FMT_WIDTH := 2 ^ 15.
Definition FMT_INTS := FMT_CHAR + FMT_SHORT + FMT_INT + FMT_LONG + FMT_LLONG + FMT_SIZE + FMT_INTPTR.
Definition has (flags f : Z) : bool := negb (Z.land flags f =? 0).

(** printing.cpp:35-41 *)
Record info := Info { i_base : Z; i_flags : Z; i_width : Z; i_precision : Z }.
Definition set_base (i : info) b := Info b (i_flags i) (i_width i) (i_precision i).
Definition set_flags (i : info) f := Info (i_base i) f (i_width i) (i_precision i).
Definition set_width (i : info) w := Info (i_base i) (i_flags i) w (i_precision i).
Definition set_precision (i : info) p := Info (i_base i) (i_flags i) (i_width i) p.
Definition or_flags (i : info) f := set_flags i (Z.lor (i_flags i) f).

(** variable arguments: int / 64-bit integer / pointer / Str passed by value *)
Inductive arg := AInt (z : Z) | ALong (z : Z) | APtr (p : Z) | ASlice (p len : Z).

(** printing.cpp:80-81 and 90-91: while ( padding-- > 0 && remaining-- > 0 ) *text++ = pad, res++; *)
Definition pad_loop (m : mem) (text pad res padding remaining : Z) : option (mem * Z * Z) :=
  match while (Z.to_nat padding)
          (fun '(m, t, r, p, rem) => (p >? 0) && (rem >? 0))
          (fun '(m, t, r, p, rem) => (store8 m t pad, t + 1, r + 1, p - 1, rem - 1))
          (m, text, res, padding, remaining) with
  | None => None
  | Some (m, t, r, _, _) => Some (m, t, r)
  end.

(** printing.cpp:43-108 [_print_string]; [info] is never NULL on the modelled paths *)
Definition print_string (fuel : nat) (m : mem) (text max_len : Z) (i : info) (str : Z) : run (mem * Z) :=
  if (str =? 0) && (max_len >=? 6) then Done (store_bytes m text (txt "(null)"), 6) else
  rbind (if i_precision i >=? 0 then Done (i_precision i) else of_opt (c_str_len fuel m str)) (fun len =>
  let pad := if has (i_flags i) FMT_ZERO then 48 else 32 in
  if (i_width i =? 0) && has (i_flags i) FMT_WIDTH then Done (m, 0) else
  rbind
    (if (i_width i =? 0) || has (i_flags i) FMT_MINUS then
       let len := if i_precision i >? 0 then (if i_precision i <? len then i_precision i else len) else len in
       if len >? max_len then Done (m, 0, false) else
       rbind (of_opt (c_str_copy_nulpad m text str len)) (fun '(m, res) =>
       if i_width i >? res then
         rbind (of_opt (pad_loop m (text + res) pad res (i_width i - len) max_len)) (fun '(m, _, res) => Done (m, res, true))
       else Done (m, res, true))
     else
       rbind (if i_width i >? 0 then of_opt (pad_loop m text pad 0 (i_width i - len) max_len)
              else Done (m, text, 0)) (fun '(m, text, res) =>
       if res + len >? max_len then Done (m, res, false) else
       rbind (of_opt (c_str_copy_nulpad m text str len)) (fun '(m, c) => Done (m, res + c, true))))
    (fun '(m, res, cont) =>
       if negb cont then Done (m, res) else
       if has (i_flags i) FMT_UPPER then rbind (of_opt (c_str_to_upper fuel m text)) (fun m => Done (m, res))
       else if has (i_flags i) FMT_LOWER then rbind (of_opt (c_str_to_lower fuel m text)) (fun m => Done (m, res))
       else Done (m, res))).

(** printing.cpp:110-115 [_print_char] *)
Definition print_char (fuel : nat) (m : mem) (num text max_len : Z) (i : info) (c : Z) : run (mem * Z) :=
  print_string fuel (store8 (store8 m num c) (num + 1) 0) text max_len i num.

(** printing.cpp:117-126 [_print_repeated_char]: the buffer size is not looked at *)
Definition print_repeated_char (m : mem) (text : Z) (i : info) (c : Z) : run (mem * Z) :=
  let rem := if i_width i >? 0 then i_width i else 1 in
  rbind (of_opt (pad_loop m text c 0 rem rem)) (fun '(m, _, res) => Done (m, res)).

(** printing.cpp:128-140 [_print_i64], [_print_u64] *)
Definition print_i64 (fuel : nat) (m : mem) (num text max_len : Z) (i : info) (v : Z) : run (mem * Z) :=
  rbind (i64_to_str fuel m v num (i_base i)) (fun m => print_string fuel m text max_len i num).
Definition print_u64 (fuel : nat) (m : mem) (num text max_len : Z) (i : info) (v : Z) : run (mem * Z) :=
  rbind (u64_to_str fuel m v num (i_base i)) (fun m => print_string fuel m text max_len i num).

(** printing.cpp:257-292, the flag loop: do switch ( *++fmt ) ... while ( ! done ) *)
Fixpoint flags_loop (fuel : nat) (m : mem) (fmt flags : Z) : run (Z * Z) :=
  match fuel with
  | O => NoFuel
  | S f =>
    let fmt := fmt + 1 in
    let c := m fmt in
    if c =? 45 then flags_loop f m fmt (Z.lor flags FMT_MINUS)                           (* '-' *)
    else if c =? 43 then flags_loop f m fmt (Z.lor flags FMT_PLUS)                       (* '+' *)
    else if c =? 35 then flags_loop f m fmt (Z.lor flags FMT_ALT)                        (* '#' *)
    else if c =? 32 then flags_loop f m fmt (Z.lor flags FMT_SPACE)                      (* ' ' *)
    else if c =? 48 then flags_loop f m fmt (Z.lor flags (Z.lor FMT_ZERO FMT_WIDTH))     (* '0' *)
    else Done (fmt, flags)
  end.

(** printing.cpp:295-318 optional width; [-width] overflows for INT_MIN.
    Results: info, fmt, remaining arguments *)
Definition read_width (fuel : nat) (m : mem) (i : info) (fmt : Z) (args : list arg) : run (info * Z * list arg) :=
  if m fmt =? 42 then                                                                     (* '*' *)
    match args with
    | AInt w :: args =>
      if w <? 0 then if w =? - 2 ^ 31 then Undefined
                     else Done (or_flags (set_width i (- w)) (Z.lor FMT_MINUS FMT_WIDTH), fmt + 1, args)
      else Done (or_flags (set_width i w) FMT_WIDTH, fmt + 1, args)
    | _ => Undefined
    end
  else
    rbind (c_str_to_i64 fuel m fmt 10) (fun '(v, fmt) =>
    let i := set_width i (to_s32 v) in
    Done (if negb (i_width i =? 0) then or_flags i FMT_WIDTH else i, fmt, args)).

(** printing.cpp:320-334 optional precision; clears GEN_FMT_ZERO *)
Definition read_precision (fuel : nat) (m : mem) (i : info) (fmt : Z) (args : list arg) : run (info * Z * list arg) :=
  if m fmt =? 46 then                                                                     (* '.' *)
    let fmt := fmt + 1 in
    rbind (if m fmt =? 42 then
             match args with
             | AInt p :: args => Done (set_precision i p, fmt + 1, args)
             | _ => Undefined
             end
           else rbind (c_str_to_i64 fuel m fmt 10) (fun '(v, fmt) => Done (set_precision i (to_s32 v), fmt, args)))
      (fun '(i, fmt, args) => Done (set_flags i (Z.land (i_flags i) (Z.lnot FMT_ZERO)), fmt, args))
  else Done (i, fmt, args).

(** printing.cpp:336-374 size flags *)
Definition read_size (m : mem) (i : info) (fmt : Z) : info * Z :=
  let c := m fmt in
  if c =? 104 then if m (fmt + 1) =? 104 then (or_flags i FMT_CHAR, fmt + 2) else (or_flags i FMT_SHORT, fmt + 1)      (* h *)
  else if c =? 108 then if m (fmt + 1) =? 108 then (or_flags i FMT_LLONG, fmt + 2) else (or_flags i FMT_LONG, fmt + 1) (* l *)
  else if c =? 122 then (or_flags i (Z.lor FMT_UNSIGNED FMT_SIZE), fmt + 1)                                            (* z *)
  else if c =? 116 then (or_flags i FMT_SIZE, fmt + 1)                                                                 (* t *)
  else (i, fmt).

(** printing.cpp:459-521 the integer conversions (after [fmt++]) *)
Definition print_int (fuel : nat) (m : mem) (num text remaining : Z) (i : info) (args : list arg) : run (mem * Z * list arg) :=
  let size := Z.land (i_flags i) FMT_INTS in
  let wide := (size =? FMT_LONG) || (size =? FMT_LLONG) || (size =? FMT_SIZE) || (size =? FMT_INTPTR) in
  match args with
  | AInt z :: args =>
    if wide then Undefined else
    if has (i_flags i) FMT_UNSIGNED then
      let v := if size =? FMT_CHAR then z mod 2 ^ 8 else if size =? FMT_SHORT then z mod 2 ^ 16 else z mod 2 ^ 32 in
      rbind (print_u64 fuel m num text remaining i v) (fun '(m, len) => Done (m, len, args))
    else
      let v := if size =? FMT_CHAR then (z + 2 ^ 7) mod 2 ^ 8 - 2 ^ 7
               else if size =? FMT_SHORT then (z + 2 ^ 15) mod 2 ^ 16 - 2 ^ 15 else to_s32 z in
      rbind (print_i64 fuel m num text remaining i v) (fun '(m, len) => Done (m, len, args))
  | ALong z :: args =>
    if negb wide then Undefined else
    if has (i_flags i) FMT_UNSIGNED then
      rbind (print_u64 fuel m num text remaining i (z mod 2 ^ 64)) (fun '(m, len) => Done (m, len, args))
    else
      rbind (print_i64 fuel m num text remaining i ((z + 2 ^ 63) mod 2 ^ 64 - 2 ^ 63)) (fun '(m, len) => Done (m, len, args))
  | APtr z :: args =>
    if negb (size =? FMT_INTPTR) then Undefined else
    rbind (print_u64 fuel m num text remaining i (z mod 2 ^ 64)) (fun '(m, len) => Done (m, len, args))
  | _ => Undefined
  end.

(** printing.cpp:376-521 the conversion at [fmt].
    Results: memory, length written, fmt after the conversion, remaining arguments *)
Definition convert (fuel : nat) (m : mem) (num text remaining : Z) (i : info) (fmt : Z) (args : list arg)
  : run (mem * Z * Z * list arg) :=
  let c := m fmt in
  let int i := rbind (print_int fuel m num text remaining i args) (fun '(m, len, args) => Done (m, len, fmt + 1, args)) in
  if c =? 117 then int (set_base (or_flags i FMT_UNSIGNED) 10)                                       (* u *)
  else if (c =? 100) || (c =? 105) then int (set_base i 10)                                          (* d i *)
  else if c =? 111 then int (set_base i 8)                                                           (* o *)
  else if c =? 120 then int (set_base (or_flags i (Z.lor FMT_UNSIGNED FMT_LOWER)) 16)                (* x *)
  else if c =? 88 then int (set_base (or_flags i (Z.lor FMT_UNSIGNED FMT_UPPER)) 16)                 (* X *)
  else if c =? 112 then                                                                              (* p *)
    int (set_base (or_flags i (Z.lor (Z.lor FMT_LOWER FMT_UNSIGNED) (Z.lor FMT_ALT FMT_INTPTR))) 16)
  else if (c =? 102) || (c =? 70) || (c =? 103) || (c =? 71) || (c =? 97) || (c =? 65) then Undefined (* f F g G a A *)
  else if c =? 99 then                                                                               (* c *)
    match args with
    | AInt z :: args => rbind (print_char fuel m num text remaining i (z mod 256)) (fun '(m, len) => Done (m, len, fmt + 1, args))
    | _ => Undefined
    end
  else if c =? 115 then                                                                              (* s *)
    match args with
    | APtr p :: args => rbind (print_string fuel m text remaining i p) (fun '(m, len) => Done (m, len, fmt + 1, args))
    | _ => Undefined
    end
  else if c =? 83 then                                                                               (* S SB *)
    if m (fmt + 1) =? 66 then
      match args with
      | APtr p :: args =>
        if p =? 0 then Undefined else
        rbind (print_string fuel m text remaining (set_precision i (to_s32 (sb_length m p))) p)
          (fun '(m, len) => Done (m, len, fmt + 2, args))
      | _ => Undefined
      end
    else
      match args with
      | ASlice p l :: args =>
        rbind (print_string fuel m text remaining (set_precision i (to_s32 l)) p) (fun '(m, len) => Done (m, len, fmt + 1, args))
      | _ => Undefined
      end
  else if c =? 114 then                                                                              (* r *)
    match args with
    | AInt z :: args => rbind (print_repeated_char m text i (z mod 256)) (fun '(m, len) => Done (m, len, fmt + 1, args))
    | _ => Undefined
    end
  else if c =? 37 then                                                                               (* % *)
    rbind (print_char fuel m num text remaining i 37) (fun '(m, len) => Done (m, len, fmt + 1, args))
  else Done (m, 0, fmt, args).

(** printing.cpp:252-253 the literal text before a conversion *)
Definition literal_loop (fuel : nat) (m : mem) (text fmt remaining : Z) : option (mem * Z * Z) :=
  while fuel (fun '(m, t, f) => negb (m f =? 0) && negb (m f =? 37) && negb (remaining =? 0))
             (fun '(m, t, f) => (store8 m t (m f), t + 1, f + 1)) (m, text, fmt).

(** printing.cpp:255-521 everything between the literal text and the bookkeeping at the end of an
    iteration. Results: memory, length written, fmt, remaining arguments *)
Definition conversion (fuel : nat) (m : mem) (num text remaining fmt : Z) (args : list arg) : run (mem * Z * Z * list arg) :=
  rbind (if m fmt =? 37 then flags_loop fuel m fmt 0 else Done (fmt, 0)) (fun '(fmt, flags) =>
  rbind (read_width fuel m (Info 0 flags 0 (-1)) fmt args) (fun '(i, fmt, args) =>
  rbind (read_precision fuel m i fmt args) (fun '(i, fmt, args) =>
  let '(i, fmt) := read_size m i fmt in
  convert fuel m num text remaining i fmt args))).

(** printing.cpp:246-528 the main loop; results: memory, text *)
Fixpoint fmt_loop (n : nat) (fuel : nat) (m : mem) (num text remaining fmt : Z) (args : list arg) : run (mem * Z) :=
  if m fmt =? 0 then Done (m, text) else
  match n with
  | O => NoFuel
  | S n' =>
    rbind (of_opt (literal_loop fuel m text fmt remaining)) (fun '(m, text, fmt) =>
    rbind (conversion fuel m num text remaining fmt args) (fun '(m, len, fmt, args) =>
    fmt_loop n' fuel m num (text + len)
      (if len >=? remaining then Z.min remaining 1 else remaining - len) fmt args))
  end.

(** printing.cpp:241-533 [c_str_fmt_va]; result: memory and return value *)
Definition c_str_fmt_va (fuel : nat) (m : mem) (num text max_len fmt : Z) (args : list arg) : run (mem * Z) :=
  rbind (fmt_loop fuel fuel m num text max_len fmt args) (fun '(m, t) =>
  let m := store8 m t 0 in
  let res := t + 1 - text in
  Done (m, if (res >=? max_len) || (res <? 0) then -1 else res)).
