(** Byte-level model of token substitution: base/components/interface.untyped.cpp.
    The context's token_fmt_map is a hash table from crc32 of the token name to a Str (Ptr, Len). *)
From Coq Require Import String ZArith List Bool.
From Verif Require Import Common Text ArrayModel HashModel HashtableModel StrOpsModel.
Import ListNotations.
Open Scope Z_scope.

Definition tokmap := table (Z * Z).
Definition opt_run {A} (o : option A) : run A := match o with Some a => Done a | None => Undefined end.

(** interface.untyped.cpp:14-26: the (char const*, Str) pairs are entered in order.
    [left = num_tokens - 1] is taken to be the number of pairs supplied, which is what the token_fmt
    macro passes (interface.hpp:447-449). *)
Fixpoint populate (fuel : nat) (m : mem) (t : tokmap) (pairs : list (Z * (Z * Z))) : run tokmap :=
  match pairs with
  | [] => Done t
  | (token, value) :: rest =>
    rbind (of_opt (c_str_len fuel m token)) (fun len =>
    rbind (opt_run (ht_set (Z * Z) (0, 0) t (crc32 (load_bytes m token (Z.to_nat len))) value)) (fun t =>
    populate fuel m t rest))
  end.

(** interface.untyped.cpp:35-42: copies text up to '<', NUL, or a full buffer *)
Definition text_loop (fuel : nat) (m : mem) (buf fmt remaining : Z) : option (mem * Z * Z * Z) :=
  while fuel (fun '(m, b, f, r) => negb (m f =? 0) && negb (m f =? 60) && negb (r =? 0))
             (fun '(m, b, f, r) => (store8 m b (m f), b + 1, f + 1, r - 1)) (m, buf, fmt, remaining).

(** interface.untyped.cpp:50-54: while ( *scanner != '>' ).  The loop does not look for the end of the
    string; running past the terminating NUL leaves the object and is undefined. *)
Fixpoint scan_close (fuel : nat) (m : mem) (scanner tok_len : Z) : run (Z * Z) :=
  if m scanner =? 62 then Done (scanner, tok_len) else
  if m scanner =? 0 then Undefined else
  match fuel with O => NoFuel | S f => scan_close f m (scanner + 1) (tok_len + 1) end.

(** interface.untyped.cpp:64-73: while ( left-- ) copies value->Len bytes; the size is not looked at.
    A negative length makes the loop run on *)
Definition value_loop (fuel : nat) (m : mem) (buf str left remaining : Z) : option (mem * Z * Z) :=
  option_map (fun '(m, b, s, l, r) => (m, b, r))
    (while fuel (fun '(m, b, s, l, r) => negb (l =? 0))
                (fun '(m, b, s, l, r) => (store8 m b (m s), b + 1, s + 1, l - 1, r - 1)) (m, buf, str, left, remaining)).

(** interface.untyped.cpp:31-88 the main loop; results: memory and remaining *)
Fixpoint token_loop (n : nat) (fuel : nat) (m : mem) (t : tokmap) (buf fmt remaining : Z) : run (mem * Z) :=
  if m fmt =? 0 then Done (m, remaining) else
  match n with
  | O => NoFuel
  | S n' =>
    rbind (of_opt (text_loop fuel m buf fmt remaining)) (fun '(m, buf, fmt, remaining) =>
    if m fmt =? 60 then
      rbind (scan_close fuel m (fmt + 1) 0) (fun '(scanner, tok_len) =>
      rbind (opt_run (ht_get t (crc32 (load_bytes m (fmt + 1) (Z.to_nat tok_len))))) (fun value =>
      match value with
      | Some (str, len) =>
        rbind (of_opt (value_loop fuel m buf str len remaining)) (fun '(m, buf, remaining) =>
        token_loop n' fuel m t buf (scanner + 1) remaining)
      | None => token_loop n' fuel (store8 m buf (m fmt)) t (buf + 1) (fmt + 1) (remaining - 1)
      end))
    else token_loop n' fuel m t buf fmt remaining)
  end.

(** interface.untyped.cpp:6-92 [token_fmt_va]; results: memory, the cleared map, the returned length *)
Definition token_fmt_va (fuel : nat) (m : mem) (t : tokmap) (buf buf_size : Z) (pairs : list (Z * (Z * Z))) (fmt : Z)
  : run (mem * tokmap * Z) :=
  rbind (populate fuel m t pairs) (fun t =>
  rbind (token_loop fuel fuel m t buf fmt buf_size) (fun '(m, remaining) =>
  Done (m, ht_clear t, buf_size - remaining))).
