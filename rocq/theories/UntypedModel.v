(** Code made from text: the wrappers over token_fmt_va and c_str_fmt_va in interface.untyped.cpp and inlines.hpp, and
    the macros code_str and code_fmt of interface.hpp. Memory (formats, arguments, the two static buffers) is the byte
    memory of TokFmtModel.v and FmtModel.v, nodes are the heap of AstModel.v. Interned strings are their texts. *)
From Coq Require Import ZArith List Bool.
From Verif Require Import Common Text ArrayModel HashModel HashtableModel AstModel UpfrontModel FmtModel TokFmtModel.
Import ListNotations.
Open Scope Z_scope.

(** macros.hpp / printing.hpp: GEN_PRINTF_MAXLEN = kilobytes(128) *)
Definition GEN_PRINTF_MAXLEN : Z := 131072.

(** mem_set(p, 0, n): its effect is C04 *)
Definition zeroed (m : mem) (p n : Z) : mem := fun x => if (p <=? x) && (x <? p + n) then 0 else m x.

(** inlines.hpp:738-753 [token_fmt_impl]; [buf] is its static buffer; result: memory, token map, and the Str returned *)
Definition token_fmt_impl (fuel : nat) (m : mem) (t : tokmap) (buf : Z) (pairs : list (Z * (Z * Z))) (fmt : Z) : run (mem * tokmap * (Z * Z)) :=
  let m := zeroed m buf GEN_PRINTF_MAXLEN in
  rbind (token_fmt_va fuel m t buf GEN_PRINTF_MAXLEN pairs fmt) (fun '(m, t, len) => Done (m, t, (buf, len))).

(** the text of a Str argument: a negative length makes cache_str read all of memory *)
Definition str_at (m : mem) (s : Z * Z) : run (list Z) := if snd s <? 0 then Undefined else Done (load_bytes m (fst s) (Z.to_nat (snd s))).

(** interface.hpp:439-441 macro [code_fmt]: untyped_str( token_fmt( ... ) ) *)
Definition code_fmt (e : env) (fuel : nat) (m : mem) (t : tokmap) (buf : Z) (pairs : list (Z * (Z * Z))) (fmt : Z) (h : heap) : run (mem * tokmap * (heap * Z)) :=
  rbind (token_fmt_impl fuel m t buf pairs fmt) (fun '(m, t, s) =>
  rbind (str_at m s) (fun content => rbind (untyped_str e h content) (fun r => Done (m, t, r)))).

(** the end of untyped_fmt and untyped_token_fmt: make_code, Type, Content, then the test of the Name that nothing set *)
Definition fmt_code (e : env) (h : heap) (content : list Z) : heap * Z :=
  let '(h, r) := make h (fun n => set_content content (AstModel.set_type CT_Untyped n)) in
  match n_name (h_node h r) with [] => (h, e_invalid e) | _ => (h, r) end.

(** interface.untyped.cpp:117-147 [untyped_fmt]; [num] is the number buffer inside c_str_fmt_va *)
Definition untyped_fmt (e : env) (fuel : nat) (m : mem) (num buf fmt : Z) (args : list arg) (h : heap) : run (mem * (heap * Z)) :=
  if fmt =? 0 then Done (m, (h, e_invalid e)) else
  rbind (c_str_fmt_va fuel m num buf GEN_PRINTF_MAXLEN fmt args) (fun '(m, length) =>
  rbind (str_at m (buf, length)) (fun content => Done (m, fmt_code e h content))).

(** interface.untyped.cpp:149-180 [untyped_token_fmt]: the parameter [fmt] is not passed on; token_fmt_va takes its
    format from the variable arguments, behind num_tokens - 1 pairs ([next]) *)
Definition untyped_token_fmt (e : env) (fuel : nat) (m : mem) (t : tokmap) (num_tokens buf fmt : Z) (pairs : list (Z * (Z * Z))) (next : Z) (h : heap)
  : run (mem * tokmap * (heap * Z)) :=
  if num_tokens =? 0 then Done (m, t, (h, e_invalid e)) else
  rbind (token_fmt_va fuel m t buf GEN_PRINTF_MAXLEN pairs next) (fun '(m, t, length) =>
  rbind (str_at m (buf, length)) (fun content => Done (m, t, fmt_code e h content))).
