(** String interning, macro registry and node creation of the library context.
    base/components/interface.cpp.
    [bk] is the backing allocator of the string arenas / node pools (Allocator_StrCache, Allocator_Pool):
    memory, size -> memory, address. *)
From Coq Require Import String ZArith List Bool.
From Verif Require Import Common MemModel AllocModel ArrayModel HashtableModel HashModel Text StrOpsModel StrModel.
Import ListNotations.
Open Scope Z_scope.

(** struct Macro, parser_types.hpp:197-202; Name is (Ptr, Len) *)
Record macro := { mc_name : Z * Z; mc_type : Z; mc_flags : Z }.

(** the parts of struct Context (interface.hpp:41-101) used here. StringArenas is the sequence of
    arenas (C08: array_append appends and array_back is the last element); StrCache and Macros are hash
    tables (C11). *)
Record ctx := {
  cx_arenas : list arena; cx_cache : table (Z * Z); cx_macros : table macro;
  cx_max_cache : Z;      (* Max_StrCacheLength *)
  cx_per_arena : Z }.    (* SizePer_StringArena *)
Definition set_arenas (cx : ctx) (a : list arena) : ctx :=
  {| cx_arenas := a; cx_cache := cx_cache cx; cx_macros := cx_macros cx; cx_max_cache := cx_max_cache cx; cx_per_arena := cx_per_arena cx |}.
Definition set_cache (cx : ctx) (t : table (Z * Z)) : ctx :=
  {| cx_arenas := cx_arenas cx; cx_cache := t; cx_macros := cx_macros cx; cx_max_cache := cx_max_cache cx; cx_per_arena := cx_per_arena cx |}.
Definition set_macros (cx : ctx) (t : table macro) : ctx :=
  {| cx_arenas := cx_arenas cx; cx_cache := cx_cache cx; cx_macros := t; cx_max_cache := cx_max_cache cx; cx_per_arena := cx_per_arena cx |}.

(** [Undefined]/[NoFuel]/out-of-range inside a call: not a normal return *)
Definition of_run {A} (r : run A) : outcome A := match r with Done a => Ok a | _ => AssertFail end.
Definition of_option {A} (r : option A) : outcome A := match r with Some a => Ok a | None => AssertFail end.

(** array_back of a non-empty sequence (C08) *)
Definition back {A} (l : list A) : option A := nth_error l (length l - 1).
Definition set_back {A} (l : list A) (x : A) : list A := firstn (length l - 1) l ++ [x].

Section Backing.
Variable bk : mem -> Z -> mem * Z.

(** interface.cpp:420-434 [get_cached_str_allocator]; sizeof(StrBuilderHeader) = 32, sizeof(char* ) = 8.
    The result is "the last arena"; a null PhysicalStart is not checked by the code either. *)
Definition get_cached_str_allocator (m : mem) (cx : ctx) (str_length : Z) : outcome (mem * ctx) :=
  match back (cx_arenas cx) with
  | None => AssertFail
  | Some last =>
    let size_req := str_length + 32 + 8 in
    if ar_used last + size_req >? ar_size last then
      let '(m, p) := bk m (cx_per_arena cx) in
      Ok (m, set_arenas cx (cx_arenas cx ++ [arena_init_from_memory p (cx_per_arena cx)]))
    else Ok (m, cx)
  end.

(** interface.cpp:441 / 449: strbuilder_make_str( get_cached_str_allocator(str.Len), str ) — strbuilder_make_length
    (strings.cpp:8-36) calls the allocator once, first, with default alignment 16 *)
Definition make_str_in_arena (m : mem) (cx : ctx) (p l : Z) : outcome (mem * ctx * Z) :=
  bind (get_cached_str_allocator m cx l) (fun '(m, cx) =>
  match back (cx_arenas cx) with
  | None => AssertFail
  | Some last =>
    bind (arena_alloc m last (to_s32 (SB_HEADER + l + 1)) DEFAULT_ALIGNMENT) (fun '(m1, last', a) =>
    bind (of_run (strbuilder_make_length (fun _ _ => (m1, a)) m1 p l)) (fun '(m2, s) =>
    Ok (m2, set_arenas cx (set_back (cx_arenas cx) last'), s)))
  end).

(** interface.cpp:437-452 [cache_str]; result Str (Ptr, Len) *)
Definition cache_str (m : mem) (cx : ctx) (p l : Z) : outcome (mem * ctx * (Z * Z)) :=
  if l >? cx_max_cache cx then
    bind (make_str_in_arena m cx p l) (fun '(m, cx, s) => Ok (m, cx, (s, sb_length m s)))
  else
  let key := crc32 (load_bytes m p (Z.to_nat l)) in
  bind (of_option (ht_get (cx_cache cx) key)) (fun got =>
  match got with
  | Some r => Ok (m, cx, r)
  | None =>
    bind (make_str_in_arena m cx p l) (fun '(m, cx, s) =>
    let r := (s, sb_length m s) in
    bind (of_option (ht_set (Z * Z) (0, 0) (cx_cache cx) key r)) (fun t => Ok (m, set_cache cx t, r)))
  end).

(** interface.cpp:474-477 [lookup_macro]; inner None = nullptr *)
Definition lookup_macro (m : mem) (cx : ctx) (p l : Z) : outcome (option macro) :=
  of_option (ht_get (cx_macros cx) (crc32 (load_bytes m p (Z.to_nat l)))).

Definition no_macro : macro := {| mc_name := (0, 0); mc_type := 0; mc_flags := 0 |}.
(** interface.cpp:479-485 [register_macro]; the asserts on the name are preconditions *)
Definition register_macro (m : mem) (cx : ctx) (p l ty fl : Z) : outcome (mem * ctx) :=
  if (p =? 0) || (l <=? 0) then AssertFail else
  let key := crc32 (load_bytes m p (Z.to_nat l)) in
  bind (cache_str m cx p l) (fun '(m, cx, name) =>
  bind (of_option (ht_set macro no_macro (cx_macros cx) key {| mc_name := name; mc_type := ty; mc_flags := fl |})) (fun t =>
  Ok (m, set_macros cx t))).

(** interface.cpp:487-521 one iteration of [register_macros] / [register_macros_arr]: the key is taken
    from the cached name *)
Definition register_macros_step (m : mem) (cx : ctx) (p l ty fl : Z) : outcome (mem * ctx) :=
  if (p =? 0) || (l <=? 0) then AssertFail else
  bind (cache_str m cx p l) (fun '(m, cx, name) =>
  let key := crc32 (load_bytes m (fst name) (Z.to_nat (snd name))) in
  bind (of_option (ht_set macro no_macro (cx_macros cx) key {| mc_name := name; mc_type := ty; mc_flags := fl |})) (fun t =>
  Ok (m, set_macros cx t))).
End Backing.

(** init's part for strings: one arena, empty tables (interface.cpp:303-324; hashtable_init has 8 slots) *)
Definition ctx_init (start per max : Z) : ctx :=
  {| cx_arenas := [arena_init_from_memory start per]; cx_cache := ht_init (Z * Z); cx_macros := ht_init macro;
     cx_max_cache := max; cx_per_arena := per |}.

(** what a client can do with strings *)
Inductive cs_op := OCache (p l : Z) | ORegister (p l ty fl : Z) | ORegisterBatch (p l ty fl : Z).
Definition cs_step (bk : mem -> Z -> mem * Z) (m : mem) (cx : ctx) (o : cs_op) : outcome (mem * ctx * option (Z * Z)) :=
  match o with
  | OCache p l => bind (cache_str bk m cx p l) (fun '(m, cx, r) => Ok (m, cx, Some r))
  | ORegister p l ty fl => bind (register_macro bk m cx p l ty fl) (fun '(m, cx) => Ok (m, cx, None))
  | ORegisterBatch p l ty fl => bind (register_macros_step bk m cx p l ty fl) (fun '(m, cx) => Ok (m, cx, None))
  end.
