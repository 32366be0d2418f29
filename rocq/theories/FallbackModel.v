(** The fallback allocator: interface.cpp:9-73 [fallback_allocator_proc] and its set-up in init (interface.cpp:241-254). *)
From Coq Require Import ZArith List Bool.
From Verif Require Import Common MemModel AllocModel.
Import ListNotations.
Open Scope Z_scope.

(** GEN_DEFAULT_MEMORY_ALIGNMENT, memory.hpp:87 *)
Definition DEFAULT_ALIGNMENT : Z := 16.

(** The buckets, last one first. [fresh]: the address heap() returns if it is asked (not null). *)
Definition buckets := list arena.

(** interface.cpp:249-253: the first bucket, of the size the context holds at this point (the default of 8 megabytes is
    filled in later, interface.cpp:282-284) *)
Definition fallback_init (fresh init_size : Z) : buckets := [arena_init_from_memory fresh init_size].

(** interface.cpp:19-30 and 46-57: a new bucket if the request does not fit the last one; array_back of no bucket is
    undefined, here a failed assertion *)
Definition with_room (b : buckets) (fresh bucket_size size : Z) : outcome buckets :=
  match b with
  | [] => AssertFail
  | last :: _ => if ar_used last + size >? ar_size last then Ok (arena_init_from_memory fresh bucket_size :: b) else Ok b
  end.

(** interface.cpp:17-33, case EAllocation_ALLOC *)
Definition fallback_alloc (m : mem) (b : buckets) (fresh bucket_size size alignment : Z) : outcome (mem * buckets * Z) :=
  match with_room b fresh bucket_size size with
  | Ok (last :: rest) =>
    match arena_alloc m last size alignment with
    | Ok (m, last, p) => Ok (m, last :: rest, p)
    | Fatal => Fatal
    | AssertFail => AssertFail
    end
  | Ok [] => AssertFail
  | Fatal => Fatal
  | AssertFail => AssertFail
  end.

(** interface.cpp:44-70, case EAllocation_RESIZE: the new block comes from the bucket's Backing, that is from heap()
    ([fresh2]), and old_size bytes are copied whatever the new size *)
Definition fallback_resize (m : mem) (b : buckets) (fresh fresh2 bucket_size old old_size size : Z) : outcome (mem * buckets * Z) :=
  match with_room b fresh bucket_size size with
  | Ok b => Ok (if negb (fresh2 =? 0) && negb (old =? 0) then mem_copy m fresh2 old old_size else m, b, fresh2)
  | Fatal => Fatal
  | AssertFail => AssertFail
  end.

(** Histories of allocations: each with the address heap() would return; the client's view is the list of its blocks
    (address, size, alignment), last first. FREE and FREE_ALL do nothing (interface.cpp:34-43). *)
Inductive fb_op := FAlloc (size fresh : Z) | FFree (p : Z) | FFreeAll.
Definition fb_step (bucket_size : Z) (st : mem * buckets * list block) (o : fb_op) : outcome (mem * buckets * list block) :=
  let '(m, b, live) := st in
  match o with
  | FAlloc size fresh =>
    match fallback_alloc m b fresh bucket_size size DEFAULT_ALIGNMENT with
    | Ok (m, b, p) => Ok (m, b, (p, size, DEFAULT_ALIGNMENT) :: live)
    | Fatal => Fatal
    | AssertFail => AssertFail
    end
  | FFree _ | FFreeAll => Ok st
  end.
Fixpoint fb_run (bucket_size : Z) (st : mem * buckets * list block) (ops : list fb_op) : outcome (mem * buckets * list block) :=
  match ops with
  | [] => Ok st
  | o :: r => match fb_step bucket_size st o with Ok st => fb_run bucket_size st r | Fatal => Fatal | AssertFail => AssertFail end
  end.
