(** Text as lists of bytes. *)
From Coq Require Import Ascii String ZArith List Bool.
Import ListNotations.
Open Scope Z_scope.

(** bytes of a Coq string literal, for readable constants *)
Definition txt (s : string) : list Z := map (fun a => Z.of_N (N_of_ascii a)) (list_ascii_of_string s).

(** value of the (signed, x86-64/ARM64-gcc/clang/msvc x86) C type [char] stored as byte [b] *)
Definition sc (b : Z) : Z := if b <? 128 then b else b - 256.

(** conversions to s32 and s64 *)
Definition to_s32 (z : Z) : Z := (z + 2 ^ 31) mod 2 ^ 32 - 2 ^ 31.

(** [Done a]: the call returned [a]; [Undefined]: it executed undefined behaviour;
    [NoFuel]: it did not finish within the given number of loop iterations. *)
Inductive run (A : Type) := Done (a : A) | Undefined | NoFuel.
Arguments Done {A} _. Arguments Undefined {A}. Arguments NoFuel {A}.

Definition rbind {A B} (r : run A) (f : A -> run B) : run B :=
  match r with Done a => f a | Undefined => Undefined | NoFuel => NoFuel end.
Definition of_opt {A} (o : option A) : run A := match o with Some a => Done a | None => NoFuel end.
