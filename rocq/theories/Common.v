(** Shared helpers: a fuelled while loop whose out-of-fuel outcome is distinct ([None]),
    byte memory, and little-endian word access.  Nothing in this file models a particular
    function of gencpp; it is the "machine" the models run on. *)
From Coq Require Import ZArith List Bool Lia.
Import ListNotations.
Open Scope Z_scope.

(** C [while (cond) body]: [None] means "did not finish within the fuel". *)
Fixpoint while {S : Type} (fuel : nat) (cond : S -> bool) (body : S -> S) (s : S) : option S :=
  if cond s then
    match fuel with
    | O => None
    | Datatypes.S f => while f cond body (body s)
    end
  else Some s.

(** Byte memory: address -> byte. Addresses are unbounded integers (no wrap at 2^64). *)
Definition mem := Z -> Z.

Definition store8 (m : mem) (a v : Z) : mem := fun x => if x =? a then v mod 256 else m x.

(** little-endian store of the [n] low bytes of [v] at [a] (x86-64 / ARM64 layout) *)
Fixpoint store_le (n : nat) (m : mem) (a v : Z) : mem :=
  match n with
  | O => m
  | Datatypes.S k => store_le k (store8 m a v) (a + 1) (v / 256)
  end.

Fixpoint load_le (n : nat) (m : mem) (a : Z) : Z :=
  match n with
  | O => 0
  | Datatypes.S k => m a + 256 * load_le k m (a + 1)
  end.

(** C [memcpy] of [n] bytes on non-overlapping regions. *)
Definition copy_region (m : mem) (dst src n : Z) : mem :=
  fun x => if (dst <=? x) && (x <? dst + n) then m (src + (x - dst)) else m x.

Definition byte_mem (m : mem) : Prop := forall x, 0 <= m x < 256.
