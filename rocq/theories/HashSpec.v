(** Bit-serial definition of a reflected CRC: a shift register fed one message bit at a time, least
    significant bit of each byte first. *)
From Coq Require Import ZArith List Bool.
Import ListNotations.
Open Scope Z_scope.

(** one message bit: feedback = register bit 0 xor message bit *)
Definition lfsr (poly reg : Z) (bit : bool) : Z :=
  if xorb (Z.testbit reg 0) bit then Z.lxor (Z.shiftr reg 1) poly else Z.shiftr reg 1.
Definition bits_of_byte (b : Z) : list bool := map (fun i => Z.testbit b (Z.of_nat i)) (seq 0 8).
Definition serial_crc (poly init xorout : Z) (data : list Z) : Z :=
  Z.lxor (fold_left (lfsr poly) (flat_map bits_of_byte data) init) xorout.
