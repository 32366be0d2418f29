(** Property C14: crc32 / crc64 are the documented CRC of the bytes. *)
From Coq Require Import ZArith List Bool.
From Verif Require Import HashModel HashSpec HashProofs.
Import ListNotations.
Open Scope Z_scope.

(** crc32 is the reflected CRC-32 (polynomial 0xEDB88320, init and final xor 0xFFFFFFFF) of every byte string. *)
Theorem c14_crc32 : forall data, Forall (fun b => 0 <= b < 256) data ->
  crc32 data = serial_crc 0xEDB88320 0xffffffff 0xffffffff data.
Proof. exact p14_32. Qed.
Print Assumptions c14_crc32.

(** crc64 as implemented: table polynomial 0x95ac9329ac4bc9b5, init 0, no final xor. *)
Theorem c14_crc64 : forall data, Forall (fun b => 0 <= b < 256) data ->
  crc64 data = serial_crc 0x95ac9329ac4bc9b5 0 0 data.
Proof. exact p14_64. Qed.
Print Assumptions c14_crc64.

(** Equal-length texts of at most four bytes never collide. *)
Theorem c14_crc32_injective_short : forall d1 d2,
  Forall (fun b => 0 <= b < 256) d1 -> Forall (fun b => 0 <= b < 256) d2 ->
  length d1 = length d2 -> (length d1 <= 4)%nat -> crc32 d1 = crc32 d2 -> d1 = d2.
Proof. exact p14_inj. Qed.
Print Assumptions c14_crc32_injective_short.

(** The published check value: CRC-32 of "123456789". *)
Example crc32_check : crc32 [49;50;51;52;53;54;55;56;57] = 0xCBF43926.
Proof. vm_compute. reflexivity. Qed.
Example crc32_hyp : Forall (fun b => 0 <= b < 256) [49;50;51;52;53;54;55;56;57].
Proof. repeat constructor; discriminate || reflexivity. Qed.
(** Beyond that bound crc32 does collide: "plumless" and "buckeroo". *)
Example crc32_collides : crc32 [112;108;117;109;108;101;115;115] = crc32 [98;117;99;107;101;114;111;111].
Proof. vm_compute. reflexivity. Qed.
