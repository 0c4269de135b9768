(** CRC-32C as computed by hash/crc32 (Go standard library) with the
    Castagnoli table; used by database/files/record.go:12, 81-83, 121-123.
    Modelled from the portable table driven implementation
    (hash/crc32/crc32_generic.go simpleMakeTable, simpleUpdate); the hardware
    path of the library computes the same function. *)
From Coq Require Import ZArith List Lia Bool.
From Verif Require Import Base.
Import ListNotations.
Open Scope Z_scope.

(** the reversed Castagnoli polynomial (crc32.Castagnoli) *)
Definition poly : Z := 2197175160. (* 0x82f63b78 *)
Definition mask32 : Z := 4294967295. (* 0xffffffff *)

(** one shift of simpleMakeTable:
    if crc&1 == 1 { crc = (crc >> 1) ^ poly } else { crc >>= 1 } *)
Definition crc_step (c : Z) : Z :=
  if Z.odd c then Z.lxor (Z.shiftr c 1) poly else Z.shiftr c 1.

Fixpoint iter_step (n : nat) (c : Z) : Z :=
  match n with O => c | S k => iter_step k (crc_step c) end.

(** simpleMakeTable: entry i is 8 shifts of i *)
Definition crc_entry (i : Z) : Z := iter_step 8 i.
Definition crc_table : list Z :=
  Eval vm_compute in map (fun n => crc_entry (Z.of_nat n)) (seq 0 256).

(** loop body of simpleUpdate: crc = tab[byte(crc)^v] ^ (crc >> 8) *)
Definition crc_byte (c b : Z) : Z :=
  Z.lxor (at_ (Z.lxor (Z.land c 255) b) crc_table) (Z.shiftr c 8).

(** crc32.Update(crc, castTable, p): ~simpleUpdate(~crc, p) *)
Definition crc_update (crc : Z) (p : list Z) : Z :=
  Z.lxor mask32 (fold_left crc_byte p (Z.lxor mask32 crc)).
