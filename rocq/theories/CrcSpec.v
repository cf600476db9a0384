(** CRC-32 of ISO 3309 / ITU-T V.42, bit by bit, least significant bit first; reflected polynomial
    0xEDB88320 (PNG specification, annex D). *)
From Verif Require Import Base.

Definition poly : Z := 3988292384. (* 0xEDB88320 *)

(** Shift one bit out. *)
Definition crc_bit (s : Z) : Z := if Z.odd s then Z.lxor (s / 2) poly else s / 2.

Fixpoint shift_out (n : nat) (s : Z) : Z :=
  match n with O => s | S n' => crc_bit (shift_out n' s) end.

Definition crc_byte (s b : Z) : Z := shift_out 8 (Z.lxor s b).

(** The shift register after a byte string. *)
Definition crc_run (data : list Z) (s : Z) : Z := fold_left crc_byte data s.

(** The checksum: preset to ones, complement at the end. *)
Definition crc32 (data : list Z) : Z := Z.lxor (crc_run data (2 ^ 32 - 1)) (2 ^ 32 - 1).
