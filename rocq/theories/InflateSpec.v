(** Specifications for inflate: what a match means (RFC 1951, 3.2.3) and what a stored stream is. *)
From Verif Require Import Base.

(** A match of distance [offset] and length [len]: repeat [len] times "append the byte that lies [offset]
    bytes before the current end". *)
Fixpoint lz_copy (out : list Z) (offset len : nat) : list Z :=
  match len with
  | O => out
  | S len' => lz_copy (out ++ [nth (length out - offset) out 0]) offset len'
  end.

(** A byte-aligned DEFLATE stream of stored blocks (RFC 1951, 3.2.4) carrying [data]. *)
Definition stored_header (bfinal : Z) (len : nat) : list Z :=
  bfinal :: le_bytes 2 (Z.of_nat len) ++ le_bytes 2 (65535 - Z.of_nat len).

Inductive stored : list Z -> list Z -> Prop :=
| stored_last chunk : Z.of_nat (length chunk) <= 65535 ->
    stored chunk (stored_header 1 (length chunk) ++ chunk)
| stored_more chunk rest bs : Z.of_nat (length chunk) <= 65535 -> stored rest bs ->
    stored (chunk ++ rest) (stored_header 0 (length chunk) ++ chunk ++ bs).
