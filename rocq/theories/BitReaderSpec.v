(** The bit stream a byte string denotes (RFC 1951, 3.1.1): bit [i] is bit [i mod 8] of byte [i / 8],
    least significant first; zero beyond the end. *)
From Verif Require Import Base.

Definition bit_at (src : list Z) (i : Z) : bool :=
  Z.testbit (nth (Z.to_nat (i / 8)) src 0) (i mod 8).

(** The [k] bits from position [n] as a number, first bit least significant. *)
Fixpoint bits_from (src : list Z) (n : Z) (k : nat) : Z :=
  match k with
  | O => 0
  | S k' => Z.b2z (bit_at src n) + 2 * bits_from src (n + 1) k'
  end.
