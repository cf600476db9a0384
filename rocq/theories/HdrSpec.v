(** The Radiance run-length format of one colour plane, stated on its own: a sequence of packets, each either
    a run (count byte 128 + n, value) or n literal bytes (count byte n). *)
From Verif Require Import Base.

Inductive plane_code : list Z -> list Z -> Prop :=
| pc_end : plane_code [] []
| pc_run n v c p : (1 <= n <= 127)%nat -> plane_code c p ->
    plane_code ((128 + Z.of_nat n) :: v :: c) (repeat v n ++ p)
| pc_lit xs c p : (1 <= length xs <= 128)%nat -> plane_code c p ->
    plane_code (Z.of_nat (length xs) :: xs ++ c) (xs ++ p).

(** A run-length coded scanline: marker 2, 2, width in big-endian, then the red, green, blue and exponent
    planes, each holding every fourth byte of the pixels. *)
Definition every4 (i : nat) (px p : list Z) : Prop :=
  length px = (4 * length p)%nat /\ forall k, (k < length p)%nat -> nth k p 0 = nth (4 * k + i) px 0.

Definition scanline_code (w : nat) (code px : list Z) : Prop :=
  exists c0 c1 c2 c3 p0 p1 p2 p3,
    code = [2; 2] ++ be_bytes 2 (Z.of_nat w) ++ c0 ++ c1 ++ c2 ++ c3 /\
    length p0 = w /\ length p1 = w /\ length p2 = w /\ length p3 = w /\
    plane_code c0 p0 /\ plane_code c1 p1 /\ plane_code c2 p2 /\ plane_code c3 p3 /\
    every4 0 px p0 /\ every4 1 px p1 /\ every4 2 px p2 /\ every4 3 px p3.

(** Old-format trouble: a pixel whose first three bytes are all one. *)
Definition marker_free (px : list Z) : Prop :=
  forall k, (4 * k + 3 < length px)%nat ->
    ~ (nth (4 * k) px 0 = 1 /\ nth (4 * k + 1) px 0 = 1 /\ nth (4 * k + 2) px 0 = 1).
