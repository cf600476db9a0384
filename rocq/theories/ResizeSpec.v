(** What bilinear resizing should do, independent of the code. *)
From Verif Require Import Base GeomSpec.

(** The straight line between neighbours: [D] times the value at the place [t / D] of the function known at [0 .. n - 1];
    beyond [n - 1] the last value stays. *)
Definition between (f : nat -> Z) (n : nat) (t D : Z) : Z :=
  let q := Z.to_nat (t / D) in
  f q * (D - t mod D) + f (Nat.min (q + 1) (n - 1)) * (t mod D).
(** [ow * oh] times the exact value of the resized picture at the column [x] and the row [y]: the picture between its
    pixels, taken at the column [x * iw / ow] and the row [y * ih / oh]. *)
Definition exact_sample (l : list Z) (iw ih ow oh x y : nat) : Z :=
  between (fun j => between (fun i => px iw l i j) iw (Z.of_nat (x * iw)) (Z.of_nat ow)) ih (Z.of_nat (y * ih)) (Z.of_nat oh).
(** Sides that are practical: not zero, and at most about a million pixels *)
Definition side (n : nat) : Prop := 1 <= Z.of_nat n <= 2 ^ 20.
