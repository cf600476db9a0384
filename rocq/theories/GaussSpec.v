(** Repeated box averages and sharpening. *)
From Verif Require Import Base GeomSpec BlurSpec.

(** Half the length of a filter of [2 r + 1] taps cut to the side [n] *)
Definition half (n r : nat) : nat := ((Nat.min (2 * r + 1) n - 1) / 2)%nat.
(** One pass of averages along the rows, and along the columns *)
Definition row_pass (w r : nat) (f : nat -> nat -> Z) (x y : nat) : Z := average (fun t => f t y) (taps w (half w r) x).
Definition col_pass (h r : nat) (f : nat -> nat -> Z) (x y : nat) : Z := average (fun u => f x u) (taps h (half h r) y).

(** Unsharp masking with a blurred sample [bl]: differences above the threshold are added to the sample, and the result
    is kept inside the range. *)
Definition sharpened (b threshold p bl : Z) : Z :=
  if threshold <? Z.abs (p - bl) then Z.max 0 (Z.min (2 ^ b - 1) (p + (p - bl))) else p.
