(** Images as functions of column and row: what each geometric operation should do. *)
From Verif Require Import Base.

(** Sample at column [x], row [y] of an image [w] samples wide, stored row by row. *)
Definition px (w : nat) (l : list Z) (x y : nat) : Z := nth (y * w + x) l 0.

(** [out] is a [w] by [h] image whose sample at (x, y) is [f x y]. *)
Definition is_image (w h : nat) (out : list Z) (f : nat -> nat -> Z) : Prop :=
  length out = (w * h)%nat /\ forall x y, (x < w)%nat -> (y < h)%nat -> px w out x y = f x y.

(** Nearest coordinate in [0, n) to [i - pad]. *)
Definition clamp (n pad i : nat) : nat := Nat.min (n - 1) (i - pad).

(** The pictures in the documentation of the mirror modes (mirror.rs:18-56): North keeps the top half, South the
    bottom half, East the left half and West the right half; the kept half is reflected onto the other one. *)
Inductive side : Set := Top | Bottom | LeftHalf | RightHalf.
Definition reflect (s : side) (w h : nat) (f : nat -> nat -> Z) (x y : nat) : Z :=
  match s with
  | Top => f x (Nat.min y (h - 1 - y))
  | Bottom => f x (Nat.max y (h - 1 - y))
  | LeftHalf => f (Nat.min x (w - 1 - x)) y
  | RightHalf => f (Nat.max x (w - 1 - x)) y
  end.
