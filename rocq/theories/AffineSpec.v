(** What an affine transform should do, over the integers: [x' = a x + b y + tx], [y' = c x + d y + ty]. *)
From Verif Require Import Base GeomSpec.

Record imap := Imap { ia : Z ; ib : Z ; ic : Z ; id : Z ; itx : Z ; ity : Z }.
Definition move_x (m : imap) (x y : Z) : Z := ia m * x + ib m * y + itx m.
Definition move_y (m : imap) (x y : Z) : Z := ic m * x + id m * y + ity m.

(** The box around the four corners of a [w] by [h] picture after the move, one coordinate *)
Definition lowest (f : Z -> Z -> Z) (w h : Z) : Z := Z.min (Z.min (f 0 0) (f w 0)) (Z.min (f 0 h) (f w h)).
Definition highest (f : Z -> Z -> Z) (w h : Z) : Z := Z.max (Z.max (f 0 0) (f w 0)) (Z.max (f 0 h) (f w h)).

(** The move keeps areas (its determinant is 1 or -1), so every whole point has exactly one whole source point. *)
Definition keeps_area (m : imap) : Prop := ia m * id m - ib m * ic m = 1 \/ ia m * id m - ib m * ic m = -1.

(** [out] ([ow] by [oh]) shows the moved picture: the sample at a place is the one of the source point moved there, and
    [hi] where the source point is outside of [sees]. *)
Definition shows (m : imap) (hi : Z) (inp : list Z) (w h : nat) (sees : Z -> Z -> Prop) (out : list Z) (ow oh : nat) : Prop :=
  length out = (ow * oh)%nat /\
  forall ox oy sx sy, (ox < ow)%nat -> (oy < oh)%nat ->
    move_x m sx sy = Z.of_nat ox + lowest (move_x m) (Z.of_nat w) (Z.of_nat h) ->
    move_y m sx sy = Z.of_nat oy + lowest (move_y m) (Z.of_nat w) (Z.of_nat h) ->
    (sees sx sy -> px ow out ox oy = px w inp (Z.to_nat sx) (Z.to_nat sy)) /\
    (~ sees sx sy -> px ow out ox oy = hi).

(** The points of a picture; and those not in its last column or row *)
Definition inside (w h : nat) (x y : Z) : Prop := 0 <= x < Z.of_nat w /\ 0 <= y < Z.of_nat h.
Definition inside_but_last (w h : nat) (x y : Z) : Prop := 0 <= x < Z.of_nat w - 1 /\ 0 <= y < Z.of_nat h - 1.
