(** Box averages. *)
From Verif Require Import Base GeomSpec.

Definition total (l : list Z) : Z := fold_right Z.add 0 l.

(** The columns averaged for column [x] of a row of width [w] by a filter of [2 m + 1] taps. Away from the right
    edge: the [2 m + 1] columns centred on [x + 1], columns left of the row counting as column 0. On the last [m + 1]
    columns: the [m] columns starting at [w - (2 m + 1)], the columns after [x], and the last column for the rest. *)
Definition taps (w m x : nat) : list nat :=
  if (x + m + 1 <? w)%nat then map (fun k => (x + 1 + k - m)%nat) (seq 0 (2 * m + 1))
  else seq (w - (2 * m + 1)) m ++ seq (x + 1) (w - (x + 1)) ++ repeat (w - 1)%nat (x + m + 2 - w).

(** The taps of the textbook filter: centred on [x], clamped to the row. *)
Definition centred_taps (w m x : nat) : list nat := map (fun k => Nat.min (x + k - m) (w - 1)) (seq 0 (2 * m + 1)).

Definition average (f : nat -> Z) (ts : list nat) : Z := total (map f ts) / Z.of_nat (length ts).
