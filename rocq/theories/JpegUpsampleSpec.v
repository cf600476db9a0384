(** What upsampling of a JPEG component should give: the "triangle filter" of JPEG libraries. Every sample of the small plane
    is replaced by two; each keeps three quarters of the sample and takes one quarter of the neighbour on its side; at
    the border the sample itself is its neighbour. *)
From Verif Require Import Base Slices JpegUpsampleModel.

Definition blend (a b : Z) : Z := (3 * a + b + 2) / 4.
(** The neighbour used for place [k] of the doubled line, of [n] old places *)
Definition neighbour (n k : nat) : nat := if Nat.even k then (k / 2 - 1)%nat else Nat.min (k / 2 + 1) (n - 1).
(** A row twice as wide *)
Definition wide (r : list Z) : list Z :=
  map (fun k => blend (nth (k / 2) r 0) (nth (neighbour (length r) k) r 0)) (seq 0 (2 * length r)).
(** Two rows blended sample by sample *)
Definition mix (a b : list Z) : list Z := map (fun k => blend (nth k a 0) (nth k b 0)) (seq 0 (length a)).
(** A plane twice as high *)
Definition tall (rows : list (list Z)) : list (list Z) :=
  map (fun k => mix (nth (k / 2) rows []) (nth (neighbour (length rows) k) rows [])) (seq 0 (2 * length rows)).
(** A plane given as one list, cut into rows of [w] samples *)
Definition rows_of (w : nat) (l : list Z) : list (list Z) := map (fun g => slice l (g * w) w) (seq 0 (length l / w)).
(** The whole plane of a component at full size: [w] is its own width. A sample is repeated for the unusual factors. *)
Definition plane (r : ratio) (w : nat) (l : list Z) : list (list Z) :=
  match r with
  | RNone => rows_of w l
  | RH => map wide (rows_of w l)
  | RV => tall (rows_of w l)
  | RHV => map wide (tall (rows_of w l))
  | RGen h v => flat_map (fun row => repeat (flat_map (fun x => repeat x h) row) v) (rows_of w l)
  end.
