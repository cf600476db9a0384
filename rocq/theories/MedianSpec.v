(** Neighbourhoods with replicated edges and order statistics. *)
From Verif Require Import Base GeomSpec.

(** The (2r+1) x (2r+1) samples around (x, y); coordinates outside the image are moved to the nearest inside. *)
Definition window (w h : nat) (l : list Z) (r x y : nat) : list Z :=
  concat (map (fun dy => map (fun dx => px w l (clamp w r (x + dx)) (clamp h r (y + dy))) (seq 0 (2 * r + 1))) (seq 0 (2 * r + 1))).

Definition count_lt (v : Z) (l : list Z) : nat := length (filter (fun x => x <? v) l).
Definition count_le (v : Z) (l : list Z) : nat := length (filter (fun x => x <=? v) l).

(** [v] is the [k]-th smallest (counted from 1, with repetitions) of [l]. *)
Definition kth_smallest (k : nat) (l : list Z) (v : Z) : Prop := (count_lt v l < k <= count_le v l)%nat.

(** The median of a list of odd length: as many samples below as above. *)
Definition is_median (l : list Z) (v : Z) : Prop := kth_smallest (length l / 2 + 1) l v.
