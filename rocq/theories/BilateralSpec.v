(** What a bilateral filter computes. *)
From Verif Require Import Base GeomSpec.

(** The neighbours of (x, y) at a distance of at most [r], each with its squared distance; edges are repeated *)
Definition neighbours (w h : nat) (l : list Z) (r x y : nat) : list (Z * Z) :=
  filter (fun nv => fst nv <=? Z.of_nat r * Z.of_nat r)
    (concat (map (fun dy => map (fun dx =>
      ((Z.of_nat dx - Z.of_nat r) ^ 2 + (Z.of_nat dy - Z.of_nat r) ^ 2, px w l (clamp w r (x + dx)) (clamp h r (y + dy))))
      (seq 0 (2 * r + 1))) (seq 0 (2 * r + 1)))).

(** The average of the neighbours, weighted by distance and by difference from the sample itself *)
Definition bilateral_value {W} (space color : Z -> W) (avg : list (W * W * Z) -> Z) (r w h : nat) (l : list Z) (x y : nat) : Z :=
  avg (map (fun nv => (space (fst nv), color (Z.abs (snd nv - px w l x y)), snd nv)) (neighbours w h l r x y)).

(** The averages that stay between the samples *)
Definition between {W} (avg : list (W * W * Z) -> Z) : Prop :=
  forall ts lo hi, ts <> [] -> Forall (fun t => lo <= snd t <= hi) ts -> lo <= avg ts <= hi.
