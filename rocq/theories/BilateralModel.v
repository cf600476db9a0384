(** Model of the bilateral filter of integer samples — crates/zune-imageprocs/src/bilateral_filter.rs. Weights have any type
    [W]: the exponential, and the sums and the division in double precision, are parameters. *)
From Verif Require Import Base Loops GeomModel MedianModel SpatialModel.

(** [-radius..=radius] *)
Definition zrange (r : nat) : list Z := map (fun k => Z.of_nat k - Z.of_nat r) (seq 0 (2 * r + 1)).
(** The squared distances [i * i + j * j] for which a weight is stored, in that order — bilateral_filter.rs:162-171. The
    test [sqrt(n) > radius] is [n > radius ^ 2] for every radius for which the table can be allocated. *)
Definition distances (r : nat) : list Z :=
  concat (map (fun i => filter (fun n => n <=? Z.of_nat r * Z.of_nat r) (map (fun j => i * i + j * j) (zrange r))) (zrange r)).

(** [init_bilateral] — bilateral_filter.rs:136-178, for [1 <= d]: the weights of space in a table of [d * d] entries. [d * d]
    is checked in [i32]. *)
Definition space_weights {W} (space : Z -> W) (d : Z) : res (list W) :=
  if 2 ^ 31 <=? d * d then Panic else
  let ds := distances (Z.to_nat (d / 2)) in
  if d * d <? Z.of_nat (length ds) then Panic else Ok (map space ds).

(** The closure [bilateral_func] — bilateral_filter.rs:200-220. [avg] gets the weight of space, the weight of colour and the
    sample of every term; [color] is the table of weights, which covers all differences of samples. *)
Definition bilateral_fn {W} (color : Z -> W) (avg : list (W * W * Z) -> Z) (ws : list W) (area : list Z) : res Z :=
  match nth_error area ((length area + 1) / 2) with
  | None => Panic
  | Some v0 => Ok (avg (map (fun vs => (snd vs, color (Z.abs (fst vs - v0)), fst vs)) (combine area ws)))
  end.

(** [execute_impl] for one channel — bilateral_filter.rs:78-121, with [bilateral_filter_int] — 180-223 *)
Definition bilateral {W} (space color : Z -> W) (avg : list (W * W * Z) -> Z) (d : Z) (inp : list Z) (w h : nat) : res (list Z) :=
  if d <? 1 then Ok inp else
  do ws <- space_weights space d ;
  filter_image (bilateral_fn color avg ws) inp (Z.to_nat (d / 2)) w h.
