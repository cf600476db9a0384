(** What neighbourhood filters should compute. Windows are those of MedianSpec: (2r+1) x (2r+1) samples, edges repeated. *)
From Verif Require Import Base GeomSpec MedianSpec.

Definition smallest (l : list Z) (v : Z) : Prop := In v l /\ forall x, In x l -> v <= x.
Definition largest (l : list Z) (v : Z) : Prop := In v l /\ forall x, In x l -> x <= v.
Definition total (l : list Z) : Z := fold_right Z.add 0 l.
Fixpoint weighted (ks l : list Z) : Z :=
  match ks, l with k :: ks', x :: l' => k * x + weighted ks' l' | _, _ => 0 end.

(** [v] is the square root of [n], cut to an integer, but at most [hi] *)
Definition root_upto (hi n v : Z) : Prop := 0 <= v <= hi /\ v * v <= n /\ (v < hi -> n < (v + 1) * (v + 1)).

(** The matrices in the documentation — sobel.rs:27-40, scharr.rs:27-40 *)
Definition sobel_x : list Z := [-1; 0; 1; -2; 0; 2; -1; 0; 1].
Definition sobel_y : list Z := [-1; -2; -1; 0; 0; 0; 1; 2; 1].
Definition scharr_x : list Z := [-3; 0; 3; -10; 0; 10; -3; 0; 3].
Definition scharr_y : list Z := [-3; -10; -3; 0; 0; 0; 3; 10; 3].
Definition edge (kx ky win : list Z) : Z := weighted kx win * weighted kx win + weighted ky win * weighted ky win.

(** The horizontal matrices the code applies: the last row is shifted by one *)
Definition sobel_x_code : list Z := [-1; 0; 1; -2; 0; 2; -1; 1; 0].
Definition scharr_x_code : list Z := [-3; 0; 3; -10; 0; 10; -3; 3; 0].
