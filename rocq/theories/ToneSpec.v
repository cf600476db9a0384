(** What tone filters should do. Values of floats are counted in units of 2^-149, the smallest positive number, so that
    every float is a whole number of units, and a level of the samples is [unit_] of them. *)
From Verif Require Import Base F32 F32Round.

Definition unit_ : Z := 2 ^ 149.
(** [z], moved into the range from [lo] to [hi] *)
Definition limit (lo hi z : Z) : Z := Z.max lo (Z.min hi z).
(** The sample [v] is the exact value [num/den] (limited to 0..[hi]), cut to an integer, with an error of at most
    1/[slack] level before the cut *)
Definition level_of (hi num den slack v : Z) : Prop :=
  slack * (limit 0 (hi * den) num - den) - den <= slack * (v * den) <= slack * limit 0 (hi * den) num + den.
Definition depth (hi : Z) : Prop := hi = 255 \/ hi = 65535.
Definition sample (hi x : Z) : Prop := 0 <= x <= hi.
(** The sum of the sizes of some weights, in units *)
Fixpoint weight_total (ks : list f32) : Z := match ks with [] => 0 | k :: ks' => Z.abs (fval k) + weight_total ks' end.
Lemma weight_total_pos ks : 0 <= weight_total ks. Proof. induction ks; cbn [weight_total]; lia. Qed.
(** The exact sum of products of samples and weights, in units *)
Definition dot (xs : list Z) (ks : list f32) : Z := fold_right Z.add 0 (map (fun xk => fst xk * fval (snd xk)) (combine xs ks)).
