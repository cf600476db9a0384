(** What the eight Exif orientations mean: where the sample shown at column [x], row [y] is stored in a picture of
    [w] by [h] samples (TIFF 6.0, tag 274; Exif 2.3, 4.6.4 A). *)
From Verif Require Import Base GeomSpec F32 F32Round OrientModel.

(** Orientations 5 to 8 exchange width and height. *)
Definition sideways (b : Z) : bool := (5 <=? b) && (b <=? 8).

Definition source (b : Z) (w h x y : nat) : nat * nat :=
  match b with
  | 2 => (w - 1 - x, y)%nat             (* the row 0 is the top, the column 0 is the right side *)
  | 3 => (w - 1 - x, h - 1 - y)%nat     (* bottom, right *)
  | 4 => (x, h - 1 - y)%nat             (* bottom, left *)
  | 5 => (y, x)                         (* left, top *)
  | 6 => (y, h - 1 - x)%nat             (* right, top *)
  | 7 => (w - 1 - y, h - 1 - x)%nat     (* right, bottom *)
  | 8 => (w - 1 - y, x)%nat             (* left, bottom *)
  | _ => (x, y)
  end.

(** [q] is [p] as it should be shown. *)
Definition oriented (b : Z) (p q : pic) : Prop :=
  p_w q = (if sideways b then p_h p else p_w p) /\ p_h q = (if sideways b then p_w p else p_h p) /\ p_size q = p_size p /\
  Forall2 (fun c d => is_image (p_w q) (p_h q) d (fun x y => let '(u, v) := source b (p_w p) (p_h p) x y in px (p_w p) c u v))
          (p_chans p) (p_chans q).

(** A picture with samples. *)
Definition valid (p : pic) : Prop :=
  (0 < p_w p)%nat /\ (0 < p_h p)%nat /\ (p_size p = 1 \/ p_size p = 2 \/ p_size p = 4)%nat /\
  Forall (fun c => length c = (p_w p * p_h p)%nat) (p_chans p).

(** Cosine and sine of 90 or 270 degrees as a mathematical library gives them: the angle in radians is not exact, so
    that the cosine is not zero but at most [4.371139e-8 = 12303662 / 2^48] away from it. *)
Definition good_trig (cs : f32 * f32) : Prop :=
  rep (fabs (snd cs)) 1 /\ ffin (fabs (fst cs)) /\ fval (fabs (fst cs)) <= 12303662 * 2 ^ 101.

(** Sides for which that cosine does not count: neither is more than four thirds of the power of two below the other. *)
Definition close_sides (w h : nat) : Prop :=
  Z.of_nat w < 2 ^ 24 /\ Z.of_nat h < 2 ^ 24 /\
  3 * Z.of_nat w <= 4 * 2 ^ Z.log2 (Z.of_nat h) /\ 3 * Z.of_nat h <= 4 * 2 ^ Z.log2 (Z.of_nat w).

(** The orientation of a list of fields: the first value of the first field with the tag and the type Short. *)
Fixpoint orientation (fs : list field) : option (list Z) :=
  match fs with
  | [] => None
  | f :: fs' => if f_tag f =? 274 then match f_value f with Short xs => Some xs | _ => orientation fs' end else orientation fs'
  end.
