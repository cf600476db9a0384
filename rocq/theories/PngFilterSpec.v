(** The PNG specification's filters (W3C PNG, section 9), written independently of the code. *)
From Verif Require Import Base.

Inductive filter := FNone | FSub | FUp | FAvg | FPaeth.

(** PaethPredictor as in the specification. *)
Definition spec_paeth (a b c : Z) : Z :=
  let p := a + b - c in
  let pa := Z.abs (p - a) in
  let pb := Z.abs (p - b) in
  let pc := Z.abs (p - c) in
  if (pa <=? pb) && (pa <=? pc) then a
  else if pb <=? pc then b
  else c.

(** Predicted value from left, above, upper-left. *)
Definition predict (t : filter) (a b c : Z) : Z :=
  match t with
  | FNone => 0
  | FSub => a
  | FUp => b
  | FAvg => (a + b) / 2
  | FPaeth => spec_paeth a b c
  end.

(** The byte [bpp] positions to the left, 0 outside of the row. *)
Definition left (bpp : nat) (row : list Z) (i : nat) : Z :=
  if (i <? bpp)%nat then 0 else nth (i - bpp) row 0.

(** Filtering a row: each byte minus its prediction, modulo 256. *)
Definition filter_row (t : filter) (bpp : nat) (prev row : list Z) : list Z :=
  map (fun i => (nth i row 0 - predict t (left bpp row i) (nth i prev 0) (left bpp prev i)) mod 256)
      (seq 0 (length row)).

(** A row is a reconstruction of filtered bytes [raw]. *)
Definition recon (t : filter) (bpp : nat) (prev raw row : list Z) : Prop :=
  length row = length raw /\
  forall i, (i < length raw)%nat ->
    nth i row 0 = (nth i raw 0 + predict t (left bpp row i) (nth i prev 0) (left bpp prev i)) mod 256.
