(** What the colours of a JPEG image are: the JFIF formulas (ITU-R BT.601, full range), in hundred-thousandths *)
From Verif Require Import Base.

Definition exact_red (y cb cr : Z) : Z := 100000 * y + 140200 * (cr - 128).
Definition exact_green (y cb cr : Z) : Z := 100000 * y - 34414 * (cb - 128) - 71414 * (cr - 128).
Definition exact_blue (y cb cr : Z) : Z := 100000 * y + 177200 * (cb - 128).
(** [v] is a byte within 0.51 of the exact value, or of 0 or 255 if that is beyond the range *)
Definition near (v exact : Z) : Prop := 0 <= v <= 255 /\ Z.abs (100000 * v - Z.max 0 (Z.min 25500000 exact)) <= 51000.
(** The integer nearest to [a * b / 255] *)
Definition scaled (a b v : Z) : Prop := 2 * Z.abs (255 * v - a * b) <= 255.
(** [picture n width row p]: pixel [i] of the row satisfies [p i] *)
Definition each_of (n width : nat) (row : list Z) (p : nat -> list Z -> Prop) : Prop :=
  length row = (width * n)%nat /\ forall i, (i < width)%nat -> p i (firstn n (skipn (i * n) row)).
