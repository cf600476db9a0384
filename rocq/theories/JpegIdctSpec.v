(** What the inverse DCT stage is expected to do, stated without its code. *)
From Verif Require Import Base.

(** T.81 figure A.6: the place (row * 8 + column) of the [k]th coefficient in zig-zag order *)
Definition zigzag : list nat :=
  [0; 1; 8; 16; 9; 2; 3; 10; 17; 24; 32; 25; 18; 11; 4; 5; 12; 19; 26; 33; 40; 48; 41; 34; 27; 20; 13; 6; 7; 14; 21; 28;
   35; 42; 49; 56; 57; 50; 43; 36; 29; 22; 15; 23; 30; 37; 44; 51; 58; 59; 52; 45; 38; 31; 39; 46; 53; 60; 61; 54; 47;
   55; 62; 63]%nat.
(** All coefficients from the [len]th on are zero. *)
Definition zero_from (len : nat) (b : list Z) : Prop :=
  forall k, (len <= k < 64)%nat -> nth (nth k zigzag 0%nat) b 0 = 0.
(** Only the first four columns of the first four rows are used. *)
Definition corner (b : list Z) : Prop :=
  forall r c, (r < 8)%nat -> (c < 8)%nat -> (4 <= r \/ 4 <= c)%nat -> nth (8 * r + c) b 0 = 0.
