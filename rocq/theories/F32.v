(** Single precision arithmetic, by the executable IEEE 754 specification of the standard library
    (Coq.Floats.SpecFloat; 24 bits of precision, round to nearest even). Everything here computes. *)
From Coq Require Export SpecFloat.
From Verif Require Import Base.

Definition f32 : Set := spec_float.
(** The integer as an [f32] ([f32::from], [as f32]), rounded if it does not fit *)
Definition of_int (z : Z) : f32 := binary_normalize 24 128 z 0 false.
Definition fmul : f32 -> f32 -> f32 := SFmul 24 128.
Definition fdiv : f32 -> f32 -> f32 := SFdiv 24 128.
Definition fadd : f32 -> f32 -> f32 := SFadd 24 128.
Definition fsub : f32 -> f32 -> f32 := SFsub 24 128.
(** [f32::min]/[f32::max]: a NaN operand is ignored *)
Definition fmin (x y : f32) : f32 := match x, y with S754_nan, _ => y | _, S754_nan => x | _, _ => if SFltb y x then y else x end.
Definition fmax (x y : f32) : f32 := match x, y with S754_nan, _ => y | _, S754_nan => x | _, _ => if SFltb x y then y else x end.
(** [f32::clamp]: a NaN stays *)
Definition fclamp (x lo hi : f32) : f32 := if SFltb x lo then lo else if SFltb hi x then hi else x.
(** The cast to an unsigned integer type with largest value [hi]: towards zero, saturating, NaN to 0 *)
Definition to_uint (hi : Z) (x : f32) : Z :=
  match x with
  | S754_finite false m e => Z.min hi (if 0 <=? e then Zpos m * 2 ^ e else Zpos m / 2 ^ (- e))
  | S754_infinity false => hi
  | _ => 0
  end.
