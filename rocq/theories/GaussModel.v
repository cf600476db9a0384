(** Model of the Gaussian blur of integer samples — crates/zune-imageprocs/src/gaussian_blur.rs — and of sharpening —
    crates/zune-imageprocs/src/unsharpen.rs. Samples are [b]-bit, b = 8 or 16. *)
From Coq Require Import Floats.SpecFloat.
From Verif Require Import Base Loops ProcModel GeomModel BlurModel F32.

(** [f32::round] followed by the cast to [usize]: to the nearest integer, halves away from zero; negative numbers and
    NaN give 0, and the largest [usize] is the limit. *)
Definition round_usize (x : f32) : Z :=
  match x with
  | S754_finite false m e => Z.min (2 ^ 64 - 1) (if 0 <=? e then Zpos m * 2 ^ e else (Zpos m + 2 ^ (- e - 1)) / 2 ^ (- e))
  | S754_infinity false => 2 ^ 64 - 1
  | _ => 0
  end.

(** [create_box_gauss] — gaussian_blur.rs:169-204. The square root is an argument, and taken not to be negative, so that
    [floor] is the cast. The sum [wl + 2] of [i32] is checked; a build without overflow checks differs for results of
    the root above [2 ^ 31 - 4] only. *)
Definition box_gauss (fsqrt : f32 -> f32) (sigma : f32) : res (list nat) :=
  do radii <-
    (if SFltb (of_int 0) sigma then
       let n := of_int 3 in
       let w_ideal := fadd (fsqrt (fdiv (fmul (fmul (of_int 12) sigma) sigma) n)) (of_int 1) in
       let wl := to_uint (2 ^ 31 - 1) w_ideal in
       let wl := if wl mod 2 =? 0 then wl - 1 else wl in
       if 2 ^ 31 <=? wl + 2 then Panic else
       let wf := of_int wl in
       let m_ideal := fdiv (fsub (fsub (fsub (fmul (fmul (of_int 12) sigma) sigma) (fmul (fmul n wf) wf))
                                        (fmul (fmul (of_int 4) n) wf)) (fmul (of_int 3) n))
                           (fsub (fmul (of_int (-4)) wf) (of_int 4)) in
       let m := round_usize m_ideal in
       Ok (map (fun i => if Z.of_nat i <? m then Z.to_nat (wl mod 2 ^ 64) else Z.to_nat ((wl + 2) mod 2 ^ 64)) (seq 0 3))
     else Ok (repeat 1%nat 3)) ;
  Ok (map (fun c => if (c mod 2 =? 0)%nat then (c + 1)%nat else c) radii).

(** The three passes along the rows, between the two buffers — gaussian_blur.rs:221-231 and 338-348 (the code for u8 is the same);
    the result is the pair of buffers, the blurred samples being in the second one *)
Definition passes (b : Z) (img scratch : list Z) (w r0 r1 r2 : nat) : res (list Z * list Z) :=
  do scratch <- box_blur_inner b img scratch w r0 ;
  do img <- box_blur_inner b scratch img w r1 ;
  do scratch <- box_blur_inner b img scratch w r2 ;
  Ok (img, scratch).

(** [gaussian_blur_u16] — gaussian_blur.rs:215-248 — and [gaussian_blur_u8] — 310-366, with a scratch buffer of zeros as
    allocated by the callers (60, 73, 110, 122) *)
Definition gaussian_blur (b : Z) (checked : bool) (fsqrt : f32 -> f32) (sigma : f32) (img : list Z) (w h : nat) : res (list Z) :=
  do radii <- box_gauss fsqrt sigma ;
  match radii with
  | [r0; r1; r2] =>
      do p <- passes b img (repeat 0 (w * h)) w r0 r1 r2 ;
      do img <- transpose checked w h (snd p) (fst p) ;
      do p <- passes b img (snd p) h r0 r1 r2 ;
      transpose checked h w (snd p) (fst p)
  | _ => Panic
  end.

(** One sample of [unsharpen_u8] — unsharpen.rs:240-251 — and of [unsharpen_u16] — 192-206 *)
Definition sharpen8 (threshold p bl : Z) : Z :=
  let diff := (p - bl) mod 2 ^ 8 in
  if threshold <? diff then Z.min 255 (p + diff) else p.
Definition sharpen16 (threshold p bl : Z) : Z :=
  let diff := Z.max 0 (p - bl) in
  if threshold <? diff then (p + diff) mod 2 ^ 16 else p.

(** [iter_mut().zip(iter())] *)
Fixpoint zip_with (f : Z -> Z -> Z) (a c : list Z) : list Z :=
  match a, c with x :: a', y :: c' => f x y :: zip_with f a' c' | _, _ => a end.

(** [unsharpen_u8] — unsharpen.rs:230-252 — and [unsharpen_u16] — 182-207. The threshold is that of [execute_impl]: for 8 bits cut to
    255 (with threads; without them it is reduced modulo 256). *)
Definition unsharpen (b : Z) (checked : bool) (fsqrt : f32 -> f32) (sigma : f32) (threshold : Z) (img : list Z) (w h : nat)
  : res (list Z) :=
  do bl <- gaussian_blur b checked fsqrt sigma img w h ;
  Ok (zip_with (if b =? 8 then sharpen8 (Z.min threshold 255) else sharpen16 threshold) img bl).
