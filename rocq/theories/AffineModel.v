(** Model of the affine transform of integer samples — crates/zune-imageprocs/src/affine.rs. Only the arithmetic of [f32] is
    used, as in F32.v; the sides of a picture are at least 1. *)
From Verif Require Import Base Loops F32 GeomModel ResizeModel.

(** [AffineTransform] — affine.rs:14-21 *)
Record affine := Affine { ta : f32 ; tb : f32 ; tc : f32 ; td : f32 ; ttx : f32 ; tty : f32 }.

(** [identity], [translation], [scale], [shear] — affine.rs:30-39, 57-90 *)
Definition identity : affine := Affine (of_int 1) (of_int 0) (of_int 0) (of_int 1) (of_int 0) (of_int 0).
Definition translation (tx ty : f32) : affine := Affine (of_int 1) (of_int 0) (of_int 0) (of_int 1) tx ty.
Definition scaling (sx sy : f32) : affine := Affine sx (of_int 0) (of_int 0) sy (of_int 0) (of_int 0).
Definition shearing (sx sy : f32) : affine := Affine (of_int 1) sx sy (of_int 1) (of_int 0) (of_int 0).

(** [then] — affine.rs:93-102 *)
Definition compose (s o : affine) : affine :=
  Affine (fadd (fmul (ta s) (ta o)) (fmul (tb s) (tc o))) (fadd (fmul (ta s) (tb o)) (fmul (tb s) (td o)))
         (fadd (fmul (tc s) (ta o)) (fmul (td s) (tc o))) (fadd (fmul (tc s) (tb o)) (fmul (td s) (td o)))
         (fadd (fadd (fmul (ta s) (ttx o)) (fmul (tb s) (tty o))) (ttx s))
         (fadd (fadd (fmul (tc s) (ttx o)) (fmul (td s) (tty o))) (tty s)).

(** [transform_point] — affine.rs:105-110, one coordinate each *)
Definition point_x (t : affine) (x y : f32) : f32 := fadd (fadd (fmul (ta t) x) (fmul (tb t) y)) (ttx t).
Definition point_y (t : affine) (x y : f32) : f32 := fadd (fadd (fmul (tc t) x) (fmul (td t) y)) (tty t).

(** [f32::EPSILON], which is [2 ^ -23] *)
Definition epsilon : f32 := S754_finite false 8388608 (-46).

(** [inverse] — affine.rs:113-128 *)
Definition inverse (t : affine) : option affine :=
  let det := fsub (fmul (ta t) (td t)) (fmul (tb t) (tc t)) in
  if SFltb (SFabs det) epsilon then None else
  let inv := fdiv (of_int 1) det in
  Some (Affine (fmul (td t) inv) (fmul (SFopp (tb t)) inv) (fmul (SFopp (tc t)) inv) (fmul (ta t) inv)
               (fmul (fsub (fmul (tb t) (tty t)) (fmul (td t) (ttx t))) inv)
               (fmul (fsub (fmul (tc t) (ttx t)) (fmul (ta t) (tty t))) inv)).

(** The least and the greatest coordinate of the four corners — affine.rs:201-219, 251-269 *)
Definition corners (w h : nat) (f : f32 -> f32 -> f32) : list f32 :=
  let z := of_int 0 in let fw := of_int (Z.of_nat w) in let fh := of_int (Z.of_nat h) in
  [f z z; f fw z; f z fh; f fw fh].
Definition least (l : list f32) : f32 := fold_left fmin l (S754_infinity false).
Definition greatest (l : list f32) : f32 := fold_left fmax l (S754_infinity true).

(** [x.ceil() as usize] *)
Definition ceil_usize (x : f32) : Z :=
  match x with
  | S754_finite false m e => Z.min (2 ^ 64 - 1) (if 0 <=? e then Zpos m * 2 ^ e else - ((- Zpos m) / 2 ^ (- e)))
  | S754_infinity false => 2 ^ 64 - 1
  | _ => 0
  end.
(** [get_affine_output_dimensions] — affine.rs:197-225 *)
Definition out_side (l : list f32) : Z := ceil_usize (fsub (greatest l) (least l)).
Definition out_width (t : affine) (w h : nat) : Z := out_side (corners w h (point_x t)).
Definition out_height (t : affine) (w h : nat) : Z := out_side (corners w h (point_y t)).

(** The loop body of [affine_transform_channel] — affine.rs:271-309; [hi] is the largest sample *)
Definition affine_pixel (hi : Z) (inp : list Z) (iw ih ow : nat) (inv : affine) (min_x min_y : f32) (oy ox : nat) (out : list Z) : res (list Z) :=
  let y := fadd (of_int (Z.of_nat oy)) min_y in
  let x := fadd (of_int (Z.of_nat ox)) min_x in
  let sx := point_x inv x y in let sy := point_y inv x y in
  if SFleb (of_int 0) sx && SFltb sx (of_int (Z.of_nat iw - 1)) && SFleb (of_int 0) sy && SFltb sy (of_int (Z.of_nat ih - 1)) then
    let x0 := Z.to_nat (to_uint (2 ^ 64 - 1) sx) in let y0 := Z.to_nat (to_uint (2 ^ 64 - 1) sy) in
    let fx := fsub sx (of_int (Z.of_nat x0)) in let fy := fsub sy (of_int (Z.of_nat y0)) in
    do p00 <- get_at inp (y0 * iw + x0) ;
    do p10 <- get_at inp (y0 * iw + (x0 + 1)) ;
    do p01 <- get_at inp ((y0 + 1) * iw + x0) ;
    do p11 <- get_at inp ((y0 + 1) * iw + (x0 + 1)) ;
    set_at out (oy * ow + ox) (to_uint hi (blend p00 p10 p01 p11 fx fy))
  else Ok out.

(** [affine_transform_channel] — affine.rs:228-311 *)
Definition affine_channel (hi : Z) (inp out : list Z) (iw ih ow oh : nat) (t : affine) : res (list Z) :=
  match inverse t with
  | None => Ok out
  | Some inv =>
      let min_x := least (corners iw ih (point_x t)) in let min_y := least (corners iw ih (point_y t)) in
      for_range 0 oh (fun oy out => for_range 0 ow (fun ox out => affine_pixel hi inp iw ih ow inv min_x min_y oy ox out) out)
        (repeat hi (length out))
  end.

(** [execute_impl] for one channel — affine.rs:136-190: the new samples and sides. A channel of [2 ^ 63] samples or more
    cannot be allocated. *)
Definition affine_image (hi : Z) (t : affine) (inp : list Z) (w h : nat) : res (list Z * nat * nat) :=
  let nw := out_width t w h in let nh := out_height t w h in
  match inverse t with
  | None => Err EOther
  | Some _ =>
      if 2 ^ 63 <=? nw * nh then Panic else
      do out <- affine_channel hi inp (repeat 0 (Z.to_nat nw * Z.to_nat nh)) w h (Z.to_nat nw) (Z.to_nat nh) t ;
      Ok (out, Z.to_nat nw, Z.to_nat nh)
  end.
