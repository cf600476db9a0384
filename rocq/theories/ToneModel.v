(** Model of the tone and colour filters of crates/zune-imageprocs/src that work on single pixels: brighten.rs,
    exposure.rs, contrast.rs, blend.rs, gamma.rs, color_matrix.rs and hsv_adjust.rs, for samples of 8 bits ([hi] = 255) or
    16 bits ([hi] = 65535). Arithmetic is single precision (F32). The loops over channels, which leave opacity alone except
    in the colour matrix, and the conversions of the last two to RGBA and back are not part of the model. *)
From Verif Require Import Base F32.

Definition f0 : f32 := of_int 0.
Definition f1 : f32 := of_int 1.

(** [brighten] — brighten.rs:130-139 *)
Definition brighten1 (hi : Z) (value : f32) (x : Z) : Z :=
  let scale := fmul (fclamp value (of_int (-1)) f1) (fsub (of_int hi) f0) in
  to_uint hi (fclamp (fadd (of_int x) scale) f0 (of_int hi)).
Definition brighten (hi : Z) (value : f32) (l : list Z) : list Z := map (brighten1 hi value) l.

(** The closure of Exposure — exposure.rs:90-106 *)
Definition exposure1 (hi : Z) (exposure black : f32) (x : Z) : Z :=
  let b := fmul (fclamp black f0 f1) (of_int hi) in
  to_uint hi (fclamp (fmul (fsub (of_int x) b) exposure) f0 (of_int hi)).
Definition exposure (hi : Z) (e black : f32) (l : list Z) : list Z := map (exposure1 hi e black) l.

(** [contrast_u8] — contrast.rs:97-109 *)
Definition contrast_factor (c : f32) : f32 :=
  fdiv (fmul (of_int 259) (fadd c (of_int 255))) (fmul (of_int 255) (fsub (of_int 259) c)).
Definition contrast1 (c : f32) (x : Z) : Z :=
  to_uint 255 (fclamp (fadd (fmul (contrast_factor c) (fsub (of_int x) (of_int 128))) (of_int 128)) f0 (of_int 255)).
Definition contrast (c : f32) (l : list Z) : list Z := map (contrast1 c) l.

(** Comparisons with an [f32]; false for NaN *)
Definition fle (x y : f32) : bool := SFleb x y.
(** [is_normal]: not zero, subnormal, infinite or NaN *)
Definition is_normal (x : f32) : bool := match x with S754_finite _ m _ => 2 ^ 23 <=? Zpos m | _ => false end.
Definition is_zero (x : f32) : bool := match x with S754_zero _ => true | _ => false end.
(** [blend_single_channel] — blend.rs:138-157: after the copy for an alpha of one or more the loop still runs;
    [copy_from_slice] panics on different lengths, which the check of the dimensions excludes. *)
Definition mix (hi : Z) (alpha : f32) (s d : Z) : Z :=
  to_uint hi (fadd (fmul alpha (of_int s)) (fmul (fsub f1 alpha) (of_int d))).
Definition blend_channel (hi : Z) (alpha : f32) (src dest : list Z) : res (list Z) :=
  if fle alpha f0 then Ok dest else
  do dest' <- if fle f1 alpha then if (length src =? length dest)%nat then Ok src else Panic else Ok dest ;
  let n := length (combine src dest') in
  Ok (map (fun sd => mix hi alpha (fst sd) (snd sd)) (combine src dest') ++ skipn n dest').
(** [execute_impl] — blend.rs:78-128, for one channel of two pictures that agree in size, depth and colours *)
Definition blend (hi : Z) (alpha : f32) (src dest : list Z) : res (list Z) :=
  if negb (is_zero alpha) && negb (is_normal alpha) then Err EOther else blend_channel hi alpha src dest.

(** [build_gamma_lut] — gamma.rs:35-57, and [gamma] — 148-158. The power function is a parameter. *)
Section Gamma.
Variable powf : f32 -> f32 -> f32.
Definition gamma_entry (hi : Z) (value : f32) (x : Z) : Z :=
  let mx := of_int hi in
  let inv := fdiv f1 mx in
  let v := fmul mx (powf (fmul (of_int x) inv) value) in
  let v := if SFltb mx v then mx else v in
  to_uint hi v.
Definition gamma_lut (hi : Z) (value : f32) : list Z := map (fun x => gamma_entry hi value (Z.of_nat x)) (seq 0 (S (Z.to_nat hi))).
Definition gamma (hi : Z) (value : f32) (l : list Z) : list Z :=
  let lut := gamma_lut hi value in map (fun x => nth (Z.to_nat x) lut 1) l.
End Gamma.

(** [color_matrix_component] — color_matrix.rs:174-227, one pixel: the rows of the matrix have five entries, the pixel
    four. *)
Definition matrix_row (hi : Z) (row : list f32) (px : list Z) : Z :=
  match row, px with
  | [m0; m1; m2; m3; m4], [r; g; b; a] =>
    to_uint hi (fadd (fadd (fadd (fadd (fmul (of_int r) m0) (fmul (of_int g) m1)) (fmul (of_int b) m2)) (fmul (of_int a) m3)) (fmul (of_int hi) m4))
  | _, _ => 0
  end.
Definition color_matrix (hi : Z) (m : list (list f32)) (px : list Z) : list Z := map (fun row => matrix_row hi row px) m.
(** [try_from_slice] — color_matrix.rs:103-114 *)
Definition matrix_from_slice (s : list f32) : option (list (list f32)) :=
  if (length s =? 20)%nat then Some (chunks_exact 5 s) else None.

(** [modulate_hsl] — hsv_adjust.rs:147-181, one pixel; cosine and sine are parameters. A literal such as 0.299 is the
    quotient 299/1000, rounded. *)
Definition lit (num den : Z) : f32 := fdiv (of_int num) (of_int den).
(** f32::consts::PI = 13176795 * 2^-22 *)
Definition fpi : f32 := S754_finite false 13176795 (-22).
Section Hsv.
Variables cosf sinf : f32 -> f32.
Definition hsv_weight (v vsu vsw : f32) (a b c : f32 * bool) : f32 :=
  let t := fmul (fst a) v in
  let t := if snd b then fsub t (fmul (fst b) vsu) else fadd t (fmul (fst b) vsu) in
  if snd c then fsub t (fmul (fst c) vsw) else fadd t (fmul (fst c) vsw).
Definition plus (x : f32) : f32 * bool := (x, false).
Definition minus (x : f32) : f32 * bool := (x, true).
Definition hsv_rows (h s v : f32) : list (list f32) :=
  let angle := fdiv (fmul h fpi) (of_int 180) in
  let vsu := fmul (fmul v s) (cosf angle) in
  let vsw := fmul (fmul v s) (sinf angle) in
  let k := hsv_weight v vsu vsw in
  let l a := lit a 1000 in
  [[k (plus (l 299)) (plus (l 701)) (plus (l 168)); k (plus (l 587)) (minus (l 587)) (plus (l 330)); k (plus (l 114)) (minus (l 114)) (minus (l 497))];
   [k (plus (l 299)) (minus (l 299)) (minus (l 328)); k (plus (l 587)) (plus (l 413)) (plus (l 35)); k (plus (l 114)) (minus (l 114)) (plus (l 292))];
   [k (plus (l 299)) (minus (l 300)) (plus (l 1250)); k (plus (l 587)) (minus (l 588)) (minus (l 1050)); k (plus (l 114)) (plus (l 886)) (minus (l 203))]].
Definition hsv_row (hi : Z) (row : list f32) (px : list Z) : Z :=
  match row, px with
  | [k0; k1; k2], [r; g; b] =>
    to_uint hi (fclamp (fadd (fadd (fmul k0 (of_int r)) (fmul k1 (of_int g))) (fmul k2 (of_int b))) f0 (of_int hi))
  | _, _ => 0
  end.
Definition hsv_pixel (hi : Z) (h s v : f32) (px : list Z) : list Z := map (fun row => hsv_row hi row px) (hsv_rows h s v).
End Hsv.
