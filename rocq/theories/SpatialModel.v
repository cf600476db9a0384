(** Model of the neighbourhood filters of crates/zune-imageprocs/src: spatial.rs, spatial_ops.rs, sobel.rs, scharr.rs and
    convolve.rs, for one channel of 8-bit ([hi] = 255) or 16-bit ([hi] = 65535) samples. [dbg]: arithmetic overflow
    panics (debug build) or wraps (release build). *)
From Verif Require Import Base Loops Slices GeomModel MedianModel F32.

(** [spatial] — spatial.rs:106-148, and [spatial_NxN] — spatial.rs:153-194, convolve.rs:291-333, which differ only in
    where the window is stored. [gather] (MedianModel) collects the window row by row; the prefetches do nothing. *)
Definition spatial (f : list Z -> res Z) (inp out : list Z) (r w h : nat) : res (list Z) :=
  let rs := (2 * r + 1)%nat in
  let pw := (r * 2 + w)%nat in
  if negb ((r * 2 + h) * pw =? length inp)%nat then Panic else
  for_range 0 h (fun iy out => for_range 0 w (fun ix out =>
    do win <- gather inp pw rs ix iy ;
    do v <- f win ;
    set_at out (iy * w + ix) v) out) out.

(** The padding and the fresh output channel all filters start with — spatial_ops.rs:153-161, spatial.rs:48,
    sobel.rs:198-200, scharr.rs:244-246, convolve.rs:186-200 *)
Definition filter_image (f : list Z -> res Z) (inp : list Z) (r w h : nat) : res (list Z) :=
  do padded <- pad_replicate inp w h r r ;
  spatial f padded (repeat 0 (length inp)) r w h.

(** ** spatial_ops.rs *)
Inductive statistic : Set := Contrast | Maximum | Gradient | Minimum | Mean.

(** [find_min] — spatial_ops.rs:48-57, [find_max] — 102-111 *)
Definition find_min (hi : Z) (data : list Z) : Z := fold_left (fun m x => if x <? m then x else m) data hi.
Definition find_max (data : list Z) : Z := fold_left (fun m x => if m <? x then x else m) data 0.
(** An addition or subtraction in the type of the samples *)
Definition sample_op (dbg : bool) (hi v : Z) : res Z :=
  if (0 <=? v) && (v <=? hi) then Ok v else if dbg then Panic else Ok (v mod (hi + 1)).
(** [find_contrast] — spatial_ops.rs:59-79 *)
Definition find_contrast (dbg : bool) (hi : Z) (data : list Z) : res Z :=
  let mn := find_min hi data in let mx := find_max data in
  do num <- sample_op dbg hi (mx - mn) ;
  do sum <- sample_op dbg hi (mx + mn) ;
  let div := Z.min hi (sum + 1) in
  if div =? 0 then Panic else Ok (num / div).
(** [find_gradient] — spatial_ops.rs:81-100 *)
Definition find_gradient (dbg : bool) (hi : Z) (data : list Z) : res Z := sample_op dbg hi (find_max data - find_min hi data).
(** [find_mean] — spatial_ops.rs:113-127: a 32-bit sum *)
Fixpoint sum32 (dbg : bool) (data : list Z) (acc : Z) : res Z :=
  match data with
  | [] => Ok acc
  | x :: data' => if acc + x <? 2 ^ 32 then sum32 dbg data' (acc + x) else if dbg then Panic else sum32 dbg data' ((acc + x) mod 2 ^ 32)
  end.
Definition find_mean (dbg : bool) (hi : Z) (data : list Z) : res Z :=
  let len := Z.of_nat (length data) mod 2 ^ 32 in
  do s <- sum32 dbg data 0 ;
  if len =? 0 then Panic else Ok (s / len mod (hi + 1)).

(** [spatial_ops] — spatial_ops.rs:141-186 *)
Definition statistic_fn (dbg : bool) (hi : Z) (s : statistic) : list Z -> res Z :=
  match s with
  | Contrast => find_contrast dbg hi
  | Maximum => fun d => Ok (find_max d)
  | Gradient => find_gradient dbg hi
  | Minimum => fun d => Ok (find_min hi d)
  | Mean => find_mean dbg hi
  end.
Definition spatial_ops (dbg : bool) (hi : Z) (s : statistic) (inp : list Z) (r w h : nat) : res (list Z) :=
  filter_image (statistic_fn dbg hi s) inp r w h.

(** ** Edges *)

(** A product or sum in [i32] *)
Definition i32_op (dbg : bool) (v : Z) : res Z :=
  if (- 2 ^ 31 <=? v) && (v <? 2 ^ 31) then Ok v else if dbg then Panic else Ok ((v + 2 ^ 31) mod 2 ^ 32 - 2 ^ 31).
(** [T::from_f64(f64::from(sum_a * sum_a + sum_b * sum_b).sqrt())] — sobel.rs:160, scharr.rs:206. The double precision
    square root is the standard library's (SpecFloat, 53 bits); the cast cuts and saturates. *)
Definition magnitude (dbg : bool) (hi a b : Z) : res Z :=
  do aa <- i32_op dbg (a * a) ;
  do bb <- i32_op dbg (b * b) ;
  do s <- i32_op dbg (aa + bb) ;
  Ok (to_uint hi (SFsqrt 53 1024 (binary_normalize 53 1024 s 0 false))).
(** [sobel_inner_i32] — sobel.rs:136-161. The two sums stay below 2^22 in size for 16-bit samples. *)
Definition sobel_fn (dbg : bool) (hi : Z) (c : list Z) : res Z :=
  match c with
  | [c0; c1; c2; c3; c4; c5; c6; c7; c8] =>
      let sum_a := (c0 * -1 + c2 * 1) + (c3 * -2 + c5 * 2) + (c6 * -1 + c7 * 1) in
      let sum_b := (c0 * -1 + c1 * -2) + (c2 * -1 + c6 * 1) + (c7 * 2 + c8 * 1) in
      magnitude dbg hi sum_a sum_b
  | _ => Panic
  end.
(** [scharr_inner_i32] — scharr.rs:182-207 *)
Definition scharr_fn (dbg : bool) (hi : Z) (c : list Z) : res Z :=
  match c with
  | [c0; c1; c2; c3; c4; c5; c6; c7; c8] =>
      let sum_a := (c0 * -3 + c2 * 3) + (c3 * -10 + c5 * 10) + (c6 * -3 + c7 * 3) in
      let sum_b := (c0 * -3 + c1 * -10) + (c2 * -3 + c6 * 3) + (c7 * 10 + c8 * 3) in
      magnitude dbg hi sum_a sum_b
  | _ => Panic
  end.
(** [sobel_int] — sobel.rs:192-203, [scharr_int] — scharr.rs:238-249 *)
Definition sobel (dbg : bool) (hi : Z) (inp : list Z) (w h : nat) : res (list Z) := filter_image (sobel_fn dbg hi) inp 1 w h.
Definition scharr (dbg : bool) (hi : Z) (inp : list Z) (w h : nat) : res (list Z) := filter_image (scharr_fn dbg hi) inp 1 w h.

(** [scharr_inner_f32] — scharr.rs:148-173, for floating point images; only the arithmetic on one window is modelled *)
Definition scharr_f32 (c : list f32) : res f32 :=
  match c with
  | [c0; c1; c2; c3; c4; c5; c6; c7; c8] =>
      let k x z := fmul x (of_int z) in
      let sum_a := fadd (fadd (fadd (of_int 0) (fadd (k c0 (-3)) (k c2 3))) (fadd (k c3 (-10)) (k c5 10))) (fadd (k c6 (-3)) (k c7 30)) in
      let sum_b := fadd (fadd (fadd (of_int 0) (fadd (k c0 (-3)) (k c1 (-10)))) (fadd (k c2 (-3)) (k c6 3))) (fadd (k c7 10) (k c8 3)) in
      Ok (SFsqrt 24 128 (fadd (fmul sum_a sum_a) (fmul sum_b sum_b)))
  | _ => Panic
  end.

(** ** convolve.rs *)

(** [convolve_3x3_inner], [convolve_5x5_inner], [convolve_7x7_inner] — convolve.rs:131-177; the sum of the iterator
    starts at zero. The clamp after the cast to the sample type changes nothing. *)
Definition convolve_fn (hi : Z) (weights : list f32) (scale : f32) (c : list Z) : res Z :=
  let s := fold_left fadd (map (fun xw => fmul (of_int (fst xw)) (snd xw)) (combine c weights)) (of_int 0) in
  Ok (Z.max 0 (Z.min hi (to_uint hi (fmul s scale)))).
(** [convolve] — convolve.rs:247-286: only 3x3, 5x5 and 7x7 *)
Definition convolve (hi : Z) (weights : list f32) (scale : f32) (inp : list Z) (w h : nat) : res (list Z) :=
  if (length weights =? 9)%nat then filter_image (convolve_fn hi weights scale) inp 1 w h
  else if (length weights =? 25)%nat then filter_image (convolve_fn hi weights scale) inp 2 w h
  else if (length weights =? 49)%nat then filter_image (convolve_fn hi weights scale) inp 3 w h
  else Err EOther.
