(** Model of the bilinear resizer: crates/zune-imageprocs/src/resize/bilinear.rs and the bilinear path of resize.rs, for
    one channel of 8-bit ([hi] = 255) or 16-bit ([hi] = 65535) samples of a picture marked as linear and without an
    alpha channel, so that no transfer function and no premultiplication is put around the resizing (resize.rs:89-126,
    188-213). Not modelled: [f32] samples and the methods other than [ResizeMethod::Bilinear]. *)
From Verif Require Import Base Loops F32.

(** [1.0 / out as f32 * in as f32] — bilinear.rs:19-20 *)
Definition ratio (inn out : nat) : f32 := fmul (fdiv (of_int 1) (of_int (Z.of_nat out))) (of_int (Z.of_nat inn)).
(** The position, the two neighbours and the weight of the second one — bilinear.rs:25-32, 35-49. The subtraction
    [inn - 1] overflows for an empty side: a panic in debug builds, and one at the first access of the empty channel in
    release builds. [floor() as usize] is the cast alone, as no position is negative. *)
Definition place (clampit : bool) (r : f32) (inn i : nat) : res (nat * nat * f32) :=
  let p := fmul (of_int (Z.of_nat i)) r in
  let i0 := Z.to_nat (to_uint (2 ^ 64 - 1) p) in
  if (inn =? 0)%nat then Panic else
  let i1 := Nat.min (i0 + 1) (inn - 1) in
  let i0 := if clampit then Nat.min i0 (inn - 1) else i0 in
  Ok (i0, i1, fsub p (of_int (Z.of_nat i0))).
(** The interpolation — bilinear.rs:51-59. The sums and products are taken from left to right. *)
Definition blend (p00 p10 p01 p11 : Z) (a b : f32) : f32 :=
  let one := of_int 1 in
  fadd (fadd (fadd (fmul (fmul (of_int p00) (fsub one a)) (fsub one b))
                   (fmul (fmul (of_int p10) a) (fsub one b)))
             (fmul (fmul (of_int p01) (fsub one a)) b))
       (fmul (fmul (of_int p11) a) b).
(** [bilinear_impl] — bilinear.rs:11-64; [T::from_f32] is the saturating cast — traits.rs:119-121 *)
Definition bilinear_impl (hi : Z) (inp out : list Z) (iw ih ow oh : nat) : res (list Z) :=
  let wr := ratio iw ow in
  let hr := ratio ih oh in
  let larger := SFltb wr (of_int 1) && SFltb hr (of_int 1) in
  for_range 0 oh (fun y out =>
    do py <- place larger hr ih y ;
    let '(y0, y1, b) := py in
    for_range 0 ow (fun x out =>
      do px <- place larger wr iw x ;
      let '(x0, x1, a) := px in
      do p00 <- get_at inp (y0 * iw + x0) ;
      do p10 <- get_at inp (y0 * iw + x1) ;
      do p01 <- get_at inp (y1 * iw + x0) ;
      do p11 <- get_at inp (y1 * iw + x1) ;
      set_at out (y * ow + x) (to_uint hi (blend p00 p10 p01 p11 a b))) out) out.
(** The new channel starts as zeros — resize.rs:131, 148-186 (the dimensions of the picture become [ow] and [oh]) *)
Definition resize_bilinear (hi : Z) (inp : list Z) (iw ih ow oh : nat) : res (list Z) :=
  bilinear_impl hi inp (repeat 0 (ow * oh)) iw ih ow oh.
