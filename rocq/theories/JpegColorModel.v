(** Model of colour conversion in zune-jpeg — crates/zune-jpeg/src/color_convert.rs, color_convert/scalar.rs,
    color_convert/avx.rs, worker.rs:21-405. [post_process] hands over one row at a time (mcu.rs:767-798), so the loops
    over rows in worker.rs run once; they are modelled for one row. Not modelled: color_convert/neon64.rs. *)
From Verif Require Import Base Loops Slices DeintModel JpegSimd.

(** * Sixteen pixels *)

(** Coefficients — scalar.rs:15-22 *)
Definition Y_CF : Z := 16384.
Definition CR_CF : Z := 22970.
Definition CB_CF : Z := 29032.
Definition C_G_CR_COEF_1 : Z := -11700.
Definition C_G_CB_COEF_2 : Z := -5638.
Definition YUV_RND : Z := 2 ^ 13 - 1.
Definition clamp255 (a : Z) : Z := clampz 0 255 a.

(** The loop body of [ycbcr_to_rgb_inner_16_scalar] and [ycbcr_to_rgba_inner_16_scalar] — scalar.rs:52-75, 97-118.
    [cr - 128] is computed in [i16], the rest in [i32]: no sum of 16-bit samples leaves that range. *)
Definition pixel_of (bgr alpha : bool) (y cb cr : Z) : list Z :=
  let cr := i16 (cr - 128) in
  let cb := i16 (cb - 128) in
  let y0 := i32 (y * Y_CF + YUV_RND) in
  let r := Z.shiftr (i32 (y0 + cr * CR_CF)) 14 in
  let g := Z.shiftr (i32 (i32 (y0 + cr * C_G_CR_COEF_1) + cb * C_G_CB_COEF_2)) 14 in
  let b := Z.shiftr (i32 (y0 + cb * CB_CF)) 14 in
  (if bgr then [clamp255 b; clamp255 g; clamp255 r] else [clamp255 r; clamp255 g; clamp255 b]) ++ (if alpha then [255] else []).
Fixpoint zip3 {A} (f : Z -> Z -> Z -> A) (a b c : list Z) : list A :=
  match a, b, c with
  | x :: a', y :: b', z :: c' => f x y z :: zip3 f a' b' c'
  | _, _, _ => []
  end.
(** scalar.rs:39-129; the position is always 0 (worker.rs) *)
Definition scalar_16 (bgr alpha : bool) (y cb cr out : list Z) : res (list Z) :=
  put_slice out 0 (concat (zip3 (pixel_of bgr alpha) y cb cr)).

(** [i32::from_ne_bytes] of two words — avx.rs:54-62, little endian *)
Definition two_words (a b : Z) : Z := i32 (a mod 65536 + 65536 * (b mod 65536)).
Definition R_AVX_COEF : Z := two_words CR_CF 0.
Definition B_AVX_COEF : Z := two_words 0 CB_CF.
Definition G_COEF_AVX_COEF : Z := two_words C_G_CR_COEF_1 C_G_CB_COEF_2.

(** [ycbcr_to_rgb_baseline_no_clamp] — avx.rs:154-232 *)
Definition baseline (y cb cr : list Z) : list Z * list Z * list Z :=
  let y_coeff := words_of_dwords (set1_epi32 Y_CF) in
  let cr_coeff := words_of_dwords (set1_epi32 R_AVX_COEF) in
  let cb_coeff := words_of_dwords (set1_epi32 B_AVX_COEF) in
  let cg_coeff := words_of_dwords (set1_epi32 G_COEF_AVX_COEF) in
  let v_rnd := set1_epi32 YUV_RND in
  let uv_bias := set1_epi16 128 in
  let zero16 := repeat 0 16 in
  let zero32 := repeat 0 32 in
  let v_0 := slli_epi16 8 cb in
  let u_v_8 := bytes_of_words (or_si256 v_0 cr) in
  let u_v_lo := words_of_bytes (unpacklo_epi8 u_v_8 zero32) in
  let u_v_hi := words_of_bytes (unpackhi_epi8 u_v_8 zero32) in
  let y_lo := unpacklo_epi16 y zero16 in
  let y_hi := unpackhi_epi16 y zero16 in
  let u_v_lo := sub_epi16 u_v_lo uv_bias in
  let u_v_hi := sub_epi16 u_v_hi uv_bias in
  let y_lo := madd_epi16 y_lo y_coeff in
  let y_hi := madd_epi16 y_hi y_coeff in
  let r_lo := madd_epi16 u_v_lo cr_coeff in
  let r_hi := madd_epi16 u_v_hi cr_coeff in
  let g_lo := madd_epi16 u_v_lo cg_coeff in
  let g_hi := madd_epi16 u_v_hi cg_coeff in
  let y_lo := add_epi32 y_lo v_rnd in
  let y_hi := add_epi32 y_hi v_rnd in
  let b_lo := madd_epi16 u_v_lo cb_coeff in
  let b_hi := madd_epi16 u_v_hi cb_coeff in
  let r_lo := srai_epi32 14 (add_epi32 r_lo y_lo) in
  let r_hi := srai_epi32 14 (add_epi32 r_hi y_hi) in
  let g_lo := srai_epi32 14 (add_epi32 g_lo y_lo) in
  let g_hi := srai_epi32 14 (add_epi32 g_hi y_hi) in
  let b_lo := srai_epi32 14 (add_epi32 b_lo y_lo) in
  let b_hi := srai_epi32 14 (add_epi32 b_hi y_hi) in
  (packus_epi32 r_lo r_hi, packus_epi32 g_lo g_hi, packus_epi32 b_lo b_hi).

(** The bytes stored by [ycbcr_to_rgb_avx2_1] — avx.rs:96-147 *)
Definition rgb_bytes (r g b : list Z) : list Z :=
  let zero := repeat 0 16 in
  let r := permute4x64 (shuffle 3 1 2 0) (packus_epi16 r zero) in
  let g := permute4x64 (shuffle 3 1 2 0) (packus_epi16 g zero) in
  let b := permute4x64 (shuffle 3 1 2 0) (packus_epi16 b zero) in
  let sh_r := [0; 11; 6; 1; 12; 7; 2; 13; 8; 3; 14; 9; 4; 15; 10; 5; 0; 11; 6; 1; 12; 7; 2; 13; 8; 3; 14; 9; 4; 15; 10; 5] in
  let sh_g := [5; 0; 11; 6; 1; 12; 7; 2; 13; 8; 3; 14; 9; 4; 15; 10; 5; 0; 11; 6; 1; 12; 7; 2; 13; 8; 3; 14; 9; 4; 15; 10] in
  let sh_b := [10; 5; 0; 11; 6; 1; 12; 7; 2; 13; 8; 3; 14; 9; 4; 15; 10; 5; 0; 11; 6; 1; 12; 7; 2; 13; 8; 3; 14; 9; 4; 15] in
  let r0 := shuffle_epi8 r sh_r in
  let g0 := shuffle_epi8 g sh_g in
  let b0 := shuffle_epi8 b sh_b in
  let m0 := [0; -1; 0; 0; -1; 0; 0; -1; 0; 0; -1; 0; 0; -1; 0; 0; 0; -1; 0; 0; -1; 0; 0; -1; 0; 0; -1; 0; 0; -1; 0; 0] in
  let m1 := [0; 0; -1; 0; 0; -1; 0; 0; -1; 0; 0; -1; 0; 0; -1; 0; 0; 0; -1; 0; 0; -1; 0; 0; -1; 0; 0; -1; 0; 0; -1; 0] in
  let p0 := blendv_epi8 (blendv_epi8 r0 g0 m0) b0 m1 in
  let p1 := blendv_epi8 (blendv_epi8 g0 b0 m0) r0 m1 in
  let p2 := blendv_epi8 (blendv_epi8 b0 r0 m0) g0 m1 in
  let rgb0 := permute2x128 32 p0 p1 in
  let rgb1 := permute2x128 48 p2 p0 in
  rgb0 ++ lo128 rgb1.
(** The bytes stored by [ycbcr_to_rgba_unsafe] — avx.rs:253-294 *)
Definition rgba_bytes (r g b : list Z) : list Z :=
  let c := packus_epi16 r g in
  let d := packus_epi16 b (set1_epi16 255) in
  let e := unpacklo_epi8 c d in
  let f := unpackhi_epi8 c d in
  let g := unpacklo_epi8 e f in
  let h := unpackhi_epi8 e f in
  let i := permute2x128 (shuffle 3 2 1 0) g h in
  let j := permute2x128 (shuffle 1 2 3 0) g h in
  let k := permute2x128 (shuffle 3 2 0 1) g h in
  let l := permute2x128 (shuffle 0 3 2 1) g h in
  blend_high i j ++ blend_high k l.
(** A buffer that is too short would be written beyond its end by the RGB routine (avx.rs:143 stores before the check in
    144): undefined behaviour, here a panic. *)
Definition avx_16 (alpha : bool) (y cb cr out : list Z) : res (list Z) :=
  let '(r, g, b) := baseline y cb cr in
  put_slice out 0 ((if alpha then rgba_bytes else rgb_bytes) r g b).

(** [choose_ycbcr_to_rgb_convert_func] — color_convert.rs:62-102; [None]: no routine *)
Definition choose (avx : bool) (c : colorspace) : option (list Z -> list Z -> list Z -> list Z -> res (list Z)) :=
  match avx, c with
  | true, RGB => Some (avx_16 false)
  | true, RGBA => Some (avx_16 true)
  | _, RGB => Some (scalar_16 false false)
  | _, RGBA => Some (scalar_16 false true)
  | _, BGRA => Some (scalar_16 true true)
  | _, BGR => Some (scalar_16 true false)
  | _, _ => None
  end.

(** * One row *)

(** [color_convert_ycbcr] — worker.rs:306-405: [f] converts sixteen pixels; [nc] components per output pixel *)
Section Row.
  Variable f : list Z -> list Z -> list Z -> list Z -> res (list Z).
  (** worker.rs:358-374: the chunks of sixteen, zipped *)
  Fixpoint chunks16 (fuel nc : nat) (y cb cr out : list Z) : res (list Z) :=
    match fuel with
    | O => Ok out
    | S fuel =>
        if ((16 <=? length y) && (16 <=? length cb) && (16 <=? length cr) && (16 * nc <=? length out))%nat then
          do o <- f (firstn 16 y) (firstn 16 cb) (firstn 16 cr) (firstn (16 * nc) out) ;
          do os <- chunks16 fuel nc (skipn 16 y) (skipn 16 cb) (skipn 16 cr) (skipn (16 * nc) out) ;
          Ok (o ++ os)
        else Ok out
    end.
  Definition ycbcr_row (width nc : nat) (y cb cr out : list Z) : res (list Z) :=
    let temp := repeat 0 64 in
    if (width <? 16)%nat then
      (* worker.rs:330-355 *)
      let pad := fun l : list Z => firstn 16 l ++ repeat 0 (16 - length l) in
      do temp <- f (pad y) (pad cb) (pad cr) temp ;
      do t <- get_slice temp 0 (width * nc) ;
      put_slice out 0 t
    else
      do out <- chunks16 (length out) nc y cb cr out ;
      (* worker.rs:379-393: [chunks_exact(16)] of the tails, at most one *)
      let tl := fun l : list Z => get_slice l (width - 16) (length l - (width - 16)) in
      do yt <- tl y ; do cbt <- tl cb ; do crt <- tl cr ;
      do temp <- (if ((16 <=? length yt) && (16 <=? length cbt) && (16 <=? length crt))%nat
                  then f (firstn 16 yt) (firstn 16 cbt) (firstn 16 crt) temp else Ok temp) ;
      (* worker.rs:395-400 *)
      do rem <- get_slice out ((width - 16) * nc) (16 * nc) ;
      do t <- get_slice temp 0 (length rem) ;
      put_slice out ((width - 16) * nc) t.
End Row.

(** [for (pix, x) in out.chunks_exact_mut(n).zip(xs)]: [g x] changes one chunk *)
Fixpoint each_pixel {A} (n : nat) (g : A -> list Z -> list Z) (xs : list A) (out : list Z) : list Z :=
  match xs with
  | [] => out
  | x :: xs' => if (n <=? length out)%nat then g x (firstn n out) ++ each_pixel n g xs' (skipn n out) else out
  end.
(** [*c as u8] *)
Definition as_u8 (x : Z) : Z := x mod 256.
(** [blinn_8x8] — worker.rs:23-28 *)
Definition blinn (a b : Z) : Z := let t := a * b + 128 in as_u8 (Z.shiftr (t + Z.shiftr t 8) 8).

(** [color_convert] for one row — worker.rs:30-131. [samples]: the rows of the components; a missing one is empty. *)
Definition comp (samples : list (list Z)) (i : nat) : list Z := nth i samples [].
Definition convert_row (avx : bool) (cin cout : colorspace) (samples : list (list Z)) (width : nat) (out : list Z) : res (list Z) :=
  let c0 := comp samples 0 in let c1 := comp samples 1 in let c2 := comp samples 2 in let c3 := comp samples 3 in
  let same := match cin, cout with
              | RGB, RGB | YCbCr, YCbCr | YCCK, YCCK | CMYK, CMYK => true | _, _ => false end in
  if same && (num_components cin =? 3)%nat then
    (* [copy_removing_padding] — worker.rs:165-182 *)
    Ok (each_pixel 3 (fun '(a, (b, c)) _ => [as_u8 a; as_u8 b; as_u8 c]) (combine c0 (combine c1 c2)) out)
  else if same then
    (* [copy_removing_padding_4x] — worker.rs:184-210 *)
    Ok (each_pixel 4 (fun '(a, (b, (c, d))) _ => [as_u8 a; as_u8 b; as_u8 c; as_u8 d]) (combine c0 (combine c1 (combine c2 c3))) out)
  else
  match cin, cout with
  | (YCbCr | Luma), Luma => Ok (each_pixel 1 (fun a _ => [as_u8 a]) c0 out)      (* scalar.rs:131-140 *)
  | YCbCr, (RGB | RGBA | BGR | BGRA) =>
      match choose avx cout with Some f => ycbcr_row f width (num_components cout) c0 c1 c2 out | None => Panic end
  | YCCK, (RGB | RGBA) =>
      (* [color_convert_ycck_to_rgb] — worker.rs:238-266: rows of [width * 3] whatever the number of components *)
      match choose avx cout with
      | Some f =>
          do out <- ycbcr_row f width (num_components cout) c0 c1 c2 out ;
          let n := (width * 3)%nat in
          if (n <=? length out)%nat then
            Ok (each_pixel (num_components cout)
                  (fun m pix => let m := as_u8 m in
                     [blinn (255 - nth 0 pix 0) m; blinn (255 - nth 1 pix 0) m; blinn (255 - nth 2 pix 0) m] ++ skipn 3 pix)
                  c3 (firstn n out) ++ skipn n out)
          else Ok out
      | None => Panic
      end
  | CMYK, (RGB | RGBA) =>
      (* [color_convert_cymk_to_rgb] — worker.rs:268-297: pixels of three bytes whatever the number of components *)
      Ok (each_pixel 3 (fun '(c, (m, (y, k))) _ => [blinn (as_u8 c) (as_u8 k); blinn (as_u8 m) (as_u8 k); blinn (as_u8 y) (as_u8 k)])
            (combine c0 (combine c1 (combine c2 c3))) out)
  | MultiBand n, _ =>
      (* [copy_removing_padding_generic] — worker.rs:212-236 *)
      if negb (n =? 2)%nat then Err EOther else
      Ok (each_pixel 2 (fun '(a, b) _ => [as_u8 a; as_u8 b]) (combine c0 c1) out)
  | Luma, RGB => Ok (each_pixel 3 (fun a _ => [as_u8 a; as_u8 a; as_u8 a]) c0 out)
  | Luma, RGBA => Ok (each_pixel 4 (fun a _ => [as_u8 a; as_u8 a; as_u8 a; 255]) c0 out)
  | _, _ => Err EOther
  end.
