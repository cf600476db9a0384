(** Model of colorspace conversion — crates/zune-image/src/core_filters/colorspace.rs, colorspace/conversion_functions.rs,
    colorspace/rgb_to_cmyk.rs, colorspace/grayscale/, and of the checks around every operation — traits.rs.
    The arithmetic of the HSL and HSV conversions (rgb_to_hsl.rs, rgb_to_hsv.rs) is left open: any functions on three
    floating point samples. Channels are lists of samples of one type; their storage is in ChannelModel.v. *)
From Verif Require Import Base Loops F32 DepthModel ChannelModel DeintModel.

(** An image: colorspace, depth, number of pixels (width times height), channels of every frame *)
Record image : Set := Img { cspace : colorspace; idepth : depth; npx : nat; frames : list (list samples) }.
(** What an operation on a mutable image does: finish, report an error (the image stays as it is then), or panic *)
Inductive out (A : Type) : Type := Done (a : A) | Failed (a : A) | Panicked | Endless.
Arguments Done {A}. Arguments Failed {A}. Arguments Panicked {A}. Arguments Endless {A}.
Definition obind {A} (x : out A) (f : A -> out A) : out A :=
  match x with Done a => f a | Failed a => Failed a | Panicked => Panicked | Endless => Endless end.
Notation "'step' x <- e ; f" := (obind e (fun x => f)) (at level 200, x binder, right associativity).

Definition colorspace_eqb (a b : colorspace) : bool :=
  match a, b with
  | RGB, RGB | RGBA, RGBA | YCbCr, YCbCr | Luma, Luma | LumaA, LumaA | YCCK, YCCK | CMYK, CMYK | BGR, BGR | BGRA, BGRA
  | Unknown, Unknown | ARGB, ARGB | HSL, HSL | HSV, HSV => true
  | MultiBand n, MultiBand m => (n =? m)%nat
  | _, _ => false
  end.
(** [ALL_COLORSPACES] — crates/zune-core/src/colorspace.rs:108-121, and what [execute] lets through (traits.rs:146-172) *)
Definition admitted (c : colorspace) : bool := match c with Unknown => false | _ => true end.

Definition size_of (d : depth) : nat := match d with D8 => 1 | D16 => 2 | D32 => 4 end.
(** [Channel::len]: bytes *)
Definition byte_len (c : samples) : nat := match c with S8 l => length l | S16 l => 2 * length l | SF l => 4 * length l end.

(** [confirm_invariants] — traits.rs:220-251. Err: mismatch; Panic: from [channels_ref]. *)
Definition confirm (i : image) : res unit :=
  if negb (forallb (fun f : list samples => (length f =? num_components (cspace i))%nat) (frames i)) then Err EOther else
  fold_right (fun f r => do cs <- channels (cspace i) true f ;
                         if forallb (fun c => (byte_len c =? size_of (idepth i) * npx i)%nat) cs then r else Err EOther)
             (Ok tt) (frames i).
Definition checked (i : image) : out image := match confirm i with Ok _ => Done i | Err _ => Failed i | _ => Panicked end.
(** [OperationsTrait::execute] — traits.rs:145-196 (all depths of the model are supported types of both operations) *)
Definition execute (op : image -> out image) (i : image) : out image :=
  if negb (admitted (cspace i)) then Failed i else
  step i <- checked i ; step i <- op i ; checked i.

(** [for frame in image.frames_mut()]: stops at the first error *)
Fixpoint each_frame (f : list samples -> out (list samples)) (fs : list (list samples)) : out (list (list samples)) :=
  match fs with
  | [] => Done []
  | c :: cs =>
      match f c with
      | Done c' => match each_frame f cs with
                   | Done cs' => Done (c' :: cs') | Failed cs' => Failed (c' :: cs') | Panicked => Panicked | Endless => Endless end
      | Failed c' => Failed (c' :: cs) | Panicked => Panicked | Endless => Endless
      end
  end.
Definition with_frames (f : list samples -> out (list samples)) (i : image) : out image :=
  match each_frame f (frames i) with
  | Done fs => Done (Img (cspace i) (idepth i) (npx i) fs)
  | Failed fs => Failed (Img (cspace i) (idepth i) (npx i) fs)
  | Panicked => Panicked | Endless => Endless
  end.
Definition set_colorspace (c : colorspace) (i : image) : out image := Done (Img c (idepth i) (npx i) (frames i)).

(** [Image::convert_depth] — image.rs:582-584, depth.rs:109-211 *)
Definition depth_frame (from to : depth) (cs : colorspace) (f : list samples) : out (list samples) :=
  match channels cs false f with
  | Ok chs => match convert_channels from to chs with Ok chs' => Done (chs' ++ skipn (length chs') f) | _ => Panicked end
  | _ => Panicked
  end.
Definition to_depth (d : depth) (i : image) : out image :=
  execute (fun i => if depth_eqb (idepth i) d then Done i else
                    step i' <- with_frames (depth_frame (idepth i) d (cspace i)) i ;
                    Done (Img (cspace i') d (npx i') (frames i'))) i.

(** [convert_adding_opaque_alpha] — conversion_functions.rs:15-54. The new channel has as many bytes as the first
    channel of the first frame. *)
Definition opaque (d : depth) (n : nat) : samples :=
  match d with D8 => S8 (repeat 255 n) | D16 => S16 (repeat 65535 n) | D32 => SF (repeat (of_int 1) n) end.
Definition add_opaque_alpha (i : image) : out image :=
  match frames i with
  | [] => Panicked
  | f :: fs =>
      match channels (cspace i) true f with
      | Ok (c :: _) =>
          let a := opaque (idepth i) (byte_len c / size_of (idepth i)) in
          if (1 <? length (frames i))%nat then Done (Img (cspace i) (idepth i) (npx i) (map (fun f => f ++ [a]) (frames i)))
          else Done (Img (cspace i) (idepth i) (npx i) [f ++ [a]])
      | _ => Panicked
      end
  end.

(** ** Grayscale *)
(** [convert_rgb_to_grayscale_scalar] (grayscale/scalar.rs:10-33), [_u16] (44-67), [_f32] (69-89). The coefficients are
    [(0.2989 * 32768.0 + 0.5) as u32] and so on. *)
Definition gray8 (max_value r g b : Z) : Z :=
  let part v coef := (v * 64 * coef + 2 ^ 14) / 2 ^ 15 in
  Z.min ((part r 9794 + part g 19235 + part b 3736) / 64) max_value.
Definition gray16 (max_value r g b : Z) : Z :=
  let part v coef := (v * 64 * coef + 2 ^ 30) / 2 ^ 31 in
  Z.min ((part r 641882862 + part g 1260572901 + part b 244813136) / 64) max_value.
(** Decimal literals: the quotient of two integers rounded once *)
Definition grayf (r g b : f32) : f32 :=
  fadd (fadd (fmul (fdiv (of_int 2989) (of_int 10000)) r) (fmul (fdiv (of_int 5870) (of_int 10000)) g)) (fmul (fdiv (of_int 1140) (of_int 10000)) b).
(** Three channels zipped with the output: written up to the shortest *)
Definition zip3 {A B} (f : A -> A -> A -> B) (r g b : list A) (o : list B) : list B :=
  let m := min_len [r; g; b] (length o) in
  map (fun rgb => f (fst (fst rgb)) (snd (fst rgb)) (snd rgb)) (firstn m (combine (combine r g) b)) ++ skipn m o.
(** [_mm_mulhrs_epi16] on non-negative operands, sixteen bits: round(a * b / 2^15) *)
Definition mulhrs (a b : Z) : Z := (a * b + 2 ^ 14) / 2 ^ 15.
(** One lane of the vector routines — grayscale/avx2.rs:37-60, sse41.rs:47-68: multiplied by 64, weighted, added,
    divided by 64, packed with saturation *)
Definition gray_lane (r g b : Z) : Z :=
  let s v := (v * 64) mod 65536 in
  Z.min 255 (((mulhrs (s r) 9794 + mulhrs (s g) 19235 + mulhrs (s b) 3736) mod 65536) / 64).
(** [convert_rgb_to_grayscale_u8_avx2] ([k] = 16; avx2.rs:21-88) and [_sse41] ([k] = 8; sse41.rs:25-86). The chunks of b
    and g are zipped in this order and bound to the names [g_chunk] and [b_chunk]. For the pixels left over the inputs
    start at [c_start] and the output at [start]. *)
Definition gray_vector (k : nat) (r g b gr : list Z) : res (list Z) :=
  let m := (min_len [r; b; g] (length gr) / k)%nat in
  let gr := zip3 gray_lane (firstn (m * k) r) (firstn (m * k) b) (firstn (m * k) g) gr in
  if (length r mod k =? 0)%nat then Ok gr else
  let rem := (length r mod k)%nat in
  let start := (length r - rem)%nat in
  let c_start := (length r - rem / 3)%nat in
  if ((length g <? c_start) || (length b <? c_start) || (length gr <? start))%nat then Panic else
  Ok (firstn start gr ++ zip3 (gray8 255) (skipn c_start r) (skipn c_start g) (skipn c_start b) (skipn start gr)).
(** [rgb_to_grayscale_u8] — grayscale.rs:24-50; the crate features [avx2] and [sse41] are on with [simd], a default. *)
Definition gray_u8 (p : cpu) (r g b gr : list Z) (max_value : Z) : res (list Z) :=
  if simd p && avx2 p then gray_vector 16 r g b gr
  else if simd p && sse41 p then gray_vector 8 r g b gr
  else Ok (zip3 (gray8 max_value) r g b gr).

(** [convert_rgb_to_grayscale] — conversion_functions.rs:56-167, one frame. Only called on RGB and RGBA images. *)
Definition gray_frame (p : cpu) (from to : colorspace) (d : depth) (n : nat) (preserve : bool) (f : list samples) : out (list samples) :=
  match channels from (negb preserve) f with
  | Ok chs =>
      let finish gray :=
        if preserve && has_alpha from then match nth_error chs 3 with Some a => Done [gray; a] | None => Panicked end
        else if has_alpha to then Done [gray; opaque d n] else Done [gray] in
      match d, chs with
      | D8, S8 r :: S8 g :: S8 b :: _ => match gray_u8 p r g b (repeat 0 n) 255 with Ok l => finish (S8 l) | _ => Panicked end
      | D16, S16 r :: S16 g :: S16 b :: _ => finish (S16 (zip3 (gray16 65535) r g b (repeat 0 n)))
      | D32, SF r :: SF g :: SF b :: _ => finish (SF (zip3 grayf r g b (repeat (of_int 0) n)))
      | _, _ => Panicked
      end
  | _ => Panicked
  end.
(** The final assertion fails when there is no frame. *)
Definition to_gray (p : cpu) (to : colorspace) (i : image) : out image :=
  step i <- with_frames (gray_frame p (cspace i) to (idepth i) (npx i) (has_alpha to)) i ;
  match frames i with [] => Panicked | _ => Done i end.

(** ** Channel order *)
(** [Vec::swap(0, 2)] *)
Definition swap02 (f : list samples) : out (list samples) :=
  match f with a :: b :: c :: r => Done (c :: b :: a :: r) | _ => Panicked end.
(** [pop().unwrap()] *)
Definition pop (f : list samples) : out (list samples) := match f with [] => Panicked | _ => Done (removelast f) end.
(** [convert_rgb_bgr] — conversion_functions.rs:169-192 *)
Definition rgb_bgr (from to : colorspace) (i : image) : out image :=
  let drop := match from, to with BGRA, RGB | BGRA, BGR | RGBA, RGB | RGBA, BGR => true | _, _ => false end in
  let add := match from, to with BGR, RGBA | BGR, BGRA | RGB, RGBA | RGB, BGRA => true | _, _ => false end in
  step i <- with_frames (fun f => step f <- swap02 f ;
                                  if drop then (let f := removelast f in if (length f =? 3)%nat then Done f else Panicked) else Done f) i ;
  if add then add_opaque_alpha i else Done i.
(** [pop_channel] — conversion_functions.rs:396-401 *)
Definition pop_channel (i : image) : out image := with_frames pop i.
(** The loops of [convert_rgb_to_argb] and [convert_rgba_to_argb_or_vice_versa] — conversion_functions.rs:402-425: the
    last channel goes to the front *)
Definition rotate (f : list samples) : out (list samples) :=
  match f with [] => Panicked | a :: _ => Done (last f a :: removelast f) end.
Definition rgb_to_argb (i : image) : out image := step i <- add_opaque_alpha i ; with_frames rotate i.
Definition rgba_argb (i : image) : out image :=
  match cspace i with RGBA | ARGB => with_frames rotate i | _ => Panicked end.
(** [convert_luma_to_rgb] — conversion_functions.rs:427-458; [channels_ref(Luma, true)[0]] is the first channel. *)
Definition luma_to_rgb (to : colorspace) (i : image) : out image :=
  with_frames (fun f =>
    match f with
    | [] => Panicked
    | l :: r =>
        match cspace i with
        | Luma => Done (f ++ [l; l])
        | LumaA => let f := l :: l :: l :: r in if has_alpha to then Done f else Done (removelast f)
        | _ => Failed f
        end
    end) i.

(** ** CMYK *)
(** [rgb_to_cmyk_inner_u8] — rgb_to_cmyk.rs:31-57 *)
Definition f1 := of_int 1. Definition f255 := of_int 255. Definition half := fdiv (of_int 1) (of_int 2).
Definition ink8 (v : Z) : f32 := fsub f1 (fdiv (of_int v) f255).
Definition out8 (x : f32) : Z := to_uint 255 (fadd (fsub f255 (fmul x f255)) half).
Definition rgb_cmyk8 (r g b : Z) : Z * Z * Z * Z :=
  let k := fmin (fmin (ink8 r) (ink8 g)) (ink8 b) in
  let inv := fdiv f1 (fsub f1 k) in
  let one v := out8 (fmul (fsub (ink8 v) k) inv) in
  (one r, one g, one b, out8 k).
(** [blinn_8x8], [cmyk_to_rgb_u8] — rgb_to_cmyk.rs:1-29 *)
Definition blinn (x y : Z) : Z := let t := x * y + 128 in ((t + t / 256) / 256) mod 256.
Definition cmyk_rgb8 (c m y k : Z) : Z * Z * Z := (blinn c k, blinn m k, blinn y k).
(** [rgb_to_cmyk_inner_f32] — rgb_to_cmyk.rs:77-98 *)
Definition rgb_cmykf (r g b : f32) : f32 * f32 * f32 * f32 :=
  let ink v := fsub f1 (fclamp v (of_int 0) f1) in
  let k := fmin (fmin (ink r) (ink g)) (ink b) in
  let inv := fdiv f1 (fsub f1 k) in
  let one v := fmul (fsub (ink v) k) inv in
  (one r, one g, one b, k).
(** [cmyk_to_rgb_f32_inner] — rgb_to_cmyk.rs:133-141 *)
Definition cmyk_rgbf (c m y k : f32) : f32 * f32 * f32 :=
  let inv := fdiv f1 (fadd (fdiv k f255) half) in (fmul c inv, fmul m inv, fmul y inv).
(** [rgb_to_cmyk_u16] — rgb_to_cmyk.rs:116-131; [cmyk_to_rgb_u16] — 175-193 *)
Definition unit16 (x : Z) : f32 := fmul (of_int x) (fdiv f1 (of_int 65535)).
Definition out16 (x : f32) : Z := to_uint 65535 (fmul x (of_int 65535)).
Definition rgb_cmyk16 (r g b : Z) : Z * Z * Z * Z :=
  let '(c, m, y, k) := rgb_cmykf (unit16 r) (unit16 g) (unit16 b) in (out16 c, out16 m, out16 y, out16 k).
Definition cmyk_rgb16 (c m y k : Z) : Z * Z * Z :=
  let '(r, g, b) := cmyk_rgbf (unit16 c) (unit16 m) (unit16 y) (unit16 k) in (out16 r, out16 g, out16 b).

(** The loops: in place, up to the shortest channel *)
Definition zip_to4 {A} (f : A -> A -> A -> A * A * A * A) (r g b k : list A) : list A * list A * list A * list A :=
  let m := min_len [r; g; b] (length k) in
  let px := map (fun rgb => f (fst (fst rgb)) (snd (fst rgb)) (snd rgb)) (firstn m (combine (combine r g) b)) in
  (map (fun q => fst (fst (fst q))) px ++ skipn m r, map (fun q => snd (fst (fst q))) px ++ skipn m g,
   map (fun q => snd (fst q)) px ++ skipn m b, map snd px ++ skipn m k).
Definition zip_to3 {A} (f : A -> A -> A -> A -> A * A * A) (c m y k : list A) : list A * list A * list A :=
  let n := min_len [c; m; y] (length k) in
  let px := map (fun q => f (fst (fst (fst q))) (snd (fst (fst q))) (snd (fst q)) (snd q)) (firstn n (combine (combine (combine c m) y) k)) in
  (map (fun q => fst (fst q)) px ++ skipn n c, map (fun q => snd (fst q)) px ++ skipn n m, map snd px ++ skipn n y).
(** [convert_rgb_to_cmyk] — conversion_functions.rs:194-253: the K channel starts zeroed with the bytes of the first
    channel; a channel of another type is an error. *)
Definition cmyk_frame (d : depth) (f : list samples) : out (list samples) :=
  match f with
  | [r; g; b] =>
      match d, r, g, b with
      | D8, S8 r, S8 g, S8 b => let '(c, m, y, k) := zip_to4 rgb_cmyk8 r g b (repeat 0 (length r)) in Done [S8 c; S8 m; S8 y; S8 k]
      | D16, S16 r, S16 g, S16 b => let '(c, m, y, k) := zip_to4 rgb_cmyk16 r g b (repeat 0 (length r)) in Done [S16 c; S16 m; S16 y; S16 k]
      | D32, SF r, SF g, SF b => let '(c, m, y, k) := zip_to4 rgb_cmykf r g b (repeat (of_int 0) (length r)) in Done [SF c; SF m; SF y; SF k]
      | _, _, _, _ => Failed f
      end
  | _ => Panicked
  end.
(** [convert_cmyk_to_rgb] — conversion_functions.rs:254-298, always called with RGB *)
Definition uncmyk_frame (d : depth) (f : list samples) : out (list samples) :=
  match f with
  | [c; m; y; k] =>
      match d, c, m, y, k with
      | D8, S8 c, S8 m, S8 y, S8 k => let '(r, g, b) := zip_to3 cmyk_rgb8 c m y k in Done [S8 r; S8 g; S8 b]
      | D16, S16 c, S16 m, S16 y, S16 k => let '(r, g, b) := zip_to3 cmyk_rgb16 c m y k in Done [S16 r; S16 g; S16 b]
      | D32, SF c, SF m, SF y, SF k => let '(r, g, b) := zip_to3 cmyk_rgbf c m y k in Done [SF r; SF g; SF b]
      | _, _, _, _, _ => Failed f
      end
  | _ => Panicked
  end.

(** ** HSL and HSV: the sample functions are arguments *)
Definition triple := f32 -> f32 -> f32 -> f32 * f32 * f32.
(** rgb_to_hsv.rs:49-75 and the same in rgb_to_hsl.rs: in place, up to the shortest *)
Definition zip_to3' (f : triple) (a b c : list f32) : list f32 * list f32 * list f32 :=
  let m := min_len [a; b] (length c) in
  let px := map (fun q => f (fst (fst q)) (snd (fst q)) (snd q)) (firstn m (combine (combine a b) c)) in
  (map (fun q => fst (fst q)) px ++ skipn m a, map (fun q => snd (fst q)) px ++ skipn m b, map snd px ++ skipn m c).
Definition triple_frame (h : triple) (f : list samples) : out (list samples) :=
  match f with
  | SF a :: SF b :: SF c :: r => let '(a, b, c) := zip_to3' h a b c in Done (SF a :: SF b :: SF c :: r)
  | _ :: _ :: _ :: _ => Failed f
  | _ => Panicked
  end.
(** The common part of [convert_rgb_to_hsl], [_to_hsv], [convert_hsl_to_rgb], [convert_hsv_to_rgb] —
    conversion_functions.rs:300-395: to floating point, convert, back to the former depth *)
Definition through_float (h : triple) (i : image) : out image :=
  let d := idepth i in
  step i <- to_depth D32 i ; step i <- with_frames (triple_frame h) i ; to_depth d i.

Section Conversion.
Variables (p : cpu) (rgb_hsl hsl_rgb rgb_hsv hsv_rgb : triple).

(** [ColorspaceConv::execute_impl] — colorspace.rs:65-186; [rec] is [Image::convert_color] *)
Definition convert_impl (rec : colorspace -> image -> out image) (to : colorspace) (i : image) : out image :=
  let from := cspace i in
  if colorspace_eqb from to then Done i else
  (* [convert_rgb_to_hsl], [convert_rgb_to_hsv] begin by converting to RGB *)
  let to_hsl i := step i <- rec RGB i ; through_float rgb_hsl i in
  let to_hsv i := step i <- rec RGB i ; through_float rgb_hsv i in
  step i <-
    match from with
    | RGB => match to with
             | RGBA => add_opaque_alpha i
             | Luma | LumaA => to_gray p to i
             | CMYK => with_frames (cmyk_frame (idepth i)) i
             | BGR | BGRA => rgb_bgr from to i
             | ARGB => rgb_to_argb i
             | HSL => to_hsl i
             | HSV => to_hsv i
             | _ => Failed i
             end
    | RGBA => match to with
              | RGB => pop_channel i
              | BGR | BGRA => rgb_bgr from to i
              | ARGB => rgba_argb i
              | LumaA | Luma => to_gray p to i
              | HSV => to_hsv i
              | HSL => to_hsl i
              | CMYK => step i <- pop_channel i ; with_frames (cmyk_frame (idepth i)) i
              | _ => Failed i
              end
    | Luma => match to with
              | RGB => luma_to_rgb to i
              | LumaA => add_opaque_alpha i
              | _ => step i <- luma_to_rgb RGB i ; step i <- set_colorspace RGB i ; rec to i
              end
    | LumaA => match to with
               | RGB | RGBA => luma_to_rgb to i
               | Luma => pop_channel i
               | _ => step i <- luma_to_rgb RGBA i ; step i <- set_colorspace RGBA i ; rec to i
               end
    | CMYK => step i <- with_frames (uncmyk_frame (idepth i)) i ; step i <- set_colorspace RGB i ; rec to i
    | BGR => step i <- rgb_bgr from RGB i ; step i <- set_colorspace RGB i ; rec to i
    | BGRA => step i <- rgb_bgr from RGBA i ; step i <- set_colorspace RGBA i ; rec to i
    | ARGB => step i <- rgba_argb i ; step i <- set_colorspace RGBA i ; rec to i
    | HSL => step i <- through_float hsl_rgb i ; step i <- set_colorspace RGB i ; rec to i
    | HSV => step i <- through_float hsv_rgb i ; step i <- set_colorspace RGB i ; rec to i
    | _ => Failed i
    end ;
  set_colorspace to i.
(** [Image::convert_color] — image.rs:575-577. It calls itself through intermediate colorspaces; [fuel] bounds the
    nesting ([Endless] when it runs out: proved not to happen). *)
Fixpoint convert (fuel : nat) (to : colorspace) (i : image) : out image :=
  match fuel with
  | O => Endless
  | S fuel => execute (convert_impl (convert fuel) to) i
  end.
Definition convert_color : colorspace -> image -> out image := convert 4.
End Conversion.
