(** Model of writing a picture to a file and opening it again through zune-image — crates/zune-image/src/codecs.rs,
    traits.rs (the encoding part), codecs/qoi.rs, codecs/png.rs, codecs/ppm.rs, codecs/farbfeld.rs, image.rs. The codecs
    themselves are in QoiModel.v, PngModel.v and PpmModel.v; conversions in ColorModel.v; splitting into channels in
    DeintModel.v. Left out: Exif fields (written by another crate), other formats, animated PNG files (ApngFileModel.v). *)
From Verif Require Import Base Loops StreamModel DecText F32 DepthModel ChannelModel DeintModel ColorModel.
From Verif Require QoiModel PngRowModel PngModel PpmModel.

(** ** Recognising a format *)
(** [ImageFormat] — codecs.rs:82-105 *)
Inductive format : Set := PNG | JPEG | PPM | PSD | Farbfeld | QOI | HDR | JPEG_XL | BMP | WEBP.
(** The list of [guess_format] — codecs.rs:729-754 *)
Definition magics : list (list Z * format) :=
  [ ([137; 80; 78; 71; 13; 10; 26; 10], PNG); ([255; 216], JPEG);
    ([80; 53], PPM); ([80; 54], PPM); ([80; 55], PPM); ([80; 102], PPM); ([80; 70], PPM);
    ([56; 66; 80; 83], PSD); ([102; 97; 114; 98; 102; 101; 108; 100], Farbfeld); ([113; 111; 105; 102], QOI);
    ([35; 63; 82; 65; 68; 73; 65; 78; 67; 69; 10], HDR); ([35; 63; 82; 71; 66; 69; 10], HDR);
    ([0; 0; 0; 12; 74; 88; 76; 32; 13; 10; 135; 10], JPEG_XL); ([255; 10], JPEG_XL) ].
(** [probe_bmp] — crates/zune-bmp/src/decoder.rs:114-137; [is_webp] — codecs.rs:783-790, on twelve bytes *)
Definition probe_bmp (l : list Z) : bool :=
  starts_with l [66; 77] && match nth_error l 14 with Some s => existsb (Z.eqb s) [12; 16; 40; 52; 56; 64; 108; 124] | None => false end.
Definition is_webp (l : list Z) : bool := starts_with l [82; 73; 70; 70] && zeqb_list (skipn 8 l) [87; 69; 66; 80].
(** [guess_format] — codecs.rs:723-780, with the features [bmp] and [webp]. The first file too short for what is asked of
    it is not recognised ([.ok()?]). The source is handed on with the position after the last look. *)
Fixpoint guess_loop (ms : list (list Z * format)) (c : cursor) : option (format * cursor) :=
  match ms with
  | (m, f) :: ms =>
      match peek_at c 0 (length m) with
      | (Ok b, c) => if starts_with b m then Some (f, c) else guess_loop ms c
      | _ => None
      end
  | [] =>
      match peek_at c 0 16 with
      | (Ok b, c) =>
          if probe_bmp b then Some (BMP, c) else
          match peek_at c 0 12 with
          | (Ok b, c) => if is_webp b then Some (WEBP, c) else None
          | _ => None
          end
      | _ => None
      end
  end.
Definition guess_format (c : cursor) : option (format * cursor) := guess_loop magics c.

(** ** Writing *)
(** A picture: size, whether its colours are marked as multiplied by alpha ([metadata.alpha]), channels *)
Record picture : Set := Pic { width : nat; height : nat; premultiplied : bool; content : image }.
(** The encoders modelled *)
Inductive saver : Set := SQoi | SPng | SPpm | SFarbfeld.
(** [supported_colorspaces], [supported_bit_depth], [default_colorspace], [default_depth] — codecs/qoi.rs:117-146,
    codecs/png.rs:192-221, codecs/ppm.rs:61-90, codecs/farbfeld.rs:127-146, traits.rs:418-420 *)
Definition takes_space (f : saver) (c : colorspace) : bool :=
  match f, c with
  | SQoi, (RGBA | RGB) | (SPng | SPpm), (Luma | LumaA | RGB | RGBA) | SFarbfeld, RGBA => true
  | _, _ => false
  end.
Definition takes_depth (f : saver) (d : depth) : bool :=
  match f, d with SQoi, D8 | (SPng | SPpm), (D8 | D16) | SFarbfeld, D16 => true | _, _ => false end.
Definition default_space (f : saver) (c : colorspace) : colorspace :=
  match f with SQoi => if has_alpha c then RGBA else RGB | SPng | SPpm => RGB | SFarbfeld => RGBA end.
Definition default_depth (f : saver) (d : depth) : depth :=
  match f with SQoi => D8 | SPng | SPpm => match d with D16 | D32 => D16 | D8 => D8 end | SFarbfeld => D16 end.

(** [to_u8], [to_u8_be] — image.rs:185-220: all frames are laid out; the callers take the first. [big] selects the latter.
    A channel of another sample type fails the [unwrap] in frame.rs; floating point is a [todo!]. *)
Fixpoint all_ok {A B} (f : A -> res B) (l : list A) : res (list B) :=
  match l with [] => Ok [] | x :: l => do y <- f x ; do ys <- all_ok f l ; Ok (y :: ys) end.
Definition u8_of (s : samples) : res (list Z) := match s with S8 l => Ok l | _ => Panic end.
Definition u16_of (s : samples) : res (list Z) := match s with S16 l => Ok l | _ => Panic end.
Definition frame_bytes (big : bool) (cs : colorspace) (d : depth) (f : list samples) : res (list Z) :=
  match d with
  | D8 => do chs <- all_ok u8_of f ; flatten 0 chs
  | D16 => do chs <- all_ok u16_of f ; if big then u16_to_big_endian cs chs else u16_to_native_endian chs
  | D32 => Panic
  end.
Definition first_frame (big : bool) (i : image) : res (list Z) :=
  do fs <- all_ok (frame_bytes big (cspace i) (idepth i)) (frames i) ; get_at fs 0.

(** Colorspaces and depths as the codecs' models name them *)
Definition qoi_space (c : colorspace) : QoiModel.qcs :=
  match c with RGB => QoiModel.CsRGB | RGBA => QoiModel.CsRGBA | c => QoiModel.CsOther (num_components c) end.
Definition png_color (c : colorspace) : option PngRowModel.color :=
  match c with
  | Luma => Some PngRowModel.CLuma | LumaA => Some PngRowModel.CLumaA | RGB => Some PngRowModel.CRGB | RGBA => Some PngRowModel.CRGBA
  | _ => None
  end.
Definition ppm_space (c : colorspace) : PpmModel.cspace :=
  match c with
  | Luma => PpmModel.CLuma | LumaA => PpmModel.CLumaA | RGB => PpmModel.CRGB | RGBA => PpmModel.CRGBA
  | c => PpmModel.COther (num_components c)
  end.
Definition ppm_depth (d : depth) : PpmModel.depth := match d with D8 => PpmModel.D8 | D16 => PpmModel.D16 | D32 => PpmModel.DF32 end.

(** [encode_inner] — codecs/qoi.rs:101-116, codecs/png.rs:155-190, codecs/ppm.rs:44-59, codecs/farbfeld.rs:107-125. The
    options carry the image's size, depth and colorspace (codecs.rs:59-75); the sink is a vector. *)
Definition encode_inner (f : saver) (w h : nat) (i : image) : res (list Z) :=
  match f with
  | SQoi =>
      do data <- first_frame false i ;
      let '(r, wr) := QoiModel.qoi_encode (VecSink []) (Z.of_nat w) (Z.of_nat h) (qoi_space (cspace i)) data in
      do _ <- r ;
      match wsink wr with VecSink file => Ok file | _ => Panic end
  | SPng =>
      do data <- first_frame true i ;
      PngModel.encode (PngModel.mkEopts w h (size_of (idepth i)) (png_color (cspace i)) (num_components (cspace i))) None data
  | SPpm =>
      do data <- first_frame false i ;
      PpmModel.ppm_encode (ppm_space (cspace i)) (ppm_depth (idepth i)) w h data
  | SFarbfeld =>
      if negb (depth_eqb (idepth i) D16) then Panic else
      do data <- first_frame false i ;
      PpmModel.ff_encode (Z.of_nat w) (Z.of_nat h) data
  end.

Definition to_res {A} (x : out A) : res A := match x with Done a => Ok a | Failed _ => Err EOther | Panicked => Panic | Endless => Fuel end.
Section Io.
Variables (p : cpu) (rgb_hsl hsl_rgb rgb_hsv hsv_rgb : triple).
(** [EncoderTrait::encode] — traits.rs:309-366, reached from [Image::write_to_vec] and [save] (codecs.rs:456-558). A
    picture marked as multiplied by alpha is copied, not changed. *)
Definition write (f : saver) (x : picture) : res (list Z) :=
  let i := content x in
  do _ <- confirm i ;
  if negb (takes_space f (cspace i)) || negb (takes_depth f (idepth i)) || premultiplied x then
    do j <- (if negb (takes_space f (cspace i)) then to_res (convert_color p rgb_hsl hsl_rgb rgb_hsv hsv_rgb (default_space f (cspace i)) i) else Ok i) ;
    do j <- (if negb (takes_depth f (idepth i)) then to_res (to_depth (default_depth f (idepth i)) j) else Ok j) ;
    do _ <- confirm j ;
    encode_inner f (width x) (height x) j
  else encode_inner f (width x) (height x) i.

(** ** Reading *)
(** [Image::from_u8], [from_u16] — image.rs:403-441; the metadata of a new image says "not premultiplied" *)
Definition from_samples (deint : colorspace -> list Z -> mres (res (list (list Z)))) (wrap : list Z -> samples) (d : depth)
    (w h : nat) (cs : colorspace) (px : list Z) : mres (res picture) :=
  if 2 ^ 64 <=? Z.of_nat w * Z.of_nat h * Z.of_nat (num_components cs) then Abort else
  if negb (length px =? w * h * num_components cs)%nat then Abort else
  mbind (deint cs px) (fun r =>
    match r with Ok chs => Val (Ok (Pic w h false (Img cs d (w * h) [map wrap chs]))) | _ => Abort end).
Definition from_u8 := from_samples (deinterleave_u8 p) S8 D8.
Definition from_u16 := from_samples (deinterleave_wide 0) S16 D16.

(** Options, as the PNG decoder's record, and the strict mode of the QOI decoder *)
Record dopts := Dopts { d_png : PngModel.popts; d_strict : bool }.
Definition max_w (o : dopts) : Z := Z.of_nat (PngModel.o_max_w (d_png o)).
Definition max_h (o : dopts) : Z := Z.of_nat (PngModel.o_max_h (d_png o)).
Definition failed {A B} (r : res A) : mres (res B) := match r with Err e => Val (Err e) | Fuel => Val Fuel | _ => Abort end.

(** codecs/qoi.rs:30-47 *)
Definition read_qoi (o : dopts) (c : cursor) : mres (res picture) :=
  match QoiModel.decode {| QoiModel.max_width := max_w o; QoiModel.max_height := max_h o; QoiModel.strict := d_strict o |} c with
  | Ok (h, px) =>
      match QoiModel.qcspace h with
      | QoiModel.CsRGB => from_u8 (Z.to_nat (QoiModel.qw h)) (Z.to_nat (QoiModel.qh h)) RGB px
      | QoiModel.CsRGBA => from_u8 (Z.to_nat (QoiModel.qw h)) (Z.to_nat (QoiModel.qh h)) RGBA px
      | QoiModel.CsOther _ => Abort
      end
  | r => failed r
  end.
(** codecs/png.rs:38-45, 85-100: the headers are read first, then the rest; [colorspace()] is decoder.rs:271-305 *)
Definition png_space (n : nat) : colorspace := match n with 1%nat => Luma | 2%nat => LumaA | 3%nat => RGB | _ => RGBA end.
Variable huff : Z -> InflateModel.dstate -> res InflateModel.dstate.    (* Huffman blocks, see InflateModel.v *)
Variable anim : nat -> list Z -> PngModel.png -> res PngModel.png.       (* acTL, fcTL *)
Definition read_png (o : dopts) (file : list Z) : mres (res picture) :=
  match PngModel.decode_headers huff anim (PngModel.new_png (d_png o) file) with
  | Ok s =>
      match PngModel.hdr s with
      | None => Abort
      | Some i =>
          let cs := png_space (PngRowModel.out_comps (PngModel.pix_of i s)) in
          match PngModel.decode huff anim s with
          | Ok (PngModel.U8s l, _) => from_u8 (PngModel.i_w i) (PngModel.i_h i) cs l
          | Ok (PngModel.U16s l, _) => from_u16 (PngModel.i_w i) (PngModel.i_h i) cs l
          | r => failed r
          end
      end
  | r => failed r
  end.
(** codecs/ppm.rs:93-117; floating point files are [other] *)
Variable float_ppm : Z -> Z -> PpmModel.cspace -> list Z -> mres (res picture).
Variable neg_f32 : list Z -> option bool.
Definition ppm_colorspace (c : PpmModel.cspace) : colorspace :=
  match c with
  | PpmModel.CLuma => Luma | PpmModel.CLumaA => LumaA | PpmModel.CRGB => RGB | PpmModel.CRGBA => RGBA | PpmModel.COther _ => Unknown
  end.
Definition read_ppm (o : dopts) (file : list Z) : mres (res picture) :=
  match PpmModel.ppm_decode neg_f32 (max_w o) (max_h o) file with
  | Ok (w, h, cs, PpmModel.SU8 l) => from_u8 (Z.to_nat w) (Z.to_nat h) (ppm_colorspace cs) l
  | Ok (w, h, cs, PpmModel.SU16 l) => from_u16 (Z.to_nat w) (Z.to_nat h) (ppm_colorspace cs) l
  | Ok (w, h, cs, PpmModel.SF32 l) => float_ppm w h cs l
  | r => failed r
  end.
(** codecs/farbfeld.rs:30-41 *)
Definition read_farbfeld (o : dopts) (file : list Z) : mres (res picture) :=
  match PpmModel.ff_decode (max_w o) (max_h o) file with
  | Ok (w, h, px) => from_u16 (Z.to_nat w) (Z.to_nat h) RGBA px
  | r => failed r
  end.
(** [Image::read] — codecs.rs:645-664, from the start of the source. The other formats' decoders are an argument. *)
Variable other : format -> list Z -> mres (res picture).
Definition read (o : dopts) (file : list Z) : mres (res picture) :=
  match guess_format {| cdata := file; cpos := 0 |} with
  | Some (QOI, c) => read_qoi o c
  | Some (PNG, c) => read_png o (cdata c)
  | Some (PPM, c) => read_ppm o (cdata c)
  | Some (Farbfeld, c) => read_farbfeld o (cdata c)
  | Some (f, c) => other f (cdata c)
  | None => Val (Err EOther)
  end.
End Io.
