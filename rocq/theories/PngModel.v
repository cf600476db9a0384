(** Model of the PNG decoder's chunk layer and entry points — crates/zune-png/src/decoder.rs, headers/readers.rs, options.rs — and
    of the encoder — encoder.rs, filters.rs, headers/writers.rs. Pixels are in PngRowModel.v, inflate in InflateModel.v.

    Not modelled: the animation chunks acTL and fcTL (their parsers are the argument [anim]); files as sources; arithmetic overflow of
    [usize] in the decoder, where dimensions are limited. *)
From Verif Require Import Base Loops Slices StreamModel CrcModel PngFilterModel InflateModel PngRowModel.

(** [DecoderOptions] as far as used here; [strict_mode()] is [o_other_strict || o_crc || o_adler] *)
Record popts := mkPopts {
  o_max_w : nat; o_max_h : nat;
  o_other_strict : bool; o_crc : bool; o_adler : bool;
  o_alpha : bool; o_strip : bool; o_little : bool;
  o_sse2 : bool; o_sse4 : bool; o_avx2 : bool; o_ssse3 : bool
}.
Definition strict (o : popts) : bool := o_other_strict o || o_crc o || o_adler o.
(** [DecoderOptions::default()] on a modern x86: zune-core/src/options/decoder.rs:24-44, 654-665 *)
Definition default_popts : popts :=
  mkPopts (Z.to_nat 16384) (Z.to_nat 16384) false false false false false false true true true true.
Definition little_popts (o : popts) : popts :=
  mkPopts (o_max_w o) (o_max_h o) (o_other_strict o) (o_crc o) (o_adler o) (o_alpha o) (o_strip o) true (o_sse2 o) (o_sse4 o) (o_avx2 o) (o_ssse3 o).

Record info := mkInfo { i_w : nat; i_h : nat; i_depth : nat; i_color : color; i_adam7 : bool }.
(** Data kept for the user *)
Record meta := mkMeta {
  gamma : option Z;                         (* the integer of the gAMA chunk *)
  time : option (list Z);                   (* year, month, day, hour, minute, second *)
  exif : option (list Z);
  icc : option (list Z);
  text : list (list Z * list Z); itxt : list (list Z * list Z); ztxt : list (list Z * list Z)
}.
(** [PngDecoder] — decoder.rs:155-171. [hdr] is [png_info] once [seen_hdr]; [fdat] and [current] are the only frame of a still
    image (pushed by the IHDR chunk) and [current_frame]. *)
Record png := mkPng {
  strm : cursor; opts : popts; hdr : option info; mdata : meta;
  pal : list entry; p_plte : bool; p_trns : bool; p_key : list Z;
  fdat : list Z; current : nat; p_headers : bool; p_iend : bool; p_stride : list Z; from_into : bool
}.
Definition no_meta : meta := mkMeta None None None None [] [] [].
(** [new_with_options] — decoder.rs:197-216 *)
Definition new_png (o : popts) (data : list Z) : png :=
  mkPng {| cdata := data; cpos := 0 |} o None no_meta [] false false [0; 0; 0; 0] [] 0 false false [] true.
Definition at_cursor (c : cursor) (s : png) : png :=
  mkPng c (opts s) (hdr s) (mdata s) (pal s) (p_plte s) (p_trns s) (p_key s) (fdat s) (current s) (p_headers s) (p_iend s) (p_stride s) (from_into s).
Definition with_meta (m : meta) (s : png) : png :=
  mkPng (strm s) (opts s) (hdr s) m (pal s) (p_plte s) (p_trns s) (p_key s) (fdat s) (current s) (p_headers s) (p_iend s) (p_stride s) (from_into s).
Definition skip_to (n : nat) (s : png) : res png := do c <- skip (strm s) n ; Ok (at_cursor c s).

(** [read_chunk_header] — decoder.rs:323-382: length, name, and the cursor at the chunk's data *)
Definition read_chunk_header (s : png) : res (nat * list Z * png) :=
  let '(len, c) := get_err BE 4 (strm s) in
  do len <- len ;
  let '(name, c) := read_fixed_or_error 4 c in
  do name <- name ;
  let len := Z.to_nat len in
  let '(crc, c) := peek_at c len 4 in
  do crc <- crc ;
  if o_crc (opts s) then
    do c <- rewind c 4 ;
    let '(bs, c) := peek_at c 0 (len + 4) in
    do bs <- bs ;
    do calc <- calc_crc bs ;
    if negb (be_val crc =? calc) then Err EChecksum else
    do c <- skip c 4 ;
    Ok (len, name, at_cursor c s)
  else Ok (len, name, at_cursor c s).

Definition n_IHDR := [73; 72; 68; 82]. Definition n_PLTE := [80; 76; 84; 69]. Definition n_IDAT := [73; 68; 65; 84].
Definition n_IEND := [73; 69; 78; 68]. Definition n_tRNS := [116; 82; 78; 83]. Definition n_gAMA := [103; 65; 77; 65].
Definition n_acTL := [97; 99; 84; 76]. Definition n_tIME := [116; 73; 77; 69]. Definition n_eXIf := [101; 88; 73; 102].
Definition n_iCCP := [105; 67; 67; 80]. Definition n_iTXt := [105; 84; 88; 116]. Definition n_zTXt := [122; 84; 88; 116].
Definition n_tEXt := [116; 69; 88; 116]. Definition n_fcTL := [102; 99; 84; 76].

(** [parse_ihdr] — readers.rs:20-134 *)
Definition parse_ihdr (len : nat) (s : png) : res png :=
  match hdr s with Some _ => Err ECorrupt | None =>
  if negb (len =? 13)%nat then Err ECorrupt else
  let '(w, c) := get_zero BE 4 (strm s) in
  let '(h, c) := get_zero BE 4 c in
  if (w =? 0) || (h =? 0) then Err EZeroDim else
  if Z.of_nat (o_max_w (opts s)) <? w then Err ELimit else
  if Z.of_nat (o_max_h (opts s)) <? h then Err ELimit else
  let '(d, c) := read_u8 c in
  let '(k, c) := read_u8 c in
  match color_of_int k with None => Err EColorspace | Some col =>
  if negb ((d =? 1) || (d =? 2) || (d =? 4) || (d =? 8) || (d =? 16)) then Err EDepth else
  if (d =? 16) && is_palette col then Err EDepth else
  let '(z, c) := read_u8 c in
  if negb (z =? 0) then Err ECorrupt else
  let '(f, c) := read_u8 c in
  if negb ((0 <=? f) && (f <=? 4)) then Err ECorrupt else
  let '(m, c) := read_u8 c in
  if negb ((m =? 0) || (m =? 1)) then Err ECorrupt else
  do c <- skip c 4 ;
  Ok (mkPng c (opts s) (Some (mkInfo (Z.to_nat w) (Z.to_nat h) (Z.to_nat d) col (m =? 1))) (mdata s)
            (pal s) (p_plte s) (p_trns s) (p_key s) (fdat s) (current s) (p_headers s) (p_iend s) (p_stride s) (from_into s))
  end end.

(** [parse_plte] — readers.rs:136-156 *)
Fixpoint read_entries (n : nat) (p : list entry) (c : cursor) : list entry * cursor :=
  match n, p with
  | S n', (_, _, _, a) :: p' =>
      let '(r, c) := read_u8 c in let '(g, c) := read_u8 c in let '(b, c) := read_u8 c in
      let '(p', c) := read_entries n' p' c in ((r, g, b, a) :: p', c)
  | _, _ => (p, c)
  end.
Definition parse_plte (len : nat) (s : png) : res png :=
  if negb (len mod 3 =? 0)%nat then Err ECorrupt else
  let '(p, c) := read_entries (len / 3) (resize (pal s) 256 (0, 0, 0, 255)) (strm s) in
  do c <- skip c 4 ;
  Ok (mkPng c (opts s) (hdr s) (mdata s) p true (p_trns s) (p_key s) (fdat s) (current s) (p_headers s) (p_iend s) (p_stride s) (from_into s)).

(** [parse_idat] — readers.rs:158-182 *)
Definition parse_idat (len : nat) (s : png) : res png :=
  match read_exact (strm s) (repeat 0 len) with
  | (Ok _, bs, c) =>
      do c <- skip c 4 ;
      Ok (mkPng c (opts s) (hdr s) (mdata s) (pal s) (p_plte s) (p_trns s) (p_key s) (fdat s ++ bs) (current s) (p_headers s) (p_iend s) (p_stride s) (from_into s))
  | (Err e, _, _) => Err e
  | (Panic, _, _) => Panic
  | (Fuel, _, _) => Fuel
  end.

(** [parse_trns] — readers.rs:184-222. With no header the colour type is still [Unknown]: an error. *)
Fixpoint read_alphas (n : nat) (p : list entry) (c : cursor) : list entry * cursor :=
  match n, p with
  | S n', (r, g, b, _) :: p' =>
      let '(a, c) := read_u8 c in let '(p', c) := read_alphas n' p' c in ((r, g, b, a) :: p', c)
  | _, _ => (p, c)
  end.
Definition parse_trns (len : nat) (s : png) : res png :=
  let finish p key c :=
    do c <- skip c 4 ;
    Ok (mkPng c (opts s) (hdr s) (mdata s) p (p_plte s) true key (fdat s) (current s) (p_headers s) (p_iend s) (p_stride s) (from_into s)) in
  match hdr s with
  | None => Err ECorrupt
  | Some i =>
      match i_color i with
      | CLuma => let '(v, c) := get_zero BE 2 (strm s) in finish (pal s) (upd (p_key s) 0 v) c
      | CRGB => let '(r, c) := get_zero BE 2 (strm s) in let '(g, c) := get_zero BE 2 c in let '(b, c) := get_zero BE 2 c in
                finish (pal s) (upd (upd (upd (p_key s) 0 r) 1 g) 2 b) c
      | CPalette =>
          if (length (pal s) =? 0)%nat then Err ECorrupt else
          if (length (pal s) <? len)%nat then Err ECorrupt else
          let '(p, c) := read_alphas len (pal s) (strm s) in finish p (p_key s) c
      | _ => Err ECorrupt
      end
  end.

(** [parse_gama] — readers.rs:223-242; the value is kept as the integer read *)
Definition parse_gama (len : nat) (s : png) : res png :=
  if strict (opts s) && negb (len =? 4)%nat then Err ECorrupt else
  let '(v, c) := get_zero BE 4 (strm s) in
  let m := mdata s in
  skip_to 4 (at_cursor c (with_meta (mkMeta (Some v) (time m) (exif m) (icc m) (text m) (itxt m) (ztxt m)) s)).

(** [parse_time] — readers.rs:268-302 *)
Definition parse_time (len : nat) (s : png) : res png :=
  if negb (len =? 7)%nat then
    if strict (opts s) then Err ECorrupt else skip_to (len + 4) s
  else
    let '(y, c) := get_zero BE 2 (strm s) in
    let '(mo, c) := read_u8 c in let '(d, c) := read_u8 c in let '(h, c) := read_u8 c in let '(mi, c) := read_u8 c in let '(se, c) := read_u8 c in
    let m := mdata s in
    skip_to 4 (at_cursor c (with_meta (mkMeta (gamma m) (Some [y; mo mod 13; d mod 32; h mod 24; mi mod 60; se mod 61]) (exif m) (icc m) (text m) (itxt m) (ztxt m)) s)).

(** [peek_at(0, n).unwrap()] *)
Definition must_peek (n : nat) (s : png) : res (list Z) :=
  match peek_at (strm s) 0 n with (Ok b, _) => Ok b | (Fuel, _) => Fuel | _ => Panic end.
Definition starts_with (p l : list Z) : bool := zlist_eqb (firstn (length p) l) p.
(** [parse_exif] — readers.rs:304-330 *)
Definition parse_exif (len : nat) (s : png) : res png :=
  do d <- must_peek len s ;
  if negb (starts_with [73; 73; 42; 0] d || starts_with [77; 77; 0; 42] d) then
    if strict (opts s) then Err ECorrupt else skip_to (len + 4) s
  else
    let m := mdata s in
    skip_to (len + 4) (with_meta (mkMeta (gamma m) (time m) (Some d) (icc m) (text m) (itxt m) (ztxt m)) s).

(** [iter().position(|x| *x == 0)] *)
Fixpoint zero_at (l : list Z) : option nat :=
  match l with [] => None | x :: l' => if x =? 0 then Some O else option_map S (zero_at l') end.
(** The common beginning of the text chunks: the keyword, sought in the first 79 bytes *)
Definition keyword (len : nat) (s : png) : res (option (list Z)) :=
  do k <- must_peek (Nat.min len 79) s ;
  Ok (match zero_at k with Some p => Some (firstn p k) | None => None end).

Section Inflate.
Variable huff : Z -> dstate -> res dstate.          (* Huffman blocks, see InflateModel.v *)
Variable anim : nat -> list Z -> png -> res png.    (* acTL, fcTL *)
(** [DeflateOptions::default()] — zune-inflate/src/decoder.rs:60-68: limit 1 << 30, checksum confirmed, hint 37000 (a function, so that it is not
    evaluated in vain) *)
Definition default_inflate (_ : unit) : inflate_options := mkOpts (Z.to_nat 1073741824) true (Z.to_nat 37000).

(** [parse_iccp] — readers.rs:333-372 *)
Definition parse_iccp (len : nat) (s : png) : res png :=
  do k <- keyword len s ;
  match k with
  | None => skip_to (len + 4) s
  | Some k =>
      do s <- skip_to (length k + 1) s ;
      let rest := (len - length k - 1 - 1)%nat in
      let s := at_cursor (snd (read_u8 (strm s))) s in
      do d <- must_peek rest s ;
      let m := mdata s in
      match decode_zlib huff (default_inflate tt) d with
      | Ok v => skip_to (rest + 4) (with_meta (mkMeta (gamma m) (time m) (exif m) (Some v) (text m) (itxt m) (ztxt m)) s)
      | Err _ => skip_to (rest + 4) s
      | Panic => Panic | Fuel => Fuel
      end
  end.
(** [parse_text] — readers.rs:375-405 *)
Definition parse_text (len : nat) (s : png) : res png :=
  do k <- keyword len s ;
  match k with
  | None => skip_to (len + 4) s
  | Some k =>
      do s <- skip_to (length k + 1) s ;
      let rest := (len - length k - 1)%nat in
      do d <- must_peek rest s ;
      let m := mdata s in
      skip_to (rest + 4) (with_meta (mkMeta (gamma m) (time m) (exif m) (icc m) (text m ++ [(k, d)]) (itxt m) (ztxt m)) s)
  end.
(** [parse_itxt] — readers.rs:407-441 *)
Definition parse_itxt (len : nat) (s : png) : res png :=
  do k <- keyword len s ;
  match k with
  | None => skip_to (len + 4) s
  | Some k =>
      do s <- skip_to (length k + 5) s ;
      let rest := (len - (length k + 5))%nat in
      do d <- must_peek rest s ;
      let m := mdata s in
      skip_to (rest + 4) (with_meta (mkMeta (gamma m) (time m) (exif m) (icc m) (text m) (itxt m ++ [(k, d)]) (ztxt m)) s)
  end.
(** [parse_ztxt] — readers.rs:444-489 *)
Definition parse_ztxt (len : nat) (s : png) : res png :=
  do k <- keyword len s ;
  match k with
  | None => skip_to (len + 4) s
  | Some k =>
      do s <- skip_to (length k + 1) s ;
      let rest := (len - length k - 1 - 1)%nat in
      let s := at_cursor (snd (read_u8 (strm s))) s in
      do d <- must_peek rest s ;
      let m := mdata s in
      match decode_zlib huff (default_inflate tt) d with
      | Ok v => skip_to (rest + 4) (with_meta (mkMeta (gamma m) (time m) (exif m) (icc m) (text m) (itxt m) (ztxt m ++ [(k, v)])) s)
      | Err _ => skip_to (rest + 4) s
      | Panic => Panic | Fuel => Fuel
      end
  end.
(** [default_chunk_handler] — options.rs:14-35 *)
Definition parse_unknown (len : nat) (name : list Z) (s : png) : res png :=
  if Z.land (getz name 0) 32 =? 0 then Err ECorrupt else skip_to (len + 4) s.

(** [parse_header] — decoder.rs:425-477 *)
Definition parse_header (len : nat) (name : list Z) (s : png) : res png :=
  do s <-
    (if zlist_eqb name n_IHDR then parse_ihdr len s
     else if zlist_eqb name n_PLTE then parse_plte len s
     else if zlist_eqb name n_IDAT then parse_idat len s
     else if zlist_eqb name n_tRNS then parse_trns len s
     else if zlist_eqb name n_gAMA then parse_gama len s
     else if zlist_eqb name n_acTL || zlist_eqb name n_fcTL then anim len name s
     else if zlist_eqb name n_tIME then parse_time len s
     else if zlist_eqb name n_eXIf then parse_exif len s
     else if zlist_eqb name n_iCCP then parse_iccp len s
     else if zlist_eqb name n_iTXt then parse_itxt len s
     else if zlist_eqb name n_zTXt then parse_ztxt len s
     else if zlist_eqb name n_tEXt then parse_text len s
     else if zlist_eqb name n_IEND then
       Ok (mkPng (strm s) (opts s) (hdr s) (mdata s) (pal s) (p_plte s) (p_trns s) (p_key s) (fdat s) (current s) (p_headers s) true (p_stride s) (from_into s))
     else parse_unknown len name s) ;
  match hdr s with None => Err ECorrupt | Some _ => Ok s end.

(** The loop of [decode_headers] — decoder.rs:407-420. Every round reads at least eight bytes ([anim] aside), which bounds the fuel. *)
Fixpoint chunk_loop (fuel : nat) (s : png) : res png :=
  match fuel with
  | O => Fuel
  | S fuel =>
      do (len, name, s) <- read_chunk_header s ;
      do s <- parse_header len name s ;
      if zlist_eqb name n_IEND || zlist_eqb name n_fcTL then Ok s else chunk_loop fuel s
  end.
(** [decode_headers] — decoder.rs:389-423 *)
Definition signature : list Z := [137; 80; 78; 71; 13; 10; 26; 10].
Definition decode_headers (s : png) : res png :=
  if p_headers s && p_iend s then Ok s else
  do s <-
    (match hdr s with
     | Some _ => Ok s
     | None =>
         let '(sg, c) := get_err BE 8 (strm s) in
         do sg <- sg ;
         if negb (sg =? be_val signature) then Err EMagic else
         let '(n, c) := peek_at c 4 4 in
         do n <- n ;
         if negb (zlist_eqb n n_IHDR) then Err ECorrupt else Ok (at_cursor c s)
     end) ;
  do s <- chunk_loop (S (length (cdata (strm s)))) s ;
  Ok (mkPng (strm s) (opts s) (hdr s) (mdata s) (pal s) (p_plte s) (p_trns s) (p_key s) (fdat s) (current s) true (p_iend s) (p_stride s) (from_into s)).

Definition pix_of (i : info) (s : png) : pix :=
  mkPix (i_depth i) (i_color i) (p_plte s) (pal s) (p_trns s) (p_key s) (o_alpha (opts s)) (o_sse2 (opts s)) (o_sse4 (opts s)).
(** [output_buffer_size] — decoder.rs:492-507; [inner_buffer_size] — decoder.rs:517-536 (None: no frame left) *)
Definition output_size (i : info) (s : png) : nat :=
  (i_w i * i_h i * out_comps (pix_of i s) * (if (i_depth i =? 16)%nat && negb (o_strip (opts s)) then 2 else 1))%nat.
Definition inner_size (i : info) (s : png) : option nat :=
  if (current s =? 0)%nat then Some (i_w i * i_h i * out_comps (pix_of i s) * sample_bytes (pix_of i s))%nat else None.

(** [inflate] — decoder.rs:1273-1309 *)
Definition png_inflate (i : info) (s : png) : res (list Z) :=
  let hint := ((i_w i + 1) * i_h i * (if (i_depth i =? 16)%nat then 2 else 1) * color_comps (i_color i))%nat in
  decode_zlib huff (mkOpts (hint + 4 * i_h i) (o_adler (opts s)) hint) (fdat s).

(** [decode_into_inner] — decoder.rs:612-665. Returns the buffer. *)
Definition decode_into_inner (out : list Z) (s : png) : res (list Z * png) :=
  do s <- decode_headers s ;
  match hdr s with None => Panic | Some i =>
  match inner_size i s with None => Err EOther | Some len =>
  if (length out <? len)%nat then Err ESize else
  do d <- png_inflate i s ;
  let x := pix_of i s in
  let front := firstn len out in
  do (front, stride) <- (if i_adam7 i then decode_interlaced x d (i_w i) (i_h i) front (p_stride s)
                         else create_raw x d (i_w i) (i_h i) front (p_stride s)) ;
  let front := if (i_depth i =? 16)%nat
               then to_endian (o_little (opts s)) (o_sse4 (opts s)) (o_avx2 (opts s)) (o_ssse3 (opts s)) front else front in
  Ok (front ++ skipn len out,
      mkPng (strm s) (opts s) (hdr s) (mdata s) (pal s) (p_plte s) (p_trns s) (p_key s) [] (S (current s)) (p_headers s) (p_iend s) stride (from_into s))
  end end.

Fixpoint every_other (l : list Z) : list Z := match l with a :: _ :: l' => a :: every_other l' | [a] => [a] | [] => [] end.
(** [decode_into] — decoder.rs:583-611: stripping to eight bits keeps the first byte of each sample *)
Definition decode_into (out : list Z) (s : png) : res (list Z * png) :=
  do s <- decode_headers s ;
  match hdr s with None => Panic | Some i =>
  if from_into s && (i_depth i =? 16)%nat && o_strip (opts s) then
    if (length out <? output_size i s)%nat then Err ESize else
    match inner_size i s with None => Panic | Some n =>
    do (tmp, s) <- decode_into_inner (repeat 0 n) s ;
    Ok (map (fun c => getz c 0) (firstn (output_size i s) (chunks_exact 2 tmp)) ++ skipn (output_size i s) out, s)
    end
  else decode_into_inner out s
  end.
(** [decode_raw] — decoder.rs:680-712 *)
Definition decode_raw (s : png) : res (list Z * png) :=
  do s <- decode_headers s ;
  let s := mkPng (strm s) (opts s) (hdr s) (mdata s) (pal s) (p_plte s) (p_trns s) (p_key s) (fdat s) (current s) (p_headers s) (p_iend s) (p_stride s) false in
  match hdr s with None => Panic | Some i =>
  match inner_size i s with None => Panic | Some n =>
  do (out, s') <- decode_into (repeat 0 n) s ;
  Ok (if o_strip (opts s) && (i_depth i =? 16)%nat then firstn (output_size i s) (every_other out) else out, s')
  end end.
(** [decode] — decoder.rs:860-917, little-endian machine *)
Inductive pixels : Set := U8s (l : list Z) | U16s (l : list Z).
Definition decode (s : png) : res (pixels * png) :=
  do s <- (if negb (p_headers s) || negb (p_iend s) then decode_headers s else Ok s) ;
  match hdr s with None => Panic | Some i =>
  if o_strip (opts s) && (i_depth i =? 16)%nat then do (b, s) <- decode_raw s ; Ok (U8s b, s) else
  let s := mkPng (strm s) (little_popts (opts s)) (hdr s) (mdata s) (pal s) (p_plte s) (p_trns s) (p_key s) (fdat s) (current s) (p_headers s) (p_iend s) (p_stride s) (from_into s) in
  let n := (i_w i * i_h i * out_comps (pix_of i s))%nat in
  if (i_depth i =? 16)%nat then
    do (b, s) <- decode_into (repeat 0 (2 * n)) s ; Ok (U16s (map le_val (chunks_exact 2 b)), s)
  else do (b, s) <- decode_into (repeat 0 n) s ; Ok (U8s b, s)
  end.
End Inflate.

(** ** Encoder *)
(** [EncoderOptions] as far as used: width, height, bytes per sample (1, 2, or 4 for floating point), and the colour type written
    (None: a colorspace PNG does not have) with its number of components *)
Record eopts := mkEopts { e_w : nat; e_h : nat; e_bytes : nat; e_color : option color; e_comps : nat }.
Definition color_int (c : color) : Z := match c with CLuma => 0 | CRGB => 2 | CPalette => 3 | CLumaA => 4 | CRGBA => 6 end.

(** [write_header_fn] — headers/writers.rs:68-99; [write_chunk] — writers.rs:101-120 writes the same bytes, the checksum in two steps *)
Definition write_header (name data : list Z) : res (list Z) :=
  do c <- calc_crc (name ++ data) ;
  Ok (be_bytes 4 (Z.of_nat (length data)) ++ name ++ data ++ be_bytes 4 c).
Definition write_chunk (name data : list Z) : res (list Z) :=
  do c <- calc_crc_with_bytes name (2 ^ 32 - 1) ;
  do c <- calc_crc_with_bytes data c ;
  Ok (be_bytes 4 (Z.of_nat (length data)) ++ name ++ data ++ be_bytes 4 (2 ^ 32 - 1 - c)).
(** [write_ihdr] — writers.rs:11-36 ([as u32] truncates; the other colorspaces are [unreachable!()]) *)
Definition ihdr_bytes (e : eopts) : res (list Z) :=
  match e_color e with
  | Some CPalette | None => Panic
  | Some c => Ok (be_bytes 4 (u32 (Z.of_nat (e_w e))) ++ be_bytes 4 (u32 (Z.of_nat (e_h e))) ++
                  [Z.of_nat (8 * e_bytes e); color_int c; 0; 0; 0])
  end.
(** [add_filters] — encoder.rs:114-152, [filter_scanline], [choose_compression_filter] — filters.rs:17-42 *)
Fixpoint filter_rows (size : nat) (n i : nat) (data : list Z) : res (list Z) :=
  match n with
  | O => Ok []
  | S n' =>
      do cur <- get_slice data (i * size) size ;
      do row <- (if (i =? 0)%nat then Ok (0 :: cur)
                 else do prev <- get_slice data ((i - 1) * size) size ;
                      (* an empty previous row means no filter *)
                      Ok (if (length prev =? 0)%nat then 0 :: cur else 2 :: up_filter cur prev (repeat 0 size))) ;
      do rest <- filter_rows size n' (S i) data ;
      Ok (row ++ rest)
  end.
Fixpoint write_idats (cs : list (list Z)) : res (list Z) :=
  match cs with
  | [] => Ok []
  | c :: cs' => do a <- write_chunk n_IDAT c ; do b <- write_idats cs' ; Ok (a ++ b)
  end.
(** [encode] into a vector — encoder.rs:55-106, 153-171; [exf]: [add_exif_segment]. [height()] asserts a non-zero height. *)
Definition encode (e : eopts) (exf : option (list Z)) (data : list Z) : res (list Z) :=
  if (e_h e =? 0)%nat then Panic else
  if 2 ^ 64 <=? Z.of_nat (e_w e) * Z.of_nat (e_h e) * Z.of_nat (e_bytes e) * Z.of_nat (e_comps e) then Err EOverflow else
  if negb (length data =? e_w e * e_h e * e_bytes e * e_comps e)%nat then Err ESize else
  do hd <- ihdr_bytes e ;
  do hd <- write_header n_IHDR hd ;
  do ex <- (match exf with Some b => write_header n_eXIf b | None => Ok [] end) ;
  do f <- filter_rows (e_w e * e_bytes e * e_comps e) (e_h e) 0 data ;
  do z <- encode_zlib f ;
  do ids <- write_idats (chunks (Z.to_nat 8192) z) ;
  do en <- write_header n_IEND [] ;
  Ok (signature ++ hd ++ ex ++ ids ++ en).
