(** Model of the pixel part of the PNG decoder — crates/zune-png/src/utils.rs, utils/avx.rs, utils/sse.rs, and
    [create_png_image_raw], [decode_interlaced] of decoder.rs. The un-filters are in PngFilterModel.v. *)
From Verif Require Import Base Loops Slices PngFilterModel.

(** [PngColor] — enums.rs:140-183 *)
Inductive color : Set := CLuma | CRGB | CPalette | CLumaA | CRGBA.
Definition color_of_int (z : Z) : option color :=
  if z =? 0 then Some CLuma else if z =? 2 then Some CRGB else if z =? 3 then Some CPalette
  else if z =? 4 then Some CLumaA else if z =? 6 then Some CRGBA else None.
Definition color_comps (c : color) : nat := match c with CLuma | CPalette => 1 | CLumaA => 2 | CRGB => 3 | CRGBA => 4 end.
Definition color_alpha (c : color) : bool := match c with CLumaA | CRGBA => true | _ => false end.
Definition is_palette (c : color) : bool := match c with CPalette => true | _ => false end.

(** What the pixel routines look at: [PngInfo], palette and transparency, options. A palette entry is (r, g, b, alpha). *)
Definition entry : Set := (Z * Z * Z * Z)%type.
Record pix := mkPix {
  depth : nat; col : color;
  seen_plte : bool; palette : list entry;
  seen_trns : bool; trns : list Z;      (* [trns_bytes], four 16-bit values *)
  want_alpha : bool;                    (* [png_get_add_alpha_channel] *)
  sse2 : bool; sse4 : bool              (* [use_sse2()], [use_sse41()] *)
}.
(** [colorspace()] — decoder.rs:271-305: number of components of the output *)
Definition out_comps (x : pix) : nat :=
  if want_alpha x then match col x with CLuma | CLumaA => 2 | _ => 4 end
  else if seen_trns x then match col x with CPalette | CRGB | CRGBA => 4 | CLuma | CLumaA => 2 end
  else match col x with CPalette => 3 | c => color_comps c end.

(** ** utils.rs *)
(** Zipped [chunks_exact(ki)] of the input and [chunks_exact_mut(ko)] of the output; [f] yields [ko] bytes. *)
Definition map_px (ki ko : nat) (f : list Z -> list Z) (input out : list Z) : list Z :=
  let m := Nat.min (length input / ki) (length out / ko) in
  concat (map f (firstn m (chunks_exact ki input))) ++ skipn (m * ko) out.

(** [expand_bits_to_byte] — utils.rs:217-317. Positions of the samples of a byte: *)
Definition shifts (depth : nat) : list Z :=
  match depth with 1%nat => [7; 6; 5; 4; 3; 2; 1; 0] | 2%nat => [6; 4; 2; 0] | 4%nat => [4; 0] | _ => [] end.
Definition unpack (depth : nat) (scale v : Z) : list Z :=
  map (fun s => u8 (scale * Z.land (Z.shiftr v s) (2 ^ Z.of_nat depth - 1))) (shifts depth).
(** Whole bytes as long as a full group of outputs is left, then one more byte for the incomplete group. *)
Definition expand_bits (width depth out_n : nat) (plte_present : bool) (input out : list Z) : res (list Z) :=
  let scale := if plte_present then 1 else match depth with 1%nat => 255 | 2%nat => 85 | _ => 17 end in
  let n := (width * out_n)%nat in
  if (length out <? n)%nat then Panic else
  let per := length (shifts depth) in
  let full := (n / per)%nat in
  let m := Nat.min full (length input) in
  let whole := concat (map (unpack depth scale) (firstn m input)) in
  let part := match nth_error input m with Some v => firstn (n mod per) (unpack depth scale v) | None => [] end in
  Ok (whole ++ part ++ skipn (length whole + length part) out).

(** [expand_palette] — utils.rs:85-112 ([% 256] does nothing to a byte) *)
Definition lookup (pal : list entry) (comps : nat) (px : list Z) : list Z :=
  let '(r, g, b, a) := nth (Z.to_nat (nth 0 px 0 mod 256)) pal (0, 0, 0, 255) in
  if (comps =? 3)%nat then [r; g; b] else [r; g; b; a].
Definition expand_palette (input out : list Z) (pal : list entry) (comps : nat) : list Z :=
  map_px 1 comps (lookup pal comps) input out.

Definition zlist_eqb (a b : list Z) : bool := if list_eq_dec Z.eq_dec a b then true else false.
(** [expand_trns] — utils.rs:122-214, on a little-endian machine ([to_ne_bytes]) *)
Definition scale_of (depth : nat) : Z := nth depth [0; 255; 85; 0; 17; 0; 0; 0; 1] 0.
Definition trns8 (depth : nat) (t : Z) : Z := u8 (Z.land (Z.land t 255) (2 ^ Z.of_nat depth - 1) * scale_of depth).
Definition expand_trns (sixteen : bool) (input out : list Z) (c : color) (tr : list Z) (depth : nat) : res (list Z) :=
  let mark (key : list Z) (opaque clear px : list Z) := px ++ (if zlist_eqb px key then clear else opaque) in
  if sixteen then
    match c with
    | CLuma => Ok (map_px 2 4 (mark (le_bytes 2 (getz tr 0)) [255; 255] [0; 0]) input out)
    | CRGB => Ok (map_px 6 8 (mark (le_bytes 2 (getz tr 0) ++ le_bytes 2 (getz tr 1) ++ le_bytes 2 (getz tr 2)) [255; 255] [0; 0]) input out)
    | _ => Panic
    end
  else
    match c with
    | CLuma => Ok (map_px 1 2 (mark [trns8 depth (getz tr 0)] [255] [0]) input out)
    | CRGB => Ok (map_px 3 4 (mark [trns8 depth (getz tr 0); trns8 depth (getz tr 1); trns8 depth (getz tr 2)] [255] [0]) input out)
    | _ => Panic
    end.

(** [add_alpha] — utils.rs:322-351 *)
Definition add_alpha (input out : list Z) (c : color) (sixteen : bool) : res (list Z) :=
  match c, sixteen with
  | CLuma, false => Ok (map_px 1 2 (fun px => px ++ [255]) input out)
  | CLuma, true => Ok (map_px 2 4 (fun px => px ++ [255; 255]) input out)
  | CRGB, false => Ok (map_px 3 4 (fun px => px ++ [255]) input out)
  | CRGB, true => Ok (map_px 6 8 (fun px => px ++ [255; 255]) input out)
  | _, _ => Panic
  end.

(** [convert_be_to_ne_scalar] — utils.rs:17-23, little-endian machine *)
Definition swap_scalar (out : list Z) : list Z :=
  concat (map (fun c => match c with [a; b] => [b; a] | _ => c end) (chunks_exact 2 out)) ++ skipn (length out / 2 * 2) out.
(** [_mm_shuffle_epi8], one sixteen-byte lane; all mask bytes are below sixteen. [_mm_set_epi8] lists the highest byte first. *)
Definition shuffle (mask_hi_first lane : list Z) : list Z := map (fun k => getz lane (Z.to_nat k)) (rev mask_hi_first).
Definition swap_mask : list Z := [14; 15; 12; 13; 10; 11; 8; 9; 6; 7; 4; 5; 2; 3; 0; 1].
(** [convert_be_to_ne_sse4] — utils/sse.rs:16-32; [convert_be_to_ne_avx] — utils/avx.rs:18-35 (two lanes) *)
Definition swap_sse (out : list Z) : list Z :=
  concat (map (shuffle swap_mask) (chunks_exact 16 out)) ++ swap_scalar (skipn (length out / 16 * 16) out).
Definition swap_avx (out : list Z) : list Z :=
  concat (map (fun c => shuffle swap_mask (firstn 16 c) ++ shuffle swap_mask (skipn 16 c)) (chunks_exact 32 out))
  ++ swap_scalar (skipn (length out / 32 * 32) out).
(** [convert_be_to_target_endian_u16] — utils.rs:63-78, 35-51; [avx2], [ssse3]: detected at run time *)
Definition to_endian (little use_sse avx2 ssse3 : bool) (out : list Z) : list Z :=
  if negb little then out
  else if use_sse && avx2 then swap_avx out
  else if use_sse && ssse3 then swap_sse out
  else swap_scalar out.

(** ** [create_png_image_raw] — decoder.rs:931-1269 *)
(** The un-filter chosen for a filter byte — decoder.rs:1027-1062, with the dispatch inside the handlers
    (de_filter.rs:27-41, 85-96, 144-161). [first]: first row. *)
Definition vector_size (n : nat) : bool := ((n =? 3) || (n =? 4) || (n =? 6) || (n =? 8))%nat.
Definition unfilter (x : pix) (fb : Z) (first : bool) (prev raw cur : list Z) (comps : nat) : res (list Z) :=
  let short := ((length raw <? comps) || (length cur <? comps))%nat in
  let copy := if (length raw <=? length cur)%nat then Ok (raw ++ skipn (length raw) cur) else Panic in
  if fb =? 0 then copy
  else if fb =? 1 then
    if negb short && sse2 x && vector_size comps then Ok (de_filter_sub_sse comps raw cur) else handle_sub raw cur comps
  else if fb =? 2 then if first then copy else Ok (handle_up prev raw cur)
  else if fb =? 3 then
    if first then handle_avg_first raw cur comps
    else if negb short && sse4 x && vector_size comps then Ok (de_filter_avg_sse comps prev raw cur) else handle_avg prev raw cur comps
  else if fb =? 4 then
    if first then handle_paeth_first raw cur comps
    else if negb short && sse4 x && vector_size comps then Ok (de_filter_paeth_sse comps prev raw cur) else handle_paeth prev raw cur comps
  else Err ECorrupt.

Definition sample_bytes (x : pix) : nat := if (depth x =? 16)%nat then 2 else 1.
Definition filter_comps (x : pix) : nat := if (depth x <? 8)%nat then 1 else color_comps (col x) * sample_bytes x.
(** Bytes of a packed row of [w] pixels, without the filter byte; bytes of an output row *)
Definition packed_len (x : pix) (w : nat) : nat := ((w * color_comps (col x) * depth x + 7) / 8)%nat.
Definition row_len (x : pix) (w : nat) : nat := (w * out_comps x * sample_bytes x)%nat.
Definition adds_alpha (x : pix) : bool := want_alpha x && negb (color_alpha (col x)).
Definition post_processes (x : pix) : bool := seen_trns x || seen_plte x || (depth x <? 8)%nat || adds_alpha x.

(** The transformations of one un-filtered row — decoder.rs:1064-1176, and 1179-1266 for the last one, which does not
    count [add_alpha_channel] as a further transformation. [stride] is [previous_stride]. *)
Definition post_row (x : pix) (last : bool) (w : nat) (row stride : list Z) : res (list Z * list Z) :=
  let ws := packed_len x w in
  let save := do r <- get_slice row 0 ws ; put_slice stride 0 r in
  do (row, stride) <-
    (if (depth x <? 8)%nat then
       if seen_plte x || seen_trns x || (negb last && adds_alpha x) then
         do stride <- expand_bits w (depth x) (color_comps (col x)) (seen_plte x) row stride ; Ok (row, stride)
       else
         do stride <- save ;
         do row <- expand_bits w (depth x) (color_comps (col x)) (seen_plte x) stride row ; Ok (row, stride)
     else do stride <- save ; Ok (row, stride)) ;
  do row <- (if seen_trns x && negb (is_palette (col x)) then expand_trns (depth x =? 16)%nat stride row (col x) (trns x) (depth x) else Ok row) ;
  do row <-
    (if seen_plte x && is_palette (col x) then
       if (length (palette x) =? 0)%nat then Err ECorrupt else
       if (length (palette x) <? 256)%nat then Panic else
       Ok (expand_palette stride row (palette x) (if seen_trns x || adds_alpha x then 4 else 3))
     else if adds_alpha x then add_alpha stride row (col x) (depth x =? 16)%nat
     else Ok row) ;
  Ok (row, stride).

(** The loop over the rows [i], [i + 1], ... of the inflated data; every row begins with its filter byte. The row before
    the current one is transformed after the current one has been un-filtered. *)
Fixpoint raw_rows (x : pix) (w : nat) (rows : list (list Z)) (i : nat) (out stride : list Z) : res (list Z * list Z) :=
  let oc := row_len x w in
  match rows with
  | [] => Ok (out, stride)
  | row :: rows' =>
      do cur <- get_slice out (i * oc) oc ;
      do prev <- (if (i =? 0)%nat then Ok [0] else get_slice out ((i - 1) * oc) oc) ;
      do fb <- get_at row 0 ;
      do cur <- unfilter x fb (i =? 0)%nat prev (skipn 1 row) cur (filter_comps x) ;
      do out <- put_slice out (i * oc) cur ;
      if post_processes x && (0 <? i)%nat then
        do (prev, stride) <- post_row x false w prev stride ;
        do out <- put_slice out ((i - 1) * oc) prev ;
        raw_rows x w rows' (S i) out stride
      else raw_rows x w rows' (S i) out stride
  end.
Definition create_raw (x : pix) (data : list Z) (w h : nat) (out stride : list Z) : res (list Z * list Z) :=
  let ws := packed_len x w in
  let oc := row_len x w in
  if (length data <? ws * h + h)%nat then Err ECorrupt else
  let stride := if post_processes x && (length stride <? oc)%nat then resize stride oc 0 else stride in
  do (out, stride) <- raw_rows x w (firstn h (chunks_exact (ws + 1) data)) 0 out stride ;
  if post_processes x && (0 <? h)%nat then
    do row <- get_slice out ((h - 1) * oc) oc ;
    do (row, stride) <- post_row x true w row stride ;
    do out <- put_slice out ((h - 1) * oc) row ;
    Ok (out, stride)
  else Ok (out, stride).

(** ** [decode_interlaced] — decoder.rs:752-828 *)
(** [(XORIG, YORIG, XSPC, YSPC)] of the seven passes — decoder.rs:755-759 *)
Definition passes : list (nat * nat * nat * nat) :=
  [(0, 0, 8, 8); (4, 0, 8, 8); (0, 4, 4, 8); (2, 0, 4, 4); (0, 2, 2, 4); (1, 0, 2, 2); (0, 1, 1, 2)]%nat.
Definition pass_size (n orig spc : nat) : nat := ((n - orig + spc - 1) / spc)%nat.
(** The copy of a pass into the image — decoder.rs:803-822; a pixel that does not fit is dropped ([get_mut]). [iw] is the
    width of the whole image (for a still image the frame has the same size), [ob] the bytes of a pixel. *)
Definition place_px (iw ob pw : nat) (p : nat * nat * nat * nat) (tmp : list Z) (j i : nat) (out : list Z) : res (list Z) :=
  let '(xo, yo, xs, ys) := p in
  let dst := ((j * ys + yo) * iw * ob + (i * xs + xo) * ob)%nat in
  if (dst + ob <=? length out)%nat then
    do px <- get_slice tmp ((j * pw + i) * ob) ob ; put_slice out dst px
  else Ok out.
Definition place (iw ob pw ph : nat) (p : nat * nat * nat * nat) (tmp out : list Z) : res (list Z) :=
  for_range 0 ph (fun j => for_range 0 pw (fun i => place_px iw ob pw p tmp j i)) out.
Fixpoint interlaced (x : pix) (w h : nat) (ps : list (nat * nat * nat * nat)) (data : list Z) (off : nat) (tmp stride out : list Z) : res (list Z * list Z) :=
  match ps with
  | [] => Ok (out, stride)
  | p :: ps' =>
      let '(xo, yo, xs, ys) := p in
      let pw := pass_size w xo xs in
      let ph := pass_size h yo ys in
      if ((pw =? 0) || (ph =? 0))%nat then interlaced x w h ps' data off tmp stride out else
      let len := ((packed_len x pw + 1) * ph)%nat in
      if (length data <? off + len)%nat then Err ECorrupt else
      do (tmp, stride) <- create_raw x (slice data off len) pw ph tmp stride ;
      do out <- place w (out_comps x * sample_bytes x) pw ph p tmp out ;
      interlaced x w h ps' data (off + len) tmp stride out
  end.
Definition decode_interlaced (x : pix) (data : list Z) (w h : nat) (out stride : list Z) : res (list Z * list Z) :=
  interlaced x w h passes data 0 (repeat 0 (w * h * out_comps x * sample_bytes x)) stride out.
