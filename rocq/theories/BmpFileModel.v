(** Model of the BMP decoder as a whole — crates/zune-bmp/src/decoder.rs: headers, palettes, rows of all depths. The parts in
    [BmpModel] are used where they apply. A reader is what is left of the file; seeking past the end leaves nothing. Errors
    are not told apart. Not modelled: logging, calling [decode_headers] before [decode], [decode_into] with a buffer of one's
    own; colour primaries are kept as the integers of the file. A buffer of [2 ^ 63] bytes or more cannot be allocated: taken
    as a panic. *)
From Verif Require Import Base Loops Slices BmpModel.

(** [get_u16_le_err], [get_u32_le_err] — zune-core reader.rs:378-391 *)
Definition rd_le (k : nat) (l : list Z) : res (Z * list Z) := if (length l <? k)%nat then Err EEof else Ok (le_val (firstn k l), skipn k l).
(** [read_fixed_bytes_or_zero], [get_u32_le] — reader.rs:280-284, std_readers.rs:17-50: if too few bytes are left they are
    delivered, zeros follow, and the position stays *)
Definition rd_zero (k : nat) (l : list Z) : list Z * list Z := if (length l <? k)%nat then (l ++ repeat 0 (k - length l), l) else (firstn k l, skipn k l).

(** [BmpCompression], [BmpPixelFormat] — common.rs:13-66 *)
Inductive comp : Set := CRgb | CRle8 | CRle4 | CFields.
Inductive fmt : Set := FRgba | FPal | FGray | FRgb.
Definition channels (f : fmt) : nat := match f with FRgba => 4 | FPal => 3 | FGray => 1 | FRgb => 3 end.
Definition comp_of (n : Z) : res comp :=
  if n =? 0 then Ok CRgb else if n =? 1 then Ok CRle8 else if n =? 2 then Ok CRle4 else if n =? 3 then Ok CFields else Err EOther.

Record bopts : Set := BOpts { bo_max_w : Z; bo_max_h : Z; bo_strict : bool }.
Record fields : Set := Fields { f_w : Z; f_h : Z; f_bpp : Z; f_comp : comp; f_masks : list Z; f_prim : option (list Z); f_icc : option (list Z) }.
Record bhdr : Set := Bhdr { b_w : nat; b_h : nat; b_flip : bool; b_depth : Z; b_comp : comp; b_fmt : fmt; b_masks : list Z; b_pal : list (Z * Z * Z); b_prim : option (list Z); b_icc : option (list Z) }.

Fixpoint rd_many (n : nat) (l : list Z) : res (list Z * list Z) :=
  match n with O => Ok ([], l) | S n' => do (x, l) <- rd_le 4 l ; do (xs, l) <- rd_many n' l ; Ok (x :: xs, l) end.

(** The profile of a version 5 header — decoder.rs:372-437: [peek_at], zune-core reader.rs:230-255, reads [size] bytes at
    [14 + offset] of the file, but not before the current position 134; more than 20 MB are refused; errors are ignored. *)
Definition profile (f : list Z) (cs offset size : Z) : option (list Z) :=
  let start := Z.to_nat (Z.max 134 (14 + offset)) in
  if 20 * 1024 * 1024 <? size then None else
  let p := slice f start (Z.to_nat size) in
  if (length p =? Z.to_nat size)%nat && (cs =? 0x4D424544) then Some p else None.

(** The information header — decoder.rs:304-445. [l] starts after its size. *)
Definition info_header (f : list Z) (hsize ihsize : Z) (l : list Z) : res fields :=
  if ihsize =? 12 then
    do (w, l) <- rd_le 2 l ;
    do (h, l) <- rd_le 2 l ;
    do (_, l) <- rd_le 2 l ;
    do (bpp, l) <- rd_le 2 l ;
    Ok (Fields w h bpp CRgb [0; 0; 0; 0] None None)
  else if (ihsize =? 16) || (ihsize =? 40) || (ihsize =? 52) || (ihsize =? 56) || (ihsize =? 64) || (ihsize =? 108) || (ihsize =? 124) then
    do (w, l) <- rd_le 4 l ;
    do (h, l) <- rd_le 4 l ;
    do (_, l) <- rd_le 2 l ;
    do (bpp, l) <- rd_le 2 l ;
    do (c, l) <- (if 40 <=? hsize then do (n, l) <- rd_le 4 l ; do c <- comp_of n ; Ok (c, l) else Ok (CRgb, l)) ;
    if ihsize <=? 16 then Ok (Fields w h bpp c [0; 0; 0; 0] None None) else
    do (_, l) <- rd_many 5 l ;
    do (masks, l) <- rd_many 3 l ;
    if ihsize <=? 40 then Ok (Fields w h bpp c (masks ++ [0]) None None) else
    do (ma, l) <- rd_le 4 l ;
    do (cs, l) <- rd_le 4 l ;
    do (prim, l) <- rd_many 9 l ;
    let l := skipn 12 l in
    if ihsize <=? 108 then Ok (Fields w h bpp c (masks ++ [ma]) (Some prim) None) else
    do (_, l) <- rd_le 4 l ;
    do (offset, l) <- rd_le 4 l ;
    do (size, l) <- rd_le 4 l ;
    Ok (Fields w h bpp c (masks ++ [ma]) (Some prim) (profile f cs offset size))
  else Err EOther.

(** The pixel format — decoder.rs:487-524 *)
Definition pixel_format (hsize ihsize bpp : Z) (c : comp) : res fmt :=
  let gap := (hsize - ihsize - 14) mod 2 ^ 32 in
  if bpp =? 32 then Ok FRgba
  else if bpp =? 24 then Ok FRgb
  else if bpp =? 16 then match c with CRgb => Ok FRgb | CFields => Ok FRgba | _ => Err EOther end
  else if bpp =? 8 then Ok (if 0 <? gap then FPal else FGray)
  else if (bpp =? 1) || (bpp =? 2) || (bpp =? 4) then (if 0 <? gap then Ok FPal else Err EOther)
  else Err EDepth.

(** Palette entries of [k] bytes, blue first; missing ones are black — decoder.rs:553-585 *)
Fixpoint read_palette (n k : nat) (l : list Z) : list (Z * Z * Z) :=
  match n with
  | O => []
  | S n' => if (length l <? k)%nat then (0, 0, 0) :: read_palette n' k l else (getz l 2, getz l 1, getz l 0) :: read_palette n' k (skipn k l)
  end.
(** decoder.rs:526-588. [p] is computed from two fields that are still zero. *)
Definition palette (o : bopts) (f : list Z) (ihsize bpp : Z) : res (list (Z * Z * Z)) :=
  let p := (0 - 0 - 14) mod 2 ^ 32 in
  do colors <- (if 36 <=? ihsize then
      do (t, _) <- rd_le 4 (skipn 46 f) ;
      let t := as_i32 t in
      if (t <? 0) || (2 ^ bpp <? t) then (if bo_strict o then Err EOther else Ok (2 ^ bpp))
      else Ok (if t =? 0 then 2 ^ bpp else t)
    else Ok (Z.min 256 (p / 3))) ;
  let l := skipn (Z.to_nat (14 + ihsize)) f in
  if ihsize =? 12 then
    if p <? colors * 3 then Err EOther else
    Ok (resize (read_palette (Z.to_nat colors) 3 l) 256 (0, 0, 0))
  else Ok (resize (read_palette (Z.to_nat colors) 4 l) 256 (0, 0, 0)).

(** [decode_headers] — decoder.rs:285-602. The header and the bytes of the pixels. *)
Definition decode_headers (o : bopts) (f : list Z) : res (bhdr * list Z) :=
  do (b, l) <- rd_le 1 f ;
  if negb (b =? 66) then Err EMagic else
  do (m, l) <- rd_le 1 l ;
  if negb (m =? 77) then Err EMagic else
  let l := skipn 8 l in
  do (hsize, l) <- rd_le 4 l ;
  do (ihsize, l) <- rd_le 4 l ;
  if hsize <? Z.min (2 ^ 32 - 1) (ihsize + 14) then Err EOther else
  do i <- info_header f hsize ihsize l ;
  let h := Z.abs (as_i32 (f_h i)) in
  let w := f_w i in
  if bo_max_h o <? h then Err ELimit else
  if bo_max_w o <? w then Err ELimit else
  if (w =? 0) || (h =? 0) then Err EZeroDim else
  if f_bpp i =? 0 then Err EDepth else
  do fm <- pixel_format hsize ihsize (f_bpp i) (f_comp i) ;
  do pal <- match fm with FPal => palette o f ihsize (f_bpp i) | _ => Ok [] end ;
  Ok (Bhdr (Z.to_nat w) (Z.to_nat h) (0 <? as_i32 (f_h i)) (f_bpp i) (f_comp i) fm (f_masks i) pal (f_prim i) (f_icc i), skipn (Z.to_nat hsize) f).

(** [n] rows, each read by [row] *)
Fixpoint rows_by (row : list Z -> res (list Z * list Z)) (n : nat) (l : list Z) : res (list (list Z)) :=
  match n with O => Ok [] | S n' => do (r, l) <- row l ; do rs <- rows_by row n' l ; Ok (r :: rs) end.
(** [n] pixels, each of [k] bytes, made by [px] *)
Fixpoint pixels_by (px : list Z -> res (list Z)) (k n : nat) (l : list Z) : res (list Z * list Z) :=
  match n with O => Ok ([], l) | S n' => let (b, l) := rd_zero k l in do p <- px b ; do (ps, l) <- pixels_by px k n' l ; Ok (p ++ ps, l) end.

(** decoder.rs:786-800: a copy with the fourth byte 255 *)
Definition copy_pixel (bgra : bool) (b : list Z) : res (list Z) :=
  Ok (if bgra then [getz b 0; getz b 1; getz b 2; 255] else [getz b 2; getz b 1; getz b 0; 255]).

(** [conv_function] — decoder.rs:804-838. With [PRESERVE_BGRA] the shift and count of red are used for blue and the other way
    round. *)
Definition field2 (mask mask' v : Z) : res Z := do r <- shift_signed (Z.land v mask) (bit_len mask' - 8) (popcount 32 mask') ; Ok (u8 r).
Definition conv (bgra alpha : bool) (ms : list Z) (v : Z) : res (list Z) :=
  let mr := getz ms 0 in let mg := getz ms 1 in let mb := getz ms 2 in let ma := getz ms 3 in
  do c0 <- (if bgra then field2 mb mr v else field mr v) ;
  do c1 <- field mg v ;
  do c2 <- (if bgra then field2 mr mb v else field mb v) ;
  if alpha then do a <- (if ma =? 0 then Ok 255 else field ma v) ; Ok [c0; c1; c2; a] else Ok [c0; c1; c2].

(** One row of 16 bits a pixel — decoder.rs:850-903: at most [per] pixels, where [per] comes from the number of rows; then the
    rest of [2 * per] bytes is skipped. The remaining samples stay zero. *)
Definition row16 (bgra : bool) (nc : nat) (ms : list Z) (w h : nat) (l : list Z) : res (list Z * list Z) :=
  let per := ((h * 2 + 3) / 4 * 4)%nat in
  let n := Nat.min w per in
  do (ps, l) <- pixels_by (fun b => conv bgra (3 <? nc)%nat ms (le_val b)) 2 n l ;
  Ok (ps ++ repeat 0 ((w - n) * nc), skipn (per * 2 - n * 2) l).

(** [expand_bits_to_byte] with a palette — utils.rs:9-108; the output is always long enough for whole groups *)
Definition expand_byte (d : Z) (b : Z) : list Z :=
  if d =? 1 then map (fun s => b / 2 ^ s mod 2) [7; 6; 5; 4; 3; 2; 1; 0]
  else if d =? 2 then map (fun s => b / 2 ^ s mod 4) [6; 4; 2; 0]
  else map (fun s => b / 2 ^ s mod 16) [4; 0].
(** One row of 1, 2 or 4 bits a pixel — decoder.rs:937-966: no padding is skipped. *)
Definition row_small (pal : list (Z * Z * Z)) (d : Z) (w : nat) (l : list Z) : res (list Z * list Z) :=
  let n := ((w * Z.to_nat d + 7) / 8)%nat in
  if (length l <? n)%nat then Err EEof else
  let idx := concat (map (expand_byte d) (firstn n l)) in
  do r <- pal_row pal (firstn w idx) ;
  Ok (r, skipn n l).

(** [decode_into_inner] on a buffer of zeros — decoder.rs:727-1024. First the samples and whether they are in the order that
    was asked for. *)
Definition decode_rows (bgra : bool) (hd : bhdr) (l : list Z) : res (list Z * bool * bool) :=
  let w := b_w hd in let h := b_h hd in let d := b_depth hd in let nc := channels (b_fmt hd) in
  match b_comp hd with
  | CRle4 | CRle8 =>
      do idx <- decode_rle d w h l ;
      match b_fmt hd with
      | FPal => do buf <- expand_palette (b_pal hd) w h idx ; Ok (buf, true, false)
      | _ => Ok (repeat 0 (w * h * nc), b_flip hd, false)
      end
  | _ =>
      if (d =? 1) || (d =? 2) || (d =? 4) then
        if as_i32 (Z.of_nat w) =? - 2 ^ 31 then Panic else
        do rows <- rows_by (row_small (b_pal hd) d w) h l ;
        Ok (write_rows_up rows, negb (b_flip hd), false)
      else match b_fmt hd with
      | FPal =>
          if as_i32 (Z.of_nat w) =? - 2 ^ 31 then Panic else      (* [-(self.width as i32)] *)
          do rows <- mapM (pal_row (b_pal hd)) (pal_rows h w ((4 - w mod 4) mod 4) l) ;
          Ok (write_rows_up rows, negb (b_flip hd), false)
      | _ =>
          if (d =? 32) || (d =? 16) then
            let plain := forallb (Z.eqb 0) (b_masks hd) || match b_comp hd with CFields => false | _ => true end in
            do rows <- (if plain && (d =? 32) then rows_by (pixels_by (copy_pixel bgra) 4 w) h l
                        else if d =? 32 then rows_by (pixels_by (fun b => conv bgra true (b_masks hd) (le_val b)) 4 w) h l
                        else rows_by (row16 bgra nc (if plain then [31744; 992; 31; 31] else b_masks hd) w h) h l) ;
            Ok (write_rows_up rows, negb (b_flip hd), true)
          else
            let ow := (w * nc)%nat in
            let iw := ((w * Z.to_nat d + 31) / 8 / 4 * 4)%nat in
            do rows <- read_rows h ow (iw - ow) l ;
            Ok (write_rows_up (map (fun r => if bgra then r else swap_bgr r) rows), negb (b_flip hd), true)
      end
  end.

(** [pix.swap(0, 2)] for pixels of [nc] bytes — decoder.rs:1008-1021 *)
Definition swap_all (nc : nat) (buf : list Z) : list Z :=
  if (nc =? 3)%nat then swap_bgr buf
  else if (nc =? 4)%nat then concat (map (fun p => [getz p 2; getz p 1; getz p 0; getz p 3]) (chunks_exact 4 buf))
  else buf.

(** [output_buf_size] — decoder.rs:605-612 *)
Definition output_buf_size (hd : bhdr) : res nat :=
  let a := Z.of_nat (b_w hd) * Z.of_nat (b_h hd) in
  let n := a * Z.of_nat (channels (b_fmt hd)) in
  if (2 ^ 64 <=? a) || (2 ^ 64 <=? n) then Err EOverflow else Ok (Z.to_nat n).

(** [decode] — decoder.rs:676-688; [bgra] is the setting [preserve_bgra] (with the feature rgb_inverse) *)
Definition decode_bmp (bgra : bool) (o : bopts) (f : list Z) : res (list Z) :=
  do (hd, l) <- decode_headers o f ;
  do n <- output_buf_size hd ;
  if 2 ^ 63 <=? Z.of_nat n then Panic else
  do (bf, inb) <- decode_rows bgra hd l ;
  let (buf, flip) := (bf : list Z * bool) in
  do buf <- (if flip then flip_rows (b_w hd * channels (b_fmt hd)) buf else Ok buf) ;
  Ok (if bgra && negb inb then swap_all (channels (b_fmt hd)) buf else buf).
