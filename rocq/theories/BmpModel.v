(** Model of crates/zune-bmp: run-length decoding, bit-field scaling, and the row handling of 24-bit and
    8-bit palette images. The source is a list (the rest of the stream); seeking past its end is the same as
    standing at its end, because [read_u8] then yields zero and [eof] is true in both cases. *)
From Verif Require Import Base Loops Slices.

(** ** [decode_rle] — decoder.rs:1116-1424 *)

(** [ZReader::read_u8]: zero at the end of input — zune-core bytestream/reader *)
Definition rd8 (l : list Z) : Z * list Z :=
  match l with [] => (0, []) | x :: r => (x, r) end.
(** [get_u16_be] *)
Definition rd16be (l : list Z) : Z :=
  let (a, r) := rd8 l in let (b, _) := rd8 r in 256 * a + b.

(** [a + b] on [usize], with the overflow check of a checked build *)
Definition uadd (a b : nat) : res nat :=
  if Z.of_nat a + Z.of_nat b <? 2 ^ 64 then Ok (a + b)%nat else Panic.

(** The decoder state: the unread input, the pixel buffer, [line], [pos], and the slice [output], which is
    [pixels[off .. off + olen]]. *)
Record rle : Set := Rle { r_in : list Z; r_pix : list Z; r_line : Z; r_pos : nat; r_off : nat; r_len : nat }.

(** What one turn of the loop does: carry on, or return the pixels. *)
Definition turn : Type := (rle + list Z)%type.

(** [output = &mut pixels[line as usize * self.width..(line + 1) as usize * self.width]] *)
Definition set_row (w : nat) (s : rle) (input : list Z) (line : Z) (pos : nat) : res turn :=
  let off := (Z.to_nat line * w)%nat in
  if (off + w <=? length (r_pix s))%nat
  then Ok (inl (Rle input (r_pix s) line pos off w)) else Panic.

(** [output[pos] = v] *)
Definition out_set (s : rle) (pos : nat) (v : Z) : res (list Z) :=
  if (pos <? r_len s)%nat then set_at (r_pix s) (r_off s + pos) v else Panic.

(** [output[pos .. pos + len]] overwritten *)
Definition out_put (s : rle) (pos : nat) (vs : list Z) : res (list Z) :=
  if (pos + length vs <=? r_len s)%nat then put_slice (r_pix s) (r_off s + pos) vs else Panic.

(** The absolute-mode copy for depth 4 — decoder.rs:1217-1235: [i] counts up to [n]; [n - i = k]. *)
Fixpoint abs4 (k : nat) (odd : bool) (w : nat) (s : rle) : res rle :=
  match k with
  | O => Ok s
  | S k' =>
      if (w <=? r_pos s)%nat then Ok s else
      let (b, r) := rd8 (r_in s) in
      do px <- out_set s (r_pos s) (b / 16) ;
      let s1 := Rle r px (r_line s) (r_pos s + 1) (r_off s) (r_len s) in
      if (k' =? 0)%nat && odd then Ok s1 else
      if (w <=? r_pos s1)%nat then Ok s1 else
      do px <- out_set s1 (r_pos s1) (b mod 16) ;
      abs4 k' odd w (Rle r px (r_line s) (r_pos s1 + 1) (r_off s) (r_len s))
  end.

(** The encoded run for depth 4 — decoder.rs:1248-1260 *)
Fixpoint run4 (k : nat) (even : bool) (b : Z) (w : nat) (s : rle) : res rle :=
  match k with
  | O => Ok s
  | S k' =>
      if (w <=? r_pos s)%nat then Ok s else
      do px <- out_set s (r_pos s) (if even then b / 16 else b mod 16) ;
      run4 k' (negb even) b w (Rle (r_in s) px (r_line s) (r_pos s + 1) (r_off s) (r_len s))
  end.

(** One turn of the loop for depth 4 — decoder.rs:1176-1262 *)
Definition turn4 (w : nat) (s : rle) : res turn :=
  let (code, r1) := rd8 (r_in s) in
  if code =? 0 then
    let (sb, r2) := rd8 r1 in
    if sb =? 0 then
      (if r_line s - 1 <? 0 then Err ECorrupt else set_row w s r2 (r_line s - 1) 0)
    else if sb =? 1 then Ok (inr (r_pix s))
    else if sb =? 2 then
      let (dx, r3) := rd8 r2 in
      let (dy, r4) := rd8 r3 in
      do p <- uadd (r_pos s) (Z.to_nat dx) ;
      if r_line s - dy <? 0 then Err ECorrupt else set_row w s r4 (r_line s - dy) p
    else
      let n := Z.to_nat ((sb + 1) / 2) in
      do s1 <- abs4 n (sb mod 2 =? 1) w (Rle r2 (r_pix s) (r_line s) (r_pos s) (r_off s) (r_len s)) ;
      Ok (inl (Rle (skipn (n mod 2) (r_in s1)) (r_pix s1) (r_line s1) (r_pos s1) (r_off s1) (r_len s1)))
  else
    do p <- uadd (r_pos s) (Z.to_nat code) ;
    if (w + 1 <? p)%nat then Err ECorrupt else
    let (b, r2) := rd8 r1 in
    do s1 <- run4 (Z.to_nat code) true b w (Rle r2 (r_pix s) (r_line s) (r_pos s) (r_off s) (r_len s)) ;
    Ok (inl s1).

Fixpoint loop4 (fuel w : nat) (s : rle) : res (list Z) :=
  if (0 <=? r_line s) && (r_pos s <=? w)%nat then
    match fuel with
    | O => Fuel
    | S f =>
        do t <- turn4 w s ;
        match t with inl s' => loop4 f w s' | inr px => Ok px end
    end
  else Ok (r_pix s).

(** [output[pos..].chunks_exact_mut(k).take(n).for_each(|x| read k bytes)] — decoder.rs:1331-1352 *)
Fixpoint read_many (k : nat) (l : list Z) : list Z * list Z :=
  match k with
  | O => ([], l)
  | S k' => let (x, r) := rd8 l in let (xs, r') := read_many k' r in (x :: xs, r')
  end.

(** How many whole [k]-byte groups [output[pos..].chunks_exact_mut(k).take(n)] visits; [None] is the slicing
    panic. *)
Definition groups (s : rle) (k n : nat) : res nat :=
  if (r_pos s <=? r_len s)%nat then Ok (Nat.min n ((r_len s - r_pos s) / k)) else Panic.

(** One turn of the loop for depths 8, 16 and 32; [k] is [depth >> 3] — decoder.rs:1266-1419. *)
Definition turn8 (k w : nat) (s : rle) : res turn :=
  let (p1, r1) := rd8 (r_in s) in
  if p1 =? 0 then
    let (p2, r2) := rd8 r1 in
    if p2 =? 0 then
      if r_line s - 1 <? 0 then
        (if rd16be r2 =? 1 then Ok (inr (r_pix s)) else Err ECorrupt)
      else if (r_len s <? r_pos s)%nat then Err ECorrupt
      else set_row w s r2 (r_line s - 1) 0
    else if p2 =? 1 then Ok (inr (r_pix s))
    else if p2 =? 2 then
      let (dx, r3) := rd8 r2 in
      let (dy, r4) := rd8 r3 in
      do p <- uadd (r_pos s) (Z.to_nat dx) ;
      if r_line s - dy <? 0 then Err ECorrupt else set_row w s r4 (r_line s - dy) p
    else
      let n := Z.to_nat p2 in
      do e <- uadd (r_pos s) (n * k) ;
      if (r_len s <? e)%nat then
        Ok (inl (Rle (skipn (2 * k) r2) (r_pix s) (r_line s) (r_pos s) (r_off s) (r_len s)))
      else if (k =? 1)%nat then
        if (length r2 <? n)%nat then Err EEof else
        do px <- out_put s (r_pos s) (firstn n r2) ;
        Ok (inl (Rle (skipn (if p2 mod 2 =? 1 then 1 else 0) (skipn n r2)) px (r_line s) e (r_off s) (r_len s)))
      else
        do g <- groups s k n ;
        let (vs, r3) := read_many (g * k) r2 in
        do px <- out_put s (r_pos s) vs ;
        Ok (inl (Rle r3 px (r_line s) e (r_off s) (r_len s)))
  else
    let n := Z.to_nat p1 in
    do e <- uadd (r_pos s) (n * k) ;
    if (r_len s <? e)%nat then Err ECorrupt else
    let (pix, r2) := read_many k r1 in
    if (k =? 1)%nat then
      do px <- out_put s (r_pos s) (repeat (getz pix 0) n) ;
      Ok (inl (Rle r2 px (r_line s) e (r_off s) (r_len s)))
    else
      do g <- groups s k n ;
      do px <- out_put s (r_pos s) (concat (repeat pix g)) ;
      Ok (inl (Rle r2 px (r_line s) e (r_off s) (r_len s))).

Fixpoint loop8 (fuel k w : nat) (s : rle) : res (list Z) :=
  match r_in s with
  | [] => Ok (r_pix s)
  | _ =>
      match fuel with
      | O => Fuel
      | S f =>
          do t <- turn8 k w s ;
          match t with inl s' => loop8 f k w s' | inr px => Ok px end
      end
  end.

(** [x as i32] for [0 <= x < 2^64] *)
Definition as_i32 (x : Z) : Z :=
  let y := x mod 2 ^ 32 in if y <? 2 ^ 31 then y else y - 2 ^ 32.

(** [decode_rle] with [depth], [width], [height] taken from the headers *)
Definition decode_rle (d : Z) (w h : nat) (data : list Z) : res (list Z) :=
  let d' := if d <? 8 then 8 else d in
  let bits := Z.of_nat w * Z.of_nat h * d' in
  if (2 ^ 64 <=? Z.of_nat w * Z.of_nat h) || (2 ^ 64 <=? bits) || (2 ^ 64 <=? bits + 7) then Err EOverflow else
  let alloc := Z.to_nat ((bits + 7) / 8) in
  let pixels := repeat 0 alloc in
  if (h =? 0)%nat then Panic else                       (* [self.height - 1] *)
  let line := as_i32 (Z.of_nat h - 1) in
  if line <? 0 then Panic else                          (* [line as usize * width] overflows *)
  let off := (Z.to_nat line * w)%nat in
  if (alloc <? off)%nat then Panic else                 (* [&mut pixels[off..]] *)
  let s := Rle data pixels line 0 off (alloc - off) in
  if negb ((d =? 4) || (d =? 8) || (d =? 16) || (d =? 32)) then Err EDepth else
  if d =? 4 then loop4 (length data + Z.to_nat line + 1) w s
  else loop8 (length data) (Z.to_nat (d / 8)) w s.

(** ** [shift_signed] — decoder.rs:1427-1452 *)

Definition MUL_TABLE : list Z := [0; 0xff; 0x55; 0x49; 0x11; 0x21; 0x41; 0x81; 0x01].
Definition SHIFT_TABLE : list Z := [0; 0; 0; 1; 0; 2; 4; 6; 0].

(** [v << n] and [v >> n] on [u32] panic in a checked build when [n >= 32]; the bits shifted out by [<<] are
    lost; the multiplication is checked. *)
Definition shift_signed (v shift bits : Z) : res Z :=
  do v <- (if shift <? 0
           then (if -shift <? 32 then Ok (u32 (v * 2 ^ (-shift))) else Panic)
           else (if shift <? 32 then Ok (v / 2 ^ shift) else Panic)) ;
  if 256 <=? v then Panic else                          (* [debug_assert!(v < 256)] *)
  let bits := Z.min 8 bits in
  let v := v / 2 ^ (8 - bits) in
  let m := v * getz MUL_TABLE (Z.to_nat bits) in
  if 2 ^ 32 <=? m then Panic else
  Ok (m / 2 ^ (getz SHIFT_TABLE (Z.to_nat bits))).

(** [u32::leading_zeros] and [count_ones]; [32 - leading_zeros] is the bit length. *)
Definition bit_len (x : Z) : Z := if x <=? 0 then 0 else Z.log2 x + 1.
Fixpoint popcount (n : nat) (x : Z) : Z :=
  match n with O => 0 | S n' => x mod 2 + popcount n' (x / 2) end.

(** One channel of [conv_function] — decoder.rs:804-838: the shift is derived from the mask's leading zeros,
    [(32 - lz).wrapping_sub(8) as i32]. *)
Definition field (mask v : Z) : res Z :=
  do r <- shift_signed (Z.land v mask) (bit_len mask - 8) (popcount 32 mask) ;
  Ok (u8 r).

(** ** 24-bit rows and 8-bit palette rows — decoder.rs:907-925, 1030-1115, 962-1008 *)

(** [rchunks_exact_mut(n)] visits the chunks from the end of the buffer; writing a list of rows through it
    puts the first row last. [fuel]-free: rows are given. *)
Definition write_rows_up (rows : list (list Z)) : list Z := concat (rev rows).

(** [for pix in out.chunks_exact_mut(3) { pix.swap(0, 2) }] *)
Definition swap_bgr (row : list Z) : list Z :=
  concat (map (fun p => [getz p 2; getz p 1; getz p 0]) (chunks_exact 3 row)) ++ skipn (3 * (length row / 3)) row.

(** Reading the rows of a 24-bit image: [read_exact_bytes(out)] then skip the padding — decoder.rs:907-923.
    [n] rows of [ow] bytes, [pad] bytes skipped after each. *)
Fixpoint read_rows (n ow pad : nat) (data : list Z) : res (list (list Z)) :=
  match n with
  | O => Ok []
  | S n' =>
      if (length data <? ow)%nat then Err EEof else
      do rest <- read_rows n' ow pad (skipn pad (skipn ow data)) ;
      Ok (firstn ow data :: rest)
  end.

(** The final flip, taken for images stored top to bottom — decoder.rs:981-1003: swaps the rows of the first
    half of the buffer (in whole rows) with those of the second half, from the outside in. *)
Fixpoint swap_rows (k : nat) (len i : nat) (buf : list Z) : list Z :=
  match k with
  | O => buf
  | S k' =>
      let top := slice buf (i * len) len in
      let j := (length buf - (i + 1) * len)%nat in
      let bot := slice buf j len in
      swap_rows k' len (i + 1) (put (put buf (i * len) bot) j top)
  end.
(** [chunks_exact_mut(len)] of the top half zipped with [rchunks_exact_mut(len)] of the bottom half *)
Definition flip_rows (len : nat) (buf : list Z) : res (list Z) :=
  if (len =? 0)%nat then Panic else
  let mid := (length buf / 2)%nat in
  Ok (swap_rows (Nat.min (mid / len) ((length buf - mid) / len)) len 0 buf).

(** 24-bit pixels, [PRESERVE_BGRA = bgra]; [down] is [height < 0] in the file. *)
Definition decode24 (bgra down : bool) (w h : nat) (data : list Z) : res (list Z) :=
  let ow := (w * 3)%nat in
  if (ow =? 0)%nat then Panic else
  let iw := ((w * 24 + 31) / 8 / 4 * 4)%nat in
  do rows <- read_rows h ow (iw - ow) data ;
  let buf := write_rows_up (map (fun r => if bgra then r else swap_bgr r) rows) in
  if down then flip_rows ow buf else Ok buf.

(** Palette lookup of [chunks], three bytes per index; the palette always has 256 entries and the index is a
    byte — decoder.rs:1054-1072 *)
Definition pal_pixel (pal : list (Z * Z * Z)) (i : Z) : res (list Z) :=
  do e <- get_at pal (Z.to_nat i) ; let '(r, g, b) := e in Ok [r; g; b].
Fixpoint mapM {A B} (f : A -> res B) (l : list A) : res (list B) :=
  match l with
  | [] => Ok []
  | x :: r => do y <- f x ; do ys <- mapM f r ; Ok (y :: ys)
  end.
Definition pal_row (pal : list (Z * Z * Z)) (row : list Z) : res (list Z) :=
  do ps <- mapM (pal_pixel pal) row ; Ok (concat ps).

(** [expand_palette] on RLE data ([unpad = false]); [zip] stops at the shorter side — decoder.rs:1038-1073 *)
Definition expand_palette (pal : list (Z * Z * Z)) (w h : nat) (idx : list Z) : res (list Z) :=
  do rows <- mapM (pal_row pal) (firstn h (chunks_exact w idx)) ;
  Ok (write_rows_up rows).

(** Palette image compressed with RLE4 or RLE8 — decoder.rs:738-745, 981-1003: expanded upside down, then
    flipped. *)
Definition decode_rle_image (pal : list (Z * Z * Z)) (d : Z) (w h : nat) (data : list Z) : res (list Z) :=
  do idx <- decode_rle d w h data ;
  do buf <- expand_palette pal w h idx ;
  flip_rows (w * 3) buf.

(** [expand_palette_from_remaining_bytes]: reads past the end yield index zero; the pad is
    [(-(width)) & 3] — decoder.rs:1075-1114 *)
Fixpoint pal_rows (n w pad : nat) (data : list Z) : list (list Z) :=
  match n with
  | O => []
  | S n' => let (row, r) := read_many w data in row :: pal_rows n' w pad (skipn pad r)
  end.
Definition decode_pal8 (pal : list (Z * Z * Z)) (down : bool) (w h : nat) (data : list Z) : res (list Z) :=
  if (w =? 0)%nat then Panic else
  do rows <- mapM (pal_row pal) (pal_rows h w ((4 - w mod 4) mod 4) data) ;
  let buf := write_rows_up rows in
  if down then flip_rows (w * 3) buf else Ok buf.
