(** Model of animated PNG files: the chunks acTL, fcTL and fdAT — crates/zune-png/src/headers/readers.rs:238-259, 471-571 —, the list
    of frames in crates/zune-png/src/decoder.rs, and the reader of animations in crates/zune-image/src/codecs/png.rs.
    Chunks other than these three are those of PngModel.v, whose state is the base of the state here. *)
From Verif Require Import Base Loops Slices StreamModel CrcModel PngFilterModel InflateModel PngRowModel.
From Verif Require F32 ToneModel.
From Verif Require Import DeintModel ApngModel PngModel.

Definition n_fdAT : list Z := [102; 100; 65; 84].

(** [PngDecoder] — decoder.rs:155-171: [base] holds [current_frame] and the compressed data of frame 0, pushed by the IHDR chunk;
    [a_first] is the description of frame 0 (of no meaning before IHDR), [a_later] the other frames. *)
Record apng := mkApng { base : png; a_actl : option (Z * Z); a_first : frame; a_later : list (frame * list Z) }.
(** The description of frame 0 given by the IHDR chunk — readers.rs:116-129 *)
Definition still_frame (w h : nat) : frame := mkFrame (-1) w h 0 0 0 0 DNone BSource false.
Definition new_apng (o : popts) (data : list Z) : apng := mkApng (new_png o data) None (still_frame 0 0) [].
(** [self.frames] *)
Definition frames (a : apng) : list (frame * list Z) :=
  match hdr (base a) with None => [] | Some _ => (a_first a, fdat (base a)) :: a_later a end.
Definition on_base (s : png) (a : apng) : apng := mkApng s (a_actl a) (a_first a) (a_later a).
Definition set_data (z : list Z) (s : png) : png :=
  mkPng (strm s) (opts s) (hdr s) (mdata s) (pal s) (p_plte s) (p_trns s) (p_key s) z (current s) (p_headers s) (p_iend s) (p_stride s) (from_into s).
Definition set_end (s : png) : png :=
  mkPng (strm s) (opts s) (hdr s) (mdata s) (pal s) (p_plte s) (p_trns s) (p_key s) (fdat s) (current s) (p_headers s) true (p_stride s) (from_into s).

(** [parse_actl] — readers.rs:240-259: with a wrong length the chunk is skipped and then read all the same *)
Definition parse_actl (len : nat) (a : apng) : res apng :=
  do s <- (if negb (len =? 8)%nat then skip_to (len + 4) (base a) else Ok (base a)) ;
  let '(n, c) := get_zero BE 4 (strm s) in
  let '(p, c) := get_zero BE 4 c in
  do s <- skip_to 4 (at_cursor c s) ;
  Ok (mkApng s (Some (n, p)) (a_first a) (a_later a)).

(** [as i32] *)
Definition as_i32 (v : Z) : Z := if v <? 2 ^ 31 then v else v - 2 ^ 32.
(** [parse_fctl_external] — readers.rs:540-571 *)
Definition parse_fctl_external (len : nat) (s : png) : res (frame * png) :=
  if negb (len =? 26)%nat then Err ECorrupt else
  let '(sq, c) := get_zero BE 4 (strm s) in
  let '(w, c) := get_zero BE 4 c in
  let '(h, c) := get_zero BE 4 c in
  let '(x, c) := get_zero BE 4 c in
  let '(y, c) := get_zero BE 4 c in
  let '(num, c) := get_zero BE 2 c in
  let '(den, c) := get_zero BE 2 c in
  let '(d, c) := read_u8 c in
  do d <- dispose_of_int d ;
  let '(b, c) := read_u8 c in
  do b <- blend_of_int b ;
  do s <- skip_to 4 (at_cursor c s) ;
  Ok (mkFrame (as_i32 sq) (Z.to_nat w) (Z.to_nat h) (Z.to_nat x) (Z.to_nat y) num den d b true, s).

(** [self.frames.last_mut().unwrap().chunk_mut()], extended *)
Fixpoint extend_last (l : list (frame * list Z)) (z : list Z) : list (frame * list Z) :=
  match l with [] => [] | [(f, d)] => [(f, d ++ z)] | x :: l' => x :: extend_last l' z end.
Definition extend_frames (z : list Z) (a : apng) : apng :=
  match a_later a with
  | [] => on_base (set_data (fdat (base a) ++ z) (base a)) a
  | l => mkApng (base a) (a_actl a) (a_first a) (extend_last l z)
  end.

Section Inflate.
Variable huff : Z -> dstate -> res dstate.

(** The arms of [parse_header] other than fcTL — decoder.rs:425-477. The animation argument of the still model is never called. *)
Definition parse_other (len : nat) (name : list Z) (a : apng) : res apng :=
  if zlist_eqb name n_acTL then
    do a <- parse_actl len a ;
    match hdr (base a) with None => Err ECorrupt | Some _ => Ok a end
  else
    do s <- parse_header huff (fun _ _ _ => Panic) len name (base a) ;
    match hdr (base a), hdr s with
    | None, Some i => Ok (mkApng s (a_actl a) (still_frame (i_w i) (i_h i)) (a_later a))
    | _, _ => Ok (on_base s a)
    end.

(** The fdAT arm — readers.rs:505-523 *)
Definition parse_fdat (len : nat) (f : frame) (add : bool) (a : apng) : res apng :=
  let a := if add then mkApng (base a) (a_actl a) (a_first a) (a_later a ++ [(f, [])]) else a in
  do c <- skip (strm (base a)) 4 ;
  match read_exact c (repeat 0 (len - 4)) with
  | (Ok _, bs, c) =>
      do c <- skip c 4 ;
      let a := extend_frames bs a in
      Ok (on_base (at_cursor c (base a)) a)
  | (Err e, _, _) => Err e
  | (Panic, _, _) => Panic
  | (Fuel, _, _) => Fuel
  end.
(** The loop of [parse_fctl] — readers.rs:482-537; [f] is [fctl_info], [add] is [should_add_fctl]. Every round reads at least eight
    bytes or ends. *)
Fixpoint fctl_loop (fuel : nat) (f : frame) (add : bool) (a : apng) : res apng :=
  match fuel with
  | O => Fuel
  | S fuel =>
      do (len, name, s) <- read_chunk_header (base a) ;
      if zlist_eqb name n_IEND then
        do c <- rewind (strm s) 8 ; Ok (on_base (set_end (at_cursor c s)) a)
      else if zlist_eqb name n_IDAT then
        do s <- parse_idat len s ;
        fctl_loop fuel f false (mkApng s (a_actl a) f (a_later a))
      else if zlist_eqb name n_fcTL then
        do c <- rewind (strm s) 8 ; Ok (on_base (at_cursor c s) a)
      else if zlist_eqb name n_fdAT then
        do a <- parse_fdat len f add (on_base s a) ;
        fctl_loop fuel f false a
      else
        do a <- parse_other len name (on_base s a) ;
        fctl_loop fuel f false a
  end.
(** [parse_fctl] — readers.rs:471-538 *)
Definition parse_fctl (len : nat) (a : apng) : res apng :=
  do (f, s) <- parse_fctl_external len (base a) ;
  fctl_loop (S (length (cdata (strm s)))) f true (on_base s a).

(** The loop of [decode_headers] — decoder.rs:407-420 *)
Fixpoint achunk_loop (fuel : nat) (a : apng) : res apng :=
  match fuel with
  | O => Fuel
  | S fuel =>
      do (len, name, s) <- read_chunk_header (base a) ;
      if zlist_eqb name n_fcTL then
        do a <- parse_fctl len (on_base s a) ;
        match hdr (base a) with None => Err ECorrupt | Some _ => Ok a end
      else
        do a <- parse_other len name (on_base s a) ;
        if zlist_eqb name n_IEND then Ok a else achunk_loop fuel a
  end.
(** [decode_headers] — decoder.rs:389-423 *)
Definition set_seen (s : png) : png :=
  mkPng (strm s) (opts s) (hdr s) (mdata s) (pal s) (p_plte s) (p_trns s) (p_key s) (fdat s) (current s) true (p_iend s) (p_stride s) (from_into s).
Definition adecode_headers (a : apng) : res apng :=
  if p_headers (base a) && p_iend (base a) then Ok a else
  do a <-
    (match hdr (base a) with
     | Some _ => Ok a
     | None =>
         let '(sg, c) := get_err BE 8 (strm (base a)) in
         do sg <- sg ;
         if negb (sg =? be_val signature) then Err EMagic else
         let '(n, c) := peek_at c 4 4 in
         do n <- n ;
         if negb (zlist_eqb n n_IHDR) then Err ECorrupt else Ok (on_base (at_cursor c (base a)) a)
     end) ;
  do a <- achunk_loop (S (length (cdata (strm (base a))))) a ;
  Ok (on_base (set_seen (base a)) a).

(** [frame_info] — decoder.rs:745-750; [more_frames] (and [is_animated]) — decoder.rs:314-321 *)
Definition frame_info (a : apng) : option frame := option_map fst (nth_error (frames a) (current (base a))).
Definition more_frames (a : apng) : bool :=
  match a_actl a with Some _ => (current (base a) <? length (frames a))%nat | None => false end.

(** [inner_buffer_size] — decoder.rs:517-536 *)
Definition frame_size (x : pix) (f : frame) : nat := (f_w f * f_h f * out_comps x * sample_bytes x)%nat.
Definition ainner_size (i : info) (a : apng) : option nat :=
  match frame_info a with
  | None => None
  | Some f =>
      let x := pix_of i (base a) in
      if 2 ^ 64 <=? Z.of_nat (f_w f) * Z.of_nat (f_h f) * Z.of_nat (out_comps x * sample_bytes x) then None else Some (frame_size x f)
  end.

(** [decode_interlaced] — decoder.rs:752-828: the passes have the sizes of the frame, but the rows of the output are taken to have
    the width [iw] of the image *)
Fixpoint interlaced_in (iw : nat) (x : pix) (w h : nat) (ps : list (nat * nat * nat * nat)) (data : list Z) (off : nat) (tmp stride out : list Z) : res (list Z * list Z) :=
  match ps with
  | [] => Ok (out, stride)
  | p :: ps' =>
      let '(xo, yo, xs, ys) := p in
      let pw := pass_size w xo xs in
      let ph := pass_size h yo ys in
      if ((pw =? 0) || (ph =? 0))%nat then interlaced_in iw x w h ps' data off tmp stride out else
      let len := ((packed_len x pw + 1) * ph)%nat in
      if (length data <? off + len)%nat then Err ECorrupt else
      do (tmp, stride) <- create_raw x (slice data off len) pw ph tmp stride ;
      do out <- place iw (out_comps x * sample_bytes x) pw ph p tmp out ;
      interlaced_in iw x w h ps' data (off + len) tmp stride out
  end.

(** The frame is decoded: its data is released, and the next one is to come — decoder.rs:641-644, 665-666 *)
Fixpoint release (n : nat) (l : list (frame * list Z)) : list (frame * list Z) :=
  match n, l with
  | _, [] => []
  | O, (f, _) :: l' => (f, []) :: l'
  | S n', x :: l' => x :: release n' l'
  end.
Definition next_frame (stride : list Z) (a : apng) : apng :=
  let s := base a in
  let s' z := mkPng (strm s) (opts s) (hdr s) (mdata s) (pal s) (p_plte s) (p_trns s) (p_key s) z (S (current s)) (p_headers s) (p_iend s) stride (from_into s) in
  match current s with
  | O => on_base (s' []) a
  | S n => mkApng (s' (fdat s)) (a_actl a) (a_first a) (release n (a_later a))
  end.

(** [decode_into_inner] — decoder.rs:612-668 *)
Definition adecode_inner (out : list Z) (a : apng) : res (list Z * apng) :=
  do a <- adecode_headers a ;
  let s := base a in
  match hdr s with None => Panic | Some i =>
  match nth_error (frames a) (current s) with None => Err EOther | Some (f, z) =>
  match ainner_size i a with None => Err EOverflow | Some len =>
  if (length out <? len)%nat then Err ESize else
  do d <- png_inflate huff i (set_data z s) ;
  let x := pix_of i s in
  let front := firstn len out in
  do (front, stride) <- (if i_adam7 i then interlaced_in (i_w i) x (f_w f) (f_h f) passes d 0 (repeat 0 len) (p_stride s) front
                         else create_raw x d (f_w f) (f_h f) front (p_stride s)) ;
  let front := if (i_depth i =? 16)%nat
               then PngRowModel.to_endian (o_little (opts s)) (o_sse4 (opts s)) (o_avx2 (opts s)) (o_ssse3 (opts s)) front else front in
  Ok (front ++ skipn len out, next_frame stride a)
  end end end.
(** [decode_into] — decoder.rs:583-611 *)
Definition adecode_into (out : list Z) (a : apng) : res (list Z * apng) :=
  do a <- adecode_headers a ;
  let s := base a in
  match hdr s with None => Panic | Some i =>
  if from_into s && (i_depth i =? 16)%nat && o_strip (opts s) then
    if (length out <? output_size i s)%nat then Err ESize else
    match ainner_size i a with None => Panic | Some n =>
    do (tmp, a) <- adecode_inner (repeat 0 n) a ;
    let new := map (fun c => getz c 0) (firstn (output_size i s) (chunks_exact 2 tmp)) in
    Ok (new ++ skipn (length new) out, a)
    end
  else adecode_inner out a
  end.
(** The loop that keeps the first byte of every two in place — decoder.rs:693-708 *)
Definition strip_in_place (l : list Z) : list Z := every_other l ++ skipn (length (every_other l)) l.
(** [decode_raw] — decoder.rs:680-712 *)
Definition adecode_raw (a : apng) : res (list Z * apng) :=
  do a <- adecode_headers a ;
  let s := base a in
  let s := mkPng (strm s) (opts s) (hdr s) (mdata s) (pal s) (p_plte s) (p_trns s) (p_key s) (fdat s) (current s) (p_headers s) (p_iend s) (p_stride s) false in
  let a := on_base s a in
  match hdr s with None => Panic | Some i =>
  match ainner_size i a with None => Panic | Some n =>
  do (out, a') <- adecode_into (repeat 0 n) a ;
  Ok (if o_strip (opts s) && (i_depth i =? 16)%nat then firstn (output_size i s) (strip_in_place out) else out, a')
  end end.
(** [decode] — decoder.rs:860-917, little-endian machine: the buffer has the size of the image, whatever the size of the frame *)
Definition adecode (a : apng) : res (pixels * apng) :=
  do a <- (if negb (p_headers (base a)) || negb (p_iend (base a)) then adecode_headers a else Ok a) ;
  let s := base a in
  match hdr s with None => Panic | Some i =>
  if o_strip (opts s) && (i_depth i =? 16)%nat then do (b, a) <- adecode_raw a ; Ok (U8s b, a) else
  let s := mkPng (strm s) (little_popts (opts s)) (hdr s) (mdata s) (pal s) (p_plte s) (p_trns s) (p_key s) (fdat s) (current s) (p_headers s) (p_iend s) (p_stride s) (from_into s) in
  let n := (i_w i * i_h i * out_comps (pix_of i s))%nat in
  if (i_depth i =? 16)%nat then
    do (b, a) <- adecode_into (repeat 0 (2 * n)) (on_base s a) ; Ok (U16s (map le_val (chunks_exact 2 b)), a)
  else do (b, a) <- adecode_into (repeat 0 n) (on_base s a) ; Ok (U8s b, a)
  end.

(** The documented loop — decoder.rs:722-744, apng.rs:190-223: while there are more frames, the description of the next one and its
    pixels. [unwrap] of a missing description panics. *)
Fixpoint frames_by {A : Set} (dec : apng -> res (A * apng)) (fuel : nat) (a : apng) : res (list (frame * A)) :=
  match fuel with
  | O => Fuel
  | S fuel =>
      if more_frames a then
        do a <- adecode_headers a ;
        match frame_info a with None => Panic | Some f =>
        do (px, a) <- dec a ;
        do rest <- frames_by dec fuel a ;
        Ok ((f, px) :: rest)
        end
      else Ok []
  end.
Definition animation {A : Set} (dec : apng -> res (A * apng)) (o : popts) (data : list Z) : res (list (frame * A)) :=
  do a <- adecode_headers (new_apng o data) ;
  frames_by dec (S (S (length data))) a.

(** [colorspace] — decoder.rs:262-301, as far as it depends on the number of components of the output *)
Definition out_space (x : pix) : colorspace :=
  match out_comps x with 1%nat => Luma | 2%nat => LumaA | 3%nat => RGB | _ => RGBA end.

Section Codec.
Variable powf : F32.f32 -> F32.f32 -> F32.f32.
(** The loop of [decode] for animations — zune-image/src/codecs/png.rs:47-80: the canvases that become the frames of the image. The
    dispose operation "previous" is replaced by "none". *)
Definition no_previous (f : frame) : frame :=
  match f_dispose f with
  | DPrevious => mkFrame (f_seq f) (f_w f) (f_h f) (f_x f) (f_y f) (f_num f) (f_den f) DNone (f_blend f) (f_in_seq f)
  | _ => f
  end.
Fixpoint codec_loop (fuel : nat) (w h : nat) (cs : colorspace) (output : list Z) (a : apng) : res (list (list Z)) :=
  match fuel with
  | O => Fuel
  | S fuel =>
      if more_frames a then
        do a <- adecode_headers a ;
        match frame_info a with None => Panic | Some f =>
        do (px, a) <- adecode a ;
        match px with
        | U16s _ => Err EOther
        | U8s px =>
            do output <- post_process powf w h cs (no_previous f) px None output None ;
            do rest <- codec_loop fuel w h cs output a ;
            Ok (output :: rest)
        end
        end
      else Ok []
  end.
(** [DecoderTrait::decode] for a file with an acTL chunk (None: there is none, or animations are not asked for) — codecs/png.rs:38-86 *)
Definition codec (o : popts) (animated : bool) (data : list Z) : res (option (list (list Z))) :=
  do a <- adecode_headers (new_apng o data) ;
  match hdr (base a) with None => Panic | Some i =>
  let cs := out_space (pix_of i (base a)) in
  if more_frames a && animated then
    do l <- codec_loop (S (S (length data))) (i_w i) (i_h i) cs (repeat 0 (i_w i * i_h i * num_components cs)) a ;
    Ok (Some l)
  else Ok None
  end.
End Codec.
End Inflate.
