(** Model of the QOI codec (crates/zune-qoi/src), 64-bit little-endian target.

    Simplifications: the logging macros are dropped; running out of memory is not modelled, but the
    capacity-overflow panic of an allocation larger than [isize::MAX] is. *)
From Verif Require Import Base StreamModel.

(** zune-core/src/colorspace.rs: only the variants the codec distinguishes. *)
Inductive qcs := CsRGB | CsRGBA | CsOther (components : nat).
Definition num_components (cs : qcs) : nat :=
  match cs with CsRGB => 3 | CsRGBA => 4 | CsOther n => n end%nat.

(** constants.rs:6-24 *)
Definition QOI_OP_INDEX := 0x00.
Definition QOI_OP_DIFF := 0x40.
Definition QOI_OP_LUMA := 0x80.
Definition QOI_OP_RUN := 0xc0.
Definition QOI_OP_RGB := 0xfe.
Definition QOI_OP_RGBA := 0xff.
Definition QOI_MASK_2 := 0xc0.
Definition QOI_MAGIC := [113; 111; 105; 102].   (* "qoif" *)
Definition QOI_HEADER_SIZE : nat := 14.
Definition QOI_PADDING : nat := 8.

(** The [[u8; 4]] pixel. *)
Record pix := Pix { pr : Z; pg : Z; pb : Z; pa : Z }.
Definition pix_eqb (a b : pix) : bool :=
  (pr a =? pr b) && (pg a =? pg b) && (pb a =? pb b) && (pa a =? pa b).
Definition pix0 := Pix 0 0 0 0.
Definition pix_start := Pix 0 0 0 255.

(** [px[0..channel_count].copy_from_slice(pix_chunk)] — encoder.rs:151. *)
Definition set_px (p : pix) (chunk : list Z) : pix :=
  match chunk with
  | [r; g; b] => Pix r g b (pa p)
  | [r; g; b; a] => Pix r g b a
  | _ => p
  end.
(** [&px[0..SIZE]] — decoder.rs:281, 316. *)
Definition px_out (size : nat) (p : pix) : list Z := firstn size [pr p; pg p; pb p; pa p].

(** * Encoder (encoder.rs:135-223) *)

(** encoder.rs:167-171 *)
Definition qhash (p : pix) : Z := (pr p * 3 + pg p * 5 + pb p * 7 + pa p * 11) mod 64.

(** [!(lo..=hi).contains(&x)] *)
Definition outside (lo hi x : Z) : bool := negb ((lo <=? x) && (x <=? hi)).

Record enc_st := { eprev : pix; eindex : list pix; erun : Z }.
Definition enc_start : enc_st := {| eprev := pix_start; eindex := repeat pix0 64; erun := 0 |}.

(** [stream.write_u8_err(QOI_OP_RUN | (run - 1))] *)
Definition run_op (run : Z) : wop := OU8Err (Z.lor QOI_OP_RUN (run - 1)).

(** The pixel not found in the index — encoder.rs:176-215. *)
Definition enc_pixel (prev px : pix) : list wop :=
  if pa px =? pa prev then
    let vr := u8 (pr px - pr prev) in
    let vg := u8 (pg px - pg prev) in
    let vb := u8 (pb px - pb prev) in
    let vg_r := u8 (vr - vg) in
    let vg_b := u8 (vb - vg) in
    if outside 2 253 vr && outside 2 253 vg && outside 2 253 vb then
      [OU8 (Z.lor (Z.lor (Z.lor QOI_OP_DIFF (u8 (Z.shiftl (u8 (vr + 2)) 4)))
                         (u8 (Z.shiftl (u8 (vg + 2)) 2))) (u8 (vb + 2)))]
    else if outside 8 247 vg_r && outside 32 223 vg && outside 8 247 vg_b then
      [OU8Err (Z.lor QOI_OP_LUMA (u8 (vg + 32)));
       OU8Err (Z.lor (u8 (Z.shiftl (u8 (vg_r + 8)) 4)) (u8 (vg_b + 8)))]
    else [OU8Err QOI_OP_RGB; OConst [pr px; pg px; pb px]]
  else
    [OU8Err QOI_OP_RGBA; OIntErr BE 4 (be_val [pr px; pg px; pb px; pa px])].

(** One iteration of the loop over [chunks_exact(channel_count)] — encoder.rs:150-220. [px] always
    equals [px_prev] at the start of an iteration. *)
Definition enc_step (st : enc_st) (chunk : list Z) : list wop * enc_st :=
  let px := set_px (eprev st) chunk in
  if pix_eqb px (eprev st) then
    let run := erun st + 1 in
    if run =? 62 then ([run_op run], {| eprev := px; eindex := eindex st; erun := 0 |})
    else ([], {| eprev := px; eindex := eindex st; erun := run |})
  else
    let flush := if 0 <? erun st then [run_op (erun st)] else [] in
    let pos := Z.to_nat (qhash px) in
    if pix_eqb (nth pos (eindex st) pix0) px then
      (flush ++ [OU8Err (Z.lor QOI_OP_INDEX (Z.of_nat pos))],
       {| eprev := px; eindex := eindex st; erun := 0 |})
    else
      (flush ++ enc_pixel (eprev st) px,
       {| eprev := px; eindex := upd (eindex st) pos px; erun := 0 |}).

Fixpoint enc_loop (st : enc_st) (cs : list (list Z)) : list wop :=
  match cs with
  | [] => if 0 <? erun st then [run_op (erun st)] else []
  | c :: r => let '(ops, st') := enc_step st c in ops ++ enc_loop st' r
  end.

(** Run writer calls in order, stopping at the first one that returns an error ([?]). *)
Fixpoint run_ops (w : writer) (ops : list wop) : bool * writer :=
  match ops with
  | [] => (true, w)
  | o :: r => match wstep w o with
              | (RErr, w') => (false, w')
              | (_, w') => run_ops w' r
              end
  end.

(** [QoiEncoder::encode_headers] — encoder.rs:75-125: what is written before the first error, and
    the error. [usize] overflow of the expected length is not reachable for a slice that exists in
    memory with matching length and is not modelled. *)
Definition enc_headers (w h : Z) (cs : qcs) (pixels : list Z) : list wop * option err :=
  if negb (Z.of_nat (length pixels) =? w * h * Z.of_nat (num_components cs)) then ([], Some ESize)
  else if 2 ^ 32 - 1 <? w then ([OWriteAll QOI_MAGIC], Some EOther)
  else if 2 ^ 32 - 1 <? h then ([OWriteAll QOI_MAGIC], Some EOther)
  else
    let dims := [OWriteAll QOI_MAGIC; OIntErr BE 4 w; OIntErr BE 4 h] in
    match cs with
    | CsRGB => (dims ++ [OU8Err 3; OU8Err 0], None)
    | CsRGBA => (dims ++ [OU8Err 4; OU8Err 0], None)
    | CsOther _ => (dims, Some EColorspace)
    end.

(** [QoiEncoder::encode] — encoder.rs:135-223. *)
Definition qoi_encode (s : sink) (w h : Z) (cs : qcs) (pixels : list Z) : res nat * writer :=
  let '(hops, herr) := enc_headers w h cs pixels in
  match run_ops (new_writer s) hops with
  | (false, w') => (Err ENoSpace, w')
  | (true, w') =>
      match herr with
      | Some e => (Err e, w')
      | None =>
          match run_ops w' (enc_loop enc_start (chunks_exact (num_components cs) pixels)
                            ++ [OIntErr BE 8 1]) with
          | (false, w'') => (Err ENoSpace, w'')
          | (true, w'') => (Ok (wcount w''), w'')
          end
      end
  end.

(** [QoiEncoder::max_size] — encoder.rs:68-74 *)
Definition qoi_max_size (w h : Z) (cs : qcs) : Z :=
  w * h * (Z.of_nat (num_components cs) + 1) + Z.of_nat QOI_HEADER_SIZE + Z.of_nat QOI_PADDING.

(** * Decoder (decoder.rs) *)

(** The options the decoder consults — zune-core/src/options/decoder.rs. *)
Record qopts := { max_width : Z; max_height : Z; strict : bool }.

Record qhdr := { qw : Z; qh : Z; qcspace : qcs; qlayout : Z }.

(** [decode_headers] — decoder.rs:119-186. *)
Definition decode_headers (o : qopts) (c : cursor) : res qhdr * cursor :=
  match read_fixed_or_error 4 c with
  | (Ok magic, c1) =>
      if negb (forallb (fun '(a, b) => a =? b) (combine magic QOI_MAGIC)) then (Err EMagic, c1) else
      let '(width, c2) := get_zero BE 4 c1 in
      let '(height, c3) := get_zero BE 4 c2 in
      let '(colorspace, c4) := read_u8 c3 in
      let '(layout, c5) := read_u8 c4 in
      if max_width o <? width then (Err ELimit, c5)
      else if max_height o <? height then (Err ELimit, c5)
      else if width =? 0 then (Err EZeroDim, c5)
      else if height =? 0 then (Err EZeroDim, c5)
      else
        let with_cs cs :=
          if layout =? 0 then (Ok {| qw := width; qh := height; qcspace := cs; qlayout := 0 |}, c5)
          else if layout =? 1 then (Ok {| qw := width; qh := height; qcspace := cs; qlayout := 1 |}, c5)
          else if strict o then (Err EColorspace, c5)
          else (Ok {| qw := width; qh := height; qcspace := cs; qlayout := 0 |}, c5) in
        if colorspace =? 3 then with_cs CsRGB
        else if colorspace =? 4 then with_cs CsRGBA
        else (Err EColorspace, c5)
  | (Err e, c1) => (Err e, c1)
  | (Panic, c1) => (Panic, c1)
  | (Fuel, c1) => (Fuel, c1)
  end.

(** [checked_mul] of [usize] *)
Definition checked_mul (a b : Z) : option Z := if a * b <? 2 ^ 64 then Some (a * b) else None.

(** [output_buffer_size] after headers — decoder.rs:196-205: the first multiplication is unwrapped,
    the second is returned and unwrapped by the callers (decoder.rs:226, 251). *)
Definition output_size (h : qhdr) : res Z :=
  match checked_mul (qw h) (qh h) with
  | None => Panic
  | Some p => match checked_mul p (Z.of_nat (num_components (qcspace h))) with
              | None => Panic
              | Some s => Ok s
              end
  end.

(** The fast hash of the decoder — decoder.rs:318-327 (little-endian [from_ne_bytes]). *)
Definition swap_bytes64 (x : Z) : Z := le_val (rev (le_bytes 8 x)).
Definition fast_hash (p : pix) : Z :=
  let v := le_val [pr p; pg p; pb p; pa p] in
  let s := Z.land (Z.lor (Z.shiftl v 32) v) 0xFF00FF0000FF00FF in
  Z.land (u8 (swap_bytes64 (u64 (s * 0x030007000005000B)))) 63.

Record dec_st := { dpx : pix; dindex : list pix; drun : Z; dcur : cursor }.

(** Array access with the bounds check of Rust. *)
Definition idx_get (l : list pix) (i : Z) : res pix :=
  match nth_error l (Z.to_nat i) with Some p => Ok p | None => Panic end.
Definition idx_set (l : list pix) (i : Z) (p : pix) : res (list pix) :=
  if (Z.to_nat i <? length l)%nat then Ok (upd l (Z.to_nat i) p) else Panic.

(** Decoding one opcode (the [else] branch of the loop) — decoder.rs:283-329. *)
Definition dec_op (st : dec_st) : res dec_st :=
  let px := dpx st in
  let '(chunk, c1) := read_u8 (dcur st) in
  do (px', run', c2) <-
    (if chunk =? QOI_OP_RGB then
       let '(b, c2) := read_fixed_or_zero 3 c1 in
       Ok (Pix (nth 0 b 0) (nth 1 b 0) (nth 2 b 0) (pa px), drun st, c2)
     else if chunk =? QOI_OP_RGBA then
       let '(b, c2) := read_fixed_or_zero 4 c1 in
       Ok (Pix (nth 0 b 0) (nth 1 b 0) (nth 2 b 0) (nth 3 b 0), drun st, c2)
     else if Z.land chunk QOI_MASK_2 =? QOI_OP_INDEX then
       do p <- idx_get (dindex st) (Z.land chunk 63); Ok (p, drun st, c1)
     else if Z.land chunk QOI_MASK_2 =? QOI_OP_DIFF then
       Ok (Pix (u8 (pr px + u8 (Z.land (Z.shiftr chunk 4) 3 - 2)))
               (u8 (pg px + u8 (Z.land (Z.shiftr chunk 2) 3 - 2)))
               (u8 (pb px + u8 (Z.land chunk 3 - 2))) (pa px), drun st, c1)
     else if Z.land chunk QOI_MASK_2 =? QOI_OP_LUMA then
       let '(b2, c2) := read_u8 c1 in
       let vg := u8 (Z.land chunk 63 - 32) in
       Ok (Pix (u8 (pr px + u8 (u8 (vg - 8) + Z.land (Z.shiftr b2 4) 15)))
               (u8 (pg px + vg))
               (u8 (pb px + u8 (u8 (vg - 8) + Z.land b2 15))) (pa px), drun st, c2)
     else if Z.land chunk QOI_MASK_2 =? QOI_OP_RUN then
       Ok (px, Z.land chunk 63, c1)
     else Ok (px, drun st, c1)) ;
  do idx <- idx_set (dindex st) (fast_hash px') px' ;
  Ok {| dpx := px'; dindex := idx; drun := run'; dcur := c2 |}.

(** One iteration of the loop — decoder.rs:278-331. *)
Definition dec_step (st : dec_st) : res dec_st :=
  if 0 <? drun st
  then Ok {| dpx := dpx st; dindex := dindex st; drun := drun st - 1; dcur := dcur st |}
  else dec_op st.

(** The loop over [pixels.chunks_exact_mut(SIZE)] — decoder.rs:277: the pixels stored, in order. *)
Fixpoint dec_loop (n : nat) (st : dec_st) : res (list pix * dec_st) :=
  match n with
  | O => Ok ([], st)
  | S n' =>
      do st' <- dec_step st ;
      do (ps, st'') <- dec_loop n' st' ;
      Ok (dpx st' :: ps, st'')
  end.

Definition dec_start (c : cursor) : dec_st :=
  {| dpx := pix_start; dindex := repeat pix0 64; drun := 0; dcur := c |}.

(** [decode_inner_generic] — decoder.rs:265-345. Returns the final contents of the caller's buffer
    (also when the trailer check fails) and the status. *)
Definition LAST_BYTES := [0; 0; 0; 0; 0; 0; 0; 1].
Definition decode_inner (o : qopts) (size : nat) (c : cursor) (buf : list Z) : res unit * list Z * cursor :=
  let n := (length buf / size)%nat in
  match dec_loop n (dec_start c) with
  | Ok (ps, st) =>
      let buf' := concat (map (px_out size) ps) ++ skipn (n * size) buf in
      match read_fixed_or_error 8 (dcur st) with
      | (Ok t, c') =>
          if negb (forallb (fun '(a, b) => a =? b) (combine t LAST_BYTES)) && strict o
          then (Err ECorrupt, buf', c')
          else (Ok tt, buf', c')
      | (Err e, c') => (Err e, buf', c')
      | (Panic, c') => (Panic, buf', c')
      | (Fuel, c') => (Fuel, buf', c')
      end
  | Err e => (Err e, buf, c)
  | Panic => (Panic, buf, c)
  | Fuel => (Fuel, buf, c)
  end.

(** [decode_into] on a fresh decoder — decoder.rs:246-264. *)
Definition decode_into (o : qopts) (c : cursor) (buf : list Z) : res qhdr * list Z :=
  match decode_headers o c with
  | (Ok h, c') =>
      match output_size h with
      | Ok s =>
          if Z.of_nat (length buf) <? s then (Err ESize, buf)
          else match qcspace h with
               | CsRGB | CsRGBA =>
                   match decode_inner o (num_components (qcspace h)) c' buf with
                   | (Ok _, b, _) => (Ok h, b)
                   | (Err e, b, _) => (Err e, b)
                   | (Panic, b, _) => (Panic, b)
                   | (Fuel, b, _) => (Fuel, b)
                   end
               | CsOther _ => (Panic, buf)   (* unreachable!() *)
               end
      | _ => (Panic, buf)
      end
  | (Err e, _) => (Err e, buf)
  | (Panic, _) => (Panic, buf)
  | (Fuel, _) => (Fuel, buf)
  end.

(** [decode] on a fresh decoder — decoder.rs:222-231. [decode_into] is called with the headers already
    decoded; re-running the deterministic header parser from the same cursor gives the same state. *)
Definition decode (o : qopts) (c : cursor) : res (qhdr * list Z) :=
  match decode_headers o c with
  | (Ok h, _) =>
      match output_size h with
      | Ok s =>
          if 2 ^ 63 - 1 <? s then Panic   (* vec![0; s]: capacity overflow *)
          else match decode_into o c (repeat 0 (Z.to_nat s)) with
               | (Ok h', b) => Ok (h', b)
               | (Err e, _) => Err e
               | (Panic, _) => Panic
               | (Fuel, _) => Fuel
               end
      | _ => Panic
      end
  | (Err e, _) => Err e
  | (Panic, _) => Panic
  | (Fuel, _) => Fuel
  end.
