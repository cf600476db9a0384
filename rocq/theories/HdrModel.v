(** Model of crates/zune-hdr between the header text and RGBE bytes (the conversion between [f32] and RGBE,
    encoder.rs:260-348 and decoder.rs:460-519, is not modelled). Extra user headers are not modelled. *)
From Verif Require Import Base Loops Slices DecText.

(** ** Encoder — encoder.rs *)

(** The run search [while beg_run + run_count < width && run_count < 127 && data[..] == data[..]]
    — encoder.rs:224-229. [p] is one of the four planes of the scanline: [p[k]] is [data[4 * k]]. *)
Fixpoint run_from (fuel : nat) (p : list Z) (width beg rc : nat) : res nat :=
  if (beg + rc <? width)%nat && (rc <? 127)%nat then
    do a <- get_at p beg ;
    do b <- get_at p (beg + rc) ;
    if a =? b then
      match fuel with O => Fuel | S f => run_from f p width beg (rc + 1) end
    else Ok rc
  else Ok rc.

Definition min_rle : nat := 4.

(** The look-ahead loop — encoder.rs:219-230. Result: [(beg_run, old_run_count, run_count)]. *)
Fixpoint search (fuel : nat) (p : list Z) (width beg old rc : nat) : res (nat * nat * nat) :=
  if (rc <? min_rle)%nat && (beg <? width)%nat then
    match fuel with
    | O => Fuel
    | S f =>
        let beg := (beg + rc)%nat in
        do rc' <- run_from 127 p width beg 1 ;
        search f p width beg rc rc'
    end
  else Ok (beg, old, rc).

(** The literal packets — encoder.rs:239-248. *)
Fixpoint literals (fuel : nat) (p : list Z) (cur beg : nat) : res (list Z) :=
  if (cur <? beg)%nat then
    match fuel with
    | O => Fuel
    | S f =>
        let n := Nat.min 128 (beg - cur) in
        do xs <- get_slice p cur n ;
        do rest <- literals f p (cur + n) beg ;
        Ok (u8 (Z.of_nat n) :: xs ++ rest)
    end
  else Ok [].

(** [rle] — encoder.rs:207-258, writing to a growable sink. *)
Fixpoint rle (fuel : nat) (p : list Z) (width cur : nat) : res (list Z) :=
  if (cur <? width)%nat then
    match fuel with
    | O => Fuel
    | S f =>
        do (beg, old, rc) <- search (S width) p width cur 0 0 ;
        do (short, cur) <- (if (1 <? old)%nat && (old =? beg - cur)%nat
                            then do v <- get_at p cur ; Ok ([u8 (128 + Z.of_nat old); v], beg)
                            else Ok ([], cur)) ;
        do lits <- literals (S width) p cur beg ;
        let cur := Nat.max cur beg in
        do (run, cur) <- (if (min_rle <=? rc)%nat
                          then do v <- get_at p beg ; Ok ([u8 (128 + Z.of_nat rc); v], (cur + rc)%nat)
                          else Ok ([], cur)) ;
        do rest <- rle f p width cur ;
        Ok (short ++ lits ++ run ++ rest)
    end
  else Ok [].

(** Plane [i] of an RGBE scanline: [in_scanline[i..]] read with stride four — encoder.rs:196-198. *)
Definition plane (i : nat) (sc : list Z) (width : nat) : list Z :=
  map (fun k => nth (4 * k + i) sc 0) (seq 0 width).

Definition use_rle (width : nat) : bool := (8 <=? Z.of_nat width) && (Z.of_nat width <=? 32767).

(** One scanline — encoder.rs:177-200. *)
Definition encode_scanline (width : nat) (sc : list Z) : res (list Z) :=
  if use_rle width then
    do p0 <- rle (S width) (plane 0 sc width) width 0 ;
    do p1 <- rle (S width) (plane 1 sc width) width 0 ;
    do p2 <- rle (S width) (plane 2 sc width) width 0 ;
    do p3 <- rle (S width) (plane 3 sc width) width 0 ;
    Ok ([2; 2; u8 (Z.shiftr (Z.of_nat width) 8); u8 (Z.land (Z.of_nat width) 255)] ++ p0 ++ p1 ++ p2 ++ p3)
  else Ok sc.

Fixpoint encode_scanlines (width : nat) (scs : list (list Z)) : res (list Z) :=
  match scs with
  | [] => Ok []
  | sc :: scs' =>
      do a <- encode_scanline width sc ;
      do b <- encode_scanlines width scs' ;
      Ok (a ++ b)
  end.

(** ["#?RADIANCE\nSOFTWARE=zune-hdr\nFORMAT=32-bit_rle_rgbe\n\n"] — encoder.rs:156-163 *)
Definition hdr_magic : list Z := [35; 63; 82; 65; 68; 73; 65; 78; 67; 69; 10].
Definition hdr_software : list Z := [83; 79; 70; 84; 87; 65; 82; 69; 61; 122; 117; 110; 101; 45; 104; 100; 114; 10].
Definition hdr_format : list Z :=
  [70; 79; 82; 77; 65; 84; 61; 51; 50; 45; 98; 105; 116; 95; 114; 108; 101; 95; 114; 103; 98; 101; 10; 10].
(** ["-Y {} +X {}\n"] — encoder.rs:166-169 *)
Definition hdr_dims (h w : Z) : list Z := [45; 89; 32] ++ dec h ++ [32; 43; 88; 32] ++ dec w ++ [10].

(** [encode] after the colour conversion: [data] holds [4 * w * h] RGBE bytes — encoder.rs:129-204. *)
Definition hdr_encode (w h : nat) (data : list Z) : res (list Z) :=
  if negb (length data =? 4 * w * h)%nat then Err ESize else
  do body <- encode_scanlines w (chunks_exact (4 * w) data) ;
  Ok (hdr_magic ++ hdr_software ++ hdr_format ++ hdr_dims (Z.of_nat h) (Z.of_nat w) ++ body).

(** [expected_buffer_size] — encoder.rs:61-67 (without the overflow checks). *)
Definition expected_buffer_size (w h : nat) : nat := (w * h * 4 + 1024)%nat.

(** ** Decoder — decoder.rs *)

(** [get_buffer_until] — decoder.rs:440-457: the bytes up to and including the needle (or the end). *)
Fixpoint until (needle : Z) (input : list Z) : list Z * list Z :=
  match input with
  | [] => ([], [])
  | b :: input' =>
      if b =? needle then ([b], input')
      else let (l, rest) := until needle input' in (b :: l, rest)
  end.

(** [str::trim], restricted to ASCII white space. *)
Definition is_space (c : Z) : bool := (c =? 32) || ((9 <=? c) && (c <=? 13)).
Fixpoint trim_start (l : list Z) : list Z :=
  match l with
  | c :: l' => if is_space c then trim_start l' else l
  | [] => []
  end.
Definition trim (l : list Z) : list Z := rev (trim_start (rev (trim_start l))).

(** The metadata loop — decoder.rs:127-149: skip lines up to an empty one (or the end). [fuel] is the
    input length. *)
Fixpoint skip_lines (fuel : nat) (input : list Z) : res (list Z) :=
  let (line, rest) := until 10 input in
  match line with
  | [] => Ok rest
  | c :: _ =>
      if c =? 35 then match fuel with O => Fuel | S f => skip_lines f rest end
      else if c =? 10 then Ok rest
      else match fuel with O => Fuel | S f => skip_lines f rest end
  end.

(** [decode_headers] — decoder.rs:112-212. *)
Definition hdr_headers (max_w max_h : Z) (input : list Z) : res (nat * nat * list Z) :=
  let (line, input) := until 10 input in
  if negb (starts_with line hdr_magic || starts_with line [35; 63; 82; 71; 66; 69; 10]) then Err EMagic else
  do input <- skip_lines (length input) input ;
  let (t1, input) := until 32 input in
  let (c1, input) := until 32 input in
  let (t2, input) := until 32 input in
  let (c2, input) := until 10 input in
  let y := [45; 89] in
  let x := [43; 88] in
  do (hs, ws) <- (if zeqb_list (trim t1) y && zeqb_list (trim t2) x then Ok (trim c1, trim c2)
                  else if zeqb_list (trim t1) x && zeqb_list (trim t2) y then Ok (trim c2, trim c1)
                  else Err EOther) ;
  match parse_usize hs, parse_usize ws with
  | Some h, Some w =>
      if max_h <? h then Err ELimit else
      if max_w <? w then Err ELimit else
      Ok (Z.to_nat w, Z.to_nat h, input)
  | _, _ => Err ECorrupt
  end.

(** One plane of a run-length coded scanline — decoder.rs:355-388. [acc] is what has been written so far.
    [read_u8] yields 0 at the end of input. *)
Fixpoint decode_plane (fuel : nat) (width : nat) (input acc : list Z) : res (list Z * list Z) :=
  if (width <=? length acc)%nat then Ok (acc, input)
  else
    match input with
    | [] => Err EEof
    | run :: input =>
        match fuel with
        | O => Fuel
        | S f =>
            if 128 <? run then
              let n := Nat.min (Z.to_nat (Z.land run 127)) (width - length acc) in
              decode_plane f width (tl input) (acc ++ repeat (hd 0 input) n)
            else
              let n := Nat.min (Z.to_nat run) (width - length acc) in
              decode_plane f width (skipn n input) (acc ++ firstn n input ++ repeat 0 (n - length input))
        end
    end.

(** The scanline buffer after the four planes have been written with stride four. *)
Definition weave (width : nat) (p0 p1 p2 p3 : list Z) : list Z :=
  concat (map (fun k => [nth k p0 0; nth k p1 0; nth k p2 0; nth k p3 0]) (seq 0 width)).

(** [decompress] — decoder.rs:396-433. [sc] is the scanline buffer. *)
Fixpoint old_run (n : nat) (sc : list Z) (width : Z) (off : nat) (i : Z) : res (list Z * Z * nat) :=
  if (0 <? width) && (4 <? off)%nat && (0 <? i) then
    match n with
    | O => Fuel
    | S n' =>
        do px <- get_slice sc (off - 4) 4 ;
        do sc <- put_slice sc 4 px ;
        old_run n' sc (width - 4) (off + 4) (i - 1)
    end
  else Ok (sc, width, off).

Fixpoint decompress (fuel : nat) (sc : list Z) (width : Z) (off : nat) (shift : Z) (input : list Z) : res (list Z * list Z) :=
  if 0 <? width then
    match fuel with
    | O => Fuel
    | S f =>
        match input with
        | r :: g :: b :: e :: input =>
            do sc <- put_slice sc off [r; g; b; e] ;
            if (r =? 1) && (g =? 1) && (b =? 1) then
              do (sc, width, off) <- old_run (Z.to_nat width) sc width off (Z.shiftl e shift) ;
              if 16 <? shift + 8 then Ok (sc, input)
              else decompress f sc width off (shift + 8) input
            else decompress f sc (width - 1) (off + 4) 0 input
        | _ => Err EEof     (* [read_u8_err] fails on one of the four bytes *)
        end
    end
  else Ok (sc, input).

(** One scanline of [decode_into] — decoder.rs:318-391; [sc] is the (reused) scanline buffer. A missing first
    byte ends in an end-of-input error on every path. *)
Definition decode_scanline (width : nat) (sc : list Z) (input : list Z) : res (list Z * list Z) :=
  if negb (use_rle width) then decompress (S (length input)) sc (Z.of_nat width) 0 0 input
  else
    match input with
    | 2 :: input' =>
        match input' with
        | b1 :: b2 :: b3 :: input'' =>
            if negb (b1 =? 2) || negb (Z.land b2 128 =? 0) then
              do sc <- put_slice sc 0 [2; b1; b2; b3] ;
              do (sc4, rest) <- decompress (S (length input)) (skipn 4 sc) (Z.of_nat width - 1) 0 0 input'' ;
              Ok (firstn 4 sc ++ sc4, rest)
            else
              do (p0, i1) <- decode_plane (length input) width input'' [] ;
              do (p1, i2) <- decode_plane (length input) width i1 [] ;
              do (p2, i3) <- decode_plane (length input) width i2 [] ;
              do (p3, i4) <- decode_plane (length input) width i3 [] ;
              Ok (weave width p0 p1 p2 p3, i4)
        | _ => Err EEof
        end
    | _ => decompress (S (length input)) sc (Z.of_nat width) 0 0 input
    end.

Fixpoint decode_scanlines (n : nat) (width : nat) (sc : list Z) (input : list Z) : res (list Z) :=
  match n with
  | O => Ok []
  | S n' =>
      do (sc, input) <- decode_scanline width sc input ;
      do rest <- decode_scanlines n' width sc input ;
      Ok (sc ++ rest)
  end.

(** [decode] up to the conversion to floats: width, height and the RGBE bytes — decoder.rs:248-255, 295-394. *)
Definition hdr_decode (max_w max_h : Z) (input : list Z) : res (nat * nat * list Z) :=
  do (w, h, input) <- hdr_headers max_w max_h input ;
  if (w =? 0)%nat then Err EZeroDim else
  do data <- decode_scanlines h w (repeat 0 (4 * w)) input ;
  Ok (w, h, data).
