(** Model of crates/zune-ppm (P5, P6, P7 and PFM decoder; P5, P6, P7 encoder) and crates/zune-farbfeld.
    Sources are lists (the rest of the stream); sinks are growable. The host is little-endian. *)
From Verif Require Import Base Loops Slices DecText.

Inductive cspace : Set := CLuma | CRGB | CLumaA | CRGBA | COther (n : nat).
(** [ColorSpace::num_components] — zune-core colorspace.rs *)
Definition comps (c : cspace) : nat :=
  match c with CLuma => 1 | CRGB => 3 | CLumaA => 2 | CRGBA => 4 | COther n => n end.

(** Bit depths that reach the codecs — zune-core bit_depth.rs:91-152 *)
Inductive depth : Set := D8 | D16 | DF32.
Definition size_of (d : depth) : nat := match d with D8 => 1 | D16 => 2 | DF32 => 4 end.
Definition max_value (d : depth) : Z := match d with D8 => 255 | D16 => 65535 | DF32 => 1 end.

(** ** Encoder — zune-ppm encoder.rs *)

Definition txt_width : list Z := [87; 73; 68; 84; 72; 32].
Definition txt_height : list Z := [72; 69; 73; 71; 72; 84; 32].
Definition txt_depth : list Z := [68; 69; 80; 84; 72; 32].
Definition txt_maxval : list Z := [77; 65; 88; 86; 65; 76; 32].
Definition txt_tupltype : list Z := [84; 85; 80; 76; 84; 89; 80; 69; 32].
Definition txt_endhdr : list Z := [69; 78; 68; 72; 68; 82].
Definition txt_gray : list Z := [71; 82; 65; 89; 83; 67; 65; 76; 69].
Definition txt_alpha : list Z := [95; 65; 76; 80; 72; 65].
Definition txt_rgb : list Z := [82; 71; 66].

(** [encode_headers] — encoder.rs:112-145, 180-197 *)
Definition ppm_header (cs : cspace) (d : depth) (w h : Z) : res (list Z) :=
  let p56 v := [80; v; 10] ++ dec w ++ [10] ++ dec h ++ [10] ++ dec (max_value d) ++ [10] in
  let p7 t := [80; 55; 10] ++ txt_width ++ dec w ++ [10] ++ txt_height ++ dec h ++ [10] ++
              txt_depth ++ dec (Z.of_nat (comps cs)) ++ [10] ++ txt_maxval ++ dec (max_value d) ++ [10] ++
              txt_tupltype ++ t ++ [10; 32] ++ txt_endhdr ++ [10] in
  match cs with
  | CLuma => Ok (p56 53)
  | CRGB => Ok (p56 54)
  | CLumaA => Ok (p7 (txt_gray ++ txt_alpha))
  | CRGBA => Ok (p7 (txt_rgb ++ txt_alpha))
  | COther _ => Err EColorspace
  end.

(** [u16::from_ne_bytes] then [write_u16_be_err], over pairs — encoder.rs:167-173 *)
Definition swap_pairs (data : list Z) : list Z :=
  concat (map (fun pr => be_bytes 2 (le_val pr)) (chunks_exact 2 data)).

(** [encode] — encoder.rs:156-178 *)
Definition ppm_encode (cs : cspace) (d : depth) (w h : nat) (data : list Z) : res (list Z) :=
  if negb (length data =? w * size_of d * h * comps cs)%nat then Err ESize else
  do hd <- ppm_header cs d (Z.of_nat w) (Z.of_nat h) ;
  match d with
  | D8 => Ok (hd ++ data)
  | D16 => Ok (hd ++ swap_pairs data)
  | DF32 => Panic              (* [unreachable!] *)
  end.

(** ** Decoder — zune-ppm decoder.rs *)

(** [u8::is_ascii_whitespace] *)
Definition ws (c : Z) : bool := (c =? 32) || (c =? 9) || (c =? 10) || (c =? 12) || (c =? 13).

(** [skip_spaces] — decoder.rs:626-646 *)
Fixpoint skip_spaces_in (comment : bool) (input : list Z) : list Z :=
  match input with
  | [] => []
  | b :: rest =>
      if comment then skip_spaces_in (negb (b =? 10)) rest
      else if b =? 35 then skip_spaces_in true rest
      else if ws b then skip_spaces_in false rest
      else input
  end.
Definition skip_spaces (input : list Z) : list Z := skip_spaces_in false input.

(** [get_bytes_until_whitespace] — decoder.rs:655-678: without a white space before the end of input the
    reported size is zero. *)
Fixpoint until_ws (input : list Z) : option (list Z * list Z) :=
  match input with
  | [] => None
  | b :: rest =>
      if ws b then Some ([b], skip_spaces rest)
      else match until_ws rest with
           | Some (v, rest') => Some (b :: v, rest')
           | None => None
           end
  end.
Definition get_word (input : list Z) : list Z * list Z :=
  match until_ws input with Some r => r | None => ([], []) end.

(** [get_integer] — decoder.rs:431-449 *)
Fixpoint get_integer (value : Z) (input : list Z) : Z * list Z :=
  match input with
  | [] => (value, [])
  | b :: rest =>
      if is_digit b then get_integer (u64 (u64 (value * 10) + (b - 48))) rest
      else (value, input)
  end.

Record ppm_info := mkInfo { i_w : Z; i_h : Z; i_cs : cspace; i_depth : depth; i_le : bool }.

(** [decode_p5_and_p6_header] — decoder.rs:370-429 *)
Definition p56_header (mw mh : Z) (cs : cspace) (input : list Z) : res (ppm_info * list Z) :=
  let (w, input) := get_integer 0 (skip_spaces input) in
  if mw <? w then Err ELimit else
  let (h, input) := get_integer 0 (skip_spaces input) in
  if mh <? h then Err ELimit else
  let (m, input) := get_integer 0 (skip_spaces input) in
  let input := skip_spaces input in
  if 65535 <? m then Err EOther else
  Ok (mkInfo w h cs (if 255 <? m then D16 else D8) false, input).

(** [decode_p7_header] — decoder.rs:241-368 *)
Record p7st := mkP7 {
  s_w : option Z; s_h : option Z; s_depth_seen : bool; s_max : option depth; s_cs : option cspace }.

Definition tuple_type (v : list Z) : option cspace :=
  if starts_with v (txt_rgb ++ txt_alpha) then Some CRGBA
  else if starts_with v txt_rgb then Some CRGB
  else if starts_with v (txt_gray ++ txt_alpha) then Some CLumaA
  else if starts_with v txt_gray then Some CLuma
  else None.

Fixpoint p7_loop (fuel : nat) (mw mh : Z) (s : p7st) (input : list Z) : res (p7st * list Z) :=
  match input with
  | [] => Err ECorrupt
  | _ =>
  match fuel with
  | O => Fuel
  | S f =>
      let (v, input) := get_word (skip_spaces input) in
      if zeqb_list v txt_width then
        let (n, input) := get_integer 0 input in
        if mw <? n then Err ELimit
        else p7_loop f mw mh (mkP7 (Some n) (s_h s) (s_depth_seen s) (s_max s) (s_cs s)) input
      else if zeqb_list v txt_height then
        let (n, input) := get_integer 0 input in
        if mh <? n then Err ELimit
        else p7_loop f mw mh (mkP7 (s_w s) (Some n) (s_depth_seen s) (s_max s) (s_cs s)) input
      else if zeqb_list v txt_depth then
        let (n, input) := get_integer 0 input in
        if 4 <? n then Err ECorrupt
        else p7_loop f mw mh (mkP7 (s_w s) (s_h s) true (s_max s) (s_cs s)) input
      else if zeqb_list v txt_maxval then
        let (n, input) := get_integer 0 input in
        if 65535 <? n then Err EOther
        else p7_loop f mw mh (mkP7 (s_w s) (s_h s) (s_depth_seen s) (Some (if 255 <? n then D16 else D8)) (s_cs s)) input
      else if zeqb_list v txt_tupltype then
        let (t, input) := get_word input in
        match tuple_type t with
        | Some cs => p7_loop f mw mh (mkP7 (s_w s) (s_h s) (s_depth_seen s) (s_max s) (Some cs)) input
        | None => Err ECorrupt
        end
      else if starts_with v txt_endhdr then Ok (s, input)
      else Err ECorrupt
  end
  end.

Definition p7_header (mw mh : Z) (input : list Z) : res (ppm_info * list Z) :=
  do (s, rest) <- p7_loop (S (length input)) mw mh (mkP7 None None false None None) input ;
  match s_w s, s_h s, s_depth_seen s, s_max s, s_cs s with
  | Some w, Some h, true, Some d, Some cs => Ok (mkInfo w h cs d false, rest)
  | _, _, _, _, _ => Err ECorrupt
  end.

(** [decode_pf_header] — decoder.rs:178-239. [neg_f32] stands for UTF-8 checking, trimming and
    [str::parse::<f32>] followed by the test [< 0.0]; [None] is a parse failure. *)
Definition pf_header (neg_f32 : list Z -> option bool) (mw mh : Z) (cs : cspace) (input : list Z) : res (ppm_info * list Z) :=
  let (w, input) := get_integer 0 (skip_spaces input) in
  if mw <? w then Err ELimit else
  let (h, input) := get_integer 0 (skip_spaces input) in
  if mh <? h then Err ELimit else
  let (v, input) := get_word (skip_spaces input) in
  match neg_f32 v with
  | None => Err EOther
  | Some neg => Ok (mkInfo w h cs DF32 neg, input)
  end.

(** [decode_headers] — decoder.rs:144-177 *)
Definition ppm_headers (neg_f32 : list Z -> option bool) (mw mh : Z) (input : list Z) : res (ppm_info * list Z) :=
  match input with
  | p :: v :: input =>
      if negb (p =? 80) then Err EMagic
      else if v =? 53 then p56_header mw mh CLuma input
      else if v =? 54 then p56_header mw mh CRGB input
      else if v =? 55 then p7_header mw mh input
      else if v =? 102 then pf_header neg_f32 mw mh CLuma input
      else if v =? 70 then pf_header neg_f32 mw mh CRGB input
      else Err EMagic
  | _ => Err EEof
  end.

(** Reading [n] items of [k] bytes each. *)
Fixpoint read_items (val : list Z -> Z) (k : nat) (n : nat) (input : list Z) : res (list Z * list Z) :=
  match n with
  | O => Ok ([], input)
  | S n' =>
      if (length input <? k)%nat then Err EEof else
      do (xs, rest) <- read_items val k n' (skipn k input) ;
      Ok (val (firstn k input) :: xs, rest)
  end.

(** The bottom-up row reversal of PFM data — decoder.rs:594-614: swaps rows of the two halves of the buffer. *)
Definition pfm_flip (stride : nat) (img : list Z) : res (list Z) :=
  let half := (length img / 2)%nat in
  if (stride =? 0)%nat then Panic else
  let n := Nat.min (half / stride) ((length img - half) / stride) in
  let top := (half / stride)%nat in
  for_range 0 n (fun i img =>
    let a := ((top - 1 - i) * stride)%nat in
    let b := (half + i * stride)%nat in
    do x <- get_slice img a stride ;
    do y <- get_slice img b stride ;
    do img <- put_slice img a y ;
    put_slice img b x) img.

Inductive samples : Type := SU8 (l : list Z) | SU16 (l : list Z) | SF32 (l : list Z).

(** [decode] — decoder.rs:535-620. The size computation panics on overflow (checked build). *)
Definition ppm_decode (neg_f32 : list Z -> option bool) (mw mh : Z) (input : list Z) : res (Z * Z * cspace * samples) :=
  do (inf, input) <- ppm_headers neg_f32 mw mh input ;
  let cs := i_cs inf in
  if (i_w inf =? 0) || (i_h inf =? 0) then Err EZeroDim else
  let size := i_w inf * i_h inf * Z.of_nat (comps cs) * Z.of_nat (size_of (i_depth inf)) in
  if 2 ^ 64 <=? size then Panic else
  match i_depth inf with
  | D8 =>
      if Z.of_nat (length input) <? size then Err EEof
      else Ok (i_w inf, i_h inf, cs, SU8 (firstn (Z.to_nat size) input))
  | D16 =>
      do (xs, _) <- read_items be_val 2 (Z.to_nat (size / 2)) input ;
      Ok (i_w inf, i_h inf, cs, SU16 xs)
  | DF32 =>
      do (xs, _) <- read_items (if i_le inf then le_val else be_val) 4
                      (Z.to_nat (i_w inf * i_h inf * Z.of_nat (comps cs))) input ;
      do img <- pfm_flip (Z.to_nat (i_w inf) * comps cs) xs ;
      Ok (i_w inf, i_h inf, cs, SF32 img)
  end.

(** ** Farbfeld — zune-farbfeld *)

Definition ff_magic : list Z := [102; 97; 114; 98; 102; 101; 108; 100].

(** [encode] — encoder.rs:121-190, for a 16-bit RGBA image *)
Definition ff_encode (w h : Z) (data : list Z) : res (list Z) :=
  if negb (Z.of_nat (length data) =? w * 2 * h * 4) then Err ESize else
  if 2 ^ 32 <=? w then Err ELimit else
  if 2 ^ 32 <=? h then Err ELimit else
  Ok (ff_magic ++ be_bytes 4 w ++ be_bytes 4 h ++ swap_pairs data).

(** [decode_headers] — decoder.rs:58-84 *)
Definition ff_headers (mw mh : Z) (input : list Z) : res (Z * Z * list Z) :=
  if (length input <? 8)%nat then Err EEof else
  if negb (zeqb_list (firstn 8 input) ff_magic) then Err EMagic else
  let input := skipn 8 input in
  if (length input <? 8)%nat then Err EEof else
  let w := be_val (firstn 4 input) in
  let h := be_val (slice input 4 4) in
  if mh <? h then Err ELimit else
  if mw <? w then Err ELimit else
  Ok (w, h, skipn 8 input).

(** [output_buffer_size] — decoder.rs:93-105 *)
Definition ff_output_size (w h : Z) : res Z :=
  if 2 ^ 64 <=? 4 * w * h * 2 then Err EOverflow else Ok (4 * w * h * 2).

(** [decode_into] after the headers, into a sink of [u16] — decoder.rs:121-141 *)
Definition ff_decode_into (w h : Z) (sink input : list Z) : res (list Z) :=
  do size <- ff_output_size w h ;
  if Z.of_nat (length sink) <? size then Err ENoSpace else
  do (xs, _) <- read_items be_val 2 (Z.to_nat size) input ;
  put_slice sink 0 xs.

(** [decode] — decoder.rs:153-167 *)
Definition ff_decode (mw mh : Z) (input : list Z) : res (Z * Z * list Z) :=
  do (w, h, input) <- ff_headers mw mh input ;
  do data <- ff_decode_into w h (repeat 0 (Z.to_nat (4 * w * h))) input ;
  Ok (w, h, data).
