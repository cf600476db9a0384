(** Model of the PSD decoder — crates/zune-psd/src/decoder.rs, constants.rs, and of what zune-image makes of its result —
    crates/zune-image/src/codecs/psd.rs:30-52, image.rs:403-447. A reader is what is left of the file: skipping past the end
    leaves nothing ([skip] seeks, which succeeds). [big]: the byte order of the machine. Errors are not told apart. A buffer of
    [2 ^ 63] bytes or more cannot be allocated: taken as a panic. Not modelled: logging, calling [decode_headers] before. *)
From Verif Require Import Base Loops Slices F32 DeintModel.

(** * Reading *)
Definition rd_be (k : nat) (l : list Z) : res (Z * list Z) := if (length l <? k)%nat then Err EOther else Ok (be_val (firstn k l), skipn k l).
(** [read_u8]: zero at the end *)
Definition rd_0 (l : list Z) : Z * list Z := match l with b :: l' => (b, l') | [] => (0, []) end.

(** * Headers *)
(** [ColorModes] that are supported — constants.rs:14-44 *)
Inductive mode : Set := MGray | MRgb | MCmyk.
Record opts : Set := Opts { o_max_w : Z; o_max_h : Z }.
Record info : Set := Info { i_w : Z; i_h : Z; i_16 : bool; i_mode : mode; i_rle : bool; i_ch : nat }.
(** [decode_headers] — decoder.rs:93-209 *)
Definition decode_headers (o : opts) (l : list Z) : res (info * list Z) :=
  do (magic, l) <- rd_be 4 l ;
  if negb (magic =? 943870035) then Err EOther else
  do (version, l) <- rd_be 2 l ;
  if negb (version =? 1) then Err EOther else
  let l := skipn 6 l in
  do (ch, l) <- rd_be 2 l ;
  if 4 <? ch then Err EOther else
  do (h, l) <- rd_be 4 l ;
  do (w, l) <- rd_be 4 l ;
  if o_max_w o <? w then Err EOther else
  if o_max_h o <? h then Err EOther else
  if (w =? 0) || (h =? 0) || (ch =? 0) then Err EOther else
  do (depth, l) <- rd_be 2 l ;
  if negb (depth =? 8) && negb (depth =? 16) then Err EOther else
  do (m, l) <- rd_be 2 l ;
  do m <- (if m =? 1 then Ok MGray else if m =? 3 then Ok MRgb else if m =? 4 then Ok MCmyk else Err EOther) ;
  do (n, l) <- rd_be 4 l ;
  let l := skipn (Z.to_nat n) l in
  do (n, l) <- rd_be 4 l ;
  let l := skipn (Z.to_nat n) l in
  do (n, l) <- rd_be 4 l ;
  let l := skipn (Z.to_nat n) l in
  do (c, l) <- rd_be 2 l ;
  if 1 <? c then Err EOther else
  Ok (Info w h (depth =? 16) m (c =? 1) (match m with MGray => 1%nat | _ => Z.to_nat ch end), l).

(** * Pixels *)

(** decoder.rs:406-411 and 434-438: [n] samples, the first at [pos], each [ch] after the one before *)
Fixpoint copy_bytes (n ch pos : nat) (buf l : list Z) : res (list Z * list Z) :=
  match n with
  | O => Ok (buf, l)
  | S n' => let (b, l) := rd_0 l in do buf <- set_at buf pos b ; copy_bytes n' ch (pos + ch) buf l
  end.
Fixpoint copy_value (n ch pos : nat) (x : Z) (buf : list Z) : res (list Z) :=
  match n with
  | O => Ok buf
  | S n' => do buf <- set_at buf pos x ; copy_value n' ch (pos + ch) x buf
  end.
(** [psd_decode_rle] — decoder.rs:384-447. The slice that it is given starts at [off] in [buf]; [nleft] samples are missing. *)
Fixpoint rle (fuel ch off nleft pos : nat) (buf l : list Z) : res (list Z * list Z) :=
  match fuel with
  | O => Fuel
  | S f =>
      if (nleft =? 0)%nat then Ok (buf, l) else
      let (b, l) := rd_0 l in
      if b <? 128 then
        let len := (Z.to_nat b + 1)%nat in
        if (nleft <? len)%nat then Err EOther else
        if (length buf - off <? pos + ch * len)%nat then Err EOther else
        do (buf, l) <- copy_bytes len ch (off + pos) buf l ;
        rle f ch off (nleft - len) (pos + ch * len) buf l
      else if b =? 128 then rle f ch off nleft pos buf l
      else
        let len := Z.to_nat (Z.land (257 - b) 255) in
        if (nleft <? len)%nat then Err EOther else
        let (x, l) := rd_0 l in
        if (length buf - off <? pos + ch * len)%nat then Err EOther else
        do buf <- copy_value len ch (off + pos) x buf ;
        rle f ch off (nleft - len) (pos + ch * len) buf l
  end.
Definition alloc (n : nat) : res (list Z) := if 2 ^ 63 <=? Z.of_nat n then Panic else Ok (repeat 0 n).
(** decoder.rs:224-248: [n] pixels. Each byte that is read is either there or a sample, so the fuel is enough. *)
Definition raw_rle (n h ch : nat) (l : list Z) : res (list Z) :=
  let l := skipn (h * ch * 2) l in
  do buf <- alloc (n * ch + 10) ;
  do (buf, l) <- for_range 0 ch (fun c '(buf, l) => rle (n + length l + 1) ch c n 0 buf l) (buf, l) ;
  Ok (firstn (n * ch) buf).
(** decoder.rs:249-275. The inner loop *)
Fixpoint plain8 (fuel ch n i : nat) (buf l : list Z) : res (list Z * list Z) :=
  match fuel with
  | O => Fuel
  | S f =>
      if (i <? n)%nat then
        match l with
        | [] => Err EOther
        | b :: l => do buf <- set_at buf i b ; plain8 f ch n (i + ch) buf l
        end
      else Ok (buf, l)
  end.
Definition raw8 (n ch : nat) (l : list Z) : res (list Z) :=
  do buf <- alloc (n * ch + 10) ;
  do (buf, l) <- for_range 0 ch (fun c '(buf, l) => plain8 (n + 1) ch n c buf l) (buf, l) ;
  Ok (firstn (n * ch) buf).
(** [u16::to_ne_bytes] *)
Definition ne_bytes (big : bool) (x : Z) : list Z := if big then be_bytes 2 x else le_bytes 2 x.
(** decoder.rs:277-311: the chunks of [2 * ch] bytes from [2 * channel] on, [n] at most *)
Fixpoint plain16 (big : bool) (k ch pos : nat) (buf l : list Z) : res (list Z * list Z) :=
  match k with
  | O => Ok (buf, l)
  | S k' =>
      do (x, l) <- rd_be 2 l ;
      do buf <- put_slice buf pos (ne_bytes big x) ;
      plain16 big k' ch (pos + 2 * ch) buf l
  end.
Definition raw16 (big : bool) (n ch : nat) (l : list Z) : res (list Z) :=
  do buf <- alloc (2 * (n * ch + 10)) ;
  do (buf, l) <- for_range 0 ch (fun c '(buf, l) => plain16 big (Nat.min n ((length buf - 2 * c) / (2 * ch))) ch (2 * c) buf l) (buf, l) ;
  Ok (firstn (2 * n * ch) buf).

(** Removing the white matte — decoder.rs:314-353; [top] is 255 or 65535. *)
Definition unmatte (top alpha x : Z) : Z :=
  let a := fdiv (of_int alpha) (of_int top) in
  let ra := fdiv (of_int 1) a in
  let inv_a := fmul (of_int top) (fsub (of_int 1) ra) in
  to_uint top (fadd (fmul (of_int x) ra) inv_a).
Definition unmatte_pixel (top : Z) (p : list Z) : list Z :=
  match p with
  | [x; y; z; a] => if negb (a =? 0) && negb (a =? top) then [unmatte top a x; unmatte top a y; unmatte top a z; a] else p
  | _ => p
  end.
(** In 16 bits the samples are read as big endian and written in the order of the machine; the alpha stays. *)
Definition unmatte_pixel16 (big : bool) (p : list Z) : list Z :=
  let v i := be_val (slice p i 2) in
  if negb (v 6%nat =? 0) && negb (v 6%nat =? 65535) then
    ne_bytes big (unmatte 65535 (v 6%nat) (v 0%nat)) ++ ne_bytes big (unmatte 65535 (v 6%nat) (v 2%nat)) ++ ne_bytes big (unmatte 65535 (v 6%nat) (v 4%nat)) ++ slice p 6 2
  else p.
Definition remove_matte (big deep : bool) (ch : nat) (px : list Z) : list Z :=
  if (4 <=? ch)%nat then
    if deep then concat (map (unmatte_pixel16 big) (chunks_exact 8 px)) else concat (map (unmatte_pixel 255) (chunks_exact 4 px))
  else px.
(** [decode_raw] — decoder.rs:216-355 *)
Definition decode_raw (big : bool) (o : opts) (file : list Z) : res (info * list Z) :=
  do (i, l) <- decode_headers o file ;
  let n := Z.to_nat (i_w i * i_h i) in
  do px <- (match i_rle i, i_16 i with
            | true, false => raw_rle n (Z.to_nat (i_h i)) (i_ch i) l
            | false, false => raw8 n (i_ch i) l
            | false, true => raw16 big n (i_ch i) l
            | true, true => Err EOther
            end) ;
  Ok (i, remove_matte big (i_16 i) (i_ch i) px).
(** [decode] — decoder.rs:362-382 *)
Inductive samples : Set := U8 (l : list Z) | U16 (l : list Z).
Definition count (s : samples) : nat := match s with U8 l | U16 l => length l end.
Definition decode (big : bool) (o : opts) (file : list Z) : res (info * samples) :=
  do (i, raw) <- decode_raw big o file ;
  Ok (i, if i_16 i then U16 (map be_val (chunks_exact 2 raw)) else U8 raw).
(** [colorspace] — decoder.rs:461-486; gray pictures have one channel always *)
Definition colorspace_of (i : info) : colorspace :=
  match i_mode i with
  | MRgb => if (i_ch i =? 4)%nat then RGBA else RGB
  | MGray => Luma
  | MCmyk => CMYK
  end.
(** zune-image: the picture, if the number of samples is right *)
Definition to_image (big : bool) (o : opts) (file : list Z) : res (info * samples) :=
  do (i, s) <- decode big o file ;
  if negb (Z.of_nat (count s) =? i_w i * i_h i * Z.of_nat (num_components (colorspace_of i))) then Panic else Ok (i, s).
