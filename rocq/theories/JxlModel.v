(** Model of how the JPEG XL encoder lays out its file — crates/zune-jpegxl/src/bit_writer.rs and the functions
    [prepare_header] and [fast_lossless_write_output] of crates/zune-jpegxl/src/encoder.rs. The compression of the
    pixels is not modelled: the bits of each section are an argument. *)
From Verif Require Import Base StreamModel.

(** [BitWriter] — bit_writer.rs:20-25 *)
Record bwriter := { bib : nat; buf : Z; pos : nat; dest : list Z }.

(** [BitWriter::new] — bit_writer.rs:47-54 — followed by [allocate] — 64-67 *)
Definition bw_new : bwriter := {| bib := 0; buf := 0; pos := 0; dest := [] |}.
Definition allocate (w : bwriter) (max_bits : nat) : res bwriter :=
  match dest w with
  | [] => Ok {| bib := bib w; buf := buf w; pos := pos w; dest := repeat 0 (max_bits / 8 + 64)%nat |}
  | _ => Panic
  end.

(** [bits & 56] and [bits & 7] of a [u8] *)
Definition and56 (n : nat) : nat := ((n / 8) mod 8 * 8)%nat.
Definition and7 (n : nat) : nat := (n mod 8)%nat.

(** [BitWriter::flush] — bit_writer.rs:31-44 *)
Definition bw_flush (w : bwriter) : res bwriter :=
  if (length (dest w) <? pos w + 8)%nat then Panic else
  let k := and56 (bib w) in
  Ok {| bib := and7 (bib w); buf := Z.shiftr (buf w) (Z.of_nat k); pos := pos w + k / 8;
        dest := splice (dest w) (pos w) (le_bytes 8 (buf w)) |}.

(** The last lines of [put_bits], shared by both writers — bit_writer.rs:83-87, 153-157, 168-172 *)
Definition merge (b : Z) (at_bit n : nat) (v : Z) : Z :=
  Z.lor b (Z.shiftl (Z.land (Z.shiftl 1 (Z.of_nat n) - 1) v) (Z.of_nat at_bit) mod 2 ^ 64).

(** [BitWriter::put_bits] — bit_writer.rs:75-88. The debug assertions are kept as panics. *)
Definition bw_put (w : bwriter) (n : nat) (v : Z) : res bwriter :=
  if (56 <=? n)%nat then Panic else
  do w <- (if (56 <? bib w + n)%nat then bw_flush w else Ok w) ;
  if (64 <=? n + bib w)%nat then Panic else
  Ok {| bib := bib w + n; buf := merge (buf w) (bib w) n v; pos := pos w; dest := dest w |}.

(** [BitWriter::zero_pad] — bit_writer.rs:92-99 *)
Definition bw_zero_pad (w : bwriter) : res bwriter :=
  do w <- bw_flush w ;
  if (bib w =? 0)%nat then Ok w else bw_put w (8 - bib w) 0.

(** A sequence of calls on one writer *)
Inductive op : Type := Put (n : nat) (v : Z) | Pad.
Definition bw_step (w : bwriter) (o : op) : res bwriter :=
  match o with Put n v => bw_put w n v | Pad => bw_zero_pad w end.
Fixpoint bw_run (w : bwriter) (ops : list op) : res bwriter :=
  match ops with [] => Ok w | o :: ops' => do w <- bw_step w o ; bw_run w ops' end.

(** [BorrowingBitWriter] over a [Vec] — bit_writer.rs:104-109; writing to a [Vec] cannot fail. The field [position]
    is never read and left out. *)
Record owriter := { obib : nat; obuf : Z; out : list Z }.

(** [BorrowingBitWriter::flush] — bit_writer.rs:113-130 *)
Definition ow_flush (w : owriter) : owriter :=
  let k := and56 (obib w) in
  {| obib := and7 (obib w); obuf := Z.shiftr (obuf w) (Z.of_nat k);
     out := out w ++ firstn (k / 8) (le_bytes 8 (obuf w)) |}.

(** [put_bits_no_flush] — bit_writer.rs:162-173 *)
Definition ow_put_no_flush (w : owriter) (n : nat) (v : Z) : res owriter :=
  if (56 <? n)%nat then Panic else
  if (64 <=? n + obib w)%nat then Panic else
  Ok {| obib := obib w + n; obuf := merge (obuf w) (obib w) n v; out := out w |}.

(** [put_bits] — bit_writer.rs:144-159 *)
Definition ow_put (w : owriter) (n : nat) (v : Z) : res owriter :=
  if (56 <? n)%nat then Panic else
  ow_put_no_flush (if (56 <? obib w + n)%nat then ow_flush w else w) n v.

(** The loop over the whole chunks of seven bytes — bit_writer.rs:202-209 *)
Fixpoint ow_chunks (w : owriter) (cs : list (list Z)) : res owriter :=
  match cs with
  | [] => Ok w
  | c :: cs' => do w <- ow_put_no_flush w 56 (le_val (c ++ [0])) ; ow_chunks (ow_flush w) cs'
  end.

(** [put_bytes] — bit_writer.rs:175-228 *)
Definition ow_put_bytes (w : owriter) (b : list Z) : res owriter :=
  if (and7 (obib w) =? 0)%nat then
    let w := ow_flush w in
    if (obib w =? 0)%nat then Ok {| obib := obib w; obuf := obuf w; out := out w ++ b |} else Panic
  else
    let w := ow_flush w in
    do w <- ow_chunks w (chunks_exact 7 b) ;
    let r := skipn (length b / 7 * 7) b in
    do w <- (match r with [] => Ok w
             | _ => ow_put w (length r * 8) (le_val (r ++ repeat 0 (8 - length r)%nat)) end) ;
    Ok (ow_flush w).

(** Bits pending in a section's writers, in bytes rounded up — encoder.rs:1457-1467; only the writers of the
    picture's components count *)
Definition wbits (w : bwriter) : nat := (pos w * 8 + bib w)%nat.
Definition group_size (nc : nat) (g : list bwriter) : nat :=
  ((fold_right Nat.add 0 (map wbits (firstn nc g)) + 7) / 8)%nat.

(** The closure [write_header] — encoder.rs:1477-1495 *)
Definition size_ops (size : Z) (ratio : bool) : res (list op) :=
  if (1 <? size) && (size <? 2 ^ 30) then
    let s := size - 1 in
    Ok ((if s <? 2 ^ 9 then [Put 2 0; Put 9 s]
         else if s <? 2 ^ 13 then [Put 2 1; Put 13 s]
         else if s <? 2 ^ 18 then [Put 2 2; Put 18 s]
         else [Put 2 3; Put 30 s]) ++ (if ratio then [Put 3 0] else []))
  else Panic.

(** The picture: [depth] is 8 or 16 bits and [nc] the number of components; the encoder accepts Luma, LumaA, RGB
    and RGBA (errors.rs:38-43), so alpha is present exactly for two and four components. *)
Definition has_alpha (nc : nat) : bool := (nc =? 2)%nat || (nc =? 4)%nat.

(** The picture header after the size — encoder.rs:1500-1545 *)
Definition meta_ops (depth : Z) (nc : nat) : list op :=
  [Put 1 0; Put 1 0; Put 1 0] ++
  (if depth =? 8 then [Put 2 0] else [Put 2 3; Put 6 (depth - 1)]) ++
  (if depth <=? 14 then [Put 1 1] else [Put 1 0]) ++
  (if has_alpha nc then [Put 2 1; Put 1 1] else [Put 2 0]) ++
  [Put 1 0] ++
  (if (2 <? nc)%nat then [Put 1 1]
   else [Put 1 0; Put 1 0; Put 2 1; Put 2 1; Put 1 0; Put 2 2; Put 4 11; Put 2 1]) ++
  [Put 2 0; Put 1 1; Pad].

(** The frame header — encoder.rs:1548-1575; [is_last] is true for the only caller (1072) *)
Definition frame_ops (nc : nat) : list op :=
  [Put 1 0; Put 2 0; Put 1 1; Put 2 0; Put 1 0; Put 2 0] ++
  (if has_alpha nc then [Put 2 0] else []) ++
  [Put 2 1; Put 2 0; Put 1 0; Put 2 0] ++
  (if has_alpha nc then [Put 2 0] else []) ++
  [Put 1 1; Put 2 0; Put 1 0; Put 1 0; Put 2 0; Put 2 0; Put 2 0; Put 1 0; Pad].

(** One entry of the table of contents — encoder.rs:1577-1593; [size] is a [u64], so the subtractions of the later
    branches cannot underflow *)
Definition toc_ops (size : Z) : list op :=
  if size <? 2 ^ 10 then [Put 2 0; Put 10 size]
  else if size - 1024 <? 2 ^ 14 then [Put 2 1; Put 14 (size - 1024)]
  else if size - 17408 <? 2 ^ 22 then [Put 2 2; Put 22 (size - 17408)]
  else [Put 2 3; Put 30 (size - 4211712)].

(** [prepare_header] with [add_image_header] and [is_last] set — encoder.rs:1448-1595 *)
Definition prepare_header (width height depth : Z) (nc : nat) (groups : list (list bwriter)) : res bwriter :=
  do w <- allocate bw_new (1000 + length groups * 32) ;
  do h <- size_ops height true ;
  do x <- size_ops width false ;
  bw_run w ([Put 16 0x0AFF; Put 1 0] ++ h ++ x ++ meta_ops depth nc ++ frame_ops nc ++
            flat_map (fun g => toc_ops (Z.of_nat (group_size nc g))) groups ++ [Pad]).

(** One turn of the loop of [fast_lossless_write_output] — encoder.rs:1393-1423. [last] tells whether this writer is the
    header or the last one of its section. The field [bit_writer_byte_pos] is zero at the start of every turn, since
    a turn always copies the whole writer. *)
Definition copy_writer (o : owriter) (w : bwriter) (last : bool) : res owriter :=
  do w <- (if (0 <? bib w)%nat then bw_flush w else Ok w) ;
  if (length (dest w) <? pos w)%nat then Panic else
  do o <- ow_put_bytes o (firstn (pos w) (dest w)) ;
  do o <- (if (bib w =? 0)%nat then Ok o else ow_put o (bib w) (buf w)) ;
  let o := ow_flush o in
  if last && negb (obib o =? 0)%nat then ow_put o (8 - obib o) 0 else Ok o.

(** The writers of one section: those of the picture's components *)
Fixpoint copy_group (o : owriter) (ws : list bwriter) : res owriter :=
  match ws with
  | [] => Ok o
  | w :: ws' => do o <- copy_writer o w (match ws' with [] => true | _ => false end) ; copy_group o ws'
  end.
Fixpoint copy_groups (nc : nat) (o : owriter) (gs : list (list bwriter)) : res owriter :=
  match gs with [] => Ok o | g :: gs' => do o <- copy_group o (firstn nc g) ; copy_groups nc o gs' end.

(** [fast_lossless_write_output] — encoder.rs:1373-1425 *)
Definition write_output (nc : nat) (header : bwriter) (groups : list (list bwriter)) : res (list Z) :=
  do o <- copy_writer {| obib := 0; obuf := 0; out := [] |} header true ;
  do o <- copy_groups nc o groups ;
  let o := ow_flush o in
  if (obib o =? 0)%nat then Ok (out o) else Panic.

(** How many sections [encode_inner] makes — encoder.rs:1119-1122, 1127, 1182-1186 *)
Definition num_sections (w h : Z) : Z :=
  let gx := (w + 255) / 256 in let gy := (h + 255) / 256 in
  if (gx =? 1) && (gy =? 1) then 1 else 2 + (w + 2047) / 2048 * ((h + 2047) / 2048) + gx * gy.

(** [JxlSimpleEncoder::encode] after the pixels are compressed — encoder.rs:1058-1081 *)
Definition jxl_encode (w h depth : Z) (nc : nat) (groups : list (list bwriter)) : res (list Z) :=
  if w <=? 1 then Err EZeroDim else if h <=? 1 then Err EZeroDim else
  if negb ((depth =? 8) || (depth =? 16)) then Err EDepth else
  do hd <- prepare_header w h depth nc groups ;
  write_output nc hd groups.

(** [encode_hybrid_uint_lz77] — bit_writer.rs:233-240 — and [encode_hybrid_unit_000] — 244-251. Both give the token, the
    number of extra bits and the extra bits. *)
Definition hybrid_lz77 (v : Z) : Z * Z * Z :=
  let n := Z.log2 (Z.lor v 1) in
  if v <? 16 then (v, 0, 0) else (16 + n - 4, n, v - Z.shiftl 1 n).
Definition hybrid_000 (v : Z) : Z * Z * Z :=
  let n := Z.log2 (Z.lor v 1) in
  if v =? 0 then (0, 0, 0) else (n + 1, n, v - Z.shiftl 1 n).

(** [packed_signed] — encoder.rs:148-150; [v] is an [i32], [!v] is [- v - 1] *)
Definition packed_signed (v : Z) : Z :=
  Z.lxor (2 * (v mod 2 ^ 32) mod 2 ^ 32) (((- v - 1) mod 2 ^ 32 / 2 ^ 31 - 1) mod 2 ^ 32).
