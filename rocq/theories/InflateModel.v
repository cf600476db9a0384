(** Model of crates/zune-inflate: the stored-block encoder, the zlib wrapper, the block loop of the decoder
    and the match-copy kernels. *)
From Verif Require Import Base Loops Slices BitReaderModel.

(** ** Adler-32

    [calc_adler_hash] — utils.rs:78-85 calls the external crate [simd_adler32], which is not part of the
    repository; it is modelled by the textbook definition (RFC 1950, 8.2). *)
Definition adler_step (ab : Z * Z) (x : Z) : Z * Z :=
  let a := (fst ab + x) mod 65521 in (a, (snd ab + a) mod 65521).
Definition adler32 (data : list Z) : Z :=
  let ab := fold_left adler_step data (1, 0) in snd ab * 65536 + fst ab.

(** ** Encoder — encoder.rs *)

Definition u16_max : nat := Z.to_nat 65535.

(** One round of the loop of [encode_no_compression] — encoder.rs:174-210: state is the output vector and
    the write position; [rest] is the input from [input_position] up to [final_position]. *)
Definition emit_block (bfinal : Z) (chunk : list Z) (out : list Z) (pos : nat) : res (list Z * nat) :=
  let len := u16 (Z.of_nat (length chunk)) in
  do out <- set_at out pos (u8 (Z.lor bfinal (Z.shiftl 0 1))) ;
  do out <- put_slice out (pos + 1) (le_bytes 2 len) ;
  do out <- put_slice out (pos + 3) (le_bytes 2 (65535 - len)) ;
  do out <- put_slice out (pos + 5) chunk ;
  Ok (out, (pos + 5 + length chunk)%nat).

Fixpoint encode_blocks (fuel : nat) (rest : list Z) (out : list Z) (pos : nat) : res (list Z * nat) :=
  match fuel with
  | O => Fuel
  | S f =>
      if (length rest <=? u16_max)%nat then emit_block 1 rest out pos
      else
        do (out, pos) <- emit_block 0 (firstn u16_max rest) out pos ;
        encode_blocks f (skipn u16_max rest) out pos
  end.

(** [encode_no_compression(data.len())] on a fresh encoder — encoder.rs:155-211. *)
Definition encode_no_compression (data out : list Z) (pos : nat) : res (list Z * nat) :=
  match data with
  | [] =>
      do out <- set_at out pos (u8 (Z.lor 1 (Z.shiftl 0 1))) ;
      do out <- put_slice out (pos + 1) (le_bytes 4 4294901760) ;   (* 0xFFFF0000 *)
      Ok (out, (pos + 5)%nat)
  | _ => encode_blocks (S (length data)) data out pos
  end.

(** [write_zlib_header] — encoder.rs:136-149 ([to_level] of the only strategy is 0, encoder.rs). *)
Definition zlib_header : list Z :=
  let hdr := Z.lor (Z.shiftl 8 8) (Z.shiftl 7 12) in
  let hdr := Z.lor hdr (Z.shiftl 0 6) in
  let hdr := Z.lor hdr (31 - hdr mod 31) in
  be_bytes 2 hdr.

(** [encode_zlib] on a fresh encoder — encoder.rs:223-240. *)
Definition encode_zlib (data : list Z) : res (list Z) :=
  let extra := (40 * ((length data + 41) / 40))%nat in
  let out := repeat 0 (length data + extra) in
  do out <- put_slice out 0 zlib_header ;
  do (out, pos) <- encode_no_compression data out 2 ;
  do out <- put_slice out pos (be_bytes 4 (adler32 data)) ;
  Ok (firstn (pos + 4) out).

(** [new_with_options] + [encode_deflate] — encoder.rs:122-133, 214-220: only [data.len() + 1024] bytes are
    reserved. The result (the output vector) is private to the encoder; what a caller can observe is whether
    the call returns. *)
Definition encode_deflate (data : list Z) : res (list Z * nat) :=
  encode_no_compression data (repeat 0 (length data + 1024)) 0.

(** ** Decoder options — decoder.rs:106-190 *)
Record inflate_options := mkOpts {
  o_limit : nat;
  o_confirm : bool;          (* confirm_checksum *)
  o_size_hint : nat
}.

(** The decode tables kept in the decoder — decoder.rs:33-46 — and [static_codes_loaded]; a fresh decoder has
    tables of zeros (decoder.rs:214-226; sizes constants.rs:38, 44). *)
Record htables := mkTables { t_static : bool; t_lit : list Z; t_off : list Z }.
Definition litlen_enough : nat := Z.to_nat 2342.
Definition offset_enough : nat := Z.to_nat 512.
Definition no_tables : htables := mkTables false (repeat 0 litlen_enough) (repeat 0 offset_enough).

(** State of the block loop of [start_deflate_block_inner]: the bit reader, [out_block], [dest_offset] and the
    decoder's tables. *)
Record dstate := mkD { d_r : reader; d_out : list Z; d_dest : nat; d_tab : htables }.

Definition resize_by : nat := 4096.
Definition fastcopy : nat := 16.

(** The over-read test used throughout decoder.rs. *)
Definition over_consumed (r : reader) : bool := (Z.to_nat (Z.shiftr (r_left r) 3) <? r_over r)%nat.

(** A stored block — decoder.rs:566-648. [position] is the decoder's own position (2 after a zlib header). *)
Definition stored_block (o : inflate_options) (data : list Z) (position : nat) (d : dstate) : res dstate :=
  let r := d_r d in
  if over_consumed r then Err ECorrupt else
  let partial := Z.land (r_left r) 7 in
  do r <- drop_bits partial r ;
  do (len, r) <- get_bits 16 r ;
  do (nlen, r) <- get_bits 16 r ;
  if negb (len =? 65535 - nlen) then Err ECorrupt else
  let len := Z.to_nat len in
  let start := (get_position r + position + r_over r)%nat in
  let out := if (length (d_out d) <? d_dest d + len + fastcopy)%nat
             then resize (d_out d) (length (d_out d) + resize_by + len) 0 else d_out d in
  if (length data <=? start + len - 1)%nat then Err ECorrupt else
  if (o_limit o <? d_dest d)%nat then Err ELimit else
  do bs <- get_slice data start len ;
  do out <- put_slice out (d_dest d) bs ;
  let back := Z.to_nat (Z.shiftr (r_left r) 3) in
  if (r_pos r <? back)%nat then Panic else
  Ok (mkD (reset (mkReader (r_src r) (len + (r_pos r - back)) (r_left r) (r_buf r) (r_over r)))
          out (d_dest d + len) (d_tab d)).

(** The block loop — decoder.rs:560-1113. [huff] stands for a Huffman-coded block (table construction and
    the two decoding loops, decoder.rs:659-1108; modelled in HuffModel.v); it receives the block type. *)
Fixpoint block_loop (huff : Z -> dstate -> res dstate) (o : inflate_options) (data : list Z) (position : nat)
    (fuel : nat) (d : dstate) : res dstate :=
  match fuel with
  | O => Fuel
  | S f =>
      do r <- refill (d_r d) ;
      do (last, r) <- get_bits 1 r ;
      do (btype, r) <- get_bits 2 r ;
      let d := mkD r (d_out d) (d_dest d) (d_tab d) in
      do d <- (if btype =? 0 then stored_block o data position d
               else if btype =? 3 then Err ECorrupt
               else huff btype d) ;
      if last =? 1 then Ok d else block_loop huff o data position f d
  end.

(** [start_deflate_block] — decoder.rs:539-555, 1115-1120; [decode_deflate] is a thin wrapper. Returns the
    output and the final reader. *)
Definition decode_deflate (huff : Z -> dstate -> res dstate) (o : inflate_options) (data : list Z) (position : nat)
    : res (list Z * reader) :=
  if (length data <? position)%nat then Panic else
  do r <- refill (new_reader (skipn position data)) ;
  do d <- block_loop huff o data position (8 * length data + 100) (mkD r (repeat 0 (o_size_hint o)) 0 no_tables) ;
  Ok (firstn (d_dest d) (d_out d), d_r d).

(** [decode_zlib] — decoder.rs:252-335. *)
Definition decode_zlib (huff : Z -> dstate -> res dstate) (o : inflate_options) (data : list Z) : res (list Z) :=
  if (length data <? 6)%nat then Err EEof else
  let cmf := getz data 0 in
  let flg := getz data 1 in
  if negb (Z.land cmf 15 =? 8) then Err ECorrupt else
  if 7 <? Z.shiftr cmf 4 then Err ECorrupt else
  if negb ((cmf * 256 + flg) mod 31 =? 0) then Err ECorrupt else
  do (out, r) <- decode_deflate huff o data 2 ;
  if o_confirm o then
    let out_pos := (get_position r + 2 + r_over r)%nat in
    if (out_pos + 4 <=? length data)%nat then
      if be_val (slice data out_pos 4) =? adler32 out then Ok out else Err EChecksum
    else Err EEof
  else Ok out.

(** ** Match copies *)

(** [fixed_copy_within::<16>] — utils.rs:25-37 ([copy_within] has [memmove] semantics: the source is read
    before anything is written). *)
Definition copy16 (out : list Z) (src dst : nat) : res (list Z) :=
  do bs <- get_slice out src fastcopy ;
  put_slice out dst bs.

(** The overlapping loop — decoder.rs:913-926. *)
Fixpoint rep_loop (fuel : nat) (offset dest_end : nat) (out : list Z) (src dst : nat) : res (list Z) :=
  match fuel with
  | O => Fuel
  | S f =>
      do out <- copy16 out src dst ;
      if (dest_end <? dst + offset)%nat then Ok out
      else rep_loop f offset dest_end out (src + offset) (dst + offset)
  end.

(** The non-overlapping loop — decoder.rs:944-962. *)
Fixpoint chunk_loop (fuel : nat) (dest_end : nat) (out : list Z) (src dst : nat) : res (list Z) :=
  match fuel with
  | O => Fuel
  | S f =>
      do out <- copy16 out src dst ;
      if (dest_end <? dst + fastcopy)%nat then Ok out
      else chunk_loop f dest_end out (src + fastcopy) (dst + fastcopy)
  end.

(** A match in the fast loop — decoder.rs:866-963: offset check, the unconditional 16-byte copy and the three
    cases. [dest] is [dest_offset] before the match; the result is [out_block] (the new [dest_offset] is
    [dest + length]). *)
Definition fast_match (out : list Z) (dest offset length : nat) : res (list Z) :=
  if (dest <? offset)%nat then Err ECorrupt else
  let src := (dest - offset)%nat in
  do out <- copy16 out src dest ;
  let dest_end := (dest + length)%nat in
  if (offset =? 1)%nat then
    do b <- get_at out src ;
    put_slice out dest (repeat b length)
  else if (offset <=? fastcopy)%nat && (dest + offset <? dest_end)%nat then
    rep_loop (S length) offset dest_end out (src + offset) (dest + offset)
  else if (fastcopy <? length)%nat then
    chunk_loop (S length) dest_end out (src + fastcopy) (dest + fastcopy)
  else Ok out.

(** [copy_rep_matches] — utils.rs:40-66: slide a window of [dest_offset - offset + 1] bytes over
    [dest[offset .. dest_offset + length + 2]] and copy its first byte onto its last, [length + 2] times. *)
Fixpoint rep_windows (n : nat) (out : list Z) (src dst : nat) : res (list Z) :=
  match n with
  | O => Ok out
  | S n' =>
      do b <- get_at out src ;
      do out <- set_at out dst b ;
      rep_windows n' out (S src) (S dst)
  end.
Definition copy_rep_matches (out : list Z) (src dest len : nat) : res (list Z) :=
  if (dest + len + 2 <=? length out)%nat then rep_windows (len + 2) out src dest else Panic.

(** A match in the careful loop — decoder.rs:1048-1084 (growth, offset check, copy). *)
Definition slow_match (out : list Z) (dest offset len : nat) : res (list Z) :=
  let out := if (length out <? dest + len + fastcopy)%nat
             then resize out (length out + resize_by + len) 0 else out in
  if (dest <? offset)%nat then Err ECorrupt else
  let src := (dest - offset)%nat in
  if (dest <? src + len + fastcopy)%nat then copy_rep_matches out src dest len
  else
    do bs <- get_slice out src len ;
    put_slice out dest bs.
