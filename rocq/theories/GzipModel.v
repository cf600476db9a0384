(** Model of [decode_gzip] of crates/zune-inflate/src/decoder.rs. The checksum routine of the crate
    (crates/zune-inflate/src/crc.rs:18-45 and crc/crc_tables.rs) has the same text and the same tables as the one of
    zune-png, modelled as [crc32_slice8]. *)
From Verif Require Import Base Loops Slices CrcModel BitReaderModel InflateModel.

(** The loops over a zero-terminated string — decoder.rs:420-433 and 436-449; [l] is the input from [position]. *)
Fixpoint skip_string (l : list Z) (position : nat) : res nat :=
  match l with
  | [] => Err EEof
  | b :: l' => if b =? 0 then Ok (S position) else skip_string l' (S position)
  end.

(** [flg & bit != 0]. *)
Definition flagged (flg bit : Z) : bool := negb (Z.land flg bit =? 0).

(** The header — decoder.rs:361-460; returns the decoder's position behind it. The first four reads are indexing
    (below 18 bytes the function has returned already). *)
Definition gzip_header (data : list Z) : res nat :=
  if (length data <? 18)%nat then Err EEof else
  do id1 <- get_at data 0 ;
  if negb (id1 =? 31) then Err ECorrupt else
  do id2 <- get_at data 1 ;
  if negb (id2 =? 139) then Err ECorrupt else
  do cm <- get_at data 2 ;
  if negb (cm =? 8) then Err ECorrupt else
  do flg <- get_at data 3 ;
  let position := 10%nat in
  if flagged flg 224 then Err ECorrupt else
  do position <- (if flagged flg 4 then
      do xs <- get_slice data position 2 ;
      let xlen := Z.to_nat (le_val xs) in
      let position := (position + 2)%nat in
      if (length data - position <? xlen + 8)%nat then Err ECorrupt else Ok (position + xlen)%nat
    else Ok position) ;
  do position <- (if flagged flg 8 then skip_string (skipn position data) position else Ok position) ;
  do position <- (if flagged flg 16 then skip_string (skipn position data) position else Ok position) ;
  let position := if flagged flg 2 then (position + 2)%nat else position in
  if (length data <? position + 8)%nat then Err EEof else Ok position.

(** [decode_gzip] on a fresh decoder — decoder.rs:360-509. *)
Definition decode_gzip (huff : Z -> dstate -> res dstate) (o : inflate_options) (data : list Z) : res (list Z) :=
  do position <- gzip_header data ;
  do (out, r) <- decode_deflate huff o data position ;
  let out_pos := (get_position r + position + r_over r)%nat in
  do _ <- (if o_confirm o then
      if (out_pos + 4 <=? length data)%nat then
        do c <- crc32_slice8 out (2 ^ 32 - 1) ;
        if le_val (slice data out_pos 4) =? 2 ^ 32 - 1 - c then Ok tt else Err EChecksum
      else Err EEof
    else Ok tt) ;
  let out_pos := (out_pos + 4)%nat in
  if (out_pos + 4 <=? length data)%nat then
    if Z.of_nat (length out) =? le_val (slice data out_pos 4) then Ok out else Err ECorrupt
  else Err EEof.
