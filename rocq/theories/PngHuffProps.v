(** PNG files with real compressed data: the PNG theorems of PngProps.v with the Huffman decoder of HuffModel.v in
    place of an arbitrary one (C61, C70). *)
From Verif Require Import Base BaseProof Loops Slices StreamModel CrcModel CrcSpec BitReaderProof InflateModel InflateSpec
  HuffModel HuffSpec HuffStreamProof HuffRef HuffProps
  PngRowModel PngModel PngSpec PngFileSpec PngChunkProof PngNoteProof PngFileProof PngDecodeProof PngProps.

(** The decoder of Huffman blocks in a release build, with the limit the PNG decoder sets for its image data. (The model
    uses one such decoder per file; for compressed text chunks the library's limit is larger.) *)
Definition png_huff (m : image) (o : popts) := huff_block false (inflate_opts m o).

(** A file whose image data is any valid zlib stream for the filtered rows (fixed, dynamic and stored blocks, cut into IDAT
    chunks at will) decodes to the picture. Missing for the full claim: matches of more than 45 bits ([zlib_decodes_refuted])
    and the requests excluded by [plain]. *)
Theorem png_huffman_picture_partial anim m o cmf flg bs ns cs tail px d :
  image_ok m -> plain (o_alpha o) m -> (m_w m <= o_max_w o)%nat -> (m_h m <= o_max_h o)%nat ->
  zlib_header_ok cmf flg -> deflate_stream 45 bs d ->
  lays_out (note_ok (png_huff m o) (strict o)) m (cmf :: flg :: bs ++ be_bytes 4 (adler32 d)) ns cs -> Forall (fine o) cs ->
  (length d <= o_limit (inflate_opts m o))%nat ->
  coded (m_adam7 m) (m_depth m) (type_comps (m_type m)) (m_w m) (m_h m) px d -> o_strip o && (m_depth m =? 16)%nat = false ->
  let pic := picture (image_look (o_alpha o) m) (m_w m) (m_h m) px in
  let ordered := if (m_depth m =? 16)%nat && o_little o then swapped pic else pic in
  (exists s, decode_raw (png_huff m o) anim (new_png o (file_bytes cs tail)) = Ok (ordered, s)) /\
  (exists s, decode (png_huff m o) anim (new_png o (file_bytes cs tail)) = Ok (if (m_depth m =? 16)%nat then U16s (pairs pic) else U8s pic, s)).
Proof.
  intros Im Pl Lw Lh Hd Ds Lay Fine Ld Cd St.
  assert (Zl : decode_zlib (png_huff m o) (inflate_opts m o) (cmf :: flg :: bs ++ be_bytes 4 (adler32 d)) = Ok d).
  { rewrite <- (app_nil_r (be_bytes 4 (adler32 d))). apply zlib_decodes_partial; [exact Hd|exact Ds|constructor|exact Ld]. }
  destruct (png_decodes_picture_partial (png_huff m o) anim m o _ ns cs tail px d Im Pl Lw Lh Lay Fine Zl Cd St) as ((s1 & E1 & _) & (s2 & E2) & _).
  split; [exists s1; exact E1|exists s2; exact E2].
Qed.
Print Assumptions png_huffman_picture_partial.

(** A gray picture of twelve by ten pixels, its rows compressed by the zlib library. *)
Definition dots : image := mkImage 12 10 8 0 false None None.
Definition dots_rows : list (list Z) :=
   [[0; 7; 14; 21; 28; 35; 42; 49; 56; 63; 70; 77]; [7; 3; 27; 23; 47; 43; 67; 63; 87; 83; 107; 103]; [14; 27; 12;
   25; 66; 79; 64; 77; 118; 131; 116; 129]; [200; 200; 200; 200; 200; 200; 200; 200; 200; 200; 200; 200]; [200; 200;
   200; 200; 200; 200; 200; 200; 200; 200; 200; 200]; [35; 43; 79; 87; 67; 75; 111; 119; 211; 219; 255; 7]; [42; 67;
   64; 89; 86; 111; 108; 133; 242; 11; 8; 33]; [49; 63; 77; 91; 105; 119; 133; 147; 17; 31; 45; 59]; [56; 87; 118;
   149; 180; 211; 242; 17; 192; 223; 254; 29]; [63; 83; 131; 151; 199; 219; 11; 31; 223; 243; 35; 55]].
Definition dots_data : list Z :=
   [120; 218; 99; 96; 96; 231; 19; 149; 81; 214; 50; 180; 176; 119; 243; 101; 96; 103; 150; 22; 215; 215; 118; 182;
   15; 15; 206; 78; 103; 224; 147; 230; 145; 116; 242; 119; 240; 45; 107; 46; 105; 100; 56; 129; 4; 80; 57; 202;
   218; 254; 225; 206; 222; 249; 229; 151; 111; 255; 103; 103; 208; 114; 118; 136; 12; 203; 207; 105; 253; 196; 205;
   161; 200; 96; 104; 239; 27; 157; 89; 222; 58; 89; 80; 94; 215; 154; 193; 34; 188; 108; 234; 150; 203; 159; 4; 15;
   220; 255; 39; 203; 96; 31; 220; 60; 253; 248; 109; 110; 249; 251; 159; 149; 205; 1; 222; 211; 51; 165].
Example png_huffman_case :
  image_ok dots /\ plain false dots /\ rows_ok dots dots_rows /\
  deflate_stream 45 (firstn (length dots_data - 6) (skipn 2 dots_data)) (concat (map (fun r => 0 :: r) dots_rows)) /\
  skipn (length dots_data - 4) dots_data = be_bytes 4 (adler32 (concat (map (fun r => 0 :: r) dots_rows))) /\
  result (decode_raw (png_huff dots crc_popts) no_anim (new_png crc_popts (file_bytes (simple dots dots_data) []))) = Ok (concat dots_rows).
Proof.
  split; [unfold image_ok; cbn; repeat split; try lia; try discriminate; tauto|]. split; [split; cbn; congruence|].
  split; [unfold rows_ok; split; [reflexivity|]; split; [reflexivity|]; split; [repeat (constructor; [lit_bytes|]); constructor|repeat constructor]|].
  split; [apply ref_inflate_ok; vm_compute; reflexivity|]. split; [vm_compute; reflexivity|]. vm_compute. reflexivity.
Qed.
