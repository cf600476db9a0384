(** Theorems on the PNG decoder and encoder. Huffman blocks ([huff]) and animation chunks ([anim]) are arbitrary throughout. *)
From Verif Require Import Base BaseProof Loops Slices StreamModel CrcModel CrcSpec PngFilterModel PngFilterSpec BitReaderProof
  InflateModel InflateSpec StoredProof InflateProps PngRowModel PngModel PngSpec PngFileSpec PngRowProof PngLoopProof PngInterProof PngChunkProof PngNoteProof PngFileProof
  PngDecodeProof PngHeaderProof PngEncodeProof.

(** ** C14 — round trip *)
(** What the encoder accepts: eight or sixteen bits, one of the four colour types *)
Definition encodable (e : eopts) (c : color) (data : list Z) : Prop :=
  e_color e = Some c /\ c <> CPalette /\ e_comps e = color_comps c /\ In (e_bytes e) [1; 2]%nat /\
  0 < Z.of_nat (e_w e) < 2 ^ 31 /\ 0 < Z.of_nat (e_h e) < 2 ^ 31 /\
  bytes data /\ length data = (e_w e * e_h e * (e_comps e * e_bytes e))%nat /\ Z.of_nat (length data) < 2 ^ 64.
(** Encoding succeeds; decoding gives the samples, in the byte order asked for or as numbers, with the same size, depth and colour
    type, and the Exif data. This holds with the checksums verified too. *)
Theorem png_round_trip huff anim e c data exf o : encodable e c data ->
  match exf with Some b => bytes b /\ Z.of_nat (length b) + 4 <= peek_cap /\ tiff b = true | None => True end ->
  (e_w e <= o_max_w o)%nat -> (e_h e <= o_max_h o)%nat -> o_alpha o = false -> o_strip o = false ->
  exists file s1 s2, encode e exf data = Ok file /\
    decode_raw huff anim (new_png o file) = Ok (if (e_bytes e =? 2)%nat && o_little o then swapped data else data, s1) /\
    decode huff anim (new_png o file) = Ok (if (e_bytes e =? 2)%nat then U16s (pairs data) else U8s data, s2) /\
    hdr s1 = Some (mkInfo (e_w e) (e_h e) (8 * e_bytes e) c false) /\ hdr s2 = hdr s1 /\ exif (mdata s1) = exf /\ exif (mdata s2) = exf.
Proof.
  intros (Ec & Np & Ek & Eb & Ew & Eh & Bd & Ld & Mem) Hx Lw Lh Al St.
  assert (Cap : peek_cap < 2 ^ 31) by (unfold peek_cap; lia).
  assert (Xb : match exf with Some b => bytes b /\ Z.of_nat (length b) < 2 ^ 31 | None => True end) by (destruct exf as [b|]; [|exact I]; destruct Hx as (X & Y & _); split; [exact X|lia]).
  destruct (encode_ok e c data Ec Np Ek Eb Ew Eh Bd Ld Mem exf Xb) as (z & Ez & Bz & E).
  set (m := enc_image e c) in *.
  assert (Im : image_ok m) by (unfold m; eapply enc_image_ok; eauto).
  assert (D16 : (m_depth m =? 16)%nat = (e_bytes e =? 2)%nat) by (cbn [m enc_image m_depth]; clear -Eb; destruct Eb as [<-|[<-|[]]]; reflexivity).
  assert (Cc : e_comps e = type_comps (m_type m)) by (rewrite Ek; clear -Np; cbn [m enc_image m_type]; destruct c; try congruence; reflexivity).
  assert (Co : colour_of m = c) by (clear -Np; unfold colour_of; cbn [m enc_image m_type]; destruct c; try congruence; reflexivity).
  assert (Pl : plain (o_alpha o) m). { rewrite Al. split; [intros N; now contradiction N|reflexivity]. }
  assert (Notes : Forall (note_ok huff (strict o)) (exif_chunks exf)).
  { unfold exif_chunks. destruct exf as [b|]; [|constructor]. destruct Hx as (X & Y & Z0). constructor; [|constructor]. unfold note_ok, chunk_of. cbn [c_name c_data].
    split; [unfold ancillary; cbn; repeat split; try lia; discriminate|]. do 5 (split; [first [discriminate|intros _; lia|auto]|]). intros [N|[N|[]]]; discriminate N. }
  assert (Lay : lays_out (note_ok huff (strict o)) m z (exif_chunks exf) (file_chunks e c exf z)) by (unfold m; eapply file_chunks_lay; eauto).
  assert (Fine0 : Forall (fun k => chunk_ok k /\ sum_ok k) (file_chunks e c exf z)) by (eapply file_chunks_fine; eauto).
  assert (Size : Forall (fun k => Z.of_nat (length (c_data k)) + 4 <= peek_cap) (file_chunks e c exf z)).
  { assert (Small : forall k, (length (c_data k) <= Z.to_nat 8192)%nat -> Z.of_nat (length (c_data k)) + 4 <= peek_cap) by (intros k; unfold peek_cap; lia).
    unfold file_chunks. constructor.
    { apply Small. cbn [chunk_of c_data]. unfold ihdr_data. rewrite !app_length, !be_bytes_length. cbn [length]. lia. }
    apply Forall_app. split. { unfold exif_chunks. destruct exf; [|constructor]. constructor; [|constructor]. cbn [chunk_of c_data]. tauto. }
    apply Forall_app. split. { apply Forall_map. eapply Forall_impl; [|apply (chunks_ok (Z.to_nat 8192) z); lia]. cbn beta. intros k Hk. apply Small. exact Hk. }
    constructor; [|constructor]. apply Small. cbn [chunk_of c_data length]. lia. }
  assert (Fine : Forall (fine o) (file_chunks e c exf z)).
  { rewrite Forall_forall in *. intros k Hk. specialize (Fine0 k Hk). specialize (Size k Hk). unfold fine. tauto. }
  assert (Cd : coded (m_adam7 m) (m_depth m) (type_comps (m_type m)) (m_w m) (m_h m) (pix_at_enc e data) (scan e data)).
  { rewrite <- Cc. cbn [m enc_image m_adam7 m_depth m_w m_h]. eapply coded_enc; eauto. }
  assert (Zl : decode_zlib huff (inflate_opts m o) z = Ok (scan e data)).
  { destruct (zlib_round_trip huff (inflate_opts m o) (scan e data) []) as (z' & Ez' & Dz).
    - apply scanlines_bytes.
    - constructor.
    - destruct (rows_facts e c data Ec Np Ek Eb Ew Bd Ld) as (_ & F & L & _). unfold scan, filtered. rewrite (scanlines_length _ (row_size e)).
      2:{ apply Forall_forall. intros r Hr. rewrite Forall_forall in F. apply F. apply (in_map snd) in Hr. now rewrite up_rows_snd in Hr. }
      rewrite <- (map_length snd), up_rows_snd, L. unfold inflate_opts, hint_m. cbn [o_limit]. rewrite Co, <- Ek, D16. cbn [m enc_image m_w m_h]. unfold row_size.
      clear -Eb. destruct Eb as [<-|[<-|[]]]; cbn [Nat.eqb]; lia.
    - rewrite Ez in Ez'. injection Ez' as <-. now rewrite app_nil_r in Dz. }
  assert (Pc : pic m o (pix_at_enc e data) = data) by (unfold pic; rewrite Al; cbn [m enc_image m_w m_h]; eapply picture_enc; eauto).
  destruct (raw_ok huff anim m o z (exif_chunks exf) Im Pl _ _ Zl Cd (file_chunks e c exf z) [] Lw Lh Lay Fine) as (s1 & E1 & H1 & M1).
  destruct (decode_ok huff anim m o z (exif_chunks exf) Im Pl _ _ Zl Cd (file_chunks e c exf z) [] Lw Lh Lay Fine) as (s2 & E2 & H2 & M2); [now rewrite St|].
  exists (file_bytes (file_chunks e c exf z) []), s1, s2. rewrite Pc in E1, E2. rewrite St in E1. cbn [andb] in E1. unfold ordered in E1. rewrite D16 in E1, E2.
  split; [exact E|]. split; [exact E1|]. split; [exact E2|]. rewrite H1, H2, M1, M2. split; [unfold info_of; rewrite Co; reflexivity|]. split; [reflexivity|].
  assert (X : exif (notes huff (exif_chunks exf) no_meta) = exf); [|auto].
  unfold exif_chunks. destruct exf as [b|]; [|reflexivity]. destruct Hx as (_ & _ & T). unfold notes, note, chunk_of. cbn [fold_left c_name c_data]. cbv zeta.
  destruct (list_eq_dec Z.eq_dec eXIf gAMA) as [N|_]; [discriminate N|]. destruct (list_eq_dec Z.eq_dec eXIf tIME) as [N|_]; [discriminate N|].
  destruct (list_eq_dec Z.eq_dec eXIf eXIf) as [_|N]; [|contradiction]. rewrite T. reflexivity.
Qed.
Print Assumptions png_round_trip.
(** A 3 by 2 picture of gray and alpha with sixteen bits, with Exif data, checksums verified *)
Definition no_anim : nat -> list Z -> png -> res png := fun _ _ _ => Err ECorrupt.
Definition crc_popts : popts := mkPopts 100 100 true true true false false true true true true true.
Definition result {A} (r : res (A * png)) : res A := match r with Ok (a, _) => Ok a | Err x => Err x | Panic => Panic | Fuel => Fuel end.
Definition strip_popts (little : bool) : popts := mkPopts 100 100 false false false false true little true true true true.
Definition alpha_popts : popts := mkPopts 100 100 false false false true false false true true true true.
Definition plain_popts : popts := mkPopts 100 100 false false false false false false true true true true.
Definition ex_e : eopts := mkEopts 3 2 2 (Some CLumaA) 2.
Definition ex_data : list Z := [1; 2; 3; 4; 5; 6; 7; 8; 9; 10; 11; 12; 255; 0; 128; 1; 4; 3; 2; 1; 0; 0; 0; 9].
Definition ex_exif : option (list Z) := Some [73; 73; 42; 0; 1; 2].
Example png_round_trip_case : encodable ex_e CLumaA ex_data /\
  exists file, encode ex_e ex_exif ex_data = Ok file /\ length file = 112%nat /\
    result (decode_raw no_huff no_anim (new_png crc_popts file)) = Ok (swapped ex_data) /\
    result (decode no_huff no_anim (new_png crc_popts file)) = Ok (U16s [258; 772; 1286; 1800; 2314; 2828; 65280; 32769; 1027; 513; 0; 9]).
Proof.
  split. { unfold encodable, ex_e. cbn. repeat split; try lia; try discriminate; auto. lit_bytes. }
  destruct (encode ex_e ex_exif ex_data) as [file| | |] eqn:E; [|vm_compute in E; discriminate..]. exists file. split; [reflexivity|].
  assert (X : encode ex_e ex_exif ex_data = Ok file) by exact E. vm_compute in E. injection E as <-. vm_compute. repeat split; reflexivity.
Qed.

(** ** C15 — interlacing *)
(** Each pixel of the image belongs to exactly one position of exactly one of the decoder's passes, and those have no other
    positions. *)
Definition pass_pixel (w h k j i y x : nat) : Prop :=
  (k < 7)%nat /\ let '(xo, yo, xs, ys) := nth k passes (0, 0, 0, 0)%nat in
  (j < pass_size h yo ys)%nat /\ (i < pass_size w xo xs)%nat /\ y = (j * ys + yo)%nat /\ x = (i * xs + xo)%nat.
Lemma pass_size_pos n o s i : In s [1; 2; 4; 8]%nat -> (o < s)%nat -> ((i < pass_size n o s)%nat <-> (i * s + o < n)%nat).
Proof. intros Hs Ho. unfold pass_size. destruct Hs as [<-|[<-|[<-|[<-|[]]]]]; lia. Qed.
Theorem png_passes_partition w h :
  (forall k j i y x, pass_pixel w h k j i y x -> (y < h)%nat /\ (x < w)%nat) /\
  (forall y x, (y < h)%nat -> (x < w)%nat -> exists! kji, let '(k, j, i) := kji in pass_pixel w h k j i y x).
Proof.
  split.
  - intros k j i y x [Hk H]. destruct (nth k passes (0, 0, 0, 0)%nat) as [[[xo yo] xs] ys] eqn:E. destruct (pass_shape k xo yo xs ys Hk E) as (A & B & C & D).
    destruct H as (Hj & Hi & -> & ->). apply pass_size_pos in Hj; auto. apply pass_size_pos in Hi; auto.
  - intros y x Hy Hx. pose proof (pass_at_range y x) as R. set (k := (pass_at y x - 1)%nat). assert (Hk : (k < 7)%nat) by lia.
    destruct (nth k passes (0, 0, 0, 0)%nat) as [[[xo yo] xs] ys] eqn:E. destruct (pass_shape k xo yo xs ys Hk E) as (A & B & C & D).
    pose proof (pass_grid k xo yo xs ys y x Hk E) as G. replace (pass_at y x =? S k)%nat with true in G by (symmetry; apply Nat.eqb_eq; lia).
    symmetry in G. apply andb_true_iff in G. destruct G as [G1 G2]. apply Nat.eqb_eq in G1, G2.
    assert (Xs : (0 < xs)%nat /\ (0 < ys)%nat) by lia.
    exists (k, y / ys, x / xs)%nat. split.
    + split; [exact Hk|]. rewrite E. pose proof (Nat.div_mod y ys ltac:(lia)) as Dy. pose proof (Nat.div_mod x xs ltac:(lia)) as Dx. rewrite G2 in Dy. rewrite G1 in Dx.
      repeat split; [apply pass_size_pos; auto; lia|apply pass_size_pos; auto; lia|lia|lia].
    + intros [[k' j'] i'] [Hk' H']. destruct (nth k' passes (0, 0, 0, 0)%nat) as [[[xo' yo'] xs'] ys'] eqn:E'. destruct (pass_shape k' xo' yo' xs' ys' Hk' E') as (A' & B' & C' & D').
      destruct H' as (_ & _ & Ey & Ex).
      pose proof (pass_grid k' xo' yo' xs' ys' y x Hk' E') as G'.
      assert (My : (y mod ys' = yo')%nat) by (rewrite Ey, Nat.add_comm, Nat.mod_add by lia; apply Nat.mod_small; lia).
      assert (Mx : (x mod xs' = xo')%nat) by (rewrite Ex, Nat.add_comm, Nat.mod_add by lia; apply Nat.mod_small; lia).
      rewrite My, Mx, !Nat.eqb_refl in G'. cbn [andb] in G'. apply Nat.eqb_eq in G'.
      assert (K : k' = k) by lia. subst k'. rewrite E in E'. injection E' as <- <- <- <-.
      rewrite Ey at 1. rewrite Ex at 1. rewrite !Nat.div_add_l by lia. rewrite !Nat.div_small by lia. rewrite !Nat.add_0_r. reflexivity.
Qed.
Print Assumptions png_passes_partition.
Example png_passes_case : pass_pixel 11 6 1 0 0 0 4 /\ pass_pixel 11 6 6 2 10 5 10 /\ pass_pixel 11 6 2 0 1 4 4.
Proof. unfold pass_pixel. cbn. lia. Qed.
(** De-interlacing gives the picture *)
Theorem png_interlaced_picture x w h px ps rest out stride : supported x -> holds_interlaced (depth x) (color_comps (col x)) w h px ps ->
  length out = (w * h * (out_comps x * sample_bytes x))%nat ->
  exists stride', decode_interlaced x (filtered_interlaced (filter_comps x) ps ++ rest) w h out stride = Ok (picture (look_of x) w h px, stride').
Proof. apply decode_interlaced_ok. Qed.
Print Assumptions png_interlaced_picture.

(** ** C16 — samples of less than a byte *)
Theorem png_expand_bits d plte w n row junk out : In d [1; 2; 4]%nat -> bytes row -> length row = row_bytes d n w -> (w * n <= length out)%nat ->
  expand_bits w d n plte (row ++ junk) out =
  Ok (map (fun k => if plte then sample d row k else sample d row k * 255 / (2 ^ Z.of_nat d - 1)) (seq 0 (w * n)) ++ skipn (w * n) out).
Proof.
  intros Hd B L Ho. unfold row_bytes in L. rewrite expand_bits_ok by (auto; rewrite ?app_length; lia). f_equal. f_equal.
  apply map_ext_in. intros k Hk. apply in_seq in Hk.
  assert (P : (k * d / 8 < length row)%nat).
  { rewrite L. set (N := (w * n)%nat) in *. clearbody N. clear -Hd Hk. destruct Hd as [<-|[<-|[<-|[]]]]; lia. }
  rewrite bits_app by exact P. rewrite <- sample_bits; [|cbn in Hd |- *; tauto|auto..].
  pose proof (full_low d (sample d row k) Hd) as F. unfold full in F. replace (d =? 16)%nat with false in F by (clear -Hd; destruct Hd as [<-|[<-|[<-|[]]]]; reflexivity).
  injection F as F. rewrite F. destruct plte; cbn [scale_for]; [lia|reflexivity].
Qed.
Print Assumptions png_expand_bits.
Example png_expand_bits_case :
  expand_bits 5 2 1 false [27; 192] [9; 9; 9; 9; 9; 9] = Ok [0; 85; 170; 255; 255; 9] /\ expand_bits 5 1 1 true [168] [7; 7; 7; 7; 7] = Ok [1; 0; 1; 0; 1] /\
  map (sample 2 [27; 192]) [0; 1; 2; 3; 4]%nat = [0; 1; 2; 3; 3].
Proof. vm_compute. auto. Qed.

(** ** C61, C62, C67 — a well-formed file gives its picture *)
(** The palette, transparency, depth and interlacing are in [picture]; see PngSpec.v and PngFileSpec.v. Missing for the full claim: the
    Huffman blocks of zlib data, and the requests excluded by [plain], where the claim is false (see below). *)
Theorem png_decodes_picture_partial huff anim m o idat ns cs tail px d :
  image_ok m -> plain (o_alpha o) m -> (m_w m <= o_max_w o)%nat -> (m_h m <= o_max_h o)%nat ->
  lays_out (note_ok huff (strict o)) m idat ns cs -> Forall (fine o) cs ->
  decode_zlib huff (inflate_opts m o) idat = Ok d -> coded (m_adam7 m) (m_depth m) (type_comps (m_type m)) (m_w m) (m_h m) px d ->
  o_strip o && (m_depth m =? 16)%nat = false ->
  let pic := picture (image_look (o_alpha o) m) (m_w m) (m_h m) px in
  let ordered := if (m_depth m =? 16)%nat && o_little o then swapped pic else pic in
  (exists s, decode_raw huff anim (new_png o (file_bytes cs tail)) = Ok (ordered, s) /\ hdr s = Some (mkInfo (m_w m) (m_h m) (m_depth m) (colour_of m) (m_adam7 m))) /\
  (exists s, decode huff anim (new_png o (file_bytes cs tail)) = Ok (if (m_depth m =? 16)%nat then U16s (pairs pic) else U8s pic, s)) /\
  (forall out, bytes out -> (length pic <= length out)%nat ->
     exists s, decode_into huff anim out (new_png o (file_bytes cs tail)) = Ok (ordered ++ skipn (length pic) out, s)).
Proof.
  intros Im Pl Lw Lh Lay Fine Zl Cd St pic0 ord0.
  assert (PL : length pic0 = byte_len m o).
  { destruct (pixels_ok huff anim m o idat Im Pl px d Zl Cd (repeat 0 (byte_len m o)) []) as (? & _ & PL); [apply zeros_bytes|apply repeat_length|exact PL]. }
  split; [|split].
  - destruct (raw_ok huff anim m o idat ns Im Pl px d Zl Cd cs tail Lw Lh Lay Fine) as (s & E & H & _). rewrite St in E. exists s. split; [exact E|exact H].
  - destruct (decode_ok huff anim m o idat ns Im Pl px d Zl Cd cs tail Lw Lh Lay Fine St) as (s & E & _). exists s. exact E.
  - intros out B L. rewrite PL in *. destruct (into_ok huff anim m o idat ns Im Pl px d Zl Cd cs tail Lw Lh Lay Fine out St B L) as (s & E & _). exists s. exact E.
Qed.
Print Assumptions png_decodes_picture_partial.

(** Without any assumption on Huffman blocks: data in stored blocks, of whatever sizes, split over IDAT chunks at will *)
Theorem png_stored_picture_partial huff anim m o bs ns cs tail px d :
  image_ok m -> plain (o_alpha o) m -> (m_w m <= o_max_w o)%nat -> (m_h m <= o_max_h o)%nat ->
  lays_out (note_ok huff (strict o)) m ([120; 1] ++ bs ++ be_bytes 4 (adler32 d)) ns cs -> Forall (fine o) cs ->
  stored d bs -> bytes d -> (length d <= (m_w m + 1) * m_h m * (if (m_depth m =? 16)%nat then 2 else 1) * type_comps (m_type m) + 4 * m_h m)%nat ->
  coded (m_adam7 m) (m_depth m) (type_comps (m_type m)) (m_w m) (m_h m) px d -> o_strip o && (m_depth m =? 16)%nat = false ->
  exists s, decode huff anim (new_png o (file_bytes cs tail)) =
    Ok (let pic := picture (image_look (o_alpha o) m) (m_w m) (m_h m) px in if (m_depth m =? 16)%nat then U16s (pairs pic) else U8s pic, s).
Proof.
  intros Im Pl Lw Lh Lay Fine Sd Bd Ld Cd St.
  destruct (png_decodes_picture_partial huff anim m o _ ns cs tail px d Im Pl Lw Lh Lay Fine) as (_ & H & _); auto.
  rewrite <- (app_nil_r (be_bytes 4 (adler32 d))). apply zlib_decodes_stored; auto; [constructor|]. unfold inflate_opts, hint_m. cbn [o_limit]. rewrite comps_m by exact Im. exact Ld.
Qed.
Print Assumptions png_stored_picture_partial.

(** The plainest file for an image: compressed data [z] in one chunk *)
Definition simple (m : image) (z : list Z) : list chunk :=
  chunk_of IHDR (ihdr_data m) :: match m_pal m with Some p => [chunk_of PLTE (plte_data p)] | None => [] end ++
  match m_trns m with Some t => [chunk_of tRNS t] | None => [] end ++ [chunk_of IDAT z; chunk_of IEND []].
Definition rows_px (m : image) (rows : list (list Z)) (y x : nat) : list Z := samples (m_depth m) (type_comps (m_type m)) (nth y rows []) x.
Definition rows_ok (m : image) (rows : list (list Z)) : Prop :=
  m_adam7 m = false /\ length rows = m_h m /\ Forall bytes rows /\ Forall (fun r => length r = row_bytes (m_depth m) (type_comps (m_type m)) (m_w m)) rows.
Lemma rows_coded m rows : rows_ok m rows ->
  coded (m_adam7 m) (m_depth m) (type_comps (m_type m)) (m_w m) (m_h m) (rows_px m rows) (concat (map (fun r => 0 :: r) rows)).
Proof.
  intros (-> & L & B & F). unfold coded. exists (map (fun r => (FNone, r)) rows), []. rewrite app_nil_r, map_map. cbn [snd]. rewrite map_id. split.
  - split; [exact L|]. split; [exact B|]. split; [exact F|]. reflexivity.
  - unfold filtered. generalize (@nil Z). clear -B. induction B as [|r rows Br B IH]; intros prev; [reflexivity|]. cbn [map scanlines concat filter_code]. rewrite filter_none by exact Br. f_equal. apply IH.
Qed.
(** The decoder returns [out] for the file, which is not the picture *)
Definition misread (o : popts) (m : image) (rows : list (list Z)) (out : list Z) : Prop :=
  image_ok m /\ rows_ok m rows /\ o_strip o = false /\ o_little o = false /\
  exists z, encode_zlib (concat (map (fun r => 0 :: r) rows)) = Ok z /\
    result (decode_raw no_huff no_anim (new_png o (file_bytes (simple m z) []))) = Ok out /\
    out <> picture (image_look (o_alpha o) m) (m_w m) (m_h m) (rows_px m rows).
Ltac misread_tac :=
  unfold misread; split; [unfold image_ok; cbn; repeat split; try lia; try discriminate; try lit_bytes; tauto|];
  split; [unfold rows_ok; split; [reflexivity|]; split; [reflexivity|]; split; [repeat (constructor; [lit_bytes|]); constructor|repeat constructor]|];
  split; [reflexivity|]; split; [reflexivity|];
  match goal with |- exists z, ?E = Ok z /\ _ => let z := eval vm_compute in E in match z with Ok ?l => exists l end end;
  split; [vm_compute; reflexivity|]; split; [vm_compute; reflexivity|vm_compute; discriminate].

(** A transparent colour at sixteen bits is not found (it is compared in the machine's byte order): the pixel 258 stays opaque, and
    513 becomes transparent instead. *)
Theorem png_transparent_refuted : misread plain_popts (mkImage 2 1 16 0 false None (Some [1; 2])) [[1; 2; 2; 1]] [1; 2; 255; 255; 2; 1; 0; 0].
Proof. misread_tac. Qed.
(** A transparent colour is lost when an alpha channel is asked for *)
Theorem png_transparent_alpha_refuted : misread alpha_popts (mkImage 2 1 8 0 false None (Some [0; 9])) [[9; 8]] [9; 255; 8; 255].
Proof. misread_tac. Qed.
(** An alpha channel added to gray of less than eight bits: the last row is wrong *)
Theorem png_add_alpha_refuted : exists out, misread alpha_popts (mkImage 2 2 1 0 false None None) [[128]; [64]] out.
Proof. eexists. misread_tac. Qed.
Print Assumptions png_transparent_refuted.
Print Assumptions png_transparent_alpha_refuted.
Print Assumptions png_add_alpha_refuted.

(** A case: four colours of two bits, three alphas, checksums verified, unknown and text chunks in between *)
Lemma simple_lays ok m z : image_ok m -> bytes z -> Z.of_nat (length z) + 4 <= peek_cap -> forall o, lays_out ok m z [] (simple m z) /\ Forall (fine o) (simple m z).
Proof.
  intros Im Bz Lz o. assert (Cap : peek_cap = 20971520) by reflexivity.
  assert (K : forall n d, length n = 4%nat -> bytes n -> bytes d -> Z.of_nat (length d) + 4 <= peek_cap -> chunk_ok (chunk_of n d) /\ fine o (chunk_of n d)).
  { intros n d Ln Bn Bd Ld. destruct (chunk_of_ok n d Ln Bn Bd) as [A B]; [lia|]. split; [exact A|]. split; [exact A|]. intros _. split; [exact B|exact Ld]. }
  assert (F : Forall (fun k => chunk_ok k /\ fine o k) (simple m z)).
  { unfold simple. constructor. { apply K; [reflexivity|lit_bytes|now apply ihdr_data_bytes|]. unfold ihdr_data. rewrite !app_length, !be_bytes_length. cbn [length]. lia. }
    pose proof Im as (_ & _ & _ & P & T). apply Forall_app. split; [|apply Forall_app; split].
    - destruct (m_pal m) as [p|]; [|constructor]. constructor; [|constructor]. apply K; [reflexivity|lit_bytes|apply P|]. destruct P as [Lp _]. unfold plte_data.
      rewrite (concat_length_const 3), map_length; [lia|]. apply Forall_map, Forall_forall. intros [[? ?] ?] _. reflexivity.
    - destruct (m_trns m) as [t|]; [|constructor]. constructor; [|constructor]. destruct T as [Bt T]. apply K; [reflexivity|lit_bytes|exact Bt|].
      destruct T as [[_ ->]|[[_ ->]|[_ T]]]; [lia..|]. destruct (m_pal m) as [p|]; [|contradiction]. lia.
    - constructor; [apply K; [reflexivity|lit_bytes|exact Bz|exact Lz]|]. constructor; [|constructor]. apply K; [reflexivity|lit_bytes|constructor|cbn [length]; lia]. }
  split; [|eapply Forall_impl; [|exact F]; cbn; tauto].
  exists (chunk_of IHDR (ihdr_data m)), [], (match m_pal m with Some p => [chunk_of PLTE (plte_data p)] | None => [] end), [],
    (match m_trns m with Some t => [chunk_of tRNS t] | None => [] end), [], [chunk_of IDAT z], [], (chunk_of IEND []).
  split; [reflexivity|]. split; [reflexivity|]. split; [constructor|]. split; [eapply Forall_impl; [|exact F]; cbn; tauto|].
  split; [split; reflexivity|]. split. { destruct (m_pal m); [|reflexivity]. eexists. split; [reflexivity|split; reflexivity]. }
  split. { destruct (m_trns m); [|reflexivity]. eexists. split; [reflexivity|split; reflexivity]. }
  split; [repeat constructor|]. split; [cbn [map concat chunk_of c_data]; apply app_nil_r|split; reflexivity].
Qed.
Definition pal_image : image := mkImage 5 2 2 3 false (Some [(10, 20, 30); (40, 50, 60); (70, 80, 90)]) (Some [0; 128]).
Definition pal_rows : list (list Z) := [[24; 64]; [128; 128]].
Definition pal_chunks (z : list Z) : list chunk :=
  [chunk_of IHDR (ihdr_data pal_image); chunk_of [113; 113; 113; 113] [1; 2; 3]; chunk_of PLTE [10; 20; 30; 40; 50; 60; 70; 80; 90]; chunk_of gAMA [0; 0; 1; 2]; chunk_of tRNS [0; 128];
   chunk_of IDAT (firstn 5 z); chunk_of IDAT []; chunk_of IDAT (skipn 5 z); chunk_of tEXt [65; 66; 0; 67]; chunk_of IEND []].
Example png_picture_case :
  image_ok pal_image /\ plain false pal_image /\ rows_ok pal_image pal_rows /\
  exists z, encode_zlib (concat (map (fun r => 0 :: r) pal_rows)) = Ok z /\
    result (decode_raw no_huff no_anim (new_png crc_popts (file_bytes (pal_chunks z) [7; 7]))) = Ok (picture (image_look false pal_image) 5 2 (rows_px pal_image pal_rows)) /\
    picture (image_look false pal_image) 5 2 (rows_px pal_image pal_rows) =
      [10; 20; 30; 0; 40; 50; 60; 128; 70; 80; 90; 255; 10; 20; 30; 0; 40; 50; 60; 128;
       70; 80; 90; 255; 10; 20; 30; 0; 10; 20; 30; 0; 10; 20; 30; 0; 70; 80; 90; 255].
Proof.
  split; [unfold image_ok; cbn; repeat split; try lia; try discriminate; try lit_bytes; tauto|]. split; [split; [cbn; congruence|discriminate]|].
  split; [unfold rows_ok; split; [reflexivity|]; split; [reflexivity|]; split; [repeat (constructor; [lit_bytes|]); constructor|repeat constructor]|].
  match goal with |- exists z, ?E = Ok z /\ _ => let z := eval vm_compute in E in match z with Ok ?l => exists l end end. vm_compute. auto.
Qed.
(** Interlaced, five by three pixels of four bits; the first pass holds one pixel, the second one, the third none *)
Example png_interlaced_case :
  exists z, encode_zlib [0; 16; 0; 32; 0; 48; 0; 69; 96; 0; 120; 0; 154; 0; 188; 222; 240] = Ok z /\
    result (decode_raw no_huff no_anim (new_png crc_popts (file_bytes (simple (mkImage 5 3 4 0 true None None) z) []))) =
    Ok [17; 119; 51; 136; 34; 187; 204; 221; 238; 255; 68; 153; 85; 170; 102].
Proof.
  match goal with |- exists z, ?E = Ok z /\ _ => let z := eval vm_compute in E in match z with Ok ?l => exists l end end. vm_compute. auto.
Qed.

(** ** C65 — byte order *)
(** The routines for the various processors do the same: sixteen-bit samples are turned round exactly when little-endian order is
    asked for. *)
Theorem png_byte_order little sse4 avx2 ssse3 l : to_endian little sse4 avx2 ssse3 l = if little then swapped l else l.
Proof. apply to_endian_ok. Qed.
Print Assumptions png_byte_order.
Example png_byte_order_case : to_endian true true true true [1; 2; 3; 4; 5; 6; 7; 8; 9; 10; 11; 12; 13; 14; 15; 16; 17; 18; 19; 20; 21; 22; 23; 24; 25; 26; 27; 28; 29; 30; 31; 32; 33; 34] =
  [2; 1; 4; 3; 6; 5; 8; 7; 10; 9; 12; 11; 14; 13; 16; 15; 18; 17; 20; 19; 22; 21; 24; 23; 26; 25; 28; 27; 30; 29; 32; 31; 34; 33].
Proof. vm_compute. reflexivity. Qed.

(** ** C66 — sixteen bits reduced to eight *)
(** The first of each two bytes: the high byte of a big-endian sample *)
Fixpoint highs (l : list Z) : list Z := match l with a :: _ :: l' => a :: highs l' | _ => [] end.
Lemma every_other_high l : forall n, length l = (2 * n)%nat -> every_other l = highs l.
Proof.
  intros n. revert l. induction n as [|n IH]; intros l H; [destruct l; [reflexivity|discriminate]|]. destruct l as [|a [|b l]]; [discriminate|cbn in H; lia|].
  cbn [every_other highs]. now rewrite IH by (cbn in H; lia).
Qed.
(** Each sample is replaced by its high byte, unless little-endian order is asked for *)
Theorem png_strip_partial huff anim m o idat ns cs tail px d :
  image_ok m -> plain (o_alpha o) m -> (m_w m <= o_max_w o)%nat -> (m_h m <= o_max_h o)%nat ->
  lays_out (note_ok huff (strict o)) m idat ns cs -> Forall (fine o) cs ->
  decode_zlib huff (inflate_opts m o) idat = Ok d -> coded (m_adam7 m) (m_depth m) (type_comps (m_type m)) (m_w m) (m_h m) px d ->
  o_strip o = true -> m_depth m = 16%nat -> o_little o = false ->
  exists s, decode_raw huff anim (new_png o (file_bytes cs tail)) = Ok (highs (picture (image_look (o_alpha o) m) (m_w m) (m_h m) px), s).
Proof.
  intros Im Pl Lw Lh Lay Fine Zl Cd St D16 Li.
  destruct (raw_ok huff anim m o idat ns Im Pl px d Zl Cd cs tail Lw Lh Lay Fine) as (s & E & _). rewrite St, D16, Li in E. cbn [andb Nat.eqb] in E. exists s. rewrite E.
  unfold ordered. rewrite andb_false_r. do 2 f_equal. fold (pic m o px).
  destruct (pixels_ok huff anim m o idat Im Pl px d Zl Cd (repeat 0 (byte_len m o)) []) as (? & E1 & PL); [apply zeros_bytes|apply repeat_length|].
  apply (every_other_high _ (m_w m * m_h m * out_comps (pix_m m o))%nat). rewrite PL. unfold byte_len, sample_bytes. cbn [depth pix_m]. rewrite D16. cbn [Nat.eqb]. lia.
Qed.
Print Assumptions png_strip_partial.
Definition deep : image := mkImage 2 1 16 0 false None None.
Definition strip_file (z : list Z) (little : bool) : res (list Z) := result (decode_raw no_huff no_anim (new_png (strip_popts little) (file_bytes (simple deep z) []))).
Example png_strip_case : exists z, encode_zlib [0; 1; 2; 200; 7] = Ok z /\ strip_file z false = Ok [1; 200].
Proof. match goal with |- exists z, ?E = Ok z /\ _ => let z := eval vm_compute in E in match z with Ok ?l => exists l end end. vm_compute. auto. Qed.
(** In little-endian order the low bytes are returned *)
Theorem png_strip_refuted : exists z, encode_zlib [0; 1; 2; 200; 7] = Ok z /\ strip_file z true = Ok [2; 7] /\
  highs (picture (image_look false deep) 2 1 (rows_px deep [[1; 2; 200; 7]])) = [1; 200].
Proof. match goal with |- exists z, ?E = Ok z /\ _ => let z := eval vm_compute in E in match z with Ok ?l => exists l end end. vm_compute. auto. Qed.
Print Assumptions png_strip_refuted.

(** ** C63, C69 — texts, gamma, time, Exif *)
Lemma notes_snoc huff ks k m : notes huff (ks ++ [k]) m = note huff k (notes huff ks m).
Proof. unfold notes. now rewrite fold_left_app. Qed.
Lemma named_snoc n ks k : named n (ks ++ [k]) = if list_eq_dec Z.eq_dec (c_name k) n then c_data k :: named n ks else named n ks.
Proof. unfold named. rewrite filter_app, rev_app_distr. cbn [List.filter]. destruct (list_eq_dec Z.eq_dec (c_name k) n); reflexivity. Qed.
Lemma texts_snoc n ks k : texts n (ks ++ [k]) = texts n ks ++ texts n [k].
Proof. unfold texts. apply flat_map_app. Qed.
Ltac clash := match goal with E : c_name ?k = ?a, F : c_name ?k = ?b |- _ => exfalso; rewrite E in F; discriminate F end.
Ltac by_name := repeat match goal with |- context [list_eq_dec Z.eq_dec ?a ?b] => destruct (list_eq_dec Z.eq_dec a b); try clash; try congruence end.
Lemma note_text huff k m : text (note huff k m) = text m ++ texts 78 [k].
Proof.
  unfold note, texts, small_word. cbn [flat_map]. rewrite app_nil_r. cbv zeta. destruct (split0 (c_data k)) as [[w t]|] eqn:S.
  - replace (length w <=? 78)%nat with (length w <? 79)%nat by (destruct (Nat.ltb_spec (length w) 79), (Nat.leb_spec (length w) 78); auto; lia).
    destruct (length w <? 79)%nat; by_name; cbn [text]; rewrite ?app_nil_r; try reflexivity;
    try (destruct (tiff (c_data k)); reflexivity); try (destruct (unz huff (skipn 1 t)); reflexivity).
  - by_name; cbn [text]; rewrite ?app_nil_r; try reflexivity; try (destruct (tiff (c_data k)); reflexivity).
Qed.
Lemma notes_text huff ks : text (notes huff ks no_meta) = texts 78 ks.
Proof. induction ks as [|k ks IH] using rev_ind; [reflexivity|]. rewrite notes_snoc, note_text, IH, texts_snoc. reflexivity. Qed.
Ltac note_tac := unfold note; cbv zeta; by_name; try reflexivity; repeat match goal with |- context [match ?e with _ => _ end] => destruct e end; reflexivity.
Lemma note_gamma huff k m : gamma (note huff k m) = if list_eq_dec Z.eq_dec (c_name k) gAMA then Some (be_val (c_data k)) else gamma m.
Proof. note_tac. Qed.
Lemma notes_gamma huff ks : gamma (notes huff ks no_meta) = gamma_of ks.
Proof.
  unfold gamma_of. induction ks as [|k ks IH] using rev_ind; [reflexivity|]. rewrite notes_snoc, note_gamma, named_snoc. destruct (list_eq_dec Z.eq_dec (c_name k) gAMA); [reflexivity|exact IH].
Qed.
Lemma note_exif huff k m : exif (note huff k m) = if list_eq_dec Z.eq_dec (c_name k) eXIf then if tiff (c_data k) then Some (c_data k) else exif m else exif m.
Proof. note_tac. Qed.
Lemma notes_exif huff ks : exif (notes huff ks no_meta) = exif_of ks.
Proof.
  unfold exif_of. induction ks as [|k ks IH] using rev_ind; [reflexivity|]. rewrite notes_snoc, note_exif, named_snoc. destruct (list_eq_dec Z.eq_dec (c_name k) eXIf); [|exact IH].
  cbn [List.filter]. destruct (tiff (c_data k)); [reflexivity|exact IH].
Qed.
Definition real_time (d : list Z) : Prop := nth 2 d 0 <= 12 /\ nth 3 d 0 <= 31 /\ nth 4 d 0 <= 23 /\ nth 5 d 0 <= 59 /\ nth 6 d 0 <= 60.
Lemma note_time huff k m : chunk_ok k -> (c_name k = tIME -> length (c_data k) = 7%nat /\ real_time (c_data k)) ->
  time (note huff k m) = if list_eq_dec Z.eq_dec (c_name k) tIME then Some (be_val (firstn 2 (c_data k)) :: skipn 2 (c_data k)) else time m.
Proof.
  intros (_ & _ & _ & B & _) R. destruct (list_eq_dec Z.eq_dec (c_name k) tIME) as [N|N].
  - destruct (R N) as [L (R1 & R2 & R3 & R4 & R5)]. unfold note. cbv zeta. by_name. cbn [time].
    destruct (c_data k) as [|y0 [|y1 [|mo [|da [|ho [|mi [|se [|]]]]]]]]; try discriminate L. cbn [nth firstn skipn] in *. unfold bytes in B.
    assert (P : forall z, In z [y0; y1; mo; da; ho; mi; se] -> 0 <= z) by (rewrite Forall_forall in B; intros z Hz; apply B in Hz; unfold is_byte in Hz; lia).
    rewrite !Z.mod_small; [reflexivity|..]; (split; [apply P; cbn; tauto|lia]).
  - note_tac.
Qed.
Lemma notes_time huff ks : Forall chunk_ok ks -> Forall (fun k => c_name k = tIME -> length (c_data k) = 7%nat /\ real_time (c_data k)) ks ->
  time (notes huff ks no_meta) = time_of ks.
Proof.
  unfold time_of. induction ks as [|k ks IH] using rev_ind; [reflexivity|]. intros C F. apply Forall_app in C, F. destruct C as [C Ck], F as [F Fk]. inversion Ck; subst. inversion Fk; subst.
  rewrite notes_snoc, note_time, named_snoc by assumption. destruct (list_eq_dec Z.eq_dec (c_name k) tIME); [reflexivity|auto].
Qed.
(** The text chunks are returned in order with their keywords, those with a keyword of 79 bytes excepted; the last gamma value, time of
    change and Exif data are returned. *)
Theorem png_notes_partial huff anim m o idat ns cs tail :
  image_ok m -> (m_w m <= o_max_w o)%nat -> (m_h m <= o_max_h o)%nat -> lays_out (note_ok huff (strict o)) m idat ns cs -> Forall (fine o) cs ->
  exists s, decode_headers huff anim (new_png o (file_bytes cs tail)) = Ok s /\
    text (mdata s) = texts 78 ns /\ gamma (mdata s) = gamma_of ns /\ exif (mdata s) = exif_of ns /\
    (Forall (fun k => c_name k = tIME -> real_time (c_data k)) ns -> time (mdata s) = time_of ns).
Proof.
  intros Im Lw Lh Lay Fine. destruct (headers_ok huff anim m o Im Lw Lh idat ns cs tail Lay Fine) as (s & E & R & _). exists s. split; [exact E|].
  destruct R as [_ _ Rm _ _ _ _ _ _ _ _]. rewrite Rm. split; [apply notes_text|]. split; [apply notes_gamma|]. split; [apply notes_exif|].
  destruct Lay as (hd & a1 & pl & a2 & tr & a3 & ids & a4 & en & Ecs & Ens & Fn & Fc & _). intros RT. apply notes_time.
  - rewrite Ens. rewrite Ecs in Fc. inversion Fc as [|? ? _ F1]; subst. rewrite !Forall_app in F1. rewrite !Forall_app. tauto.
  - rewrite Forall_forall in *. intros k Hk N. specialize (RT k Hk N). specialize (Fn k Hk). split; [|exact RT]. apply Fn. exact N.
Qed.
Print Assumptions png_notes_partial.
Definition gray1 : image := mkImage 1 1 8 0 false None None.
Definition note_file (ks : list chunk) : list Z := file_bytes ([chunk_of IHDR (ihdr_data gray1)] ++ ks ++ [chunk_of IDAT [120; 1; 1; 2; 0; 253; 255; 0; 9; 0; 11; 0; 10]; chunk_of IEND []]) [].
Definition notes_of (r : res png) : option meta := match r with Ok s => Some (mdata s) | _ => None end.
Example png_notes_case :
  option_map (fun m => (text m, gamma m, time m, exif m))
    (notes_of (decode_headers no_huff no_anim (new_png crc_popts (note_file [chunk_of tEXt [65; 0; 66; 67]; chunk_of gAMA [0; 0; 177; 143];
       chunk_of tIME [7; 232; 2; 29; 23; 59; 60]; chunk_of eXIf [77; 77; 0; 42; 5]; chunk_of tEXt [68; 69; 0]])))) =
  Some ([([65], [66; 67]); ([68; 69], [])], Some 45455, Some [2024; 2; 29; 23; 59; 60], Some [77; 77; 0; 42; 5]).
Proof. vm_compute. reflexivity. Qed.
(** A text with a keyword of 79 bytes, the most PNG allows, is dropped *)
Theorem png_text_refuted : exists w t, length w = 79%nat /\ texts 79 [chunk_of tEXt (w ++ 0 :: t)] = [(w, t)] /\
  option_map text (notes_of (decode_headers no_huff no_anim (new_png crc_popts (note_file [chunk_of tEXt (w ++ 0 :: t)])))) = Some [].
Proof. exists (repeat 65 79), [66]. vm_compute. auto. Qed.
Print Assumptions png_text_refuted.
(** A time outside the calendar is neither returned as it is nor left out: month 14 is returned as month 1 *)
Theorem png_time_refuted :
  time_of [chunk_of tIME [7; 232; 14; 29; 23; 59; 60]] = Some [2024; 14; 29; 23; 59; 60] /\
  option_map time (notes_of (decode_headers no_huff no_anim (new_png crc_popts (note_file [chunk_of tIME [7; 232; 14; 29; 23; 59; 60]])))) =
    Some (Some [2024; 1; 29; 23; 59; 60]).
Proof. vm_compute. auto. Qed.
Print Assumptions png_time_refuted.

(** ** C17 — the header *)
(** What is read is what the file says; sides are positive and within the limits. The animation chunks, not modelled, must leave the header
    alone. *)
Theorem png_header_partial huff anim o data s :
  (forall len name s s', anim len name s = Ok s' -> opts s' = opts s /\ hdr s' = hdr s) ->
  bytes data -> decode_headers huff anim (new_png o data) = Ok s ->
  let d := skipn 16 data in
  exists i, hdr s = Some i /\ Z.of_nat (i_w i) = be_val (firstn 4 d) /\ Z.of_nat (i_h i) = be_val (firstn 4 (skipn 4 d)) /\
    (0 < i_w i <= o_max_w o)%nat /\ (0 < i_h i <= o_max_h o)%nat /\
    Z.of_nat (i_depth i) = nth 8 d 0 /\ In (i_depth i) [1; 2; 4; 8; 16]%nat /\
    nth 9 d 0 = color_int (i_color i) /\ (i_color i = CPalette -> i_depth i <> 16%nat) /\
    nth 10 d 0 = 0 /\ nth 12 d 0 = (if i_adam7 i then 1 else 0) /\
    firstn 16 data = magic ++ [0; 0; 0; 13] ++ IHDR /\ (33 <= length data)%nat.
Proof.
  cbv zeta. intros AK B H. destruct (accepted_header huff anim AK o data s H B) as (L & M & N & i & Hi & (W & Hh & D & P) & (R1 & R2 & R3 & R4 & R5 & R6 & R7)).
  set (d := skipn 16 data) in *. assert (Bd : bytes d) by (unfold d; now apply bytes_skipn').
  assert (Ld : (17 <= length d)%nat) by (unfold d; rewrite skipn_length; lia).
  assert (E : forall n, (n < 13)%nat -> nth n (firstn 13 d) 0 = nth n d 0) by (intros n Hn; now apply nth_firstn).
  rewrite !E in * by lia. rewrite firstn_firstn in R1. change (Nat.min 4 13) with 4%nat in R1. rewrite skipn_firstn_comm, firstn_firstn in R2. change (Nat.min 4 (13 - 4)) with 4%nat in R2.
  assert (Pb : forall l, bytes l -> 0 <= be_val l) by (intros l Hl; apply be_val_bound; exact Hl).
  assert (P1 := Pb _ (bytes_firstn' 4 _ Bd)). assert (P2 := Pb _ (bytes_firstn' 4 _ (bytes_skipn' 4 _ Bd))).
  exists i. split; [exact Hi|]. split; [lia|]. split; [lia|]. split; [exact W|]. split; [exact Hh|]. split.
  { assert (0 <= nth 8 d 0) by (unfold bytes in Bd; rewrite Forall_forall in Bd; assert (In (nth 8 d 0) d) by (apply nth_In; lia); apply Bd in H0; unfold is_byte in H0; lia). lia. }
  split; [exact D|]. split.
  { unfold color_of_int in R4. repeat match type of R4 with (if ?a =? ?b then _ else _) = _ => destruct (Z.eqb_spec a b) as [->|_]; [injection R4 as <-; reflexivity|] end. discriminate R4. }
  split; [exact P|]. split; [exact R5|]. split; [destruct (i_adam7 i); exact R7|]. split; [|exact L].
  rewrite <- (firstn_skipn 8 (firstn 16 data)), firstn_firstn, skipn_firstn_comm. change (Nat.min 8 16) with 8%nat. change (16 - 8)%nat with 8%nat. now rewrite M, N.
Qed.
Print Assumptions png_header_partial.
Definition header_file (hdr : list Z) : list Z :=
  file_bytes [chunk_of IHDR hdr; chunk_of IDAT [120; 1; 1; 2; 0; 253; 255; 0; 9; 0; 11; 0; 10]; chunk_of IEND []] [].
Definition header_of (r : res png) : option info := match r with Ok s => hdr s | _ => None end.
Example png_header_case : header_of (decode_headers no_huff no_anim (new_png crc_popts (header_file [0; 0; 0; 64; 0; 0; 0; 3; 2; 3; 0; 0; 1]))) = Some (mkInfo 64 3 2 CPalette true) /\
  decode_headers no_huff no_anim (new_png crc_popts (header_file [0; 0; 0; 0; 0; 0; 0; 3; 2; 3; 0; 0; 1])) = Err EZeroDim /\
  decode_headers no_huff no_anim (new_png crc_popts (header_file [0; 1; 0; 0; 0; 0; 0; 3; 2; 3; 0; 0; 1])) = Err ELimit.
Proof. vm_compute. auto. Qed.
(** Colour images of one bit a sample, and filter methods that do not exist, are accepted *)
Theorem png_header_refuted :
  header_of (decode_headers no_huff no_anim (new_png crc_popts (header_file [0; 0; 0; 1; 0; 0; 0; 1; 1; 2; 0; 0; 0]))) = Some (mkInfo 1 1 1 CRGB false) /\ ~ In 1%nat (type_depths 2) /\
  header_of (decode_headers no_huff no_anim (new_png crc_popts (header_file [0; 0; 0; 1; 0; 0; 0; 1; 8; 0; 0; 4; 0]))) = Some (mkInfo 1 1 8 CLuma false).
Proof. split; [vm_compute; reflexivity|]. split; [|vm_compute; reflexivity]. cbn. intros [H|[H|[]]]; discriminate H. Qed.
Print Assumptions png_header_refuted.

(** ** C64, C68 — from chunk to chunk; checksums *)
(** If a file made of regular chunks is accepted then the decoder read it chunk by chunk: the compressed data is that of the IDAT chunks in
    order, the source is left at the end of the last header, and when sums are confirmed every one is right. *)
Theorem png_chunks_partial huff anim o hd cs en tail s :
  decode_headers huff anim (new_png o (file_bytes (hd :: cs ++ [en]) tail)) = Ok s ->
  Forall chunk_ok (hd :: cs ++ [en]) -> c_name en = IEND -> bytes tail -> Forall (regular (nth 9 (c_data hd) 0)) cs ->
  fdat s = concat (map (fun k => if list_eq_dec Z.eq_dec (c_name k) IDAT then c_data k else []) cs) /\
  cpos (strm s) = (length (file_bytes (hd :: cs ++ [en]) []) - length (c_data en ++ c_sum en))%nat.
Proof.
  intros H K Ne Bt Rg. destruct (chunks_followed huff anim o hd cs en tail s H K Ne Bt Rg) as (F & P & _). split; [exact F|]. rewrite P.
  unfold file_bytes. rewrite app_nil_r, !app_length. change (length magic) with 8%nat. unfold size.
  assert (c_sum en = c_sum en /\ length (c_sum en) = 4%nat) as [_ ->]. { split; [reflexivity|]. inversion K as [|? ? _ K2]; subst. apply Forall_app in K2. destruct K2 as [_ K2]. inversion K2 as [|? ? K3 _]; subst. apply K3. }
  lia.
Qed.
Print Assumptions png_chunks_partial.
(** A wrong sum in any chunk of such a file is found *)
Theorem png_checksum_partial huff anim o hd cs en tail k :
  o_crc o = true -> Forall chunk_ok (hd :: cs ++ [en]) -> c_name en = IEND -> bytes tail -> Forall (regular (nth 9 (c_data hd) 0)) cs ->
  In k (hd :: cs ++ [en]) -> be_val (c_sum k) <> crc32 (c_name k ++ c_data k) ->
  forall s, decode_headers huff anim (new_png o (file_bytes (hd :: cs ++ [en]) tail)) <> Ok s.
Proof.
  intros C K Ne Bt Rg I N s H. destruct (chunks_followed huff anim o hd cs en tail s H K Ne Bt Rg) as (_ & _ & S). specialize (S C). rewrite Forall_forall in S. exact (N (S k I)).
Qed.
Print Assumptions png_checksum_partial.
Example png_checksum_case :
  decode_headers no_huff no_anim (new_png crc_popts (file_bytes [chunk_of IHDR (ihdr_data gray1); mkChunk tEXt [65; 0; 66] [0; 0; 0; 0]; chunk_of IEND []] [])) = Err EChecksum /\
  option_map (fun s => fdat s) (match decode_headers no_huff no_anim (new_png crc_popts (file_bytes [chunk_of IHDR (ihdr_data gray1); chunk_of IDAT [1; 2]; chunk_of tEXt [65; 0; 66]; chunk_of IDAT []; chunk_of IDAT [3]; chunk_of IEND []] [])) with Ok s => Some s | _ => None end) = Some [1; 2; 3].
Proof. vm_compute. auto. Qed.
(** Chunks longer than expected are not skipped to their end: a text hidden in a transparency chunk of sixteen bytes is read. *)
Theorem png_chunks_refuted : exists k, c_name k = tRNS /\ chunk_ok k /\
  option_map text (notes_of (decode_headers no_huff no_anim (new_png plain_popts (note_file [k])))) = Some [([65], [66; 67])] /\ texts 79 [k] = [].
Proof. exists (chunk_of tRNS ([0; 0; 9; 9; 9; 9] ++ [0; 0; 0; 4] ++ tEXt ++ [65; 0; 66; 67])). split; [reflexivity|]. split; [|vm_compute; auto]. apply chunk_of_ok; [reflexivity|lit_bytes|lit_bytes|vm_compute; reflexivity]. Qed.
Print Assumptions png_chunks_refuted.
(** An end chunk hidden in it ends the file: the chunks after it, here one with a wrong checksum, are not looked at. *)
Theorem png_checksum_refuted : exists hd cs en k s,
  Forall chunk_ok (hd :: cs ++ [en]) /\ c_name en = IEND /\ In k cs /\ be_val (c_sum k) <> crc32 (c_name k ++ c_data k) /\
  decode_headers no_huff no_anim (new_png crc_popts (file_bytes (hd :: cs ++ [en]) [])) = Ok s.
Proof.
  exists (chunk_of IHDR (ihdr_data gray1)), [chunk_of tRNS ([0; 0; 9; 9; 9; 9] ++ [0; 0; 0; 0] ++ IEND ++ [174; 66; 96; 130]); mkChunk tEXt [65; 0; 66] [0; 0; 0; 0]], (chunk_of IEND []), (mkChunk tEXt [65; 0; 66] [0; 0; 0; 0]).
  eexists. split; [|split; [reflexivity|split; [cbn; tauto|split; [vm_compute; discriminate|vm_compute; reflexivity]]]].
  constructor; [|constructor; [|constructor; [|constructor; [|constructor]]]].
  - apply chunk_of_ok; [reflexivity|lit_bytes|change (bytes [0; 0; 0; 1; 0; 0; 0; 1; 8; 0; 0; 0; 0]); lit_bytes|vm_compute; reflexivity].
  - apply chunk_of_ok; [reflexivity|lit_bytes|lit_bytes|vm_compute; reflexivity].
  - split; [reflexivity|]. split; [reflexivity|]. split; [lit_bytes|]. split; [lit_bytes|]. split; [lit_bytes|vm_compute; reflexivity].
  - apply chunk_of_ok; [reflexivity|lit_bytes|constructor|vm_compute; reflexivity].
Qed.
Print Assumptions png_checksum_refuted.
