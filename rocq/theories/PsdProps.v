(** Properties of the PSD decoder *)
From Verif Require Import Base BaseProof Loops Slices F32 DeintModel PsdModel PsdSpec PsdProof.

(** The stored pixels *)
Definition pixels (n : nat) (planes : list (list Z)) : list (list Z) := map (fun p => map (fun plane => nth p plane 0) planes) (seq 0 n).
Lemma interleaved_pixels n planes : interleaved n planes = concat (pixels n planes).
Proof. apply flat_map_concat_map. Qed.
Lemma pixels_length n planes : Forall (fun p => length p = length planes) (pixels n planes).
Proof. unfold pixels. rewrite Forall_map. apply Forall_forall. intros. apply map_length. Qed.
Lemma pixels_bytes n planes : Forall bytes planes -> Forall bytes (pixels n planes).
Proof.
  intros F. unfold pixels. rewrite Forall_map. apply Forall_forall. intros p _. unfold bytes. rewrite Forall_map.
  eapply Forall_impl; [|exact F]. intros pl Hb. destruct (Nat.lt_ge_cases p (length pl)) as [H|H].
  - exact (proj1 (Forall_forall _ _) Hb _ (nth_In _ _ H)).
  - rewrite nth_overflow by exact H. unfold is_byte. lia.
Qed.
Lemma small_of (w h : Z) ch : 1 <= w -> 1 <= h -> 2 * (w * h * Z.of_nat ch + 10) < 2 ^ 63 -> small (Z.to_nat (w * h)) ch.
Proof. intros Hw Hh H. unfold small. assert (Z.of_nat (Z.to_nat (w * h)) = w * h) by (rewrite Z2Nat.id; nia). nia. Qed.

(** * Compressed files *)

(** A PSD file with PackBits compression gives the picture: RGB with or without opacity, and gray pictures with a single channel. Not
    so for gray pictures with more channels, and for CMYK, see below. *)
Theorem psd_rle_partial big o reserved ch h w m colours resources layers counts data planes rest :
  head_ok reserved ch h w colours resources layers -> w <= o_max_w o -> h <= o_max_h o -> 2 * (w * h * ch + 10) < 2 ^ 63 ->
  (m = 3 /\ 3 <= ch) \/ (m = 1 /\ ch = 1) ->
  length planes = Z.to_nat ch -> Forall (fun p => length p = Z.to_nat (w * h)) planes -> Forall bytes planes ->
  length counts = Z.to_nat (2 * h * ch) -> packed_planes data planes ->
  exists px, to_image big o (psd_head reserved ch h w 8 m colours resources layers 1 ++ counts ++ data ++ rest) =
      Ok (Info w h false (if m =? 1 then MGray else MRgb) true (Z.to_nat ch), U8 (concat px)) /\
    Forall2 shown (pixels (Z.to_nat (w * h)) planes) px.
Proof.
  intros Hok Lw Lh Hs Hm Lch Lp Bp Lc Hd. pose proof Hok as (_ & Hch & Hh & Hw & _).
  set (n := Z.to_nat (w * h)) in *.
  assert (En : Z.of_nat n = w * h) by (unfold n; rewrite Z2Nat.id; nia).
  assert (Hi : decode_headers o (psd_head reserved ch h w 8 m colours resources layers 1 ++ counts ++ data ++ rest) =
     Ok (Info w h false (if m =? 1 then MGray else MRgb) true (Z.to_nat ch), counts ++ data ++ rest)).
  { rewrite head_parsed; [|assumption|lia..]. destruct Hm as [(-> & _)|(-> & ->)]; reflexivity. }
  assert (Hr : raw_rle n (Z.to_nat h) (Z.to_nat ch) (counts ++ data ++ rest) = Ok (interleaved n planes)).
  { rewrite <- Lch. apply raw_rle_ok; [lia| |assumption..|].
    - apply small_of; [lia|lia|]. now rewrite Lch, Z2Nat.id by lia.
    - rewrite Lch, Lc. nia. }
  set (px := if 4 <=? ch then map (unmatte_pixel 255) (pixels n planes) else pixels n planes).
  assert (Hx : remove_matte big false (Z.to_nat ch) (interleaved n planes) = concat px).
  { unfold remove_matte, px. rewrite interleaved_pixels. destruct (Z.leb_spec 4 ch) as [H|H].
    - replace (4 <=? Z.to_nat ch)%nat with true by lia. rewrite chunks_exact_of_concat; [reflexivity|lia|].
      eapply Forall_impl; [|apply pixels_length]. intros p E. cbn beta in E. lia.
    - now replace (4 <=? Z.to_nat ch)%nat with false by lia. }
  exists px. split.
  - unfold to_image, decode, decode_raw. rewrite Hi. cbn [bind i_w i_h i_rle i_16 i_ch]. fold n. rewrite Hr. cbn [bind i_w i_h i_rle i_16 i_ch]. rewrite Hx.
    cbn [count].
    replace (Z.of_nat (length (concat px)) =? _) with true; [reflexivity|]. symmetry. apply Z.eqb_eq.
    rewrite <- Hx, (matte_length _ _ _ _ n); [|rewrite interleaved_pixels, (concat_length_const (length planes)) by apply pixels_length; unfold pixels; rewrite map_length, seq_length; lia|lia].
    rewrite interleaved_pixels, (concat_length_const (length planes)) by apply pixels_length. unfold pixels. rewrite map_length, seq_length, Lch.
    rewrite Nat2Z.inj_mul, En, Z2Nat.id by lia. f_equal. unfold colorspace_of. cbn [i_mode i_ch].
    destruct Hm as [(-> & H3)|(-> & ->)]; [|reflexivity]. cbn [Z.eqb Pos.eqb]. destruct (Nat.eqb_spec (Z.to_nat ch) 4); cbn [num_components]; lia.
  - unfold px. destruct (Z.leb_spec 4 ch) as [H|H].
    + pose proof (pixels_length n planes) as PL. pose proof (pixels_bytes n planes Bp) as PB. revert PL PB. generalize (pixels n planes). clear -Lch H Hch.
      induction l as [|p ps IH]; intros PL PB; cbn [map]; [constructor|]. inversion PL as [|x y P1 P2]; subst x y. inversion PB as [|x y B1 B2]; subst x y.
      constructor; [apply unmatte_shown; [assumption|lia]|now apply IH].
    + pose proof (pixels_length n planes) as PL. revert PL. generalize (pixels n planes). clear -Lch H Hch.
      induction l as [|p ps IH]; intros PL; [constructor|]. inversion PL as [|x y P1 P2]; subst x y. constructor; [|now apply IH].
      assert (length p <= 3)%nat by lia. destruct p as [|? [|? [|? [|]]]]; cbn [length] in *; try reflexivity; lia.
Qed.
Print Assumptions psd_rle_partial.
(** 2 x 2 pixels with opacity: runs, literals, packets across rows, packets without effect *)
Example psd_rle_case : let o := Opts 16384 16384 in
  packed_planes [253; 200; 1; 10; 20; 1; 30; 40; 128; 253; 7; 128; 3; 0; 255; 128; 64] [[200; 200; 200; 200]; [10; 20; 30; 40]; [7; 7; 7; 7]; [0; 255; 128; 64]] /\
  to_image false o (psd_head [0; 0; 0; 0; 0; 0] 4 2 2 8 3 [] [1; 2; 3] [9] 1 ++ repeat 0 16 ++
    [253; 200; 1; 10; 20; 1; 30; 40; 128; 253; 7; 128; 3; 0; 255; 128; 64] ++ [77]) =
    Ok (Info 2 2 false MRgb true 4, U8 [200; 10; 7; 0; 200; 20; 7; 255; 145; 0; 0; 128; 35; 0; 0; 64]).
Proof.
  split; [|vm_compute; reflexivity].
  apply (planes_cons [253; 200] [1; 10; 20; 1; 30; 40; 128; 253; 7; 128; 3; 0; 255; 128; 64] [200; 200; 200; 200]); [apply (packs_run 253 200 [] []); [lia|constructor]|].
  apply (planes_cons [1; 10; 20; 1; 30; 40; 128] [253; 7; 128; 3; 0; 255; 128; 64] [10; 20; 30; 40]).
  { apply (packs_literal 1 [10; 20] [1; 30; 40; 128] [30; 40]); [lia|reflexivity|]. apply (packs_literal 1 [30; 40] [128] []); [lia|reflexivity|]. apply packs_noop, packs_nil. }
  apply (planes_cons [253; 7; 128] [3; 0; 255; 128; 64] [7; 7; 7; 7]); [apply (packs_run 253 7 [128] []); [lia|apply packs_noop, packs_nil]|].
  apply (planes_cons [3; 0; 255; 128; 64] [] [0; 255; 128; 64]); [|constructor]. apply (packs_literal 3 [0; 255; 128; 64] [] []); [lia|reflexivity|constructor].
Qed.

(** A gray picture with a second channel (opacity): the decoder takes it for one with a single channel, so half of the table of row lengths
    is read as pixels. *)
Theorem gray_channels_refuted : exists big o reserved ch h w counts data planes,
  head_ok reserved ch h w [] [] [] /\ w <= o_max_w o /\ h <= o_max_h o /\ length planes = Z.to_nat ch /\ Forall (fun p => length p = Z.to_nat (w * h)) planes /\
  length counts = Z.to_nat (2 * h * ch) /\ packed_planes data planes /\
  to_image big o (psd_head reserved ch h w 8 1 [] [] [] 1 ++ counts ++ data) = Ok (Info w h false MGray true 1, U8 [3]) /\ nth 0 planes [] = [200].
Proof.
  exists false, (Opts 16384 16384), [0; 0; 0; 0; 0; 0], 2, 1, 1, [0; 2; 0; 3], [0; 200; 128; 0; 255], [[200]; [255]].
  split; [unfold head_ok; cbn; lia|]. split; [cbn; lia|]. split; [cbn; lia|]. split; [reflexivity|]. split; [repeat constructor|]. split; [reflexivity|].
  split; [|split; [vm_compute; reflexivity|reflexivity]].
  apply (planes_cons [0; 200] [128; 0; 255] [200]); [apply (packs_literal 0 [200] [] []); [lia|reflexivity|constructor]|].
  apply (planes_cons [128; 0; 255] [] [255]); [|constructor]. apply packs_noop, (packs_literal 0 [255] [] []); [lia|reflexivity|constructor].
Qed.
Print Assumptions gray_channels_refuted.

(** The black of a CMYK picture is taken for opacity: the other inks change. *)
Theorem cmyk_refuted : exists big o reserved counts data planes, head_ok reserved 4 1 1 [] [] [] /\ packed_planes data planes /\ length counts = 8%nat /\
  planes = [[250]; [240]; [230]; [100]] /\
  to_image big o (psd_head reserved 4 1 1 8 4 [] [] [] 1 ++ counts ++ data) = Ok (Info 1 1 false MCmyk true 4, U8 [242; 216; 191; 100]).
Proof.
  exists false, (Opts 16384 16384), [0; 0; 0; 0; 0; 0], (repeat 0 8), [0; 250; 0; 240; 0; 230; 0; 100], [[250]; [240]; [230]; [100]].
  split; [unfold head_ok; cbn; lia|]. split; [|split; [reflexivity|split; [reflexivity|vm_compute; reflexivity]]].
  apply (planes_cons [0; 250] [0; 240; 0; 230; 0; 100] [250]); [apply (packs_literal 0 [250] [] []); [lia|reflexivity|constructor]|].
  apply (planes_cons [0; 240] [0; 230; 0; 100] [240]); [apply (packs_literal 0 [240] [] []); [lia|reflexivity|constructor]|].
  apply (planes_cons [0; 230] [0; 100] [230]); [apply (packs_literal 0 [230] [] []); [lia|reflexivity|constructor]|].
  apply (planes_cons [0; 100] [] [100]); [apply (packs_literal 0 [100] [] []); [lia|reflexivity|constructor]|constructor].
Qed.
Print Assumptions cmyk_refuted.

(** * Files without compression *)

(** 8 bits: only gray pictures (whose further channels are left out) *)
Theorem psd_plain_partial big o reserved ch h w colours resources layers plane others :
  head_ok reserved ch h w colours resources layers -> w <= o_max_w o -> h <= o_max_h o -> 2 * (w * h + 10) < 2 ^ 63 -> length plane = Z.to_nat (w * h) ->
  to_image big o (psd_head reserved ch h w 8 1 colours resources layers 0 ++ plane ++ others) = Ok (Info w h false MGray false 1, U8 plane).
Proof.
  intros Hok Lw Lh Hs Lp. pose proof Hok as (_ & Hch & Hh & Hw & _). unfold to_image, decode, decode_raw.
  rewrite head_parsed; [|assumption|lia..]. cbn [Z.eqb Pos.eqb bind i_w i_h i_rle i_16 i_ch].
  rewrite raw8_ok; [|apply small_of; lia|exact Lp]. cbn [bind i_ch i_16 remove_matte Nat.leb count i_w i_h colorspace_of i_mode mode_of num_components Z.eqb Pos.eqb].
  now replace (Z.of_nat (length plane) =? _) with true by nia.
Qed.
Print Assumptions psd_plain_partial.
Example psd_plain_case : to_image false (Opts 100 100) (psd_head [0; 0; 0; 0; 0; 0] 2 2 3 8 1 [] [] [] 0 ++ [1; 2; 3; 4; 5; 6] ++ [9; 9; 9; 9; 9; 9]) =
  Ok (Info 3 2 false MGray false 1, U8 [1; 2; 3; 4; 5; 6]).
Proof. vm_compute. reflexivity. Qed.
(** An RGB picture of 3 pixels: only its first pixel is filled, and with samples of the red channel. *)
Theorem psd_plain_refuted : exists big o reserved ch h w planes, head_ok reserved ch h w [] [] [] /\ w <= o_max_w o /\ h <= o_max_h o /\ length planes = Z.to_nat ch /\
  Forall (fun p => length p = Z.to_nat (w * h)) planes /\ planes = [[1; 2; 3]; [4; 5; 6]; [7; 8; 9]] /\
  to_image big o (psd_head reserved ch h w 8 3 [] [] [] 0 ++ concat planes) = Ok (Info w h false MRgb false 3, U8 [1; 2; 3; 0; 0; 0; 0; 0; 0]).
Proof.
  exists false, (Opts 16384 16384), [0; 0; 0; 0; 0; 0], 3, 1, 3, [[1; 2; 3]; [4; 5; 6]; [7; 8; 9]].
  split; [unfold head_ok; cbn; lia|]. split; [cbn; lia|]. split; [cbn; lia|]. split; [reflexivity|]. split; [repeat constructor|]. split; [reflexivity|vm_compute; reflexivity].
Qed.
Print Assumptions psd_plain_refuted.

(** 16 bits: [decode_raw] gives the samples in the byte order of the machine; [decode] is right on machines with big-endian order only.
    Without opacity. *)
Theorem psd_deep_partial big o reserved ch h w m colours resources layers planes rest :
  head_ok reserved ch h w colours resources layers -> w <= o_max_w o -> h <= o_max_h o -> 2 * (w * h * ch + 10) < 2 ^ 63 ->
  (m = 3 /\ ch = 3) \/ (m = 1 /\ ch = 1) ->
  length planes = Z.to_nat ch -> Forall (fun p => length p = Z.to_nat (w * h)) planes -> Forall (Forall is_u16) planes ->
  let file := psd_head reserved ch h w 16 m colours resources layers 0 ++ flat_map (flat_map (be_bytes 2)) planes ++ rest in
  let i := Info w h true (if m =? 1 then MGray else MRgb) false (Z.to_nat ch) in
  let px := interleaved (Z.to_nat (w * h)) planes in
  decode_raw big o file = Ok (i, flat_map (fun x => if big then be_bytes 2 x else le_bytes 2 x) px) /\
  (big = true -> to_image big o file = Ok (i, U16 px)).
Proof.
  intros Hok Lw Lh Hs Hm Lch Lp Bp file i px. pose proof Hok as (_ & Hch & Hh & Hw & _).
  set (n := Z.to_nat (w * h)) in *.
  assert (En : Z.of_nat n = w * h) by (unfold n; rewrite Z2Nat.id; nia).
  assert (Hi : decode_headers o file = Ok (i, flat_map (flat_map (be_bytes 2)) planes ++ rest)).
  { unfold file. rewrite head_parsed; [|assumption|lia..]. unfold i. destruct Hm as [(-> & _)|(-> & ->)]; reflexivity. }
  assert (Hr : raw16 big n (Z.to_nat ch) (flat_map (flat_map (be_bytes 2)) planes ++ rest) = Ok (flat_map (ne_bytes big) px)).
  { rewrite <- Lch. apply raw16_ok; [lia| |assumption..]. apply small_of; [lia|lia|]. now rewrite Lch, Z2Nat.id by lia. }
  assert (R : decode_raw big o file = Ok (i, flat_map (ne_bytes big) px)).
  { unfold decode_raw. rewrite Hi. cbn [bind i i_w i_h i_rle i_16 i_ch]. fold n. rewrite Hr. cbn [bind]. unfold remove_matte.
    now replace (4 <=? Z.to_nat ch)%nat with false by lia. }
  split; [exact R|]. intros ->. unfold to_image, decode. rewrite R. cbn [bind i i_16].
  assert (E : map be_val (chunks_exact 2 (flat_map (ne_bytes true) px)) = px).
  { rewrite flat_map_concat_map, chunks_exact_of_concat; [|lia|rewrite Forall_map; apply Forall_forall; intros; apply ne_length].
    rewrite map_map. rewrite <- map_id. apply map_ext_in. intros x Ix. cbn [ne_bytes]. apply be_val_be_bytes. change (256 ^ Z.of_nat 2) with 65536.
    unfold px, interleaved in Ix. apply in_flat_map in Ix as (p & Ip & Ix). apply in_map_iff in Ix as (pl & <- & Il). apply in_seq in Ip.
    pose proof (proj1 (Forall_forall _ _) Bp _ Il) as Fp. pose proof (proj1 (Forall_forall _ _) Lp _ Il) as Lpl. cbn beta in Lpl.
    change (is_u16 (nth p pl 0)). apply (proj1 (Forall_forall _ _) Fp). apply nth_In. rewrite Lpl. lia. }
  rewrite E. cbn [count i_w i_h].
  assert (Lx : length px = (n * length planes)%nat).
  { unfold px. rewrite interleaved_pixels, (concat_length_const (length planes)) by apply pixels_length. unfold pixels. now rewrite map_length, seq_length. }
  replace (Z.of_nat (length px) =? _) with true; [reflexivity|]. symmetry. apply Z.eqb_eq. rewrite Lx, Lch, Nat2Z.inj_mul, En, Z2Nat.id by lia. f_equal.
  unfold colorspace_of. cbn [i_mode i_ch]. destruct Hm as [(-> & ->)|(-> & ->)]; reflexivity.
Qed.
Print Assumptions psd_deep_partial.
Example psd_deep_case : let file := psd_head [0; 0; 0; 0; 0; 0] 3 1 2 16 3 [] [] [] 0 ++ [1; 2; 3; 4; 5; 6; 7; 8; 9; 10; 11; 12] in
  decode_raw false (Opts 100 100) file = Ok (Info 2 1 true MRgb false 3, [2; 1; 6; 5; 10; 9; 4; 3; 8; 7; 12; 11]) /\
  to_image true (Opts 100 100) file = Ok (Info 2 1 true MRgb false 3, U16 [258; 1286; 2314; 772; 1800; 2828]).
Proof. split; vm_compute; reflexivity. Qed.
(** On the usual machines the bytes of every sample come out swapped. *)
Theorem psd_deep_refuted : exists o reserved h w planes, head_ok reserved 1 h w [] [] [] /\ w <= o_max_w o /\ h <= o_max_h o /\ planes = [[1; 256]] /\ w * h = 2 /\
  to_image false o (psd_head reserved 1 h w 16 1 [] [] [] 0 ++ flat_map (flat_map (be_bytes 2)) planes) = Ok (Info w h true MGray false 1, U16 [256; 1]).
Proof.
  exists (Opts 16384 16384), [0; 0; 0; 0; 0; 0], 1, 2, [[1; 256]].
  split; [unfold head_ok; cbn; lia|]. split; [cbn; lia|]. split; [cbn; lia|]. split; [reflexivity|]. split; [reflexivity|vm_compute; reflexivity].
Qed.
Print Assumptions psd_deep_refuted.

(** * Any bytes *)

(** Whatever the file, zune-psd fails or returns a picture within the limits, with the samples of all its channels. *)
Theorem psd_total big o file : bytes file -> 2 * (o_max_w o * o_max_h o * 4 + 10) < 2 ^ 63 ->
  match decode big o file with
  | Ok (i, s) => 1 <= i_w i <= o_max_w o /\ 1 <= i_h i <= o_max_h o /\ (1 <= i_ch i <= 4)%nat /\ Z.of_nat (count s) = i_w i * i_h i * Z.of_nat (i_ch i)
  | Err _ => True
  | _ => False
  end.
Proof. intros B Ho. pose proof (decode_safe big o file B Ho) as H. now destruct (decode big o file) as [(i, s)| | |]. Qed.
Print Assumptions psd_total.
(** zune-image: no panic if the number of channels is that of the colours *)
Theorem psd_image_total_partial big o file : bytes file -> 2 * (o_max_w o * o_max_h o * 4 + 10) < 2 ^ 63 ->
  (forall i s, decode big o file = Ok (i, s) -> i_ch i = num_components (colorspace_of i)) -> total (to_image big o file).
Proof.
  intros B Ho Hc. pose proof (decode_safe big o file B Ho) as H. unfold to_image. destruct (decode big o file) as [(i, s)| | |]; cbn in *; try easy.
  destruct H as (_ & _ & _ & H). rewrite <- (Hc i s eq_refl), H, Z.eqb_refl. easy.
Qed.
Print Assumptions psd_image_total_partial.
Example psd_total_case : bytes ([56; 66; 80; 83; 0; 1] ++ repeat 7 200) /\ decode false (Opts 16384 16384) ([56; 66; 80; 83; 0; 1] ++ repeat 7 200) = Err EOther /\
  2 * (16384 * 16384 * 4 + 10) < 2 ^ 63 /\
  decode false (Opts 16384 16384) (psd_head [0; 0; 0; 0; 0; 0] 3 1 2 8 3 [] [] [] 1) = Ok (Info 2 1 false MRgb true 3, U8 [0; 0; 0; 0; 0; 0]).
Proof.
  split; [|split; [vm_compute; reflexivity|split; [reflexivity|vm_compute; reflexivity]]]. unfold bytes. rewrite Forall_app. split; [repeat constructor; unfold is_byte; lia|].
  apply Forall_forall. intros x I. apply repeat_spec in I as ->. unfold is_byte. lia.
Qed.
(** An RGB file that announces one channel *)
Theorem psd_image_refuted : exists big o file, bytes file /\ 2 * (o_max_w o * o_max_h o * 4 + 10) < 2 ^ 63 /\ to_image big o file = Panic.
Proof.
  exists false, (Opts 16384 16384), (psd_head [0; 0; 0; 0; 0; 0] 1 1 1 8 3 [] [] [] 0 ++ [5]).
  split; [apply Forall_forall; intros x I; assert (H : forallb (fun x => (0 <=? x) && (x <? 256)) (psd_head [0; 0; 0; 0; 0; 0] 1 1 1 8 3 [] [] [] 0 ++ [5]) = true) by (vm_compute; reflexivity);
    rewrite forallb_forall in H; specialize (H x I); unfold is_byte; lia|]. split; [cbn; lia|vm_compute; reflexivity].
Qed.
Print Assumptions psd_image_refuted.

(** * Opacity *)

(** A colour stored over white comes back: with opacity [a] the error is at most half a unit of the stored colour, divided by the
    opacity, and a unit for rounding. *)
Theorem psd_matte c a : is_byte c -> 1 <= a <= 254 ->
  match unmatte_pixel 255 [over_white c a; over_white c a; over_white c a; a] with
  | [x; y; z; a'] => x = y /\ y = z /\ a' = a /\ 2 * a * Z.abs (x - c) <= 255 + 2 * a
  | _ => False
  end.
Proof.
  intros Hc Ha. cbn [unmatte_pixel]. replace (negb (a =? 0) && negb (a =? 255)) with true by lia.
  set (p := over_white c a). unfold is_byte in Hc.
  assert (Hp : 510 * p <= 2 * (c * a + 255 * (255 - a)) + 255 < 510 * p + 510).
  { unfold p, over_white. pose proof (Z.div_mod (2 * (c * a + 255 * (255 - a)) + 255) 510 ltac:(lia)). pose proof (Z.mod_pos_bound (2 * (c * a + 255 * (255 - a)) + 255) 510 ltac:(lia)). lia. }
  assert (Bp : is_byte p). { unfold is_byte. split; [|]; nia. }
  destruct (unmatte_straight a p Ha Bp) as (Hx & Hs). set (x := unmatte 255 a p) in *.
  repeat (split; [reflexivity|]).
  assert (H1 : 2 * Z.abs (a * (x - c)) <= 2 * a + 255).
  { assert (0 <= c * a) by nia. assert (E : a * (x - c) = a * x - a * c) by ring. rewrite E. lia. }
  rewrite Z.abs_mul, (Z.abs_eq a) in H1 by lia. lia.
Qed.
Print Assumptions psd_matte.
Example psd_matte_case : over_white 100 128 = 177 /\ unmatte_pixel 255 [177; 177; 177; 128] = [99; 99; 99; 128].
Proof. split; vm_compute; reflexivity. Qed.
