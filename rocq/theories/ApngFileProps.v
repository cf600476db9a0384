(** Animated PNG files: the frames the decoder gives, and the canvases of zune-image's reader. Huffman blocks ([huff]) are
    arbitrary; with the library's own decoder see [apng_huffman_frames_partial]. *)
From Verif Require Import Base BaseProof Loops Slices BitReaderProof StreamModel StreamSpec StreamProof CrcModel CrcSpec PngFilterModel PngFilterSpec
  InflateModel InflateSpec InflateProps HuffModel HuffSpec HuffProps PngRowModel PngSpec PngRowProof.
From Verif Require F32 ToneModel.
From Verif Require Import DeintModel ApngModel ApngSpec ApngProof ApngProps PngModel PngFileSpec PngChunkProof PngNoteProof PngLoopProof PngInterProof PngFileProof PngDecodeProof PngEncodeProof PngProps PngHuffProps
  ApngFileModel ApngFileSpec ApngFileProof ApngFrameProof ApngPlayProof.

(** An animation [cs] of the frames [all_frames m first idat later] with pixels [pxs], within what the decoder fulfils *)
Record readable (huff : Z -> dstate -> res dstate) (o : popts) (m : image) (first : option frame) (idat : list Z) (later : list (frame * list Z))
  (pxs : list (nat -> nat -> list Z)) (cs : list chunk) : Prop := mkReadable {
  rd_image : image_ok m; rd_plain : plain (o_alpha o) m; rd_w : (m_w m <= o_max_w o)%nat; rd_h : (m_h m <= o_max_h o)%nat;
  rd_mem : Z.of_nat (m_w m) * Z.of_nat (m_h m) * 8 < 2 ^ 64;
  rd_first : match first with Some f => frame_ok m f | None => True end; rd_later : Forall (fun fz => frame_ok m (fst fz)) later;
  rd_layout : animates (anote huff (strict o)) m first idat later cs; rd_fine : Forall (fine o) cs;
  rd_coded : Forall2 (frame_coded huff m o) (all_frames m first idat later) pxs
}.
(** The frames with their pixels *)
Definition frame_pictures (o : popts) (m : image) (first : option frame) (idat : list Z) (later : list (frame * list Z)) (pxs : list (nat -> nat -> list Z)) : list (frame * list Z) :=
  map (fun q => (fst (fst q), picture (image_look (o_alpha o) m) (f_w (fst (fst q))) (f_h (fst (fst q))) (snd q))) (combine (all_frames m first idat later) pxs).

Lemma groups_short (P : chunk -> Prop) (later : list (frame * list Z)) groups : Forall2 (fun fz g => frame_chunks P (fst fz) (snd fz) g) later groups -> (length later <= length (concat groups))%nat.
Proof. induction 1 as [|fz g later groups (k & fds & ns & -> & _) _ IH]; [cbn; lia|]. cbn [concat length]. rewrite app_length. cbn [length]. lia. Qed.
Lemma readable_start huff o m first idat later pxs cs tail : readable huff o m first idat later pxs cs ->
  exists groups en a n, adecode_headers huff (new_apng o (file_bytes cs tail)) = Ok a /\ inv m o first idat later groups en tail n a /\ current (base a) = 0%nat /\ opts (base a) = o /\
    Forall2 (fun fz g => frame_chunks (anote huff (strict o)) (fst fz) (snd fz) g) later groups /\ Forall (Forall (fine o)) groups /\ is_chunk en IEND [] /\ fine o en /\
    (length (all_frames m first idat later) < S (S (length (file_bytes cs tail))))%nat.
Proof.
  intros [Om Pl Lw Lh Me Hf Hl (hd & a1 & pl & a2 & tr & a3 & fc & a4 & ids & a5 & groups & en & Ecs & Cok & Hhd & Hpl & Htr & Nt & Ex & Nt2 & Hfc & Fi & Ni & Hi & Hg & Ha & Hen) Ff Hx].
  assert (E2 : cs = (hd :: a1 ++ pl ++ a2 ++ tr ++ a3) ++ fc ++ a4 ++ ids ++ a5 ++ concat groups ++ [en]) by (rewrite Ecs; cbn [app]; rewrite <- !app_assoc; reflexivity).
  assert (E3 : cs = ((hd :: a1 ++ pl ++ a2 ++ tr ++ a3) ++ fc ++ a4 ++ ids ++ a5) ++ concat groups ++ [en]) by (rewrite Ecs; cbn [app]; rewrite <- !app_assoc; reflexivity).
  rewrite E3 in Ff. apply Forall_app in Ff. destruct Ff as [F1 F2]. apply Forall_app in F2. destruct F2 as [F2 F3].
  assert (Gf : Forall (Forall (fine o)) groups). { apply Forall_forall. intros g Ig. apply Forall_forall. intros k Ik. rewrite Forall_forall in F2. apply F2, in_concat. exists g. auto. }
  assert (Ef : fine o en) by (now inversion F3).
  exists groups, en. rewrite E2. destruct (start_ok huff m o Om Lw Lh first idat later groups en tail) with (hd := hd) (a1 := a1) (pl := pl) (a2 := a2) (tr := tr) (a3 := a3) (fc := fc) (a4 := a4) (ids := ids) (a5 := a5) as (a & n & E & I & C & O & _); auto.
  exists a, n. split; [exact E|]. split; [exact I|]. do 6 (split; [assumption|]). rewrite <- E2.
  assert (LC : (length cs <= length (file_bytes cs tail))%nat).
  { unfold file_bytes. rewrite !app_length. pose proof (chunks_ge cs Cok) as G. unfold size in G. lia. }
  pose proof (groups_short _ _ _ Hg) as GS. rewrite E3 in LC at 1. rewrite !app_length in LC. cbn [length] in LC. unfold all_frames. cbn [length]. lia.
Qed.

(** ** The frames *)
(** Reading an animation frame by frame, as the documentation shows, gives every frame of the file once and in order: its
    description, and its pixels — [decode_raw] in the byte order asked for, [decode] as numbers, followed by zeros up to the size of
    the image. Ancillary chunks may stand anywhere but between a control chunk and its data. Missing for the full claim: sixteen
    bits reduced to eight, interlaced frames narrower than the image, and chunks before the data of a frame (all refuted below),
    and the requests excluded by [plain]. *)
Theorem apng_frames_partial huff o m first idat later pxs cs tail : readable huff o m first idat later pxs cs -> o_strip o && (m_depth m =? 16)%nat = false ->
  let frames := frame_pictures o m first idat later pxs in
  animation huff (adecode_raw huff) o (file_bytes cs tail) = Ok (map (fun p => (fst p, if (m_depth m =? 16)%nat && o_little o then swapped (snd p) else snd p)) frames) /\
  animation huff (adecode huff) o (file_bytes cs tail) =
    Ok (map (fun p => let padded := snd p ++ repeat 0 (byte_len m o - length (snd p)) in (fst p, if (m_depth m =? 16)%nat then U16s (pairs padded) else U8s padded)) frames).
Proof.
  intros R St. destruct (readable_start huff o m first idat later pxs cs tail R) as (groups & en & a & n & E & I & C & O & Hg & Gf & Hen & Ef & Lf).
  destruct R as [Om Pl Lw Lh Me Hf Hl _ Ff Hx]. pose proof (iv_range _ _ _ _ _ _ _ _ _ _ I) as RN. cbv zeta. unfold animation. rewrite E. cbn [bind].
  assert (G1 : (current (base a) < n \/ n = length (all_frames m first idat later))%nat) by (rewrite C; lia).
  assert (G2 : (length (all_frames m first idat later) - current (base a) < S (S (length (file_bytes cs tail))))%nat) by (rewrite C, Nat.sub_0_r; exact Lf).
  split.
  - rewrite (raw_loop huff m o Om Pl Lw Lh Me St first idat later groups en tail Hf Hl Hg Gf Hen Ef pxs Hx _ n a I O G1 G2). rewrite C. cbn [skipn]. unfold frame_pictures. rewrite map_map. f_equal.
  - rewrite (dec_loop huff m o Om Pl Lw Lh Me St first idat later groups en tail Hf Hl Hg Gf Hen Ef pxs Hx _ n a I G1 G2). rewrite C. cbn [skipn]. unfold frame_pictures. rewrite map_map. f_equal.
    apply map_ext_in. intros [[f z] px] Hin. cbn [fst snd].
    assert (L : length (fpic m o f px) = flen m o f).
    { pose proof (all_within m Om first idat later Hf Hl) as W. rewrite Forall_forall in W. pose proof (in_combine_l _ _ _ _ Hin) as Il. apply (fpic_length huff m o Om Pl f z); [|exact (W _ Il)].
      clear - Hx Hin. revert Hin. generalize dependent (all_frames m first idat later). intros l. induction 1 as [|x y l l' H _ IH]; cbn [combine In]; [easy|]. intros [Q|Q]; [injection Q as -> ->; exact H|exact (IH Q)]. }
    unfold numbers, padded. rewrite <- L. reflexivity.
Qed.
Print Assumptions apng_frames_partial.

(** ** With the library's own decompression *)
(** The same for files whose frames are any valid zlib streams (C61, C70) with their checksums. *)
Theorem apng_huffman_frames_partial o m first idat later pxs ds cs tail :
  image_ok m -> plain (o_alpha o) m -> (m_w m <= o_max_w o)%nat -> (m_h m <= o_max_h o)%nat -> Z.of_nat (m_w m) * Z.of_nat (m_h m) * 8 < 2 ^ 64 ->
  match first with Some f => frame_ok m f | None => True end -> Forall (fun fz => frame_ok m (fst fz)) later ->
  animates (anote (png_huff m o) (strict o)) m first idat later cs -> Forall (fine o) cs ->
  Forall2 (fun fz d => exists cmf flg bs, snd fz = cmf :: flg :: bs ++ be_bytes 4 (adler32 d) /\ zlib_header_ok cmf flg /\ deflate_stream 45 bs d /\
    (length d <= o_limit (inflate_opts m o))%nat) (all_frames m first idat later) ds ->
  Forall2 (fun fz q => coded (m_adam7 m) (m_depth m) (type_comps (m_type m)) (f_w (fst fz)) (f_h (fst fz)) (fst q) (snd q) /\ (m_adam7 m = true -> f_w (fst fz) = m_w m))
    (all_frames m first idat later) (combine pxs ds) -> length pxs = length ds ->
  o_strip o && (m_depth m =? 16)%nat = false ->
  animation (png_huff m o) (adecode_raw (png_huff m o)) o (file_bytes cs tail) =
    Ok (map (fun p => (fst p, if (m_depth m =? 16)%nat && o_little o then swapped (snd p) else snd p)) (frame_pictures o m first idat later pxs)).
Proof.
  intros Om Pl Lw Lh Me Hf Hl Lay Ff Hd Hc Ll St. apply apng_frames_partial; [|exact St]. constructor; auto.
  clear - Hd Hc Ll. revert pxs Hc Ll. induction Hd as [|fz d l ds (cmf & flg & bs & Ez & Hh & Ds & Ld) _ IH]; intros pxs Hc Ll.
  - destruct pxs; [constructor|discriminate].
  - destruct pxs as [|px pxs]; [discriminate|]. cbn [combine] in Hc. inversion Hc as [|? ? ? ? [Hc1 Hc2] Hc3]; subst. constructor; [|apply IH; [exact Hc3|cbn in Ll; lia]].
    exists d. split; [|split; [exact Hc1|exact Hc2]]. rewrite Ez. rewrite <- (app_nil_r (be_bytes 4 (adler32 d))). apply zlib_decodes_partial; [exact Hh|exact Ds|constructor|exact Ld].
Qed.
Print Assumptions apng_huffman_frames_partial.

(** ** The canvases of zune-image's reader *)
Definition same_canvas (w h : nat) (c c' : canvas) : Prop := forall x y, (x < w)%nat -> (y < h)%nat -> c x y = c' x y.
Lemma pixel_prefix w h nc l z x y : length l = (w * h * nc)%nat -> (x < w)%nat -> (y < h)%nat -> pixel w nc (l ++ z) x y = pixel w nc l x y.
Proof.
  intros L Hx Hy. unfold pixel. assert (B : ((y * w + x) * nc + nc <= length l)%nat) by (rewrite L; assert ((y * w + x + 1 <= w * h)%nat) by nia; clear - H; nia).
  apply (list_eq_nth 0); [rewrite !slice_length by (rewrite ?app_length; lia); reflexivity|]. intros k Hk. rewrite slice_length in Hk by (rewrite app_length; lia).
  rewrite !slice_nth by exact Hk. apply app_nth1. lia.
Qed.
(** Bytes behind the pixels of a frame do not matter *)
Lemma shown_prefix over w h nc (pad : frame * list Z -> list Z) frames : Forall (fun p => length (snd p) = (f_w (fst p) * f_h (fst p) * nc)%nat) frames ->
  forall first c c', same_canvas w h c c' ->
  Forall2 (same_canvas w h) (shown over nc first (map (fun p => (fst p, snd p ++ pad p)) frames) c) (shown over nc first frames c').
Proof.
  induction 1 as [|[f px] frames L _ IH]; intros first c c' Hc; cbn [map shown]; [constructor|]. cbn [fst snd] in *.
  assert (D : same_canvas w h (ApngSpec.drawn over nc f (px ++ pad (f, px)) c) (ApngSpec.drawn over nc f px c')).
  { intros x y Hx Hy. unfold ApngSpec.drawn. destruct (inside f x y) eqn:E; [|now apply Hc]. unfold inside in E. rewrite !andb_true_iff, !Nat.leb_le, !Nat.ltb_lt in E.
    rewrite (pixel_prefix _ (f_h f)) by (auto; lia). destruct (f_blend f); [reflexivity|]. f_equal. now apply Hc. }
  constructor; [exact D|]. apply IH. intros x y Hx Hy. unfold disposed. destruct (inside f x y); [|now apply D]. destruct (f_dispose f); [now apply D|reflexivity|]. destruct first; [reflexivity|now apply Hc].
Qed.
Lemma holds_same w h nc outs : forall cs cs', Forall2 (holds_canvas w h nc) outs cs -> Forall2 (same_canvas w h) cs cs' -> Forall2 (holds_canvas w h nc) outs cs'.
Proof.
  induction outs as [|o outs IH]; intros cs cs' H S; inversion H; subst; inversion S; subst; constructor; [|eapply IH; eauto].
  match goal with A : holds_canvas _ _ _ _ _, B : same_canvas _ _ _ _ |- _ => destruct A as [A1 A2]; split; [exact A1|]; intros x q Hx Hq; rewrite A2 by assumption; now apply B end.
Qed.
Lemma space_comps x : (1 <= out_comps x <= 4)%nat -> num_components (out_space x) = out_comps x.
Proof. intros H. unfold out_space. destruct (out_comps x) as [|[|[|[|[|?]]]]]; try lia; reflexivity. Qed.
Lemma out_comps_pos x : (1 <= out_comps x)%nat.
Proof. unfold out_comps. destruct (col x); cbn; repeat match goal with |- context [if ?b then _ else _] => destruct b end; cbn; lia. Qed.

(** zune-image reads such a file, if the image of the IDAT chunks is the first frame and the frames replace what is below them and
    stay, as the canvases the specification asks for. Missing for the full claim: default images apart from the animation, sixteen
    bits, the other dispose operations (refuted below), blending (C109) and the rest of [apng_frames_partial]. *)
Theorem apng_codec_partial huff powf over o m f0 idat later pxs cs tail : readable huff o m (Some f0) idat later pxs cs -> m_depth m <> 16%nat ->
  Forall (fun f => f_blend f = BSource /\ f_dispose f = DNone) (f0 :: map fst later) ->
  exists nc outs, codec huff powf o true (file_bytes cs tail) = Ok (Some outs) /\
    Forall (fun p => length (snd p) = (f_w (fst p) * f_h (fst p) * nc)%nat) (frame_pictures o m (Some f0) idat later pxs) /\
    Forall2 (holds_canvas (m_w m) (m_h m) nc) outs (shown over nc true (frame_pictures o m (Some f0) idat later pxs) (blank nc)).
Proof.
  intros R Dm Sm. destruct (readable_start huff o m (Some f0) idat later pxs cs tail R) as (groups & en & a & n & E & I & C & O & Hg & Gf & Hen & Ef & Lf).
  destruct R as [Om Pl Lw Lh Me Hf Hl _ Ff Hx]. pose proof (iv_range _ _ _ _ _ _ _ _ _ _ I) as RN. pose proof (iv_core _ _ _ _ _ _ _ _ _ _ I) as Co.
  assert (St : o_strip o && (m_depth m =? 16)%nat = false) by (rewrite (proj2 (Nat.eqb_neq _ _) Dm); apply andb_false_r).
  unfold codec. rewrite E. cbn [bind]. assert (Hd : hdr (base a) = Some (info_of m)) by apply Co. rewrite Hd, (pix_core m o _ Co).
  set (nc := out_comps (pix_m m o)). assert (Nn : num_components (out_space (pix_m m o)) = nc) by (apply space_comps; split; [apply out_comps_pos|apply out_comps_le]).
  assert (Mf : more_frames a = true) by (rewrite (more_ok m o (Some f0) idat later groups en tail n a I), C; apply Nat.ltb_lt; lia). rewrite Mf. cbn [andb i_w i_h info_of].
  assert (G1 : (current (base a) < n \/ n = length (all_frames m (Some f0) idat later))%nat) by (rewrite C; lia).
  assert (G2 : (length (all_frames m (Some f0) idat later) - current (base a) < S (S (length (file_bytes cs tail))))%nat) by (rewrite C, Nat.sub_0_r; exact Lf).
  rewrite (codec_ok huff m o Om Pl Lw Lh Me St (Some f0) idat later groups en tail Hf Hl Hg Gf Hen Ef pxs Hx powf (out_space (pix_m m o)) Dm _ n a _ None I G1 G2). rewrite C. cbn [skipn].
  set (fp := frame_pictures o m (Some f0) idat later pxs).
  assert (Hin : forall q, In q (combine (all_frames m (Some f0) idat later) pxs) -> within (m_w m) (m_h m) (fst (fst q)) /\ length (fpic m o (fst (fst q)) (snd q)) = (f_w (fst (fst q)) * f_h (fst (fst q)) * nc)%nat /\
     f_blend (fst (fst q)) = BSource /\ f_dispose (fst (fst q)) = DNone).
  { intros [[f z] px] Hq. cbn [fst snd]. pose proof (in_combine_l _ _ _ _ Hq) as Il. pose proof (all_within m Om (Some f0) idat later Hf Hl) as W. rewrite Forall_forall in W. specialize (W _ Il). cbn [fst] in W.
    split; [exact W|]. split.
    - rewrite (fpic_length huff m o Om Pl f z px); [|clear - Hx Hq|exact W].
      + unfold flen, frame_size, sample_bytes. cbn [depth pix_m]. rewrite (proj2 (Nat.eqb_neq _ _) Dm). lia.
      + revert Hq. generalize dependent (all_frames m (Some f0) idat later). intros l. induction 1 as [|x y l l' H _ IH]; cbn [combine In]; [easy|]. intros [Q|Q]; [injection Q as -> ->; exact H|exact (IH Q)].
    - rewrite Forall_forall in Sm. apply Sm. apply (in_map fst) in Il. exact Il. }
  assert (EF : map (fun q => (no_previous (fst (fst q)), padded m o (fst (fst q)) (snd q))) (combine (all_frames m (Some f0) idat later) pxs) = map (fun p => (fst p, snd p ++ repeat 0 (byte_len m o - flen m o (fst p)))) fp).
  { unfold fp, frame_pictures. rewrite map_map. apply map_ext_in. intros q Hq. destruct (Hin q Hq) as (_ & _ & _ & Dn). cbn [fst snd]. unfold no_previous. rewrite Dn. reflexivity. }
  rewrite EF. rewrite <- Nn in *.
  assert (FP : Forall (fun p => within (m_w m) (m_h m) (fst p) /\ length (snd p) = (f_w (fst p) * f_h (fst p) * num_components (out_space (pix_m m o)))%nat /\ f_blend (fst p) = BSource /\ f_dispose (fst p) = DNone) fp).
  { unfold fp, frame_pictures. apply Forall_map, Forall_forall. intros q Hq. cbn [fst snd]. exact (Hin q Hq). }
  destruct (apng_source_partial powf over (m_w m) (m_h m) (out_space (pix_m m o)) None (map (fun p => (fst p, snd p ++ repeat 0 (byte_len m o - flen m o (fst p)))) fp)) as (outs & Ep & Hs).
  { rewrite Nn. apply out_comps_pos. }
  { apply Forall_map. eapply Forall_impl; [|exact FP]. intros p (A & B & D & F). cbn [fst snd]. split; [exact A|]. split; [exact D|]. split; [exact F|]. rewrite app_length, B. lia. }
  rewrite Ep. cbn [bind]. exists (num_components (out_space (pix_m m o))), outs. split; [reflexivity|].
  split; [eapply Forall_impl; [|exact FP]; intros p (_ & B & _); exact B|].
  eapply holds_same; [exact Hs|]. apply (shown_prefix over (m_w m) (m_h m) _ (fun p => repeat 0 (byte_len m o - flen m o (fst p)))); [|intros x y _ _; reflexivity].
  eapply Forall_impl; [|exact FP]. intros p (_ & B & _). exact B.
Qed.
Print Assumptions apng_codec_partial.

(** ** A file *)
Definition zl (rows : list (list Z)) : list Z := match encode_zlib (concat (map (fun r => 0 :: r) rows)) with Ok z => z | _ => [] end.
(** A gray image of 3 by 2 pixels and a frame of 2 by 1 in its corner; ancillary chunks in between, the data of the second frame in
    two chunks, checksums verified *)
Definition two : image := mkImage 3 2 8 0 false None None.
Definition two_first : frame := mkFrame 0 3 2 0 0 1 10 DNone BSource true.
Definition two_second : frame := mkFrame 1 2 1 1 1 1 10 DNone BSource true.
Definition two_rows : list (list Z) := [[1; 2; 3]; [4; 5; 6]].
Definition two_more : list (list Z) := [[7; 8]].
Definition two_chunks : list chunk :=
  [chunk_of IHDR (ihdr_data two); chunk_of gAMA [0; 0; 1; 2]; chunk_of acTL [0; 0; 0; 2; 0; 0; 0; 0]; chunk_of fcTL (fctl_data two_first); chunk_of tEXt [65; 66; 0; 67];
   chunk_of IDAT (zl two_rows); chunk_of [113; 113; 113; 113] [1; 2; 3]; chunk_of fcTL (fctl_data two_second); chunk_of fdAT ([0; 0; 0; 2] ++ firstn 5 (zl two_more));
   chunk_of fdAT ([0; 0; 0; 3] ++ skipn 5 (zl two_more)); chunk_of tEXt [65; 0; 67]; chunk_of IEND []].
Lemma chunk_fine o n d : length n = 4%nat -> bytes n -> bytes d -> Z.of_nat (length d) + 4 <= peek_cap -> fine o (chunk_of n d).
Proof. intros Ln Bn Bd Ld. assert (Cap : peek_cap = 20971520) by reflexivity. destruct (chunk_of_ok n d Ln Bn Bd) as [A B]; [lia|]. split; [exact A|]. intros _. split; [exact B|exact Ld]. Qed.
Ltac small_bytes := match goal with |- bytes ?l => let l' := eval vm_compute in l in change l with l' end; unfold bytes; repeat (apply Forall_cons; [unfold is_byte; lia|]); apply Forall_nil.
Ltac fine_chunks := repeat (apply Forall_cons; [apply chunk_fine; [reflexivity|small_bytes|small_bytes|vm_compute; discriminate]|]); apply Forall_nil.
Ltac a_note := split; [unfold note_ok, ancillary; cbn [c_name c_data chunk_of nth]; repeat match goal with |- _ /\ _ => split end;
  first [lia|discriminate|let Q := fresh in intros Q; first [discriminate Q|exfalso; repeat (destruct Q as [Q|Q]; [discriminate Q|]); exact Q|reflexivity|vm_compute; discriminate]]|discriminate].
Ltac frame_tac := unfold frame_ok, within; cbn; repeat split; lia.
Example apng_frames_case :
  readable no_huff crc_popts two (Some two_first) (zl two_rows) [(two_second, zl two_more)] [rows_px two two_rows; rows_px two two_more] two_chunks /\
  animation no_huff (adecode_raw no_huff) crc_popts (file_bytes two_chunks [9]) = Ok [(two_first, [1; 2; 3; 4; 5; 6]); (two_second, [7; 8])] /\
  animation no_huff (adecode no_huff) crc_popts (file_bytes two_chunks [9]) = Ok [(two_first, U8s [1; 2; 3; 4; 5; 6]); (two_second, U8s [7; 8; 0; 0; 0; 0])] /\
  (forall powf, codec no_huff powf crc_popts true (file_bytes two_chunks [9]) = Ok (Some [[1; 2; 3; 4; 5; 6]; [1; 2; 3; 4; 7; 8]])).
Proof.
  assert (FF : Forall (fine crc_popts) two_chunks) by fine_chunks.
  split; [|split; [vm_compute; reflexivity|split; [vm_compute; reflexivity|intros powf; vm_compute; reflexivity]]].
  constructor.
  - unfold image_ok. cbn. repeat split; try lia; try discriminate; try tauto.
  - split; cbn; congruence.
  - cbn. lia.
  - cbn. lia.
  - cbn. lia.
  - frame_tac.
  - constructor; [|constructor]. cbn [fst]. frame_tac.
  - exists (chunk_of IHDR (ihdr_data two)), [chunk_of gAMA [0; 0; 1; 2]; chunk_of acTL [0; 0; 0; 2; 0; 0; 0; 0]], [], [], [], [], [chunk_of fcTL (fctl_data two_first)], [chunk_of tEXt [65; 66; 0; 67]],
      [chunk_of IDAT (zl two_rows)], [chunk_of [113; 113; 113; 113] [1; 2; 3]],
      [[chunk_of fcTL (fctl_data two_second); chunk_of fdAT ([0; 0; 0; 2] ++ firstn 5 (zl two_more)); chunk_of fdAT ([0; 0; 0; 3] ++ skipn 5 (zl two_more)); chunk_of tEXt [65; 0; 67]]], (chunk_of IEND []).
    split; [reflexivity|]. split; [eapply Forall_impl; [|exact FF]; intros k [H _]; exact H|]. split; [split; reflexivity|]. split; [reflexivity|]. split; [reflexivity|].
    split. { cbn [app]. constructor; [left; a_note|]. constructor; [right; split; reflexivity|constructor]. }
    split. { cbn [app]. apply Exists_cons_tl, Exists_cons_hd. split; reflexivity. }
    split. { cbn [app]. constructor; [a_note|]. constructor; [a_note|constructor]. }
    split. { eexists. split; [reflexivity|split; reflexivity]. }
    split; [repeat constructor|]. split; [discriminate|]. split; [apply app_nil_r|].
    split. { constructor; [|constructor]. exists (chunk_of fcTL (fctl_data two_second)), [chunk_of fdAT ([0; 0; 0; 2] ++ firstn 5 (zl two_more)); chunk_of fdAT ([0; 0; 0; 3] ++ skipn 5 (zl two_more))], [chunk_of tEXt [65; 0; 67]].
      split; [reflexivity|]. split; [split; reflexivity|]. split; [discriminate|]. split; [repeat constructor; cbn [chunk_of c_data app length]; lia|]. split; [reflexivity|]. constructor; [a_note|constructor]. }
    split; [left; discriminate|split; reflexivity].
  - exact FF.
  - constructor; [|constructor; [|constructor]].
    + exists (concat (map (fun r => 0 :: r) two_rows)). split; [vm_compute; reflexivity|]. split; [|discriminate]. apply (rows_coded (sized two two_first)).
      unfold rows_ok. split; [reflexivity|]. split; [reflexivity|]. split; [repeat (constructor; [lit_bytes|]); constructor|repeat constructor].
    + exists (concat (map (fun r => 0 :: r) two_more)). split; [vm_compute; reflexivity|]. split; [|discriminate]. apply (rows_coded (sized two two_second)).
      unfold rows_ok. split; [reflexivity|]. split; [reflexivity|]. split; [repeat (constructor; [lit_bytes|]); constructor|repeat constructor].
Qed.

(** ** What is wrong *)
(** The plainest file: header, animation control, frames, end *)
Definition plain_chunks (m : image) (first : option frame) (idat : list Z) (later : list (frame * list Z)) : list chunk :=
  [chunk_of IHDR (ihdr_data m); chunk_of acTL [0; 0; 0; 2; 0; 0; 0; 0]] ++ match first with Some f => [chunk_of fcTL (fctl_data f)] | None => [] end ++ [chunk_of IDAT idat] ++
  concat (map (fun fz => [chunk_of fcTL (fctl_data (fst fz)); chunk_of fdAT ([0; 0; 0; 9] ++ snd fz)]) later) ++ [chunk_of IEND []].
Definition one (w h x y : nat) (d : dispose) : frame := mkFrame 1 w h x y 1 10 d BSource true.
(** An ancillary chunk between the control chunk of a frame and its data: the frame is lost, and its data is added to that of the
    frame before it. *)
Theorem apng_chunk_between_refuted : exists a fz b, plain_chunks two (Some two_first) (zl two_rows) [(two_second, zl two_more)] = a ++ [chunk_of fcTL (fctl_data two_second); fz] ++ b /\
  animation no_huff (adecode_raw no_huff) crc_popts (file_bytes (a ++ [chunk_of fcTL (fctl_data two_second); chunk_of tEXt [65; 0; 67]; fz] ++ b) []) = Ok [(two_first, [1; 2; 3; 4; 5; 6])].
Proof.
  exists (firstn 4 (plain_chunks two (Some two_first) (zl two_rows) [(two_second, zl two_more)])), (chunk_of fdAT ([0; 0; 0; 9] ++ zl two_more)), [chunk_of IEND []].
  split; [reflexivity|]. vm_compute. reflexivity.
Qed.
Print Assumptions apng_chunk_between_refuted.
(** Sixteen bits reduced to eight: a frame of one pixel smaller than the image has two bytes, the second the low byte of the sample. *)
Theorem apng_strip_refuted : exists m f z, image_ok m /\ frame_ok m f /\ plain false m /\ (f_w f * f_h f = 1)%nat /\ m_type m = 0 /\
  decode_zlib no_huff (inflate_opts m (strip_popts false)) z = Ok [0; 17; 34] /\
  exists f0 p0, animation no_huff (adecode_raw no_huff) (strip_popts false) (file_bytes (plain_chunks m None (zl [[1; 2; 3; 4]]) [(f, z)]) []) = Ok [(f0, p0); (f, [17; 34])].
Proof.
  exists (mkImage 2 1 16 0 false None None), (one 1 1 0 0 DNone), (zl [[17; 34]]).
  split; [unfold image_ok; cbn; repeat split; try lia; try discriminate; tauto|]. split; [frame_tac|]. split; [split; cbn; congruence|]. split; [reflexivity|]. split; [reflexivity|]. split; [vm_compute; reflexivity|].
  eexists. eexists. vm_compute. reflexivity.
Qed.
Print Assumptions apng_strip_refuted.
(** An interlaced frame narrower than the image: its second row is taken to begin where that of the image would, and is lost. *)
Theorem apng_interlaced_refuted : exists m f z px, image_ok m /\ frame_ok m f /\ plain false m /\ m_adam7 m = true /\
  (exists d, decode_zlib no_huff (inflate_opts m plain_popts) z = Ok d /\ coded true (m_depth m) 1 (f_w f) (f_h f) px d) /\
  picture (image_look false m) (f_w f) (f_h f) px = [17; 34] /\
  exists f0 p0, animation no_huff (adecode_raw no_huff) plain_popts (file_bytes (plain_chunks m None (zl [[1]; [2]; [3; 4]]) [(f, z)]) []) = Ok [(f0, p0); (f, [17; 0])].
Proof.
  exists (mkImage 2 2 8 0 true None None), (one 1 2 0 0 DNone), (zl [[17]; [34]]), (fun y _ => if (y =? 0)%nat then [17] else [34]).
  split; [unfold image_ok; cbn; repeat split; try lia; try discriminate; tauto|]. split; [frame_tac|]. split; [split; cbn; congruence|]. split; [reflexivity|]. split.
  { exists [0; 17; 0; 34]. split; [vm_compute; reflexivity|].  unfold coded. exists [[(FNone, [17])]; []; []; []; []; []; [(FNone, [34])]], []. split; [|vm_compute; reflexivity]. split; [reflexivity|]. intros p Hp.
    destruct p as [|[|[|[|[|[|[|[|p]]]]]]]]; try lia; (split; [reflexivity|]; split; [repeat constructor; unfold is_byte; lia|]; split; [repeat constructor|]; intros y x Hy Hx; vm_compute in Hy, Hx; try lia; destruct y; try lia; destruct x; try lia; reflexivity). }
  split; [vm_compute; reflexivity|]. eexists. eexists. vm_compute. reflexivity.
Qed.
Print Assumptions apng_interlaced_refuted.
(** zune-image shows a default image that is not part of the animation as its first frame, *)
Theorem apng_codec_default_refuted : forall powf over, let frames := [(two_second, zl two_more)] in
  codec no_huff powf plain_popts true (file_bytes (plain_chunks two None (zl two_rows) frames) []) = Ok (Some [[1; 2; 3; 4; 5; 6]; [1; 2; 3; 4; 7; 8]]) /\
  exists c, shown over 1 true [(two_second, [7; 8])] (blank 1) = [c] /\ holds_canvas 3 2 1 [0; 0; 0; 0; 7; 8] c.
Proof.
  intros powf over frames. split; [vm_compute; reflexivity|]. eexists. split; [reflexivity|]. split; [reflexivity|]. intros x y Hx Hy. destruct x as [|[|[|x]]]; try lia; destruct y as [|[|y]]; try lia; reflexivity.
Qed.
Print Assumptions apng_codec_default_refuted.
(** takes the dispose operation "previous" for "none", *)
Theorem apng_codec_previous_refuted : forall powf over, let last := mkFrame 3 1 1 0 0 1 10 DNone BSource true in
  codec no_huff powf plain_popts true (file_bytes (plain_chunks two (Some two_first) (zl two_rows) [(one 2 1 1 1 DPrevious, zl two_more); (last, zl [[9]])]) []) =
    Ok (Some [[1; 2; 3; 4; 5; 6]; [1; 2; 3; 4; 7; 8]; [9; 2; 3; 4; 7; 8]]) /\
  exists c1 c2 c3, shown over 1 true [(two_first, [1; 2; 3; 4; 5; 6]); (one 2 1 1 1 DPrevious, [7; 8]); (last, [9])] (blank 1) = [c1; c2; c3] /\ holds_canvas 3 2 1 [9; 2; 3; 4; 5; 6] c3.
Proof.
  intros powf over last. split; [vm_compute; reflexivity|]. do 3 eexists. split; [reflexivity|]. split; [reflexivity|]. intros x y Hx Hy. destruct x as [|[|[|x]]]; try lia; destruct y as [|[|y]]; try lia; reflexivity.
Qed.
Print Assumptions apng_codec_previous_refuted.
(** and does not read animations of sixteen bits at all. *)
Theorem apng_codec_sixteen_refuted : forall powf, let m := mkImage 1 1 16 0 false None None in
  codec no_huff powf plain_popts true (file_bytes (plain_chunks m (Some (one 1 1 0 0 DNone)) (zl [[17; 34]]) []) []) = Err EOther /\
  animation no_huff (adecode no_huff) plain_popts (file_bytes (plain_chunks m (Some (one 1 1 0 0 DNone)) (zl [[17; 34]]) []) []) = Ok [(one 1 1 0 0 DNone, U16s [4386])].
Proof. intros powf m. split; vm_compute; reflexivity. Qed.
Print Assumptions apng_codec_sixteen_refuted.
(** Asking for one frame more than there are panics. *)
Theorem apng_past_end_refuted : exists a b out, adecode_headers no_huff (new_apng plain_popts (file_bytes (plain_chunks two (Some two_first) (zl two_rows) []) [])) = Ok a /\
  adecode_raw no_huff a = Ok (out, b) /\ more_frames b = false /\ adecode_raw no_huff b = Panic.
Proof.
  destruct (adecode_headers no_huff (new_apng plain_popts (file_bytes (plain_chunks two (Some two_first) (zl two_rows) []) []))) as [a| | |] eqn:E; [|vm_compute in E; discriminate..].
  exists a. destruct (adecode_raw no_huff a) as [[out b]| | |] eqn:E2; [|vm_compute in E; injection E as <-; vm_compute in E2; discriminate..]. exists b, out.
  split; [reflexivity|]. split; [reflexivity|]. vm_compute in E. injection E as <-. vm_compute in E2. injection E2 as <- <-. vm_compute. auto.
Qed.
Print Assumptions apng_past_end_refuted.
