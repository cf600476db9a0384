From Verif Require Import Base BaseProof Loops Slices BitReaderProof StreamModel StreamSpec StreamProof CrcModel CrcSpec PngFilterModel PngFilterSpec
  InflateModel PngRowModel PngSpec PngRowProof DeintModel ApngModel ApngSpec PngModel PngFileSpec PngChunkProof PngNoteProof PngLoopProof PngInterProof PngFileProof PngDecodeProof
  ApngFileModel ApngFileSpec ApngFileProof ApngFrameProof.

Lemma interlaced_same x w h ps : forall data off tmp stride out, interlaced_in w x w h ps data off tmp stride out = interlaced x w h ps data off tmp stride out.
Proof.
  induction ps as [|[[[xo yo] xs] ys] ps IH]; intros; cbn [interlaced_in interlaced]; [reflexivity|]. destruct (_ || _); [apply IH|]. destruct (_ <? _)%nat; [reflexivity|].
  destruct (create_raw _ _ _ _ _ _) as [[? ?]| | |]; cbn [bind]; try reflexivity. destruct (place _ _ _ _ _ _ _); cbn [bind]; try reflexivity. apply IH.
Qed.
Lemma skipn_release n : forall l, skipn (S n) (release n l) = skipn (S n) l.
Proof. induction n as [|n IH]; intros [|[f z] l]; try reflexivity. cbn [release]. cbn [skipn] in *. exact (IH l). Qed.
Lemma length_release n : forall l, length (release n l) = length l.
Proof. induction n as [|n IH]; intros [|[f z] l]; try reflexivity. cbn [release length]. now rewrite IH. Qed.
Lemma nth_error_skipn {A} n : forall (l : list A), nth_error l n = hd_error (skipn n l).
Proof. induction n as [|n IH]; intros [|x l]; try reflexivity. cbn [nth_error skipn]. apply IH. Qed.
Lemma skipn_S {A} n : forall (l : list A), skipn (S n) l = tl (skipn n l).
Proof. induction n as [|n IH]; intros [|x l]; try reflexivity. cbn [skipn] in *. apply IH. Qed.

(** The pixels of one picture *)
Lemma frame_pixels m o px d out stride : image_ok m -> plain (o_alpha o) m -> coded (m_adam7 m) (m_depth m) (type_comps (m_type m)) (m_w m) (m_h m) px d ->
  bytes out -> length out = byte_len m o ->
  exists stride', (if m_adam7 m then decode_interlaced (pix_m m o) d (m_w m) (m_h m) out stride else create_raw (pix_m m o) d (m_w m) (m_h m) out stride) = Ok (pic m o px, stride') /\
    length (pic m o px) = byte_len m o.
Proof.
  intros Om Pl Cd B L. pose proof (supported_m (fun _ _ _ => Panic) m o [] Om Pl) as S. pose proof Om as (W & H & _). unfold pic. rewrite <- (picture_m (fun _ _ => Panic) (fun _ _ _ => Panic) m o Om).
  assert (BL : byte_len m o = (m_w m * m_h m * (out_comps (pix_m m o) * sample_bytes (pix_m m o)))%nat) by (unfold byte_len; lia).
  assert (FS : filter_step (m_depth m) (type_comps (m_type m)) = filter_comps (pix_m m o)) by (rewrite <- comps_m by exact Om; symmetry; apply (filter_comps_step (pix_m m o)); apply S).
  unfold coded in Cd. rewrite FS, <- comps_m in Cd by exact Om. destruct (m_adam7 m).
  - destruct Cd as (ps & rest & Hh & ->). destruct (decode_interlaced_ok (pix_m m o) (m_w m) (m_h m) px ps rest out stride S Hh ltac:(lia)) as (s' & E).
    exists s'. split; [exact E|]. rewrite picture_length; [lia|exact S|]. intros y i Hy Hi. exact (holds_interlaced_comps _ _ _ _ _ _ y i Hh Hy Hi).
  - destruct Cd as (rows & rest & Hh & ->). destruct (create_raw_picture (pix_m m o) (m_w m) (m_h m) px rows rest out stride S ltac:(lia) ltac:(lia) Hh B ltac:(lia)) as (s' & E).
    exists s'. split; [exact E|]. rewrite picture_length; [lia|exact S|]. intros y i Hy Hi. destruct Hh as (_ & _ & _ & HX). rewrite <- HX by assumption. unfold samples. now rewrite map_length, seq_length.
Qed.
Lemma out_comps_le x : (out_comps x <= 4)%nat.
Proof. unfold out_comps. destruct (col x); cbn; repeat match goal with |- context [if ?b then _ else _] => destruct b end; cbn; lia. Qed.
Lemma sized_ok m f : image_ok m -> within (m_w m) (m_h m) f -> image_ok (sized m f).
Proof. intros (W & H & R) (A & B & C & D). unfold image_ok. cbn [sized m_w m_h m_depth m_type m_pal m_trns]. split; [lia|]. split; [lia|exact R]. Qed.

Lemma swapped_zeros k : swapped (repeat 0 (2 * k)) = repeat 0 (2 * k).
Proof. induction k as [|k IH]; [reflexivity|]. replace (2 * S k)%nat with (S (S (2 * k))) by lia. cbn [repeat swapped]. now rewrite IH. Qed.
Lemma le_pairs l : forall n, length l = (2 * n)%nat -> map le_val (chunks_exact 2 (swapped l)) = pairs l.
Proof.
  intros n. revert l. induction n as [|n IH]; intros l H; [destruct l; [reflexivity|discriminate]|]. destruct l as [|a [|b l]]; [discriminate|cbn in H; lia|].
  cbn [swapped pairs]. change (b :: a :: swapped l) with ([b; a] ++ swapped l). rewrite chunks_exact_cons by (auto; lia). cbn [map]. rewrite IH by (cbn in H; lia). f_equal.
  cbn [le_val]. ring.
Qed.

Section Play.
Variables (huff : Z -> dstate -> res dstate) (m : image) (o : popts).
Notation note := (anote huff (strict o)).
Hypothesis (Om : image_ok m) (Pl : plain (o_alpha o) m) (Lw : (m_w m <= o_max_w o)%nat) (Lh : (m_h m <= o_max_h o)%nat).
Hypothesis (Mem : Z.of_nat (m_w m) * Z.of_nat (m_h m) * 8 < 2 ^ 64) (Strip : o_strip o && (m_depth m =? 16)%nat = false).
Variables (first : option frame) (idat : list Z) (later : list (frame * list Z)) (groups : list (list chunk)) (en : chunk) (tail : list Z).
Hypothesis (Hfirst : match first with Some f => frame_ok m f | None => True end) (Hlater : Forall (fun fz => frame_ok m (fst fz)) later).
Hypothesis (Hgroups : Forall2 (fun fz g => frame_chunks note (fst fz) (snd fz) g) later groups) (Gfine : Forall (Forall (fine o)) groups).
Hypothesis (Hen : is_chunk en IEND []) (Efine : fine o en).
Notation all := (all_frames m first idat later).
Notation Inv := (inv m o first idat later groups en tail).
(** Every frame's data are the rows of its pixels [px] *)
Definition frame_coded (fz : frame * list Z) (px : nat -> nat -> list Z) : Prop :=
  exists d, decode_zlib huff (inflate_opts m o) (snd fz) = Ok d /\
    coded (m_adam7 m) (m_depth m) (type_comps (m_type m)) (f_w (fst fz)) (f_h (fst fz)) px d /\ (m_adam7 m = true -> f_w (fst fz) = m_w m).
Variable pxs : list (nat -> nat -> list Z).
Hypothesis Hpx : Forall2 frame_coded all pxs.
Definition fpic (f : frame) (px : nat -> nat -> list Z) : list Z := picture (image_look (o_alpha o) m) (f_w f) (f_h f) px.
Definition flen (f : frame) : nat := frame_size (pix_m m o) f.

Lemma hstep n a : Inv n a -> exists a', adecode_headers huff a = Ok a' /\ Inv (Nat.min (length all) (S n)) a' /\
  current (base a') = current (base a) /\ opts (base a') = opts (base a) /\ from_into (base a') = from_into (base a).
Proof. eapply headers_step; eauto. Qed.
Lemma all_within : Forall (fun fz => within (m_w m) (m_h m) (fst fz)) all.
Proof.
  unfold all_frames. constructor.
  - cbn [fst]. clear - Hfirst Om. destruct first as [f|]; [apply Hfirst|]. unfold within, default_frame. cbn. destruct Om as (? & ? & _). lia.
  - eapply Forall_impl; [|exact Hlater]. intros fz H. apply H.
Qed.
Lemma flen_le f : within (m_w m) (m_h m) f -> (flen f <= byte_len m o)%nat.
Proof.
  intros (_ & _ & A & B). unfold flen, frame_size, byte_len. assert (P : (f_w f * f_h f <= m_w m * m_h m)%nat) by (apply Nat.mul_le_mono; lia).
  apply Nat.mul_le_mono_r, Nat.mul_le_mono_r. exact P.
Qed.
Lemma pix_core s : core m o s -> pix_of (info_of m) s = pix_m m o.
Proof. intros (Oo & _ & Pa & Pp & Pt & Pk). unfold pix_of, pix_m. cbn [i_depth i_color info_of]. rewrite Pa, Pp, Pt, Pk. destruct Oo as [->| ->]; reflexivity. Qed.
Lemma ainner_ok a f z : core m o (base a) -> nth_error (frames a) (current (base a)) = Some (f, z) -> within (m_w m) (m_h m) f -> ainner_size (info_of m) a = Some (flen f).
Proof.
  intros Co Nt W. unfold ainner_size, frame_info. rewrite Nt. cbn [option_map fst]. rewrite (pix_core _ Co).
  assert (B : Z.of_nat (out_comps (pix_m m o) * sample_bytes (pix_m m o)) <= 8).
  { pose proof (out_comps_le (pix_m m o)). assert (sample_bytes (pix_m m o) <= 2)%nat by (unfold sample_bytes; destruct (_ =? _)%nat; lia). nia. }
  destruct W as (_ & _ & X & Y). assert (Q : Z.of_nat (f_w f) * Z.of_nat (f_h f) <= Z.of_nat (m_w m) * Z.of_nat (m_h m)) by nia.
  replace (2 ^ 64 <=? _) with false; [reflexivity|]. symmetry. apply Z.leb_gt. clear - B Q Mem. set (k := Z.of_nat (_ * sample_bytes _)) in *. assert (0 <= k) by lia. clearbody k. nia.
Qed.
Lemma inv_nth n a : Inv n a -> (current (base a) < n)%nat -> nth_error (frames a) (current (base a)) = nth_error all (current (base a)).
Proof.
  intros I L. rewrite nth_error_skipn, (iv_frames _ _ _ _ _ _ _ _ _ _ I), <- nth_error_skipn. pose proof (iv_range _ _ _ _ _ _ _ _ _ _ I) as R.
  clear - L R. generalize dependent (current (base a)). intros c L. rewrite <- (firstn_skipn n all) at 2. rewrite nth_error_app1; [reflexivity|]. rewrite firstn_length. lia.
Qed.
Lemma inv_coded n a : Inv n a -> (current (base a) < n)%nat -> exists f z px, nth_error (frames a) (current (base a)) = Some (f, z) /\ nth_error (combine all pxs) (current (base a)) = Some (f, z, px) /\
  frame_coded (f, z) px /\ within (m_w m) (m_h m) f.
Proof.
  intros I L. pose proof (iv_range _ _ _ _ _ _ _ _ _ _ I) as R. rewrite (inv_nth n a I L). set (c := current (base a)) in *. assert (Lc : (c < length all)%nat) by lia. clearbody c. clear - Hpx Lc Om Hfirst Hlater.
  pose proof (Forall2_nth _ _ _ Hpx c (still_frame 0 0, []) (fun _ _ => []) Lc) as F. pose proof all_within as W. rewrite Forall_forall in W. specialize (W (nth c all (still_frame 0 0, [])) (nth_In _ _ Lc)).
  rewrite (nth_error_nth' all (still_frame 0 0, []) Lc). assert (Lk : (c < length (combine all pxs))%nat) by (rewrite combine_length, <- (Forall2_len _ _ _ Hpx); lia).
  rewrite (nth_error_nth' (combine all pxs) ((still_frame 0 0, []), (fun _ _ => [])) Lk). rewrite combine_nth by apply (Forall2_len _ _ _ Hpx). destruct (nth c all (still_frame 0 0, [])) as [f z]. exists f, z, (nth c pxs (fun _ _ => [])). auto.
Qed.

Lemma fpic_length f z px : frame_coded (f, z) px -> within (m_w m) (m_h m) f -> length (fpic f px) = flen f.
Proof. intros (d & _ & Cd & _) W. destruct (frame_pixels (sized m f) o px d (repeat 0 (flen f)) [] (sized_ok _ _ Om W) Pl Cd (zeros_bytes _) ltac:(apply repeat_length)) as (_ & _ & E). exact E. Qed.
(** The next frame is decoded *)
Definition like_state (n : nat) (a a' : apng) : Prop := Inv (Nat.min (length all) (S n)) a' /\ opts (base a') = opts (base a) /\ from_into (base a') = from_into (base a).
Lemma inner_ok n a out f z px : Inv n a -> (current (base a) < n)%nat -> nth_error (combine all pxs) (current (base a)) = Some (f, z, px) -> bytes out -> (flen f <= length out)%nat ->
  exists a', adecode_inner huff out a = Ok (ordered m (o_little (opts (base a))) (fpic f px) ++ skipn (flen f) out, a') /\ like_state n a a' /\ current (base a') = S (current (base a)).
Proof.
  intros I L Nc B Lo. unfold adecode_inner. destruct (hstep n a I) as (a1 & E1 & I1 & C1 & O1 & F1).
  rewrite E1. cbn [bind].
  assert (L1 : (current (base a1) < Nat.min (length all) (S n))%nat) by (rewrite C1; pose proof (iv_range _ _ _ _ _ _ _ _ _ _ I); lia).
  destruct (inv_coded _ a1 I1 L1) as (f' & z' & px' & N1 & N2 & Fc & W). rewrite C1 in N2. rewrite Nc in N2. injection N2 as <- <- <-.
  pose proof (iv_core _ _ _ _ _ _ _ _ _ _ I1) as Co. assert (Hd : hdr (base a1) = Some (info_of m)) by apply Co. rewrite Hd, N1, (ainner_ok a1 f z Co N1 W).
  replace (length out <? flen f)%nat with false by lia. pose proof Fc as (d & Zl & Cd & Nw). cbn [fst snd] in *.
  assert (IF : png_inflate huff (info_of m) (set_data z (base a1)) = Ok d).
  { unfold png_inflate. cbn [i_w i_h i_depth i_color info_of set_data opts fdat]. rewrite <- Zl. unfold inflate_opts, hint_m. destruct Co as ([->| ->] & _); reflexivity. }
  rewrite IF. cbn [bind]. rewrite (pix_core _ Co). change (i_adam7 (info_of m)) with (m_adam7 m). change (i_depth (info_of m)) with (m_depth m). change (i_w (info_of m)) with (m_w m).
  destruct (frame_pixels (sized m f) o px d (firstn (flen f) out) (p_stride (base a1)) (sized_ok _ _ Om W) Pl Cd) as (st & E & _).
  { now apply bytes_firstn'. } { rewrite firstn_length. change (byte_len (sized m f) o) with (flen f). lia. }
  change (m_adam7 (sized m f)) with (m_adam7 m) in E. change (pix_m (sized m f) o) with (pix_m m o) in E. change (pic (sized m f) o px) with (fpic f px) in E. cbn [sized m_w m_h] in E.
  assert (E' : (if m_adam7 m then interlaced_in (m_w m) (pix_m m o) (f_w f) (f_h f) passes d 0 (repeat 0 (flen f)) (p_stride (base a1)) (firstn (flen f) out)
     else create_raw (pix_m m o) d (f_w f) (f_h f) (firstn (flen f) out) (p_stride (base a1))) = Ok (fpic f px, st)).
  { clear - E Nw. destruct (m_adam7 m); [|exact E]. rewrite <- (Nw eq_refl), interlaced_same. exact E. }
  rewrite E'. cbn [bind]. rewrite to_endian_ok, O1.
  eexists. split; [unfold ordered; destruct (m_depth m =? 16)%nat, (o_little _); reflexivity|].
  set (n1 := Nat.min (length all) (S n)) in *.
  assert (FR : skipn (S (current (base a1))) (frames (next_frame st a1)) = skipn (S (current (base a1))) (frames a1) /\ length (frames (next_frame st a1)) = length (frames a1)).
  { unfold next_frame, frames. destruct (current (base a1)) as [|c]; cbn [on_base base hdr a_first a_later fdat]; rewrite Hd; [split; reflexivity|]. cbn [skipn length]. rewrite length_release. split; [|reflexivity]. apply (skipn_release c (a_later a1)). }
  assert (BS : core m o (base (next_frame st a1)) /\ p_headers (base (next_frame st a1)) = p_headers (base a1) /\ p_iend (base (next_frame st a1)) = p_iend (base a1) /\
    a_actl (next_frame st a1) = a_actl a1 /\ current (base (next_frame st a1)) = S (current (base a1)) /\ opts (base (next_frame st a1)) = opts (base a1) /\ from_into (base (next_frame st a1)) = from_into (base a1) /\
    strm (base (next_frame st a1)) = strm (base a1)).
  { unfold next_frame. destruct (current (base a1)); cbn [on_base base a_actl]; repeat apply conj; try reflexivity; apply Co. }
  destruct BS as (B1 & B2 & B3 & B4 & B5 & B6 & B7 & B8). destruct FR as [FR1 FR2]. destruct I1 as [J1 J2 J3 J4 J5 J6 J7 J8 J9].
  split; [|rewrite B5, C1; reflexivity]. split; [|rewrite B6, B7, O1, F1; auto].
  constructor; [exact B1|now rewrite B2|now rewrite B3|now rewrite B4|now rewrite FR2|rewrite B5; lia| |exact J8|].
  - rewrite B5, FR1, !skipn_S, J7. reflexivity.
  - intros Q. unfold ahead. rewrite B8. exact (J9 Q).
Qed.
Lemma into_ok n a out f z px : Inv n a -> (current (base a) < n)%nat -> nth_error (combine all pxs) (current (base a)) = Some (f, z, px) -> bytes out -> (flen f <= length out)%nat ->
  exists a' n', adecode_into huff out a = Ok (ordered m (o_little (opts (base a))) (fpic f px) ++ skipn (flen f) out, a') /\ Inv n' a' /\ (n < length all -> n < n')%nat /\ (n <= n')%nat /\
    opts (base a') = opts (base a) /\ from_into (base a') = from_into (base a) /\ current (base a') = S (current (base a)).
Proof.
  intros I L Nc B Lo. pose proof (iv_range _ _ _ _ _ _ _ _ _ _ I) as RN. unfold adecode_into. destruct (hstep n a I) as (a1 & E1 & I1 & C1 & O1 & F1).
  rewrite E1. cbn [bind]. pose proof (iv_core _ _ _ _ _ _ _ _ _ _ I1) as Co. assert (Hd : hdr (base a1) = Some (info_of m)) by apply Co. rewrite Hd.
  assert (St : o_strip (opts (base a1)) = o_strip o) by (destruct Co as ([->| ->] & _); reflexivity).
  cbn [i_depth info_of]. rewrite <- andb_assoc, (andb_comm (_ =? _)%nat), St, Strip, andb_false_r.
  destruct (inner_ok _ a1 out f z px I1) as (a2 & E2 & (I2 & O2 & F2) & C2); [rewrite C1; lia|rewrite C1; exact Nc|exact B|exact Lo|].
  rewrite E2, O1. exists a2. eexists. split; [reflexivity|]. split; [exact I2|]. split; [lia|]. split; [lia|]. rewrite O2, F2, C2, C1, O1, F1. auto.
Qed.
Lemma raw_ok n a f z px : Inv n a -> (current (base a) < n)%nat -> nth_error (combine all pxs) (current (base a)) = Some (f, z, px) ->
  exists a' n', adecode_raw huff a = Ok (ordered m (o_little (opts (base a))) (fpic f px), a') /\ Inv n' a' /\ (n < length all -> n < n')%nat /\ (n <= n')%nat /\
    opts (base a') = opts (base a) /\ current (base a') = S (current (base a)).
Proof.
  intros I L Nc. pose proof (iv_range _ _ _ _ _ _ _ _ _ _ I) as RN. unfold adecode_raw. destruct (hstep n a I) as (a1 & E1 & I1 & C1 & O1 & F1).
  rewrite E1. cbn [bind]. cbn [hdr]. pose proof (iv_core _ _ _ _ _ _ _ _ _ _ I1) as Co. assert (Hd : hdr (base a1) = Some (info_of m)) by apply Co. rewrite Hd.
  set (a2 := on_base _ a1). assert (I2 : Inv (Nat.min (length all) (S n)) a2). { destruct I1 as [J1 J2 J3 J4 J5 J6 J7 J8 J9]. unfold a2. rewrite <- Hd. constructor; try assumption. }
  assert (Cu : current (base a2) = current (base a)) by exact C1.
  destruct (inv_coded _ a2 I2) as (f' & z' & px' & N1 & N2 & Fc & W); [rewrite Cu; lia|]. rewrite Cu, Nc in N2. injection N2 as <- <- <-.
  rewrite (ainner_ok a2 f z (iv_core _ _ _ _ _ _ _ _ _ _ I2) N1 W).
  destruct (into_ok _ a2 (repeat 0 (flen f)) f z px I2) as (a3 & n3 & E3 & I3 & M3 & M3' & O3 & F3 & C3); [rewrite Cu; lia|rewrite Cu; exact Nc|apply zeros_bytes|rewrite repeat_length; lia|].
  rewrite E3. cbn [bind]. rewrite skipn_all2 by (rewrite repeat_length; lia). rewrite app_nil_r. change (opts (base a2)) with (opts (base a1)) in *. cbn [opts i_depth info_of].
  assert (St : o_strip (opts (base a1)) = o_strip o) by (destruct Co as ([->| ->] & _); reflexivity). rewrite St, Strip, O1.
  exists a3, n3. split; [reflexivity|]. split; [exact I3|]. split; [lia|]. split; [lia|]. rewrite O3, O1, C3, Cu. auto.
Qed.
(** What [decode] gives: the pixels of the frame, then zeros up to the size of the image *)
Definition padded (f : frame) (px : nat -> nat -> list Z) : list Z := fpic f px ++ repeat 0 (byte_len m o - flen f).
Definition numbers (l : list Z) : pixels := if (m_depth m =? 16)%nat then U16s (pairs l) else U8s l.
Lemma dec_ok n a f z px : Inv n a -> (current (base a) < n)%nat -> nth_error (combine all pxs) (current (base a)) = Some (f, z, px) ->
  exists a' n', adecode huff a = Ok (numbers (padded f px), a') /\ Inv n' a' /\ (n < length all -> n < n')%nat /\ (n <= n')%nat /\ current (base a') = S (current (base a)).
Proof.
  intros I L Nc. pose proof (iv_range _ _ _ _ _ _ _ _ _ _ I) as RN. unfold adecode.
  assert (H1 : exists a1 n1, (if negb (p_headers (base a)) || negb (p_iend (base a)) then adecode_headers huff a else Ok a) = Ok a1 /\ Inv n1 a1 /\ (n <= n1)%nat /\ current (base a1) = current (base a)).
  { destruct (_ || _); [|exists a, n; auto]. destruct (hstep n a I) as (a1 & E1 & I1 & C1 & O1 & F1). exists a1. eexists. split; [exact E1|]. split; [exact I1|]. split; [lia|exact C1]. }
  destruct H1 as (a1 & n1 & -> & I1 & M1 & C1). cbn [bind]. pose proof (iv_core _ _ _ _ _ _ _ _ _ _ I1) as Co. assert (Hd : hdr (base a1) = Some (info_of m)) by apply Co. rewrite Hd.
  assert (St : o_strip (opts (base a1)) = o_strip o) by (destruct Co as ([->| ->] & _); reflexivity). cbn [i_depth info_of]. rewrite St, Strip.
  set (s2 := mkPng _ _ _ _ _ _ _ _ _ _ _ _ _ _).
  assert (C2 : core m o s2) by (unfold s2; destruct Co as (Oo & Co); split; [right; destruct Oo as [->| ->]; reflexivity|]; rewrite Hd in Co; exact Co).
  rewrite (pix_core _ C2). assert (I2 : Inv n1 (on_base s2 a1)).
  { destruct I1 as [J1 J2 J3 J4 J5 J6 J7 J8 J9]. constructor; try assumption. - unfold frames in *. cbn [on_base base s2 hdr]. rewrite Hd in *. exact J5. - unfold frames in *. cbn [on_base base s2 hdr]. rewrite Hd in *. exact J7. }
  assert (Cu : current (base (on_base s2 a1)) = current (base a)) by exact C1.
  destruct (inv_coded _ _ I2) as (f' & z' & px' & N1 & N2 & Fc & W); [rewrite Cu; lia|]. rewrite Cu, Nc in N2. injection N2 as <- <- <-. pose proof (flen_le f W) as FL.
  assert (IO : exists a3 n3, adecode_into huff (repeat 0 (byte_len m o)) (on_base s2 a1) = Ok (ordered m true (fpic f px) ++ repeat 0 (byte_len m o - flen f), a3) /\ Inv n3 a3 /\ (n1 < length all -> n1 < n3)%nat /\ (n1 <= n3)%nat /\ current (base a3) = S (current (base a))).
  { destruct (into_ok _ (on_base s2 a1) (repeat 0 (byte_len m o)) f z px I2) as (a3 & n3 & E3 & I3 & M3 & M3' & _ & _ & C3); [rewrite Cu; lia|rewrite Cu; exact Nc|apply zeros_bytes|rewrite repeat_length; exact FL|].
    exists a3, n3. rewrite E3, C3, Cu. split; [|auto]. do 3 f_equal. clear. generalize (byte_len m o) (flen f). intros p q. revert p. induction q as [|q IH]; intros p; [now rewrite Nat.sub_0_r|]. destruct p; [reflexivity|]. cbn [repeat skipn]. apply IH. }
  destruct IO as (a3 & n3 & E3 & I3 & M3 & M3' & C3). cbn [i_w i_h info_of].
  pose proof (fpic_length f z px Fc W) as PL.
  assert (BL : byte_len m o = ((if (m_depth m =? 16)%nat then 2 else 1) * (m_w m * m_h m * out_comps (pix_m m o)))%nat) by (unfold byte_len, sample_bytes; cbn [depth pix_m]; destruct (_ =? _)%nat; lia).
  assert (FB : flen f = ((if (m_depth m =? 16)%nat then 2 else 1) * (f_w f * f_h f * out_comps (pix_m m o)))%nat) by (unfold flen, frame_size, sample_bytes; cbn [depth pix_m]; destruct (_ =? _)%nat; lia).
  unfold numbers, padded. unfold ordered in E3. destruct (m_depth m =? 16)%nat eqn:D16; cbn [andb] in E3; [rewrite <- BL, E3|rewrite Nat.mul_1_l in BL; rewrite <- BL, E3].
  - cbn [bind]. exists a3, n3. split; [|split; [exact I3|split; [lia|split; [lia|exact C3]]]]. do 3 f_equal.
    set (w2 := (m_w m * m_h m * out_comps (pix_m m o))%nat) in *. set (g2 := (f_w f * f_h f * out_comps (pix_m m o))%nat) in *.
    replace (byte_len m o - flen f)%nat with (2 * (w2 - g2))%nat by lia. rewrite <- (swapped_zeros (w2 - g2)) at 1. rewrite <- swapped_app by (rewrite PL, FB; apply Nat.even_spec; exists (g2%nat); reflexivity).
    apply (le_pairs _ (g2 + (w2 - g2))%nat). rewrite app_length, repeat_length, PL. lia.
  - cbn [bind]. exists a3, n3. split; [reflexivity|]. split; [exact I3|]. split; [lia|]. split; [lia|exact C3].
Qed.

(** The documented loop *)
Lemma more_ok n a : Inv n a -> more_frames a = (current (base a) <? n)%nat.
Proof. intros I. unfold more_frames. rewrite (iv_len _ _ _ _ _ _ _ _ _ _ I). pose proof (iv_actl _ _ _ _ _ _ _ _ _ _ I). destruct (a_actl a); [reflexivity|contradiction]. Qed.
Section Loop.
Variables (A : Set) (dec : apng -> res (A * apng)) (Q : popts -> Prop) (give : frame -> (nat -> nat -> list Z) -> A).
Hypothesis step : forall n a f z px, Inv n a -> Q (opts (base a)) -> (current (base a) < n)%nat -> nth_error (combine all pxs) (current (base a)) = Some (f, z, px) ->
  exists a' n', dec a = Ok (give f px, a') /\ Inv n' a' /\ (n < length all -> n < n')%nat /\ (n <= n')%nat /\ Q (opts (base a')) /\ current (base a') = S (current (base a)).
Lemma loop_ok fuel : forall n a, Inv n a -> Q (opts (base a)) -> (current (base a) < n \/ n = length all)%nat -> (length all - current (base a) < fuel)%nat ->
  frames_by huff dec fuel a = Ok (map (fun q => (fst (fst q), give (fst (fst q)) (snd q))) (skipn (current (base a)) (combine all pxs))).
Proof.
  induction fuel as [|fuel IH]; intros n a I Hq Hc Lf; [lia|]. pose proof (iv_range _ _ _ _ _ _ _ _ _ _ I) as RN. cbn [frames_by]. rewrite (more_ok n a I). destruct (Nat.ltb_spec (current (base a)) n) as [L|L].
  - destruct (hstep n a I) as (a1 & E1 & I1 & C1 & O1 & F1). rewrite E1. cbn [bind].
    destruct (inv_coded _ a1 I1) as (f & z & px & N1 & N2 & Fc & W); [rewrite C1; lia|]. unfold frame_info. rewrite N1. cbn [option_map fst].
    destruct (step _ a1 f z px I1) as (a2 & n2 & E2 & I2 & M2 & M2' & Q2 & C2); [rewrite O1; exact Hq|rewrite C1; lia|exact N2|]. rewrite E2. cbn [bind].
    pose proof (iv_range _ _ _ _ _ _ _ _ _ _ I2) as R2. 
    assert (G1 : (current (base a2) < n2 \/ n2 = length all)%nat) by (rewrite C2, C1; clear - M2 M2' R2 RN L; lia).
    assert (G2 : (length all - current (base a2) < fuel)%nat) by (rewrite C2, C1; clear - Lf RN L; lia). rewrite (IH n2 a2 I2 Q2 G1 G2). cbn [bind]. rewrite C2, C1.
    f_equal. rewrite C1 in N2. clear - N2. rewrite nth_error_skipn in N2. rewrite skipn_S. destruct (skipn (current (base a)) (combine all pxs)) as [|q l]; [discriminate|]. injection N2 as ->. reflexivity.
  - destruct Hc as [Hc|Hc]; [lia|]. rewrite skipn_all2; [reflexivity|]. rewrite combine_length. lia.
Qed.
End Loop.
Lemma raw_loop fuel n a : Inv n a -> opts (base a) = o -> (current (base a) < n \/ n = length all)%nat -> (length all - current (base a) < fuel)%nat ->
  frames_by huff (adecode_raw huff) fuel a = Ok (map (fun q => (fst (fst q), ordered m (o_little o) (fpic (fst (fst q)) (snd q)))) (skipn (current (base a)) (combine all pxs))).
Proof.
  intros I Oo Hc Lf. apply (loop_ok _ (adecode_raw huff) (fun q => q = o) (fun f px => ordered m (o_little o) (fpic f px))) with (n := n); auto.
  intros n0 a0 f z px I0 Q0 L0 N0. destruct (raw_ok n0 a0 f z px I0 L0 N0) as (a' & n' & E & I' & M & M' & O' & C'). exists a', n'. rewrite E, Q0. split; [reflexivity|]. split; [exact I'|]. split; [exact M|]. split; [exact M'|]. split; [congruence|exact C'].
Qed.
Lemma dec_loop fuel n a : Inv n a -> (current (base a) < n \/ n = length all)%nat -> (length all - current (base a) < fuel)%nat ->
  frames_by huff (adecode huff) fuel a = Ok (map (fun q => (fst (fst q), numbers (padded (fst (fst q)) (snd q)))) (skipn (current (base a)) (combine all pxs))).
Proof.
  intros I Hc Lf. apply (loop_ok _ (adecode huff) (fun _ => True) (fun f px => numbers (padded f px))) with (n := n); auto.
  intros n0 a0 f z px I0 Q0 L0 N0. destruct (dec_ok n0 a0 f z px I0 L0 N0) as (a' & n' & E & I' & M & M' & C'). exists a', n'. rewrite E. auto 10.
Qed.
(** The loop of zune-image's reader *)
Lemma post_any powf w h cs f px prev out g : f_dispose f <> DPrevious -> post_process powf w h cs f px prev out g = post_process powf w h cs f px None out g.
Proof. intros H. unfold post_process, prepare. destruct (f_dispose f); [reflexivity..|contradiction]. Qed.
Lemma no_previous_dispose f : f_dispose (no_previous f) <> DPrevious.
Proof. unfold no_previous. destruct (f_dispose f) eqn:E; [rewrite E; discriminate..|discriminate]. Qed.
Lemma codec_ok powf cs : m_depth m <> 16%nat -> forall fuel n a out prev, Inv n a -> (current (base a) < n \/ n = length all)%nat -> (length all - current (base a) < fuel)%nat ->
  codec_loop huff powf fuel (m_w m) (m_h m) cs out a =
  play powf (m_w m) (m_h m) cs None (map (fun q => (no_previous (fst (fst q)), padded (fst (fst q)) (snd q))) (skipn (current (base a)) (combine all pxs))) prev out.
Proof.
  intros Dm. induction fuel as [|fuel IH]; intros n a out prev I Hc Lf; [lia|]. pose proof (iv_range _ _ _ _ _ _ _ _ _ _ I) as RN. cbn [codec_loop]. rewrite (more_ok n a I). destruct (Nat.ltb_spec (current (base a)) n) as [L|L].
  - destruct (hstep n a I) as (a1 & E1 & I1 & C1 & O1 & F1). rewrite E1. cbn [bind].
    destruct (inv_coded _ a1 I1) as (f & z & px & N1 & N2 & Fc & W); [rewrite C1; lia|]. unfold frame_info. rewrite N1. cbn [option_map fst].
    destruct (dec_ok _ a1 f z px I1) as (a2 & n2 & E2 & I2 & M2 & M2' & C2); [rewrite C1; lia|exact N2|]. rewrite E2. cbn [bind].
    unfold numbers. replace (m_depth m =? 16)%nat with false by (symmetry; apply Nat.eqb_neq; exact Dm).
    pose proof (iv_range _ _ _ _ _ _ _ _ _ _ I2) as R2.
    assert (G1 : (current (base a2) < n2 \/ n2 = length all)%nat) by (rewrite C2, C1; clear - M2 M2' R2 RN L; lia).
    assert (G2 : (length all - current (base a2) < fuel)%nat) by (rewrite C2, C1; clear - Lf RN L; lia).
    rewrite C1 in N2. assert (SK : skipn (current (base a)) (combine all pxs) = (f, z, px) :: skipn (current (base a2)) (combine all pxs)).
    { rewrite C2, C1. clear - N2. rewrite nth_error_skipn in N2. rewrite skipn_S. destruct (skipn (current (base a)) (combine all pxs)) as [|q l]; [discriminate|]. injection N2 as ->. reflexivity. }
    rewrite SK. cbn [map play fst snd]. rewrite (post_any powf _ _ _ _ _ prev) by apply no_previous_dispose.
    destruct (post_process _ _ _ _ _ _ _ _ _) as [out'| | |]; cbn [bind]; [|reflexivity..]. rewrite (IH n2 a2 out' (Some out') I2 G1 G2). reflexivity.
  - destruct Hc as [Hc|Hc]; [lia|]. rewrite skipn_all2; [reflexivity|]. rewrite combine_length. lia.
Qed.
End Play.
