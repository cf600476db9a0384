From Verif Require Import Base BaseProof Loops Slices BitReaderProof StreamModel StreamSpec StreamProof CrcModel CrcSpec PngFilterModel PngFilterSpec
  InflateModel PngRowModel PngModel PngSpec PngFileSpec PngRowProof PngChunkProof PngNoteProof PngFileProof PngLoopProof PngInterProof.

(** * Byte order *)
Lemma swapped_app a : forall b, Nat.even (length a) = true -> swapped (a ++ b) = swapped a ++ swapped b.
Proof.
  assert (G : forall n a b, (length a <= n)%nat -> Nat.even (length a) = true -> swapped (a ++ b) = swapped a ++ swapped b).
  { clear a. induction n as [|n IH]; intros a b L E; [destruct a; [reflexivity|cbn in L; lia]|].
    destruct a as [|x [|y a]]; [reflexivity|discriminate E|]. cbn [app swapped]. rewrite IH; [reflexivity|cbn in L; lia|exact E]. }
  intros b. now apply (G (length a)).
Qed.
Lemma swapped_chunks f k l : (0 < k)%nat -> Nat.even k = true -> (forall c, length c = k -> f c = swapped c) ->
  concat (map f (chunks_exact k l)) ++ swapped (skipn (length l / k * k) l) = swapped l.
Proof.
  intros K E F. revert l. apply (chunk_ind k); [exact K| |].
  - intros l L. rewrite chunks_exact_short by exact L. rewrite Nat.div_small by exact L. reflexivity.
  - intros a r La IH. rewrite (swapped_app a r) by (rewrite La; exact E). rewrite <- IH.
    rewrite chunks_exact_cons by (auto; lia). cbn [map concat]. rewrite F by exact La. rewrite <- app_assoc. do 2 f_equal. f_equal.
    rewrite app_length, La. replace ((k + length r) / k)%nat with (S (length r / k)) by (replace (k + length r)%nat with (1 * k + length r)%nat by lia; rewrite Nat.div_add_l by lia; reflexivity).
    replace (S (length r / k) * k)%nat with (k + length r / k * k)%nat by lia. rewrite <- skipn_skipn'. now rewrite skipn_app_exact.
Qed.
Ltac list_of c n := match n with O => destruct c; [|discriminate] | S ?n' => destruct c as [|? c]; [discriminate|]; list_of c n' end.
Lemma shuffle_swaps c : length c = 16%nat -> shuffle swap_mask c = swapped c.
Proof. intros H. list_of c 16%nat. reflexivity. Qed.
Lemma swapped_short l : (length l < 2)%nat -> swapped l = l.
Proof. destruct l as [|a [|b l]]; cbn; [reflexivity..|lia]. Qed.
Lemma swap_scalar_ok l : swap_scalar l = swapped l.
Proof.
  unfold swap_scalar. rewrite <- (swapped_chunks (fun c => match c with [a; b] => [b; a] | _ => c end) 2 l); [|lia|reflexivity|].
  - f_equal. symmetry. apply swapped_short. rewrite skipn_length. lia.
  - intros c H. list_of c 2%nat. reflexivity.
Qed.
Lemma to_endian_ok little a b c l : to_endian little a b c l = if little then swapped l else l.
Proof.
  unfold to_endian. destruct little; [|reflexivity]. cbn [negb].
  assert (A : swap_avx l = swapped l).
  { unfold swap_avx. rewrite swap_scalar_ok. apply swapped_chunks; [lia|reflexivity|]. intros q H.
    rewrite <- (firstn_skipn 16 q) at 3. rewrite swapped_app by (rewrite firstn_length, H; reflexivity). f_equal; apply shuffle_swaps; rewrite ?firstn_length, ?skipn_length, H; reflexivity. }
  assert (B : swap_sse l = swapped l).
  { unfold swap_sse. rewrite swap_scalar_ok. apply swapped_chunks; [lia|reflexivity|]. apply shuffle_swaps. }
  rewrite A, B, swap_scalar_ok. destruct (a && b), (a && c); reflexivity.
Qed.

Lemma zeros_bytes n : bytes (repeat 0 n).
Proof. apply Forall_forall. intros z Hz. apply repeat_spec in Hz. subst. unfold is_byte. lia. Qed.
(** * From the headers to the pixels *)
(** Requests the decoder fulfils: no transparent colour with sixteen bits or with an added alpha, no alpha added to packed gray *)
Definition plain (add : bool) (m : image) : Prop :=
  (m_trns m <> None -> m_type m <> 3 -> m_depth m <> 16%nat /\ add = false) /\ (m_type m = 0 -> (m_depth m < 8)%nat -> add = false).

Lemma colour_cases m : image_ok m -> (m_type m = 0 /\ colour_of m = CLuma) \/ (m_type m = 2 /\ colour_of m = CRGB) \/ (m_type m = 3 /\ colour_of m = CPalette) \/
  (m_type m = 4 /\ colour_of m = CLumaA) \/ (m_type m = 6 /\ colour_of m = CRGBA).
Proof. intros (_ & _ & T & _). apply type_cases in T. unfold colour_of. destruct T as [[-> _]|[[-> _]|[[-> _]|[[-> _]|[-> _]]]]]; cbn; tauto. Qed.
Lemma set_alphas_nth p : forall t n i, (length t <= length p)%nat ->
  @nth entry i (set_alphas (map (fun q : Z * Z * Z => let '(r, g, b) := q in (r, g, b, 255)) p ++ repeat (0, 0, 0, 255) n) t) (0, 0, 0, 255) =
  @nth colour_entry i (with_alphas p t) (0, 0, 0, 255).
Proof.
  induction p as [|[[r g] b] p IH]; intros t n i L.
  - destruct t; [|cbn in L; lia]. cbn [map app with_alphas]. assert (E : set_alphas (repeat (0, 0, 0, 255) n) [] = repeat (0, 0, 0, 255) n) by (destruct n; reflexivity).
    rewrite E. transitivity ((0, 0, 0, 255) : entry); [apply nth_repeat|destruct i; reflexivity].
  - destruct t as [|a t]; cbn [map app with_alphas set_alphas].
    + destruct i; [reflexivity|]. cbn [nth]. rewrite <- (IH [] n i ltac:(cbn; lia)). f_equal. destruct p as [|[[? ?] ?] ?]; cbn [map app set_alphas]; [destruct n|]; reflexivity.
    + destruct i; [reflexivity|]. cbn [nth]. apply IH. cbn in L. lia.
Qed.
Lemma set_alphas_length p : forall t, length (set_alphas p t) = length p.
Proof. induction p as [|[[[r g] b] a] p IH]; intros t; [destruct t; reflexivity|]. destruct t; cbn [set_alphas length]; [reflexivity|]. now rewrite IH. Qed.
Lemma set_alphas_ok p : forall t, Forall entry_ok p -> bytes t -> Forall entry_ok (set_alphas p t).
Proof.
  induction p as [|[[[r g] b] a] p IH]; intros t F B; [destruct t; exact F|]. destruct t as [|x t]; cbn [set_alphas]; [exact F|].
  inversion F as [|? ? F1 F2]; subst. inversion B as [|? ? B1 B2]; subst. constructor; [|now apply IH]. unfold entry_ok in *.
  unfold bytes in *. inversion F1 as [|? ? E1 E2]; inversion E2 as [|? ? E3 E4]; inversion E4 as [|? ? E5 E6]; subst. repeat (apply Forall_cons; [assumption|]). constructor.
Qed.
Lemma opaque_pal_ok p : bytes (plte_data p) -> Forall entry_ok (opaque_pal p).
Proof.
  intros B. unfold opaque_pal. apply Forall_app. split.
  - induction p as [|[[r g] b] p IH]; [constructor|]. unfold plte_data in B. cbn [map concat] in B. apply bytes_app in B. destruct B as [B1 B2]. constructor; [|now apply IH].
    unfold entry_ok, bytes in *. inversion B1 as [|? ? E1 E2]; inversion E2 as [|? ? E3 E4]; inversion E4 as [|? ? E5 E6]; subst. repeat (apply Forall_cons; [first [assumption|unfold is_byte; lia]|]). constructor.
  - apply Forall_forall. intros e He. apply repeat_spec in He. subst e. unfold entry_ok. lit_bytes.
Qed.
Section Decode.
Variables (huff : Z -> dstate -> res dstate) (anim : nat -> list Z -> png -> res png) (m : image) (o : popts) (idat : list Z) (ns : list chunk).
Hypothesis (Om : image_ok m) (Pl : plain (o_alpha o) m).
Notation ra := (read_all huff m o idat ns).
Lemma final_pal_ok : Forall entry_ok (final_pal m) /\ (m_pal m <> None -> length (final_pal m) = 256%nat).
Proof.
  destruct Om as (_ & _ & _ & P & T). unfold final_pal. destruct (m_pal m) as [p|].
  - destruct P as (Lp & Bp & _). pose proof (opaque_pal_ok p Bp) as OP. pose proof (opaque_pal_length p ltac:(lia)) as OL.
    destruct (m_trns m) as [t|]; [|auto]. unfold trns_pal. destruct (m_type m =? 3); [|auto]. split; [apply set_alphas_ok; [exact OP|apply T]|intros _; now rewrite set_alphas_length].
  - split; [|congruence]. destruct (m_trns m) as [t|]; [|constructor]. unfold trns_pal. destruct (m_type m =? 3); [destruct t|]; constructor.
Qed.
Lemma final_key_length : length (final_key m) = 4%nat.
Proof.
  unfold final_key. destruct Om as (_ & _ & _ & _ & T). destruct (m_trns m) as [t|]; [|reflexivity]. unfold trns_key. destruct (Z.eqb_spec (m_type m) 3) as [|N]; [reflexivity|].
  destruct T as [_ [[_ L]|[[_ L]|[E _]]]].
  - list_of t 2%nat. reflexivity.
  - list_of t 6%nat. reflexivity.
  - congruence.
Qed.
Definition pix_m : pix :=
  mkPix (m_depth m) (colour_of m) (is_some (m_pal m)) (final_pal m) (is_some (m_trns m)) (final_key m) (o_alpha o) (o_sse2 o) (o_sse4 o).
Lemma pix_of_m s : ra s -> pix_of (info_of m) s = pix_m.
Proof. intros []. unfold pix_of, pix_m. cbn [i_depth i_color info_of]. congruence. Qed.
Lemma supported_m : supported pix_m.
Proof.
  unfold supported, pix_m. cbn [depth col seen_plte palette seen_trns trns want_alpha]. destruct final_pal_ok as [FP FL].
  pose proof Om as (_ & _ & T & P & Tr). apply type_cases in T. destruct Pl as [P1 P2].
  repeat apply conj.
  - unfold legal, colour_of. destruct T as [[-> T]|[[-> T]|[[-> T]|[[-> T]|[-> T]]]]]; exact T.
  - apply final_key_length.
  - intros C. destruct (colour_cases m Om) as [[? E]|[[? E]|[[E3 E]|[[? E]|[? E]]]]]; rewrite E in C; try discriminate C. destruct (m_pal m); [|contradiction]. split; [reflexivity|]. rewrite FL by discriminate. lia.
  - intros S C. destruct (m_trns m) as [t|]; [|discriminate S]. specialize (P1 ltac:(discriminate)).
    destruct (colour_cases m Om) as [[E3 E]|[[E3 E]|[[E3 E]|[[E3 E]|[E3 E]]]]]; rewrite E in *; rewrite E3 in *.
    + split; [tauto|]. apply P1. discriminate.
    + split; [tauto|]. apply P1. discriminate.
    + congruence.
    + exfalso. destruct Tr as [_ [[? _]|[[? _]|[? _]]]]; discriminate.
    + exfalso. destruct Tr as [_ [[? _]|[[? _]|[? _]]]]; discriminate.
  - intros C D. destruct (colour_cases m Om) as [[E3 E]|[[? E]|[[E3 E]|[[? E]|[? E]]]]]; rewrite E in C; try discriminate C.
    split; [destruct (m_pal m); [tauto|reflexivity]|auto].
  - exact FP.
Qed.
Lemma comps_m : color_comps (colour_of m) = type_comps (m_type m).
Proof. destruct (colour_cases m Om) as [[-> ->]|[[-> ->]|[[-> ->]|[[-> ->]|[-> ->]]]]]; reflexivity. Qed.
Lemma show_m q : show (look_of pix_m) q = show (image_look (o_alpha o) m) q.
Proof.
  unfold show, look_of, image_look, pix_m. cbn [l_pal l_key l_depth l_add l_pal_alpha depth col seen_plte palette seen_trns trns want_alpha].
  unfold adds_alpha. cbn [want_alpha col]. pose proof Om as (_ & _ & _ & P & Tr).
  assert (C : color_comps (colour_of m) = type_comps (m_type m)) by apply comps_m.
  destruct (colour_cases m Om) as [[E3 E]|[[E3 E]|[[E3 E]|[[E3 E]|[E3 E]]]]]; rewrite E, E3 in *; cbn [is_palette Z.eqb Pos.eqb color_alpha negb orb andb].
  - rewrite !andb_true_r. f_equal. destruct (m_trns m) as [t|] eqn:Et; cbn [is_some option_map]; [|reflexivity].
    destruct Tr as [_ [[_ L]|[[? _]|[? _]]]]; try discriminate. unfold key_of, key_colour, final_key. cbn [depth col trns color_comps]. rewrite Et. unfold trns_key. rewrite E3. list_of t 2%nat. reflexivity.
  - rewrite !andb_true_r. f_equal. destruct (m_trns m) as [t|] eqn:Et; cbn [is_some option_map]; [|reflexivity].
    destruct Tr as [_ [[? _]|[[_ L]|[? _]]]]; try discriminate. unfold key_of, key_colour, final_key. cbn [depth col trns color_comps]. rewrite Et. unfold trns_key. rewrite E3. list_of t 6%nat. reflexivity.
  - destruct (m_pal m) as [p|] eqn:Ep; [|contradiction]. set (i := Z.to_nat _).
    assert (N : @nth entry i (final_pal m) (0, 0, 0, 255) = @nth colour_entry i (with_alphas p (match m_trns m with Some a => a | None => [] end)) (0, 0, 0, 255)).
    { unfold final_pal. rewrite Ep. destruct (m_trns m) as [t|] eqn:Et.
      - unfold trns_pal. rewrite E3. cbn [Z.eqb Pos.eqb]. apply set_alphas_nth. destruct Tr as [_ [[? _]|[[? _]|[_ L]]]]; try discriminate. exact L.
      - rewrite <- (set_alphas_nth p [] (256 - length p) i) by (cbn; lia). f_equal. unfold opaque_pal. destruct p as [|[[? ?] ?] ?]; cbn [map app set_alphas]; [destruct (256 - _)%nat|]; reflexivity. }
    change colour_entry with entry in *. rewrite N. destruct (@nth entry _ _ _) as [[[r g] b] a]. destruct (m_trns m); reflexivity.
  - destruct (m_trns m) as [t|]; [exfalso; destruct Tr as [_ [[? _]|[[? _]|[? _]]]]; discriminate|]. cbn [is_some andb option_map]. rewrite andb_false_r. reflexivity.
  - destruct (m_trns m) as [t|]; [exfalso; destruct Tr as [_ [[? _]|[[? _]|[? _]]]]; discriminate|]. cbn [is_some andb option_map]. rewrite andb_false_r. reflexivity.
Qed.
Lemma picture_m w h px : picture (look_of pix_m) w h px = picture (image_look (o_alpha o) m) w h px.
Proof. unfold picture. apply concat_ext. intros y _. apply concat_ext. intros x _. apply show_m. Qed.

Definition hint_m : nat := ((m_w m + 1) * m_h m * (if (m_depth m =? 16)%nat then 2 else 1) * color_comps (colour_of m))%nat.
Definition inflate_opts : inflate_options := mkOpts (hint_m + 4 * m_h m) (o_adler o) hint_m.
Definition byte_len : nat := (m_w m * m_h m * out_comps pix_m * sample_bytes pix_m)%nat.
Definition ordered (little : bool) (l : list Z) : list Z := if (m_depth m =? 16)%nat && little then swapped l else l.
Variables (px : nat -> nat -> list Z) (d : list Z).
Hypothesis (Zl : decode_zlib huff inflate_opts idat = Ok d).
Hypothesis (Cd : coded (m_adam7 m) (m_depth m) (type_comps (m_type m)) (m_w m) (m_h m) px d).
Definition pic : list Z := picture (image_look (o_alpha o) m) (m_w m) (m_h m) px.
Lemma pixels_ok out stride : bytes out -> length out = byte_len ->
  exists stride', (if m_adam7 m then decode_interlaced pix_m d (m_w m) (m_h m) out stride else create_raw pix_m d (m_w m) (m_h m) out stride) = Ok (pic, stride') /\ length pic = byte_len.
Proof.
  intros B L. pose proof supported_m as S. pose proof Om as (W & H & _). unfold pic. rewrite <- picture_m.
  assert (BL : byte_len = (m_w m * m_h m * (out_comps pix_m * sample_bytes pix_m))%nat) by (unfold byte_len; lia).
  assert (FS : filter_step (m_depth m) (type_comps (m_type m)) = filter_comps pix_m) by (rewrite <- comps_m; symmetry; apply (filter_comps_step pix_m); apply S).
  unfold coded in Cd. rewrite FS, <- comps_m in Cd. destruct (m_adam7 m).
  - destruct Cd as (ps & rest & Hh & ->). destruct (decode_interlaced_ok pix_m (m_w m) (m_h m) px ps rest out stride S Hh ltac:(lia)) as (s' & E).
    exists s'. split; [exact E|]. rewrite picture_length; [lia|exact S|]. intros y i Hy Hi. exact (holds_interlaced_comps _ _ _ _ _ _ y i Hh Hy Hi).
  - destruct Cd as (rows & rest & Hh & ->). destruct (create_raw_picture pix_m (m_w m) (m_h m) px rows rest out stride S ltac:(lia) ltac:(lia) Hh B ltac:(lia)) as (s' & E).
    exists s'. split; [exact E|]. rewrite picture_length; [lia|exact S|]. intros y i Hy Hi. destruct Hh as (_ & _ & _ & HX). rewrite <- HX by assumption. unfold samples. now rewrite map_length, seq_length.
Qed.
Lemma inner_ok s little out : ra (mkPng (strm s) o (hdr s) (mdata s) (pal s) (p_plte s) (p_trns s) (p_key s) (fdat s) (current s) (p_headers s) (p_iend s) (p_stride s) (from_into s)) ->
  opts s = o \/ (little = true /\ opts s = little_popts o) -> o_little (opts s) = little -> bytes out -> (byte_len <= length out)%nat ->
  exists s', decode_into_inner huff anim out s = Ok (ordered little pic ++ skipn byte_len out, s') /\ hdr s' = Some (info_of m) /\ mdata s' = notes huff ns no_meta.
Proof.
  intros R Ho Lt B L. pose proof (pix_of_m _ R) as PM. destruct R as [_ Rh Rm Rp Rpl Rt Rk Rd Rc Rhd Rie]. cbn in Rh, Rm, Rp, Rpl, Rt, Rk, Rd, Rc, Rhd, Rie.
  unfold decode_into_inner, decode_headers. rewrite Rhd, Rie. cbn [andb bind]. rewrite Rh.
  assert (PX : pix_of (info_of m) s = pix_m). { rewrite <- PM. unfold pix_of. cbn. destruct Ho as [->|[_ ->]]; reflexivity. }
  unfold inner_size. rewrite Rc, PX. change (0 =? 0)%nat with true. cbn [i_w i_h info_of]. cbv iota. fold byte_len. replace (length out <? byte_len)%nat with false by lia.
  assert (IF : png_inflate huff (info_of m) s = Ok d).
  { unfold png_inflate. cbn [i_w i_h i_depth i_color info_of]. rewrite Rd. rewrite <- Zl. unfold inflate_opts, hint_m. destruct Ho as [->|[_ ->]]; reflexivity. }
  rewrite IF. cbn [bind]. change (i_adam7 (info_of m)) with (m_adam7 m). change (i_depth (info_of m)) with (m_depth m).
  destruct (pixels_ok (firstn byte_len out) (p_stride s)) as (st & E & PL).
  { now apply bytes_firstn'. } { rewrite firstn_length. lia. }
  rewrite E. cbn [bind]. rewrite to_endian_ok, Lt. unfold ordered. destruct (m_depth m =? 16)%nat, little; (eexists; split; [reflexivity|split; [reflexivity|exact Rm]]).
Qed.

Variables (cs : list chunk) (tail : list Z).
Hypothesis (Lim_w : (m_w m <= o_max_w o)%nat) (Lim_h : (m_h m <= o_max_h o)%nat).
Hypothesis (Lay : lays_out (note_ok huff (strict o)) m idat ns cs) (Fine : Forall (fine o) cs).
Notation start := (new_png o (file_bytes cs tail)).
Lemma swapped_length l : length (swapped l) = length l.
Proof.
  assert (G : forall n l, (length l <= n)%nat -> length (swapped l) = length l).
  { clear. induction n as [|n IH]; intros l L; [destruct l; [reflexivity|cbn in L; lia]|]. destruct l as [|a [|b l]]; [reflexivity..|]. cbn [swapped length] in *. rewrite IH by lia. reflexivity. }
  now apply (G (length l)).
Qed.
Lemma every_other_even l : forall n, length l = (2 * n)%nat -> length (every_other l) = n.
Proof.
  intros n. revert l. induction n as [|n IH]; intros l H; [destruct l; [reflexivity|discriminate]|]. destruct l as [|a [|b l]]; [discriminate|cbn in H; lia|].
  cbn [every_other length] in *. rewrite IH by lia. reflexivity.
Qed.
Lemma raw_ok : exists s', decode_raw huff anim start =
  Ok (if o_strip o && (m_depth m =? 16)%nat then every_other (ordered (o_little o) pic) else ordered (o_little o) pic, s') /\
  hdr s' = Some (info_of m) /\ mdata s' = notes huff ns no_meta.
Proof.
  destruct (headers_ok huff anim m o Om Lim_w Lim_h idat ns cs tail Lay Fine) as (s & E & R & _ & _). unfold decode_raw. rewrite E. cbn [bind].
  set (s1 := mkPng (strm s) (opts s) (hdr s) (mdata s) (pal s) (p_plte s) (p_trns s) (p_key s) (fdat s) (current s) (p_headers s) (p_iend s) (p_stride s) false).
  pose proof R as [Ro Rh Rm Rp Rpl Rt Rk Rd Rc Rhd Rie].
  change (hdr s1) with (hdr s). rewrite Rh.
  assert (R1 : ra s1) by (constructor; assumption).
  unfold inner_size. change (current s1) with (current s). rewrite Rc. change (0 =? 0)%nat with true. cbv iota. rewrite (pix_of_m s1 R1). cbn [i_w i_h info_of]. fold byte_len.
  unfold decode_into. unfold decode_headers at 1. change (p_headers s1) with (p_headers s). change (p_iend s1) with (p_iend s). rewrite Rhd, Rie. cbn [andb bind].
  change (hdr s1) with (hdr s). rewrite Rh. change (from_into s1) with false. cbn [andb].
  destruct (inner_ok s1 (o_little o) (repeat 0 byte_len)) as (s' & E' & Hh & Hm).
  { assert (X : mkPng (strm s1) o (hdr s1) (mdata s1) (pal s1) (p_plte s1) (p_trns s1) (p_key s1) (fdat s1) (current s1) (p_headers s1) (p_iend s1) (p_stride s1) (from_into s1) = s1) by (unfold s1; fields; rewrite Ro; reflexivity).
    rewrite X. exact R1. }
  { left. exact Ro. } { change (opts s1) with (opts s). now rewrite Ro. } { apply zeros_bytes. } { rewrite repeat_length. lia. }
  rewrite E'. cbn [bind]. change (opts s1) with (opts s). rewrite Ro. rewrite skipn_all2 by (rewrite repeat_length; lia). rewrite app_nil_r.
  exists s'. split; [|auto]. cbn [i_depth info_of]. destruct (o_strip o && (m_depth m =? 16)%nat) eqn:St; [|reflexivity].
  do 2 f_equal. apply firstn_all2.
  destruct (pixels_ok (repeat 0 byte_len) []) as (_ & _ & PL). { apply zeros_bytes. } { apply repeat_length. }
  assert (OL : length (ordered (o_little o) pic) = byte_len) by (unfold ordered; clear -PL; destruct (m_depth m =? 16)%nat, (o_little o); cbn [andb]; rewrite ?swapped_length; exact PL).
  unfold output_size. rewrite (pix_of_m s1 R1). change (opts s1) with (opts s). rewrite Ro. cbn [i_w i_h i_depth info_of]. apply andb_true_iff in St. destruct St as [St Dp].
  rewrite St, Dp. cbn [negb andb]. rewrite Nat.mul_1_r. rewrite (every_other_even _ (m_w m * m_h m * out_comps pix_m)); [lia|]. rewrite OL. unfold byte_len, sample_bytes. cbn [depth pix_m]. rewrite Dp. lia.
Qed.
Lemma into_ok out : o_strip o && (m_depth m =? 16)%nat = false -> bytes out -> (byte_len <= length out)%nat ->
  exists s', decode_into huff anim out start = Ok (ordered (o_little o) pic ++ skipn byte_len out, s') /\ hdr s' = Some (info_of m) /\ mdata s' = notes huff ns no_meta.
Proof.
  intros St B L. destruct (headers_ok huff anim m o Om Lim_w Lim_h idat ns cs tail Lay Fine) as (s & E & R & _ & _). unfold decode_into. rewrite E. cbn [bind].
  pose proof R as [Ro Rh Rm Rp Rpl Rt Rk Rd Rc Rhd Rie]. rewrite Rh, Ro. cbn [i_depth info_of]. rewrite <- andb_assoc, (andb_comm (_ =? _)%nat), St, andb_false_r.
  apply inner_ok; [|left; exact Ro|now rewrite Ro|exact B|exact L].
  assert (X : mkPng (strm s) o (hdr s) (mdata s) (pal s) (p_plte s) (p_trns s) (p_key s) (fdat s) (current s) (p_headers s) (p_iend s) (p_stride s) (from_into s) = s) by (rewrite <- Ro; destruct s; reflexivity).
  rewrite X. exact R.
Qed.
Lemma le_swapped l : forall n, length l = (2 * n)%nat -> map le_val (chunks_exact 2 (swapped l)) = pairs l.
Proof.
  intros n. revert l. induction n as [|n IH]; intros l H; [destruct l; [reflexivity|discriminate]|]. destruct l as [|a [|b l]]; [discriminate|cbn in H; lia|].
  cbn [swapped pairs]. change (b :: a :: swapped l) with ([b; a] ++ swapped l). rewrite chunks_exact_cons by (auto; lia). cbn [map]. rewrite IH by (cbn in H; lia). f_equal.
  cbn [le_val]. ring.
Qed.
Lemma decode_ok : o_strip o && (m_depth m =? 16)%nat = false ->
  exists s', decode huff anim start = Ok (if (m_depth m =? 16)%nat then U16s (pairs pic) else U8s pic, s') /\ hdr s' = Some (info_of m) /\ mdata s' = notes huff ns no_meta.
Proof.
  intros St. destruct (headers_ok huff anim m o Om Lim_w Lim_h idat ns cs tail Lay Fine) as (s & E & R & _ & _). unfold decode.
  change (negb (p_headers start) || negb (p_iend start)) with true. cbv iota. rewrite E. cbn [bind].
  pose proof R as [Ro Rh Rm Rp Rpl Rt Rk Rd Rc Rhd Rie]. rewrite Rh, Ro. cbn [i_depth info_of]. rewrite St.
  set (s1 := mkPng (strm s) (little_popts o) _ _ _ _ _ _ _ _ _ _ _ _).
  assert (PX : pix_of (info_of m) s1 = pix_m). { rewrite <- (pix_of_m s R). unfold pix_of. cbn. rewrite Ro. reflexivity. }
  rewrite PX. cbn [i_w i_h info_of].
  assert (IO : forall out, bytes out -> length out = byte_len -> exists s', decode_into huff anim out s1 = Ok (ordered true pic, s') /\ hdr s' = Some (info_of m) /\ mdata s' = notes huff ns no_meta).
  { intros out B L. unfold decode_into. unfold decode_headers at 1. change (p_headers s1) with (p_headers s). change (p_iend s1) with (p_iend s). rewrite Rhd, Rie. cbn [andb bind].
    change (hdr s1) with (Some (info_of m)). cbv iota. change (o_strip (opts s1)) with (o_strip o). cbn [i_depth info_of]. rewrite <- andb_assoc, (andb_comm (_ =? _)%nat), St, andb_false_r.
    destruct (inner_ok s1 true out) as (s' & E' & Hh); [|right; auto|reflexivity|exact B|lia|].
    - constructor; try assumption; reflexivity.
    - exists s'. rewrite E'. rewrite skipn_all2 by lia. rewrite app_nil_r. auto. }
  destruct (m_depth m =? 16)%nat eqn:Dp.
  - assert (BL : byte_len = (2 * (m_w m * m_h m * out_comps pix_m))%nat) by (unfold byte_len, sample_bytes; cbn [depth pix_m]; rewrite Dp; lia).
    destruct (IO (repeat 0 (2 * (m_w m * m_h m * out_comps pix_m)))) as (s' & E' & H'). { apply zeros_bytes. } { rewrite repeat_length. lia. }
    rewrite E'. cbn [bind]. exists s'. split; [|exact H']. do 3 f_equal. unfold ordered. rewrite Dp. cbn [andb].
    apply (le_swapped _ (m_w m * m_h m * out_comps pix_m)). destruct (pixels_ok (repeat 0 byte_len) []) as (_ & _ & PL). { apply zeros_bytes. } { apply repeat_length. } lia.
  - assert (BL : byte_len = (m_w m * m_h m * out_comps pix_m)%nat) by (unfold byte_len, sample_bytes; cbn [depth pix_m]; rewrite Dp; lia).
    destruct (IO (repeat 0 (m_w m * m_h m * out_comps pix_m))) as (s' & E' & H'). { apply zeros_bytes. } { rewrite repeat_length. lia. }
    rewrite E'. cbn [bind]. exists s'. split; [|exact H']. unfold ordered. rewrite Dp. reflexivity.
Qed.
End Decode.
