(** Whole BMP files (C105-C107). [bmp_file f isz w h down bpp comp off] describes the file by its fields; [pixel_pos] is the place
    of a pixel. *)
From Verif Require Import Base BaseProof Loops Slices BmpModel BmpSpec BmpProof BmpProps BmpFileModel BmpFileSpec BmpFileProof BmpFileSafe.

(** The limits of the options, and a size that can be allocated *)
Definition within (o : bopts) (w h : nat) : Prop := Z.of_nat w <= bo_max_w o /\ Z.of_nat h <= bo_max_h o /\ Z.of_nat w * Z.of_nat h < 2 ^ 60.
(** [roomy f isz]: after a header of 40 bytes there are 12 more bytes in the file; with longer headers the file has 122 bytes. *)

(** ** C105 *)

(** 24 bits *)
Theorem bmp_file_24 bgra o f isz w h down off : bmp_file f isz w h down 24 0 off -> roomy f isz -> within o w h -> complete f off w h 24 ->
  exists out, decode_bmp bgra o f = Ok out /\ length out = (w * h * 3)%nat /\
    forall x y c, (x < w)%nat -> (y < h)%nat -> (c < 3)%nat ->
      let p := pixel_pos off w h down 24 x y in
      nth ((y * w + x) * 3 + c) out 0 = nth c (if bgra then [nth p f 0; nth (p + 1) f 0; nth (p + 2) f 0] else [nth (p + 2) f 0; nth (p + 1) f 0; nth p f 0]) 0.
Proof.
  intros B R (Mw & Mh & Ma) C. pose proof (headers_ok o f isz w h down 24 0 off CRgb B R eq_refl Mw Mh ltac:(lia)) as H. cbn [pixel_format Z.eqb Pos.eqb bind] in H.
  pose proof (bf_size _ _ _ _ _ _ _ _ B) as [Hw Hh]. unfold complete in C.
  assert (E3 : ((w * 24 + 7) / 8 = w * 3)%nat) by lia. rewrite E3 in C.
  destruct (bmp24_pixels bgra down w h (skipn off f) Hw Hh ltac:(rewrite skipn_length; lia)) as (out & E & L & N).
  exists out. split; [|split; [exact L|]].
  - unfold decode_bmp. rewrite H. cbn [bind b_w b_h b_fmt b_depth b_comp b_flip b_masks channels].
    unfold output_buf_size. cbn [b_w b_h b_fmt channels]. replace (_ || _) with false by nia. cbn [bind]. rewrite Z2Nat.id by nia. replace (2 ^ 63 <=? _) with false by nia.
    unfold decode_rows. cbn [b_w b_h b_fmt b_depth b_comp b_flip b_masks channels Z.eqb Pos.eqb orb]. unfold decode24 in E. replace (w * 3 =? 0)%nat with false in E by lia.
    change (Z.to_nat 24) with 24%nat. destruct (read_rows h (w * 3) _ (skipn off f)) as [rows|e| |]; cbn [bind] in *; try discriminate. rewrite negb_involutive, andb_false_r. destruct down; cbn [bind]; now rewrite E.
  - intros x y c Hx Hy Hc. cbv zeta. rewrite N by easy. rewrite nth_skipn. unfold pixel_pos. replace (x * 24 / 8)%nat with (x * 3)%nat by lia.
    destruct bgra; destruct c as [|[|[|]]]; try lia; cbn [nth]; f_equal; lia.
Qed.
Print Assumptions bmp_file_24.
(** A file with the given fields and the usual header of 40 bytes, for examples *)
Definition file40 (w h bpp comp colors : Z) (rest : list Z) (off : Z) : list Z :=
  [66; 77] ++ le_bytes 4 0 ++ le_bytes 4 0 ++ le_bytes 4 off ++ le_bytes 4 40 ++ le_bytes 4 w ++ le_bytes 4 h ++ le_bytes 2 1 ++ le_bytes 2 bpp ++ le_bytes 4 comp ++
  le_bytes 4 0 ++ le_bytes 4 0 ++ le_bytes 4 0 ++ le_bytes 4 colors ++ le_bytes 4 0 ++ rest.
Definition opts0 : bopts := BOpts 16384 16384 false.
Definition bytesb (l : list Z) : bool := forallb (fun b => (0 <=? b) && (b <? 256)) l.
Lemma bytesb_ok l : bytesb l = true -> bytes l.
Proof. intros H. apply Forall_forall. intros b Hb. unfold bytesb in H. rewrite forallb_forall in H. specialize (H b Hb). unfold is_byte. lia. Qed.
Ltac bmp_example := constructor; [apply bytesb_ok; vm_compute; reflexivity|split; apply Nat.ltb_lt; reflexivity|split; reflexivity|split; [reflexivity|split; [vm_compute; discriminate|apply Nat.leb_le; reflexivity]]|reflexivity|
  right; split; [left; reflexivity|split; [reflexivity|split; [reflexivity|split; [reflexivity|split; reflexivity]]]]].
Definition ex24 : list Z := file40 3 2 24 0 0 (map Z.of_nat (seq 1 24)) 54.
Example bmp_file_24_ex : bmp_file ex24 40 3 2 false 24 0 54 /\ roomy ex24 40 /\ complete ex24 54 3 2 24 /\
  decode_bmp false opts0 ex24 = Ok [15; 14; 13; 18; 17; 16; 21; 20; 19; 3; 2; 1; 6; 5; 4; 9; 8; 7].
Proof. split; [bmp_example|]. split; [right; left; split; [reflexivity|apply Nat.leb_le; reflexivity]|]. split; [apply Nat.leb_le; reflexivity|vm_compute; reflexivity]. Qed.

(** 32 bits without masks: the fourth byte is replaced by 255 *)
Theorem bmp_file_32 bgra o f isz w h down off : bmp_file f isz w h down 32 0 off -> roomy f isz -> within o w h -> complete f off w h 32 ->
  exists out, decode_bmp bgra o f = Ok out /\ length out = (w * h * 4)%nat /\
    forall x y c, (x < w)%nat -> (y < h)%nat -> (c < 4)%nat ->
      let p := pixel_pos off w h down 32 x y in
      nth ((y * w + x) * 4 + c) out 0 = nth c (if bgra then [nth p f 0; nth (p + 1) f 0; nth (p + 2) f 0; 255] else [nth (p + 2) f 0; nth (p + 1) f 0; nth p f 0; 255]) 0.
Proof.
  intros B R (Mw & Mh & Ma) C. pose proof (headers_ok o f isz w h down 32 0 off CRgb B R eq_refl Mw Mh ltac:(lia)) as H. cbn [pixel_format Z.eqb Pos.eqb bind] in H.
  pose proof (bf_size _ _ _ _ _ _ _ _ B) as [Hw Hh]. pose proof (bf_bytes _ _ _ _ _ _ _ _ B) as Hb. unfold complete in C. rewrite stride32 in C.
  assert (E4 : ((w * 32 + 7) / 8 = w * 4)%nat) by (clear; lia). rewrite E4 in C.
  set (g := fun b => if bgra then [getz b 0; getz b 1; getz b 2; 255] else [getz b 2; getz b 1; getz b 0; 255]).
  assert (RW : rows_by (pixels_by (copy_pixel bgra) 4 w) h (skipn off f) = Ok (map (fun y => pix_row w (fun x => g (slice (skipn off f) (y * (w * 4) + x * 4) 4))) (seq 0 h))).
  { apply pixel_rows; [easy|now apply bytes_skip|reflexivity|rewrite skipn_length; nia]. }
  edestruct (fun rows pix => finish0 bgra o f _ _ rows down true pix H Hw Ma) as (out & E & L & N).
  - unfold decode_rows. cbn [b_w b_h b_fmt b_depth b_comp b_flip b_masks channels Z.eqb Pos.eqb orb andb]. rewrite orb_true_r. cbn [andb]. rewrite RW. cbn [bind]. rewrite negb_involutive. reflexivity.
  - reflexivity.
  - intros y x. unfold g. now destruct bgra.
  - now rewrite andb_false_r.
  - cbn [b_w b_h b_fmt channels] in *. exists out. split; [exact E|]. split; [exact L|]. intros x y c Hx Hy Hc. cbv zeta. rewrite N by easy. unfold g, pixel_pos. rewrite stride32. rewrite slice_skip.
    replace (x * 32 / 8)%nat with (x * 4)%nat by (clear; lia). rewrite !getz_slice by lia. rewrite Nat.add_0_r, !Nat.add_assoc. reflexivity.
Qed.
Print Assumptions bmp_file_32.
Definition ex32 : list Z := file40 2 (2 ^ 32 - 2) 32 0 0 (map Z.of_nat (seq 1 16)) 54.
Example bmp_file_32_ex : bmp_file ex32 40 2 2 true 32 0 54 /\ roomy ex32 40 /\ complete ex32 54 2 2 32 /\
  decode_bmp false opts0 ex32 = Ok [3; 2; 1; 255; 7; 6; 5; 255; 11; 10; 9; 255; 15; 14; 13; 255].
Proof. split; [bmp_example|]. split; [right; left; split; [reflexivity|apply Nat.leb_le; reflexivity]|]. split; [apply Nat.leb_le; reflexivity|vm_compute; reflexivity]. Qed.

(** 32 bits with masks: each mask covers consecutive bits; without a mask for opacity the pixels are opaque. *)
Definition good_mask (s n : Z) : Prop := 0 <= s /\ 1 <= n /\ s + n <= 32.
Record masks (f : list Z) (isz rs rn gs gn bs bn : Z) (al : option (Z * Z)) : Prop := Masks {
  mk_isz : In isz [40; 56; 108; 124];
  mk_r : good_mask rs rn /\ mask_at f isz 0 = mask rs rn; mk_g : good_mask gs gn /\ mask_at f isz 1 = mask gs gn; mk_b : good_mask bs bn /\ mask_at f isz 2 = mask bs bn;
  mk_a : match al with None => mask_at f isz 3 = 0 | Some (s, n) => good_mask s n /\ mask_at f isz 3 = mask s n end }.
Lemma mask_pos s n : good_mask s n -> (0 =? mask s n) = false.
Proof. intros (A & B & C). unfold mask. pose proof (Z.pow_pos_nonneg 2 s ltac:(lia) A). pose proof (Z.pow_le_mono_r 2 1 n ltac:(lia) ltac:(lia)). apply Z.eqb_neq. nia. Qed.
Lemma mask_raw_at f isz i : In isz [40; 56; 108; 124] -> mask_raw f isz i = mask_at f isz i.
Proof. intros I. unfold mask_raw, mask_at. now replace (isz <=? 40) with (isz <? 56) by (cbn [In] in I; lia). Qed.
Lemma masks_list f isz rs rn gs gn bs bn al : masks f isz rs rn gs gn bs bn al -> isz =? 12 = false ->
  masks_of f isz = [mask rs rn; mask gs gn; mask bs bn; match al with None => 0 | Some (s, n) => mask s n end] /\ forallb (Z.eqb 0) (masks_of f isz) = false /\
  forall alpha v, 0 <= v -> conv false alpha (masks_of f isz) v = Ok ([scaled rs rn v; scaled gs gn v; scaled bs bn v] ++ if alpha : bool then [match al with None => 255 | Some (s, n) => scaled s n v end] else []).
Proof.
  intros [Im [Gr Er] [Gg Eg] [Gb Eb] Ea] N. assert (E : masks_of f isz = [mask rs rn; mask gs gn; mask bs bn; match al with None => 0 | Some (s, n) => mask s n end]).
  { unfold masks_of. rewrite N. cbn [map]. rewrite !mask_raw_at by exact Im. rewrite Er, Eg, Eb. destruct al as [[s n]|]; [now rewrite (proj2 Ea)|now rewrite Ea]. }
  split; [exact E|]. rewrite E. split; [cbn [forallb]; now rewrite (mask_pos rs rn Gr)|]. intros alpha v Hv. unfold good_mask in *. apply conv_ok; try lia. destruct al as [[s n]|]; [|easy]. unfold good_mask in Ea. lia.
Qed.
Lemma le_val_pos l : bytes l -> 0 <= le_val l.
Proof. intros H. apply le_val_bound in H. lia. Qed.

Theorem bmp_file_32_masks o f isz w h down off rs rn gs gn bs bn al : bmp_file f isz w h down 32 3 off -> roomy f isz -> within o w h -> complete f off w h 32 ->
  masks f isz rs rn gs gn bs bn al ->
  exists out, decode_bmp false o f = Ok out /\ length out = (w * h * 4)%nat /\
    forall x y c, (x < w)%nat -> (y < h)%nat -> (c < 4)%nat ->
      let v := le_at f (pixel_pos off w h down 32 x y) 4 in
      nth ((y * w + x) * 4 + c) out 0 = nth c [scaled rs rn v; scaled gs gn v; scaled bs bn v; match al with None => 255 | Some (s, n) => scaled s n v end] 0.
Proof.
  intros B R (Mw & Mh & Ma) C M. pose proof (headers_ok o f isz w h down 32 3 off CFields B R eq_refl Mw Mh ltac:(lia)) as H. cbn [pixel_format Z.eqb Pos.eqb bind] in H.
  assert (N12 : isz =? 12 = false). { destruct (bf_fields _ _ _ _ _ _ _ _ B) as [(_ & _ & X & _)|(I & _)]; [lia|cbn [In] in I; lia]. }
  destruct (masks_list f isz _ _ _ _ _ _ al M N12) as (_ & Z0 & CV).
  pose proof (bf_size _ _ _ _ _ _ _ _ B) as [Hw Hh]. pose proof (bf_bytes _ _ _ _ _ _ _ _ B) as Hb. unfold complete in C. rewrite stride32 in C.
  assert (E4 : ((w * 32 + 7) / 8 = w * 4)%nat) by (clear; lia). rewrite E4 in C.
  set (g := fun v => [scaled rs rn v; scaled gs gn v; scaled bs bn v; match al with None => 255 | Some (s, n) => scaled s n v end]) in *.
  assert (RW : rows_by (pixels_by (fun b => conv false true (masks_of f isz) (le_val b)) 4 w) h (skipn off f) = Ok (map (fun y => pix_row w (fun x => g (le_val (slice (skipn off f) (y * (w * 4) + x * 4) 4)))) (seq 0 h))).
  { apply (pixel_rows _ 4 (fun b => g (le_val b))); [|now apply bytes_skip|reflexivity|rewrite skipn_length; nia]. intros b Lb Hbb. rewrite CV by (now apply le_val_pos). reflexivity. }
  edestruct (fun rows pix => finish0 false o f _ _ rows down true pix H Hw Ma) as (out & E & L & N).
  - unfold decode_rows. cbn [b_w b_h b_fmt b_depth b_comp b_flip b_masks channels Z.eqb Pos.eqb orb andb]. rewrite Z0. cbn [andb orb]. rewrite RW. cbn [bind]. rewrite negb_involutive. reflexivity.
  - reflexivity.
  - intros y x. reflexivity.
  - reflexivity.
  - cbn [b_w b_h b_fmt channels] in *. exists out. split; [exact E|]. split; [exact L|]. intros x y c Hx Hy Hc. cbv zeta. rewrite N by easy. unfold pixel_pos, le_at. rewrite stride32. rewrite slice_skip.
    replace (x * 32 / 8)%nat with (x * 4)%nat by (clear; lia). rewrite Nat.add_assoc. reflexivity.
Qed.
Print Assumptions bmp_file_32_masks.
Definition ex32m : list Z := file40 2 1 32 3 0 (le_bytes 4 0x3FF00000 ++ le_bytes 4 0xFC00 ++ le_bytes 4 0x1F ++ [0x1F; 0; 0xF0; 0x3F; 0x08; 0xFC; 0; 0]) 66.
Example bmp_file_32_masks_ex : bmp_file ex32m 40 2 1 false 32 3 66 /\ roomy ex32m 40 /\ complete ex32m 66 2 1 32 /\ masks ex32m 40 20 10 10 6 0 5 None /\
  decode_bmp false opts0 ex32m = Ok [255; 0; 255; 255; 0; 255; 66; 255].
Proof.
  split; [bmp_example|]. split; [right; left; split; [reflexivity|apply Nat.leb_le; reflexivity]|]. split; [apply Nat.leb_le; reflexivity|].
  split; [constructor; [cbn; auto|split; [unfold good_mask; lia|reflexivity]|split; [unfold good_mask; lia|reflexivity]|split; [unfold good_mask; lia|reflexivity]|reflexivity]|vm_compute; reflexivity].
Qed.

(** 8 bits and a palette *)
Lemma gap_pos f isz w h down bpp comp off n : bmp_file f isz w h down (Z.of_nat bpp) comp off -> (1 <= bpp <= 8)%nat -> palette_fits f isz bpp off -> n = Z.of_nat off ->
  0 <? (n - isz - 14) mod 2 ^ 32 = true.
Proof.
  intros B Hbpp [_ P] ->. pose proof (bf_bytes _ _ _ _ _ _ _ _ B) as Hb. destruct (bf_off _ _ _ _ _ _ _ _ B) as (Ho & Hi & _). pose proof (le_at_range f 10 4 Hb) as R. change (256 ^ Z.of_nat 4) with (2 ^ 32) in R.
  assert (Hc : 1 <= colors_of f isz bpp). { unfold colors_of. pose proof (le_at_range f 46 4 Hb). pose proof (Z.pow_pos_nonneg 2 (Z.of_nat bpp) ltac:(lia) ltac:(lia)). destruct (_ || _) eqn:E; lia. }
  assert (I12 : 12 <= isz) by (destruct (bf_fields _ _ _ _ _ _ _ _ B) as [(-> & _)|(In_ & _)]; [lia|cbn [In] in In_; lia]).
  rewrite Z.mod_small by (destruct (isz =? 12); lia). destruct (isz =? 12); lia.
Qed.
Theorem bmp_file_8 bgra o f isz w h down off : bmp_file f isz w h down 8 0 off -> roomy f isz -> within o w h -> Z.of_nat w < 2 ^ 31 -> complete f off w h 8 -> palette_fits f isz 8 off ->
  exists out, decode_bmp bgra o f = Ok out /\ length out = (w * h * 3)%nat /\
    forall x y c, (x < w)%nat -> (y < h)%nat -> (c < 3)%nat ->
      let col := color_at f isz 8 (nth (pixel_pos off w h down 8 x y) f 0) in
      nth ((y * w + x) * 3 + c) out 0 = nth c (if bgra then rev col else col) 0.
Proof.
  intros B R (Mw & Mh & Ma) Hw31 C P. pose proof (headers_ok o f isz w h down 8 0 off CRgb B R eq_refl Mw Mh ltac:(lia)) as H. cbn [pixel_format Z.eqb Pos.eqb] in H.
  rewrite (gap_pos f isz w h down 8 0 off _ B ltac:(lia) P eq_refl) in H. destruct (palette_ok o f isz w h down 8 0 off B ltac:(lia) P) as (pal & Ep & Lp & Np).
  change (Z.of_nat 8) with 8 in *. cbn [bind] in H. rewrite Ep in H. cbn [bind] in H.
  pose proof (bf_size _ _ _ _ _ _ _ _ B) as [Hw Hh]. pose proof (bf_bytes _ _ _ _ _ _ _ _ B) as Hb.
  destruct (pal_rows_spec w ((4 - w mod 4) mod 4) h (skipn off f) (bytes_skip _ _ Hb)) as (PL & PW & PB & PN). set (pr := pal_rows h w _ _) in *.
  edestruct (fun pix => finish_pal bgra o f _ _ down pix H eq_refl Hw Ma) as (out & E & L & N).
  - unfold decode_rows. cbn [b_w b_h b_fmt b_depth b_comp b_flip b_masks b_pal channels Z.eqb Pos.eqb orb andb]. rewrite as_i32_small by lia. replace (Z.of_nat w =? - 2 ^ 31) with false by lia.
    fold pr. rewrite (mapM_ok _ (fun r => concat (map (rgb pal) r))) by (intros r Hr; apply pal_row_ok; [exact Lp|]; rewrite Forall_forall in PB; now apply PB).
    cbn [bind]. rewrite negb_involutive. rewrite (map_index _ [] pr), PL.
    rewrite (map_ext_in _ (fun y => pix_row w (fun x => rgb pal (nth x (nth y pr []) 0)))); [reflexivity|].
    intros y Hy. apply in_seq in Hy. apply pal_pix. rewrite Forall_forall in PW. apply PW, nth_In. lia.
  - intros y x. apply rgb_length.
  - cbn [b_w b_h b_fmt channels] in *. exists out. split; [exact E|]. split; [exact L|]. intros x y c Hx Hy Hc. cbv zeta. rewrite N by easy. cbv zeta.
    rewrite PN by (unfold stored_row; destruct down; lia). rewrite stride8, nth_skipn. unfold pixel_pos. replace (x * 8 / 8)%nat with x by (rewrite Nat.div_mul; lia). rewrite Nat.add_assoc.
    rewrite Np; [reflexivity|]. change (2 ^ 8) with 256. destruct (Nat.lt_ge_cases (off + stored_row down h y * stride w 8 + x) (length f)) as [G|G]; [|rewrite nth_overflow by lia; lia].
    unfold bytes in Hb. rewrite Forall_forall in Hb. apply (Hb (nth (off + stored_row down h y * stride w 8 + x) f 0)), nth_In, G.
Qed.
Print Assumptions bmp_file_8.
Definition ex8 : list Z := file40 3 2 8 0 2 ([10; 20; 30; 0; 40; 50; 60; 0] ++ [0; 1; 0; 99; 1; 1; 7; 99]) 62.
Example bmp_file_8_ex : bmp_file ex8 40 3 2 false 8 0 62 /\ roomy ex8 40 /\ complete ex8 62 3 2 8 /\ palette_fits ex8 40 8 62 /\
  decode_bmp false opts0 ex8 = Ok [60; 50; 40; 60; 50; 40; 0; 0; 0; 30; 20; 10; 60; 50; 40; 30; 20; 10].
Proof.
  split; [bmp_example|]. split; [right; left; split; [reflexivity|apply Nat.leb_le; reflexivity]|]. split; [apply Nat.leb_le; reflexivity|].
  split; [split; vm_compute; discriminate|vm_compute; reflexivity].
Qed.

(** 1, 2 and 4 bits. Full statement: the same for every width. Missing: widths whose rows are padded; see
    [bmp_small_padding_refuted]. *)
Theorem bmp_file_small_partial bgra o f isz w h down d off : In d [1; 2; 4]%nat -> bmp_file f isz w h down (Z.of_nat d) 0 off -> roomy f isz -> within o w h -> Z.of_nat w < 2 ^ 31 ->
  complete f off w h d -> palette_fits f isz d off -> stride w d = ((w * d + 7) / 8)%nat ->
  exists out, decode_bmp bgra o f = Ok out /\ length out = (w * h * 3)%nat /\
    forall x y c, (x < w)%nat -> (y < h)%nat -> (c < 3)%nat ->
      let col := color_at f isz d (index_at f d (off + stored_row down h y * stride w d) x) in
      nth ((y * w + x) * 3 + c) out 0 = nth c (if bgra then rev col else col) 0.
Proof.
  intros Id B R (Mw & Mh & Ma) Hw31 C P S. assert (Hd : Z.of_nat d = 1 \/ Z.of_nat d = 2 \/ Z.of_nat d = 4) by (cbn [In] in Id; lia).
  assert (Hd8 : (1 <= d <= 8)%nat) by lia.
  pose proof (headers_ok o f isz w h down (Z.of_nat d) 0 off CRgb B R eq_refl Mw Mh ltac:(lia)) as H.
  assert (PF : pixel_format (Z.of_nat off) isz (Z.of_nat d) CRgb = Ok FPal).
  { unfold pixel_format. cbv zeta. rewrite (gap_pos f isz w h down d 0 off _ B Hd8 P eq_refl). destruct Hd as [-> | [-> | ->]]; reflexivity. }
  rewrite PF in H. cbn [bind] in H. destruct (palette_ok o f isz w h down d 0 off B Hd8 P) as (pal & Ep & Lp & Np). rewrite Ep in H. cbn [bind] in H.
  pose proof (bf_size _ _ _ _ _ _ _ _ B) as [Hw Hh]. pose proof (bf_bytes _ _ _ _ _ _ _ _ B) as Hb. unfold complete in C. rewrite S in C. set (n := ((w * d + 7) / 8)%nat) in *.
  set (l := skipn off f) in *. assert (Hl : (h * n <= length l)%nat) by (unfold l; rewrite skipn_length; nia).
  assert (Hxn : forall x, (x < w)%nat -> (x * d / 8 < n)%nat).
  { intros x Hx. unfold n. apply Nat.div_lt_upper_bound; [lia|]. pose proof (Nat.div_mod_eq (w * d + 7) 8) as DM. pose proof (Nat.mod_upper_bound (w * d + 7) 8 ltac:(lia)) as MB. nia. }
  assert (IX : forall i x, index_at (firstn n (skipn (i * n) l)) d 0 x = index_at f d (off + i * n) x \/ (n <= x * d / 8)%nat).
  { intros i x. destruct (Nat.lt_ge_cases (x * d / 8) n) as [G|G]; [left|now right]. unfold index_at. rewrite nth_firstn by lia. unfold l. rewrite !nth_skipn. rewrite Nat.add_0_l, Nat.add_assoc. reflexivity. }
  assert (IR : forall p x, 0 <= index_at f d p x < 2 ^ Z.of_nat d) by (intros p x; unfold index_at; apply Z.mod_pos_bound, Z.pow_pos_nonneg; lia).
  assert (RW : rows_by (row_small pal (Z.of_nat d) w) h l = Ok (map (fun y => pix_row w (fun x => rgb pal (index_at f d (off + y * n) x))) (seq 0 h))).
  { apply (rows_by_ok _ _ n). intros i Hi. unfold row_small. rewrite Nat2Z.id. fold n.
    assert (Hin : (n <= length (skipn (i * n) l))%nat) by (rewrite skipn_length; revert Hl; generalize n; clear - Hi; intros; nia). replace (length (skipn (i * n) l) <? n)%nat with false by (clear - Hin; lia).
    set (bs := firstn n (skipn (i * n) l)). assert (Lb : length bs = n) by (unfold bs; now apply firstn_length_le).
    set (ix := concat (map (expand_byte (Z.of_nat d)) bs)).
    assert (Li : (w <= length ix)%nat).
    { unfold ix. rewrite (concat_length_const (8 / d)). rewrite map_length, Lb. unfold n. pose proof (Nat.div_mod_eq (w * d + 7) 8) as DM. pose proof (Nat.mod_upper_bound (w * d + 7) 8 ltac:(lia)) as MB.
      set (q := ((w * d + 7) / 8)%nat) in *. clearbody q. cbn [In] in Id. destruct Id as [<-|[<-|[<-|[]]]]; [change (8 / 1)%nat with 8%nat|change (8 / 2)%nat with 4%nat|change (8 / 4)%nat with 2%nat]; lia.
      apply Forall_forall. intros r Hr. apply in_map_iff in Hr as (b & <- & _). rewrite expand_length by easy. now rewrite Nat2Z.id. }
    assert (Bx : bytes ix).
    { unfold ix. apply Forall_concat. apply Forall_forall. intros r Hr. apply in_map_iff in Hr as (b & <- & _). pose proof (expand_bytes (Z.of_nat d) b Hd) as EB. apply Forall_forall. intros v Hv. rewrite Forall_forall in EB. specialize (EB v Hv).
      unfold is_byte. destruct Hd as [E | [E | E]]; rewrite E in EB; cbn in EB; lia. }
    rewrite pal_row_ok; [|exact Lp|now apply bytes_first]. cbn [bind]. rewrite skipn_skipn'. f_equal. f_equal; [|f_equal; lia].
    rewrite (pal_pix pal _ w) by (rewrite firstn_length; lia). unfold pix_row. f_equal. apply map_ext_in. intros x Hx. apply in_seq in Hx. rewrite nth_firstn by lia. f_equal.
    unfold ix. rewrite indices_nth; [|exact Hd|rewrite Nat2Z.id, Lb; apply Hxn; lia]. rewrite Nat2Z.id. destruct (IX i x) as [E|E]; [exact E|]. specialize (Hxn x ltac:(lia)). lia. }
  edestruct (fun pix => finish_pal bgra o f _ _ down pix H eq_refl Hw Ma) as (out & E & L & N).
  - unfold decode_rows. cbn [b_w b_h b_fmt b_depth b_comp b_flip b_masks b_pal channels]. replace (_ || _) with true by lia. rewrite as_i32_small by lia. replace (Z.of_nat w =? - 2 ^ 31) with false by lia.
    rewrite RW. cbn [bind]. rewrite negb_involutive. reflexivity.
  - intros y x. apply rgb_length.
  - cbn [b_w b_h b_fmt channels] in *. exists out. split; [exact E|]. split; [exact L|]. intros x y c Hx Hy Hc. cbv zeta. rewrite N by easy. cbv zeta. rewrite Np by apply IR. rewrite S. reflexivity.
Qed.
Print Assumptions bmp_file_small_partial.
Definition ex4 : list Z := file40 7 1 4 0 3 ([10; 20; 30; 0; 40; 50; 60; 0; 70; 80; 90; 0] ++ [0x01; 0x21; 0x02; 0x10]) 66.
Example bmp_file_small_ex : bmp_file ex4 40 7 1 false 4 0 66 /\ roomy ex4 40 /\ complete ex4 66 7 1 4 /\ palette_fits ex4 40 4 66 /\ stride 7 4 = ((7 * 4 + 7) / 8)%nat /\
  decode_bmp false opts0 ex4 = Ok [30; 20; 10; 60; 50; 40; 90; 80; 70; 60; 50; 40; 30; 20; 10; 90; 80; 70; 60; 50; 40].
Proof.
  split; [bmp_example|]. split; [right; left; split; [reflexivity|apply Nat.leb_le; reflexivity]|]. split; [apply Nat.leb_le; reflexivity|].
  split; [split; vm_compute; discriminate|]. split; [reflexivity|vm_compute; reflexivity].
Qed.

(** 16 bits. Full statement: the same for every width and height. Missing: the rows are taken to be as long as if the picture were
    as wide as twice its height, rounded up to a multiple of four; see [bmp_16_refuted]. *)
Lemma stride16 w : (w * 2 <= stride w 16)%nat.
Proof. unfold stride. lia. Qed.
Lemma rows16 nc ms g w h l : (0 < h)%nat -> (forall v, 0 <= v -> conv false (3 <? nc)%nat ms v = Ok (g v)) -> bytes l -> stride w 16 = ((h * 2 + 3) / 4 * 4 * 2)%nat ->
  ((h - 1) * stride w 16 + w * 2 <= length l)%nat ->
  rows_by (row16 false nc ms w h) h l = Ok (map (fun y => pix_row w (fun x => g (le_val (slice l (y * stride w 16 + x * 2) 2)))) (seq 0 h)).
Proof.
  intros Hh G Hl S Hn. pose proof (stride16 w) as SW. apply (rows_by_ok _ _ (stride w 16)). intros i Hi. unfold row16. cbv zeta.
  set (per := ((h * 2 + 3) / 4 * 4)%nat) in *. set (st := stride w 16) in *. clearbody per st. rewrite Nat.min_l by lia.
  rewrite (pixels_by_ok _ 2 (fun b => g (le_val b))); [|intros b _ Hb; apply G, le_val_pos, Hb|now apply bytes_skip|rewrite skipn_length; nia].
  cbn [bind]. rewrite Nat.sub_diag. cbn [Nat.mul repeat]. rewrite app_nil_r. rewrite !skipn_skipn'. f_equal. f_equal; [|f_equal; lia].
  unfold pix_row. f_equal. apply map_ext. intros x. now rewrite slice_skip.
Qed.

Theorem bmp_file_16_partial o f isz w h down off : bmp_file f isz w h down 16 0 off -> roomy f isz -> within o w h -> complete f off w h 16 ->
  stride w 16 = ((h * 2 + 3) / 4 * 4 * 2)%nat ->
  exists out, decode_bmp false o f = Ok out /\ length out = (w * h * 3)%nat /\
    forall x y c, (x < w)%nat -> (y < h)%nat -> (c < 3)%nat ->
      let v := le_at f (pixel_pos off w h down 16 x y) 2 in
      nth ((y * w + x) * 3 + c) out 0 = nth c [scaled 10 5 v; scaled 5 5 v; scaled 0 5 v] 0.
Proof.
  intros B R (Mw & Mh & Ma) C S. pose proof (headers_ok o f isz w h down 16 0 off CRgb B R eq_refl Mw Mh ltac:(lia)) as H. cbn [pixel_format Z.eqb Pos.eqb bind] in H.
  pose proof (bf_size _ _ _ _ _ _ _ _ B) as [Hw Hh]. pose proof (bf_bytes _ _ _ _ _ _ _ _ B) as Hb. unfold complete in C.
  assert (E2 : ((w * 16 + 7) / 8 = w * 2)%nat) by (clear; lia). rewrite E2 in C.
  set (g := fun v => [scaled 10 5 v; scaled 5 5 v; scaled 0 5 v]).
  assert (RW : rows_by (row16 false 3 [31744; 992; 31; 31] w h) h (skipn off f) = Ok (map (fun y => pix_row w (fun x => g (le_val (slice (skipn off f) (y * stride w 16 + x * 2) 2)))) (seq 0 h))).
  { apply rows16; [exact Hh| |now apply bytes_skip|exact S|rewrite skipn_length; lia]. intros v Hv. apply (conv_ok 10 5 5 5 0 5 (Some (0, 5)) false v); lia. }
  edestruct (fun rows pix => finish0 false o f _ _ rows down true pix H Hw Ma) as (out & E & L & N).
  - unfold decode_rows. cbn [b_w b_h b_fmt b_depth b_comp b_flip b_masks channels Z.eqb Pos.eqb orb andb]. rewrite orb_true_r. cbn [andb]. rewrite RW. cbn [bind]. rewrite negb_involutive. reflexivity.
  - reflexivity.
  - reflexivity.
  - reflexivity.
  - cbn [b_w b_h b_fmt channels] in *. exists out. split; [exact E|]. split; [exact L|]. intros x y c Hx Hy Hc. cbv zeta. rewrite N by easy. unfold pixel_pos, le_at. rewrite slice_skip.
    replace (x * 16 / 8)%nat with (x * 2)%nat by (clear; lia). rewrite Nat.add_assoc. reflexivity.
Qed.
Print Assumptions bmp_file_16_partial.
Definition ex16 : list Z := file40 3 2 16 0 0 ([0x1F; 0; 0xE0; 3; 0; 0x7C; 0; 0] ++ [0xFF; 0x7F; 1; 0; 0; 0; 0; 0]) 54.
Example bmp_file_16_ex : bmp_file ex16 40 3 2 false 16 0 54 /\ roomy ex16 40 /\ complete ex16 54 3 2 16 /\ stride 3 16 = ((2 * 2 + 3) / 4 * 4 * 2)%nat /\
  decode_bmp false opts0 ex16 = Ok [255; 255; 255; 0; 0; 8; 0; 0; 0; 0; 0; 255; 0; 255; 0; 255; 0; 0].
Proof. split; [bmp_example|]. split; [right; left; split; [reflexivity|apply Nat.leb_le; reflexivity]|]. split; [apply Nat.leb_le; reflexivity|]. split; [reflexivity|vm_compute; reflexivity]. Qed.

Theorem bmp_file_16_masks_partial o f isz w h down off rs rn gs gn bs bn al : bmp_file f isz w h down 16 3 off -> roomy f isz -> within o w h -> complete f off w h 16 ->
  stride w 16 = ((h * 2 + 3) / 4 * 4 * 2)%nat -> masks f isz rs rn gs gn bs bn al ->
  exists out, decode_bmp false o f = Ok out /\ length out = (w * h * 4)%nat /\
    forall x y c, (x < w)%nat -> (y < h)%nat -> (c < 4)%nat ->
      let v := le_at f (pixel_pos off w h down 16 x y) 2 in
      nth ((y * w + x) * 4 + c) out 0 = nth c [scaled rs rn v; scaled gs gn v; scaled bs bn v; match al with None => 255 | Some (s, n) => scaled s n v end] 0.
Proof.
  intros B R (Mw & Mh & Ma) C S M. pose proof (headers_ok o f isz w h down 16 3 off CFields B R eq_refl Mw Mh ltac:(lia)) as H. cbn [pixel_format Z.eqb Pos.eqb bind] in H.
  assert (N12 : isz =? 12 = false). { destruct (bf_fields _ _ _ _ _ _ _ _ B) as [(_ & _ & X & _)|(I & _)]; [lia|cbn [In] in I; lia]. }
  destruct (masks_list f isz _ _ _ _ _ _ al M N12) as (_ & Z0 & CV).
  pose proof (bf_size _ _ _ _ _ _ _ _ B) as [Hw Hh]. pose proof (bf_bytes _ _ _ _ _ _ _ _ B) as Hb. unfold complete in C.
  assert (E2 : ((w * 16 + 7) / 8 = w * 2)%nat) by (clear; lia). rewrite E2 in C.
  set (g := fun v => [scaled rs rn v; scaled gs gn v; scaled bs bn v; match al with None => 255 | Some (s, n) => scaled s n v end]) in *.
  assert (RW : rows_by (row16 false 4 (masks_of f isz) w h) h (skipn off f) = Ok (map (fun y => pix_row w (fun x => g (le_val (slice (skipn off f) (y * stride w 16 + x * 2) 2)))) (seq 0 h))).
  { apply rows16; [exact Hh| |now apply bytes_skip|exact S|rewrite skipn_length; lia]. intros v Hv. exact (CV true v Hv). }
  edestruct (fun rows pix => finish0 false o f _ _ rows down true pix H Hw Ma) as (out & E & L & N).
  - unfold decode_rows. cbn [b_w b_h b_fmt b_depth b_comp b_flip b_masks channels Z.eqb Pos.eqb orb andb]. rewrite Z0. cbn [andb orb]. rewrite RW. cbn [bind]. rewrite negb_involutive. reflexivity.
  - reflexivity.
  - reflexivity.
  - reflexivity.
  - cbn [b_w b_h b_fmt channels] in *. exists out. split; [exact E|]. split; [exact L|]. intros x y c Hx Hy Hc. cbv zeta. rewrite N by easy. unfold pixel_pos, le_at. rewrite slice_skip.
    replace (x * 16 / 8)%nat with (x * 2)%nat by (clear; lia). rewrite Nat.add_assoc. reflexivity.
Qed.
Print Assumptions bmp_file_16_masks_partial.
Definition ex16m : list Z := file40 3 2 16 3 0 (le_bytes 4 0xF800 ++ le_bytes 4 0x7E0 ++ le_bytes 4 0x1F ++ [0x1F; 0; 0xE0; 7; 0; 0xF8; 0; 0] ++ [0xFF; 0xFF; 1; 0; 0; 0; 0; 0]) 66.
Example bmp_file_16_masks_ex : bmp_file ex16m 40 3 2 false 16 3 66 /\ roomy ex16m 40 /\ complete ex16m 66 3 2 16 /\ masks ex16m 40 11 5 5 6 0 5 None /\
  decode_bmp false opts0 ex16m = Ok [255; 255; 255; 255; 0; 0; 8; 255; 0; 0; 0; 255; 0; 0; 255; 255; 0; 255; 0; 255; 255; 0; 0; 255].
Proof.
  split; [bmp_example|]. split; [right; left; split; [reflexivity|apply Nat.leb_le; reflexivity]|]. split; [apply Nat.leb_le; reflexivity|].
  split; [constructor; [cbn; auto|split; [unfold good_mask; lia|reflexivity]|split; [unfold good_mask; lia|reflexivity]|split; [unfold good_mask; lia|reflexivity]|reflexivity]|vm_compute; reflexivity].
Qed.

(** Run lengths: the pixels are commands ([BmpSpec]); drawn from the bottom *)
Lemma draw_bound m l : forall x y c, 0 < m -> Forall (fun a => match a with Put vs => Forall (fun v => 0 <= v < m) vs | _ => True end) l -> (forall x y, 0 <= c x y < m) ->
  forall x' y', 0 <= draw l x y c x' y' < m.
Proof.
  induction l as [|a l IH]; intros x y c Hm F Hc x' y'; cbn [draw]; [apply Hc|]. inversion_clear F as [|? ? Fa Fl]. destruct a as [vs| |dx dy]; apply IH; try easy.
  intros u v. unfold put_px. destruct (_ && _) eqn:E; [|apply Hc]. rewrite Forall_forall in Fa. apply Fa, nth_In. apply andb_true_iff in E as [E1 E2]. apply andb_true_iff in E1 as [E0 E1]. lia.
Qed.
Lemma alternate_bound m n : forall a b, 0 <= a < m -> 0 <= b < m -> Forall (fun v => 0 <= v < m) (alternate n a b).
Proof. induction n as [|n IH]; intros a b Ha Hb; cbn [alternate]; [constructor|]. constructor; [easy|now apply IH]. Qed.
Lemma acts_bound (four : bool) l : Forall (cmd_ok (if four then 16 else 256)) l ->
  Forall (fun a => match a with Put vs => Forall (fun v => 0 <= v < (if four then 16 else 256)) vs | _ => True end) (map (if four then act4 else act8) l).
Proof.
  intros H. apply Forall_map. revert H. apply Forall_impl. intros [n v|vs| |dx dy]; destruct four; cbn [act4 act8 cmd_ok]; try easy; intros [A B].
  - apply alternate_bound; lia.
  - apply Forall_forall. intros u Hu. apply repeat_spec in Hu. lia.
Qed.

Theorem bmp_file_rle (four : bool) bgra o f isz w h off l junk : let d := if four then 4%nat else 8%nat in
  bmp_file f isz w h false (Z.of_nat d) (if four then 2 else 1) off -> roomy f isz -> within o w h -> palette_fits f isz d off -> Z.of_nat (length f) < 2 ^ 55 ->
  skipn off f = (if four then stream4 l else stream8 l) ++ [0; 1] ++ junk ->
  Forall (cmd_ok (if four then 16 else 256)) l -> fits w h (map (if four then act4 else act8) l) 0 0 ->
  exists out, decode_bmp bgra o f = Ok out /\ length out = (w * h * 3)%nat /\
    forall x y c, (x < w)%nat -> (y < h)%nat -> (c < 3)%nat ->
      let col := color_at f isz d (draw (map (if four then act4 else act8) l) 0 0 blank x (h - 1 - y)%nat) in
      nth ((y * w + x) * 3 + c) out 0 = nth c (if bgra then rev col else col) 0.
Proof.
  intros d B R (Mw & Mh & Ma) P Hlen Hdata Hok Hfit. assert (Hd8 : (1 <= d <= 8)%nat) by (unfold d; destruct four; lia).
  destruct (height_bound _ _ _ _ _ _ _ _ B) as [Hh31 _]. pose proof (bf_size _ _ _ _ _ _ _ _ B) as [Hw Hh]. pose proof (bf_bytes _ _ _ _ _ _ _ _ B) as Hb.
  assert (Hc : comp_of (if four then 2 else 1) = Ok (if four then CRle4 else CRle8)) by (destruct four; reflexivity).
  pose proof (headers_ok o f isz w h false (Z.of_nat d) _ off _ B R Hc Mw Mh ltac:(lia)) as H.
  assert (PF : pixel_format (Z.of_nat off) isz (Z.of_nat d) (if four then CRle4 else CRle8) = Ok FPal).
  { unfold pixel_format. cbv zeta. rewrite (gap_pos f isz w h false d _ off _ B Hd8 P eq_refl). unfold d. destruct four; reflexivity. }
  rewrite PF in H. cbn [bind] in H. destruct (palette_ok o f isz w h false d _ off B Hd8 P) as (pal & Ep & Lp & Np). rewrite Ep in H. cbn [bind] in H.
  assert (Hj : bytes junk). { pose proof (bytes_skip _ off Hb) as Q. rewrite Hdata in Q. apply bytes_app in Q as [_ Q]. now apply bytes_app in Q as [_ Q]. }
  assert (Hl2 : Z.of_nat (length ((if four then stream4 l else stream8 l) ++ [0; 1] ++ junk)) < 2 ^ 55) by (rewrite <- Hdata, skipn_length; lia).
  destruct (bmp_rle_image pal four w h l junk Lp Hh ltac:(lia) Hw Ma Hj Hl2 Hok Hfit) as (out & E & L & N). rewrite <- Hdata in E.
  assert (Ed : (if four then 4 else 8) = Z.of_nat d) by (unfold d; now destruct four). rewrite Ed in E.
  assert (IR : forall x y, 0 <= draw (map (if four then act4 else act8) l) 0 0 blank x y < 2 ^ Z.of_nat d).
  { intros x y. replace (2 ^ Z.of_nat d) with (if four then 16 else 256) by (unfold d; destruct four; reflexivity). apply draw_bound; [destruct four; lia|now apply acts_bound|intros; unfold blank; destruct four; lia]. }
  assert (N' : forall x y c, (x < w)%nat -> (y < h)%nat -> (c < 3)%nat -> nth ((y * w + x) * 3 + c) out 0 = nth c (color_at f isz d (draw (map (if four then act4 else act8) l) 0 0 blank x (h - 1 - y)%nat)) 0).
  { intros x y c Hx Hy Hc3. rewrite N by easy. rewrite <- Np by apply IR. reflexivity. }
  assert (E' : decode_bmp bgra o f = Ok (if bgra then swap_bgr out else out)).
  { unfold decode_bmp. rewrite H. cbn [bind]. unfold output_buf_size. cbn [b_w b_h b_fmt channels]. replace (_ || _) with false by nia. cbn [bind]. rewrite Z2Nat.id by nia. replace (2 ^ 63 <=? _) with false by nia.
    unfold decode_rle_image in E. unfold decode_rows. cbn [b_w b_h b_fmt b_depth b_comp b_flip b_masks b_pal channels]. destruct (decode_rle (Z.of_nat d) w h (skipn off f)) as [idx| | |]; cbn [bind] in E; try discriminate.
    destruct (expand_palette pal w h idx) as [buf| | |] eqn:EX; cbn [bind] in E; try discriminate. destruct four; cbn [bind]; rewrite EX; cbn [bind]; rewrite E; cbn [bind negb]; destruct bgra; reflexivity. }
  destruct bgra.
  - destruct (swap_bgr_spec (w * h) out L) as [L2 N2]. exists (swap_bgr out). split; [exact E'|]. split; [exact L2|]. intros x y c Hx Hy Hc3. cbv zeta. rewrite N2 by nia. rewrite N' by lia.
    assert (L3 : forall i, length (color_at f isz d i) = 3%nat) by (intros i; unfold color_at, palette_at; now destruct (i <? _)). rewrite rev_nth by (rewrite L3; lia). f_equal. rewrite L3. lia.
  - exists out. split; [exact E'|]. split; [exact L|exact N'].
Qed.
Print Assumptions bmp_file_rle.
Definition ex_rle : list Z := file40 4 2 8 1 2 ([10; 20; 30; 0; 40; 50; 60; 0] ++ stream8 [Run 3 1; Eol; Delta 1 0; Lit [1; 0; 1]] ++ [0; 1]) 62.
Example bmp_file_rle_ex : bmp_file ex_rle 40 4 2 false 8 1 62 /\ roomy ex_rle 40 /\ palette_fits ex_rle 40 8 62 /\ skipn 62 ex_rle = stream8 [Run 3 1; Eol; Delta 1 0; Lit [1; 0; 1]] ++ [0; 1] ++ [] /\
  fits 4 2 (map act8 [Run 3 1; Eol; Delta 1 0; Lit [1; 0; 1]]) 0 0 /\
  decode_bmp false opts0 ex_rle = Ok [30; 20; 10; 60; 50; 40; 30; 20; 10; 60; 50; 40; 60; 50; 40; 60; 50; 40; 60; 50; 40; 30; 20; 10].
Proof.
  split; [bmp_example|]. split; [right; left; split; [reflexivity|apply Nat.leb_le; reflexivity]|]. split; [split; vm_compute; discriminate|].
  split; [reflexivity|]. split; [cbn; lia|vm_compute; reflexivity].
Qed.

(** What is wrong with the decoder. A file too short for the bytes read after its header is refused though complete: *)
Theorem bmp_tiny_refuted : exists f, bmp_file f 40 1 1 false 24 0 54 /\ complete f 54 1 1 24 /\ length f = (54 + stride 1 24)%nat /\ decode_bmp false opts0 f = Err EEof.
Proof. exists (file40 1 1 24 0 0 [1; 2; 3; 0] 54). split; [bmp_example|]. split; [apply Nat.leb_le; reflexivity|]. split; [reflexivity|vm_compute; reflexivity]. Qed.
Print Assumptions bmp_tiny_refuted.
(** 16 bits, 4 by 4: the second row from the bottom is read from the third; the last two are black. *)
Theorem bmp_16_refuted : exists f, bmp_file f 40 4 4 false 16 0 54 /\ roomy f 40 /\ complete f 54 4 4 16 /\
  exists out, decode_bmp false opts0 f = Ok out /\ le_at f (pixel_pos 54 4 4 false 16 0 2) 2 = 2 /\ nth ((2 * 4 + 0) * 3 + 2) out 0 = scaled 0 5 3.
Proof.
  exists (file40 4 4 16 0 0 (concat (map (fun y => concat (repeat [y; 0] 4)) [1; 2; 3; 4])) 54). split; [bmp_example|]. split; [right; left; split; [reflexivity|apply Nat.leb_le; reflexivity]|].
  split; [apply Nat.leb_le; reflexivity|]. eexists. split; [vm_compute; reflexivity|]. split; vm_compute; reflexivity.
Qed.
Print Assumptions bmp_16_refuted.
(** 4 bits, 2 by 2: the padding of the first row is taken for the second. *)
Theorem bmp_small_padding_refuted : exists f, bmp_file f 40 2 2 false 4 0 62 /\ roomy f 40 /\ complete f 62 2 2 4 /\ palette_fits f 40 4 62 /\
  exists out, decode_bmp false opts0 f = Ok out /\ color_at f 40 4 (index_at f 4 (62 + stored_row false 2 0 * stride 2 4) 0) = [60; 50; 40] /\ firstn 3 out = [30; 20; 10].
Proof.
  exists (file40 2 2 4 0 2 ([10; 20; 30; 0; 40; 50; 60; 0] ++ [0x11; 0; 0; 0; 0x11; 0; 0; 0]) 62). split; [bmp_example|]. split; [right; left; split; [reflexivity|apply Nat.leb_le; reflexivity]|].
  split; [apply Nat.leb_le; reflexivity|]. split; [split; vm_compute; discriminate|]. eexists. split; [vm_compute; reflexivity|]. split; vm_compute; reflexivity.
Qed.
Print Assumptions bmp_small_padding_refuted.
(** 8 bits without a palette: a row of gray samples comes out in another order. *)
Theorem bmp_gray_refuted : exists f, bmp_file f 40 4 3 false 8 0 54 /\ roomy f 40 /\ complete f 54 4 3 8 /\
  slice f 54 12 = [1; 2; 3; 4; 5; 6; 7; 8; 9; 10; 11; 12] /\ decode_bmp false opts0 f = Ok [11; 10; 9; 12; 7; 6; 5; 8; 3; 2; 1; 4].
Proof.
  exists (file40 4 3 8 0 0 (map Z.of_nat (seq 1 12)) 54). split; [bmp_example|]. split; [right; left; split; [reflexivity|apply Nat.leb_le; reflexivity]|].
  split; [apply Nat.leb_le; reflexivity|]. split; [reflexivity|vm_compute; reflexivity].
Qed.
Print Assumptions bmp_gray_refuted.
(** Asking for blue first with the usual masks of 8 bits panics (with debug assertions). *)
Theorem bmp_bgra_masks_refuted : exists f, bmp_file f 40 1 1 false 32 3 66 /\ roomy f 40 /\ complete f 66 1 1 32 /\ masks f 40 16 8 8 8 0 8 None /\
  decode_bmp false opts0 f = Ok [3; 2; 1; 255] /\ decode_bmp true opts0 f = Panic.
Proof.
  exists (file40 1 1 32 3 0 (le_bytes 4 0xFF0000 ++ le_bytes 4 0xFF00 ++ le_bytes 4 0xFF ++ [1; 2; 3; 4]) 66). split; [bmp_example|]. split; [right; left; split; [reflexivity|apply Nat.leb_le; reflexivity]|].
  split; [apply Nat.leb_le; reflexivity|].
  split; [constructor; [cbn; auto|split; [unfold good_mask; lia|reflexivity]|split; [unfold good_mask; lia|reflexivity]|split; [unfold good_mask; lia|reflexivity]|reflexivity]|split; vm_compute; reflexivity].
Qed.
Print Assumptions bmp_bgra_masks_refuted.
(** Run lengths with rows stored from the top: the picture is that of the file with rows from the bottom. *)
Theorem bmp_rle_down_refuted : exists f g, bmp_file f 40 1 2 true 8 1 62 /\ bmp_file g 40 1 2 false 8 1 62 /\ roomy f 40 /\ palette_fits f 40 8 62 /\
  skipn 62 f = stream8 [Run 1 1; Eol; Run 1 0] ++ [0; 1] /\ skipn 62 g = skipn 62 f /\ decode_bmp false opts0 f = decode_bmp false opts0 g /\ decode_bmp false opts0 f = Ok [30; 20; 10; 60; 50; 40].
Proof.
  set (mk := fun h => file40 1 h 8 1 2 ([10; 20; 30; 0; 40; 50; 60; 0] ++ stream8 [Run 1 1; Eol; Run 1 0] ++ [0; 1]) 62). exists (mk (2 ^ 32 - 2)), (mk 2). unfold mk. split; [bmp_example|]. split; [bmp_example|].
  split; [right; left; split; [reflexivity|apply Nat.leb_le; reflexivity]|]. split; [split; vm_compute; discriminate|]. split; [reflexivity|]. split; [reflexivity|]. split; vm_compute; reflexivity.
Qed.
Print Assumptions bmp_rle_down_refuted.
(** With a header of 16 bytes there is no field for the compression, but if the pixels start at byte 40 or later the two 16-bit
    values after the header are taken for one: a file with the palette [5 5 5 5 ...] is refused. *)
Theorem bmp_os2_refuted : exists f, le_at f 14 4 = 16 /\ le_at f 18 4 = 1 /\ le_at f 22 4 = 1 /\ le_at f 28 2 = 24 /\ length f = 46%nat /\ le_at f 10 4 = 42 /\
  decode_bmp false opts0 f = Err EOther /\ decode_bmp false opts0 (firstn 30 f ++ [0; 0; 0; 0] ++ skipn 34 f) = Ok [3; 2; 1].
Proof.
  exists ([66; 77] ++ le_bytes 4 0 ++ le_bytes 4 0 ++ le_bytes 4 42 ++ le_bytes 4 16 ++ le_bytes 4 1 ++ le_bytes 4 1 ++ le_bytes 2 1 ++ le_bytes 2 24 ++ [5; 5; 5; 5; 5; 5; 5; 5; 5; 5; 5; 5] ++ [1; 2; 3; 0]).
  repeat split; vm_compute; reflexivity.
Qed.
Print Assumptions bmp_os2_refuted.
(** Asking for blue first with 16 bits panics (with debug assertions). *)
Theorem bmp_bgra_16_refuted : exists f, bmp_file f 40 3 2 false 16 0 54 /\ roomy f 40 /\ complete f 54 3 2 16 /\ (exists out, decode_bmp false opts0 f = Ok out) /\ decode_bmp true opts0 f = Panic.
Proof. exists ex16. destruct bmp_file_16_ex as (A & B & C & _ & D). split; [exact A|]. split; [exact B|]. split; [exact C|]. split; [eexists; exact D|vm_compute; reflexivity]. Qed.
Print Assumptions bmp_bgra_16_refuted.

(** ** C106: whatever the bytes are, the decoder does not panic, and a picture has the size announced by the header. *)
Theorem bmp_file_safe o f : bytes f -> Z.of_nat (length f) < 2 ^ 55 -> bo_max_w o < 2 ^ 31 -> 4 * bo_max_w o * bo_max_h o < 2 ^ 63 ->
  match decode_bmp false o f with
  | Ok out => exists hd l, decode_headers o f = Ok (hd, l) /\ 0 < Z.of_nat (b_w hd) <= bo_max_w o /\ 0 < Z.of_nat (b_h hd) <= bo_max_h o /\
      output_buf_size hd = Ok (length out) /\ length out = (b_w hd * b_h hd * channels (b_fmt hd))%nat /\ bytes out
  | Err _ => True
  | Panic | Fuel => False
  end.
Proof.
  intros Hf Hlen Mw Mm. unfold decode_bmp. pose proof (headers_safe o f Hf) as HS. destruct (decode_headers o f) as [[hd l]| | |]; try contradiction; [|exact I]. cbn [safe fst snd bind] in *. destruct HS as (G & Bl & Ll).
  pose proof (channels_range (b_fmt hd)) as CR. pose proof (gh_w _ _ G) as Gw. pose proof (gh_h _ _ G) as Gh.
  assert (Area : Z.of_nat (b_w hd) * Z.of_nat (b_h hd) * 4 < 2 ^ 63) by nia.
  assert (Siz : Z.of_nat (b_w hd) * Z.of_nat (b_h hd) * Z.of_nat (channels (b_fmt hd)) < 2 ^ 63) by nia.
  assert (S : output_buf_size hd = Ok (b_w hd * b_h hd * channels (b_fmt hd))%nat).
  { unfold output_buf_size. cbv zeta. replace (_ || _) with false by lia. f_equal. lia. }
  rewrite S. cbn [bind]. replace (2 ^ 63 <=? _) with false by lia.
  pose proof (rows_safe o hd l G Bl Mw ltac:(lia)) as RS. destruct (decode_rows false hd l) as [[[buf fl] inb]| | |]; try contradiction; [|exact I]. cbn [safe fst bind andb] in *. destruct RS as [Lb Bb].
  assert (Hpos : (0 < b_w hd * channels (b_fmt hd))%nat) by nia.
  destruct (flip_good _ _ _ Hpos Lb Bb) as (out & E & Lo & Bo).
  assert (L' : forall x : list Z, length x = (b_h hd * (b_w hd * channels (b_fmt hd)))%nat -> length x = (b_w hd * b_h hd * channels (b_fmt hd))%nat) by (intros x ->; lia).
  destruct fl; [rewrite E; cbn [bind]|cbn [bind]]; exists hd, l; (split; [reflexivity|]); (split; [exact Gw|]); (split; [exact Gh|]).
  - rewrite (L' _ Lo). auto.
  - rewrite (L' _ Lb). auto.
Qed.
Print Assumptions bmp_file_safe.
Example bmp_file_safe_ex : bytes ex_rle /\ Z.of_nat (length ex_rle) < 2 ^ 55 /\ bo_max_w opts0 < 2 ^ 31 /\ 4 * bo_max_w opts0 * bo_max_h opts0 < 2 ^ 63 /\ decode_bmp false opts0 (firstn 64 ex_rle) <> Panic.
Proof. split; [apply bytesb_ok; vm_compute; reflexivity|]. split; [reflexivity|]. split; [reflexivity|]. split; [reflexivity|vm_compute; discriminate]. Qed.

(** ** C107: what the header says *)
Theorem bmp_header o f isz w h down bpp comp off : bmp_file f isz w h down bpp comp off -> roomy f isz -> within o w h -> In bpp [24; 32] -> In comp [0; 3] ->
  exists hd l, decode_headers o f = Ok (hd, l) /\ b_w hd = w /\ b_h hd = h /\ b_depth hd = bpp /\ channels (b_fmt hd) = Z.to_nat (bpp / 8) /\
    (In isz [40; 56; 108; 124] -> b_masks hd = map (mask_at f isz) [0; 1; 2; 3]%nat) /\ (isz <= 40 -> b_prim hd = None) /\
    (108 <= isz -> b_prim hd = Some (map (fun i => le_at f (74 + 4 * i) 4) (seq 0 9))) /\ (isz < 124 -> b_icc hd = None).
Proof.
  intros B R (Mw & Mh & _) Ib Ic. assert (C : exists c, comp_of comp = Ok c) by (cbn [In] in Ic; destruct Ic as [<-|[<-|[]]]; eexists; reflexivity). destruct C as [c Ec].
  pose proof (headers_ok o f isz w h down bpp comp off c B R Ec Mw Mh ltac:(cbn [In] in Ib; lia)) as H.
  assert (PF : exists fm, pixel_format (Z.of_nat off) isz bpp c = Ok fm /\ channels fm = Z.to_nat (bpp / 8) /\ fm <> FPal).
  { cbn [In] in Ib. destruct Ib as [<-|[<-|[]]]; eexists; (split; [reflexivity|]); (split; [reflexivity|discriminate]). }
  destruct PF as (fm & PF & CH & NP). rewrite PF in H. cbn [bind] in H. replace (match fm with FPal => palette o f isz bpp | _ => Ok [] end) with (Ok ([] : list (Z * Z * Z))) in H by (destruct fm; easy). cbn [bind] in H.
  eexists _, _. split; [exact H|]. cbn [b_w b_h b_depth b_fmt b_masks b_prim b_icc]. split; [reflexivity|]. split; [reflexivity|]. split; [reflexivity|]. split; [exact CH|].
  split; [|split; [|split]]; intros Hi.
  - unfold masks_of. replace (isz =? 12) with false by (cbn [In] in Hi; lia). apply map_ext. intros i. now apply mask_raw_at.
  - unfold prim_of. now replace (isz <=? 40) with true by lia.
  - unfold prim_of. now replace (isz <=? 40) with false by lia.
  - unfold icc_of. now replace (isz <=? 108) with true by (destruct (bf_fields _ _ _ _ _ _ _ _ B) as [(-> & _)|(In_ & _)]; [lia|cbn [In] in In_; lia]).
Qed.
Print Assumptions bmp_header.

(** The profile that a version 5 header points to: [offset] counts from the header, the colour space is PROFILE_EMBEDDED *)
Theorem bmp_profile o f w h down bpp comp off po size : bmp_file f 124 w h down bpp comp off -> within o w h -> In bpp [24; 32] -> In comp [0; 3] ->
  le_at f 70 4 = 0x4D424544 -> le_at f 126 4 = Z.of_nat po -> le_at f 130 4 = Z.of_nat size ->
  (124 <= po)%nat -> (14 + po + size <= length f)%nat -> Z.of_nat size <= 20 * 1024 * 1024 ->
  exists hd l, decode_headers o f = Ok (hd, l) /\ b_icc hd = Some (slice f (14 + po) size).
Proof.
  intros B (Mw & Mh & _) Ib Ic Ecs Epo Esz Hpo Hlen Hsz. assert (R : roomy f 124) by (right; right; lia).
  assert (C : exists c, comp_of comp = Ok c) by (cbn [In] in Ic; destruct Ic as [<-|[<-|[]]]; eexists; reflexivity). destruct C as [c Ec].
  pose proof (headers_ok o f 124 w h down bpp comp off c B R Ec Mw Mh ltac:(cbn [In] in Ib; lia)) as H.
  assert (PF : exists fm, pixel_format (Z.of_nat off) 124 bpp c = Ok fm /\ fm <> FPal).
  { cbn [In] in Ib. destruct Ib as [<-|[<-|[]]]; eexists; (split; [reflexivity|discriminate]). }
  destruct PF as (fm & PF & NP). rewrite PF in H. cbn [bind] in H. replace (match fm with FPal => palette o f 124 bpp | _ => Ok [] end) with (Ok ([] : list (Z * Z * Z))) in H by (destruct fm; easy). cbn [bind] in H.
  eexists _, _. split; [exact H|]. cbn [b_icc]. unfold icc_of, profile. cbn [Z.leb Z.compare Pos.compare Pos.compare_cont]. rewrite Ecs, Epo, Esz. replace (_ <? _) with false by lia.
  replace (Z.to_nat (Z.max 134 (14 + Z.of_nat po))) with (14 + po)%nat by lia. rewrite Nat2Z.id.
  assert (L : length (slice f (14 + po) size) = size) by (unfold slice; rewrite firstn_length, skipn_length; lia). rewrite L, Nat.eqb_refl. reflexivity.
Qed.
Print Assumptions bmp_profile.
Definition ex124 : list Z :=
  [66; 77] ++ le_bytes 4 0 ++ le_bytes 4 0 ++ le_bytes 4 138 ++ le_bytes 4 124 ++ le_bytes 4 1 ++ le_bytes 4 1 ++ le_bytes 2 1 ++ le_bytes 2 24 ++ le_bytes 4 0 ++
  le_bytes 4 0 ++ le_bytes 4 0 ++ le_bytes 4 0 ++ le_bytes 4 0 ++ le_bytes 4 0 ++ le_bytes 4 1 ++ le_bytes 4 2 ++ le_bytes 4 3 ++ le_bytes 4 4 ++ le_bytes 4 0x4D424544 ++
  concat (map (fun i => le_bytes 4 (Z.of_nat i)) (seq 11 12)) ++ le_bytes 4 0 ++ le_bytes 4 128 ++ le_bytes 4 5 ++ le_bytes 4 0 ++ [1; 2; 3; 0] ++ [7; 8; 9; 10; 11].
Example bmp_header_ex : bmp_file ex124 124 1 1 false 24 0 138 /\ roomy ex124 124 /\ le_at ex124 70 4 = 0x4D424544 /\ le_at ex124 126 4 = Z.of_nat 128 /\ le_at ex124 130 4 = Z.of_nat 5 /\
  exists hd l, decode_headers opts0 ex124 = Ok (hd, l) /\ b_masks hd = [1; 2; 3; 4] /\ b_prim hd = Some [11; 12; 13; 14; 15; 16; 17; 18; 19] /\ b_icc hd = Some [7; 8; 9; 10; 11].
Proof.
  split; [constructor; [apply bytesb_ok; vm_compute; reflexivity|split; apply Nat.ltb_lt; reflexivity|split; reflexivity|split; [reflexivity|split; [vm_compute; discriminate|apply Nat.leb_le; reflexivity]]|reflexivity|
    right; split; [cbn; tauto|split; [reflexivity|split; [reflexivity|split; [reflexivity|split; reflexivity]]]]]|].
  split; [right; right; split; [reflexivity|apply Nat.leb_le; reflexivity]|]. split; [reflexivity|]. split; [reflexivity|]. split; [reflexivity|]. eexists _, _. split; [vm_compute; reflexivity|]. split; [reflexivity|]. split; reflexivity.
Qed.
(** A header of 52 bytes has three masks; the bytes after it, here the first pixel, are taken for the mask of the opacity, and those
    after them for primaries. *)
Theorem bmp_52_refuted : exists f, bmp_file f 52 8 2 false 32 3 66 /\ roomy f 52 /\ complete f 66 8 2 32 /\ mask_at f 52 3 = 0 /\
  exists out hd l, decode_bmp false opts0 f = Ok out /\ decode_headers opts0 f = Ok (hd, l) /\ b_masks hd = [0xFF0000; 0xFF00; 0xFF; 0x50505] /\ nth 3 out 0 <> 255 /\ b_prim hd <> None.
Proof.
  exists (firstn 14 (file40 8 2 32 3 0 [] 66) ++ le_bytes 4 52 ++ skipn 18 (file40 8 2 32 3 0 [] 66) ++ le_bytes 4 0xFF0000 ++ le_bytes 4 0xFF00 ++ le_bytes 4 0xFF ++ concat (repeat [5; 5; 5; 0] 16)).
  split; [constructor; [apply bytesb_ok; vm_compute; reflexivity|split; apply Nat.ltb_lt; reflexivity|split; reflexivity|split; [reflexivity|split; [vm_compute; discriminate|apply Nat.leb_le; reflexivity]]|reflexivity|
    right; split; [cbn; tauto|split; [reflexivity|split; [reflexivity|split; [reflexivity|split; reflexivity]]]]]|].
  split; [right; right; split; [reflexivity|apply Nat.leb_le; reflexivity]|]. split; [apply Nat.leb_le; reflexivity|]. split; [reflexivity|].
  eexists _, _, _. split; [vm_compute; reflexivity|]. split; [vm_compute; reflexivity|]. split; [reflexivity|]. split; [vm_compute; discriminate|discriminate].
Qed.
Print Assumptions bmp_52_refuted.
