(** Properties of colour conversion in zune-jpeg *)
From Verif Require Import Base BaseProof Loops Slices Bits DeintModel JpegSimd JpegColorModel JpegColorSpec JpegColorProof.

(** ** Pixels *)
Lemma near_of s e : Z.abs (100000 * s - e) <= 51000 -> near (clamp255 s) e.
Proof. intros H. unfold near, clamp255, clampz. split; lia. Qed.
Lemma pixel_near bgr alpha y cb cr : sample y -> sample cb -> sample cr ->
  exists r g b, pixel_of bgr alpha y cb cr = (if bgr then [b; g; r] else [r; g; b]) ++ (if alpha then [255] else []) /\
    near r (exact_red y cb cr) /\ near g (exact_green y cb cr) /\ near b (exact_blue y cb cr).
Proof.
  intros Hy Hb Hr. rewrite pixel_value by assumption. cbv zeta. do 3 eexists. split; [reflexivity|].
  unfold sample in *. rewrite !Z.shiftr_div_pow2 by lia. change (2 ^ 14) with 16384.
  unfold exact_red, exact_green, exact_blue.
  repeat split; try (unfold clamp255, clampz; lia); apply near_of; lia.
Qed.
Lemma pixel_length bgr alpha y cb cr : length (pixel_of bgr alpha y cb cr) = (if alpha then 4 else 3)%nat.
Proof. unfold pixel_of. cbv zeta. destruct bgr, alpha; reflexivity. Qed.
Lemma scalar_16_ok (bgr alpha : bool) y cb cr out : length y = 16%nat -> length cb = 16%nat -> length cr = 16%nat ->
  (16 * (if alpha then 4 else 3) <= length out)%nat ->
  scalar_16 bgr alpha y cb cr out = Ok (put out 0 (concat (zip3 (pixel_of bgr alpha) y cb cr))).
Proof.
  intros L1 L2 L3 Lo. unfold scalar_16. apply put_slice_ok.
  rewrite (pixels_length _ (if alpha then 4 else 3)%nat (pixel_length bgr alpha) y cb cr 16) by assumption. lia.
Qed.
Definition is_bgr (c : colorspace) : bool := match c with BGR | BGRA => true | _ => false end.
Definition has_a (c : colorspace) : bool := match c with RGBA | BGRA => true | _ => false end.
Lemma choose_ok avx c : In c [RGB; RGBA; BGR; BGRA] -> exists f, choose avx c = Some f /\
  forall y cb cr out, length y = 16%nat -> length cb = 16%nat -> length cr = 16%nat ->
    Forall sample y -> Forall sample cb -> Forall sample cr -> (16 * (if has_a c then 4 else 3) <= length out)%nat ->
    f y cb cr out = Ok (put out 0 (concat (zip3 (pixel_of (is_bgr c) (has_a c)) y cb cr))).
Proof.
  intros H. cbn [In] in H.
  destruct H as [<-|[<-|[<-|[<-|[]]]]]; destruct avx; (eexists; split; [reflexivity|]); intros; cbn [is_bgr has_a] in *;
    try (rewrite avx_16_scalar by assumption); apply scalar_16_ok; assumption.
Qed.
Lemma row_value avx c y cb cr width out :
  In c [RGB; RGBA; BGR; BGRA] -> (1 <= width <= length y)%nat -> length y = length cb -> length cb = length cr ->
  Forall sample y -> Forall sample cb -> Forall sample cr -> length out = (width * num_components c)%nat ->
  convert_row avx YCbCr c [y; cb; cr] width out = Ok (concat (firstn width (zip3 (pixel_of (is_bgr c) (has_a c)) y cb cr))).
Proof.
  intros Hc Hw L1 L2 Hy Hb Hr Lo. destruct (choose_ok avx c Hc) as (f & Ef & F).
  assert (N : num_components c = (if has_a c then 4 else 3)%nat) by (cbn [In] in Hc; intuition (subst; reflexivity)).
  assert (E : convert_row avx YCbCr c [y; cb; cr] width out = ycbcr_row f width (num_components c) y cb cr out).
  { unfold convert_row, comp. cbn [nth]. cbn [In] in Hc. destruct Hc as [<-|[<-|[<-|[<-|[]]]]]; cbn [andb]; rewrite Ef; reflexivity. }
  rewrite E, N. apply ycbcr_row_ok; try assumption.
  - destruct (has_a c); lia.
  - intros. apply pixel_length.
  - rewrite Lo, N. reflexivity.
Qed.
Lemma zip3_nth {A} (f : Z -> Z -> Z -> A) d : forall a b c i, (i < length a)%nat -> length a = length b -> length b = length c ->
  nth i (zip3 f a b c) d = f (nth i a 0) (nth i b 0) (nth i c 0).
Proof.
  induction a as [|x a IH]; intros [|y b] [|z c] i Hi H1 H2; cbn [length] in *; try lia. cbn [zip3]. destruct i as [|i]; [reflexivity|].
  cbn [nth]. apply IH; lia.
Qed.
Lemma concat_pixel (n : nat) (ls : list (list Z)) i : Forall (fun l => length l = n) ls -> (i < length ls)%nat ->
  firstn n (skipn (i * n) (concat ls)) = nth i ls [].
Proof.
  intros H Hi. rewrite skipn_concat by exact H. rewrite <- (Nat.mul_1_l n) at 1. rewrite firstn_concat by (apply Forall_skipn_, H).
  replace (firstn 1 (skipn i ls)) with [nth i ls []]; [cbn [concat]; apply app_nil_r|].
  clear H. revert i Hi. induction ls as [|l ls IH]; intros i Hi; cbn [length] in Hi; [lia|]. destruct i as [|i]; [reflexivity|].
  cbn [skipn nth]. apply IH. lia.
Qed.
(** * YCbCr images

    Every pixel of the row, whatever the width and the padding, gets the colour of its own samples within 0.51 of the
    exact formula, in the order of the output colorspace, opaque. Nothing outside the row is written (the row is all of
    [out]); nothing depends on what was in [out]. *)
Theorem ycbcr_row_colours avx c y cb cr width out :
  In c [RGB; RGBA; BGR; BGRA] -> (1 <= width <= length y)%nat -> length y = length cb -> length cb = length cr ->
  Forall sample y -> Forall sample cb -> Forall sample cr -> length out = (width * num_components c)%nat ->
  exists row, convert_row avx YCbCr c [y; cb; cr] width out = Ok row /\
    each_of (num_components c) width row (fun i px => exists r g b,
      px = match c with RGB => [r; g; b] | RGBA => [r; g; b; 255] | BGR => [b; g; r] | _ => [b; g; r; 255] end /\
      near r (exact_red (nth i y 0) (nth i cb 0) (nth i cr 0)) /\
      near g (exact_green (nth i y 0) (nth i cb 0) (nth i cr 0)) /\
      near b (exact_blue (nth i y 0) (nth i cb 0) (nth i cr 0))).
Proof.
  intros Hc Hw L1 L2 Hy Hb Hr Lo. eexists. split; [now apply row_value|].
  assert (N : num_components c = (if has_a c then 4 else 3)%nat) by (cbn [In] in Hc; intuition (subst; reflexivity)).
  assert (F : Forall (fun l => length l = num_components c) (firstn width (zip3 (pixel_of (is_bgr c) (has_a c)) y cb cr))).
  { apply Forall_firstn_, zip3_Forall. intros. rewrite N. apply pixel_length. }
  assert (L : length (firstn width (zip3 (pixel_of (is_bgr c) (has_a c)) y cb cr)) = width).
  { rewrite firstn_length, (zip3_length _ _ _ _ (length y)) by congruence. lia. }
  split; [rewrite (concat_length_const (num_components c)) by exact F; now rewrite L|].
  intros i Hi. rewrite concat_pixel by (rewrite ?L; assumption). rewrite nth_firstn by exact Hi. rewrite zip3_nth by (assumption || lia).
  destruct (pixel_near (is_bgr c) (has_a c) (nth i y 0) (nth i cb 0) (nth i cr 0)) as (r & g & b & E & P); try (apply Forall_nth; [assumption|lia]).
  exists r, g, b. split; [|exact P]. rewrite E. cbn [In] in Hc. destruct Hc as [<-|[<-|[<-|[<-|[]]]]]; reflexivity.
Qed.
Print Assumptions ycbcr_row_colours.
(** The result does not depend on the processor. *)
Theorem ycbcr_row_same avx avx' c y cb cr width out :
  In c [RGB; RGBA; BGR; BGRA] -> (1 <= width <= length y)%nat -> length y = length cb -> length cb = length cr ->
  Forall sample y -> Forall sample cb -> Forall sample cr -> length out = (width * num_components c)%nat ->
  convert_row avx YCbCr c [y; cb; cr] width out = convert_row avx' YCbCr c [y; cb; cr] width out.
Proof. intros. now rewrite !row_value. Qed.
Print Assumptions ycbcr_row_same.

Definition demo_y : list Z := map (fun i => Z.of_nat (i * 11)) (seq 0 24).
Definition demo_cb : list Z := map (fun i => Z.of_nat (255 - i * 7)) (seq 0 24).
Definition demo_cr : list Z := map (fun i => Z.of_nat (i * 5 + 100)) (seq 0 24).
Lemma demo_samples : Forall sample demo_y /\ Forall sample demo_cb /\ Forall sample demo_cr.
Proof.
  repeat split; apply Forall_forall; intros x Hx; apply in_map_iff in Hx; destruct Hx as (i & <- & Hi); apply in_seq in Hi;
    unfold sample; lia.
Qed.
Example demo_row : (1 <= 19 <= length demo_y)%nat /\ length demo_y = length demo_cb /\ length demo_cb = length demo_cr /\
  (exists row, convert_row true YCbCr RGB [demo_y; demo_cb; demo_cr] 19 (repeat 9 57) = Ok row /\
               firstn 3 (skipn 54 row) = [255; 153; 200]) /\
  (exists row, convert_row false YCbCr BGRA [demo_y; demo_cb; demo_cr] 5 (repeat 9 20) = Ok row /\ skipn 16 row = [219; 16; 33; 255]).
Proof.
  split; [vm_compute; split; repeat constructor|]. split; [reflexivity|]. split; [reflexivity|].
  split; eexists; split; vm_compute; reflexivity.
Qed.

(** * Other colorspaces *)
Lemma each_pixel_ok {A} n (g : A -> list Z -> list Z) (h : A -> list Z) : (forall x c, length c = n -> g x c = h x) ->
  forall xs w out, length out = (w * n)%nat -> (0 < n)%nat -> (w <= length xs)%nat -> each_pixel n g xs out = concat (map h (firstn w xs)).
Proof.
  intros Hg. induction xs as [|x xs IH]; intros w out Lo Hn Hw; cbn [length] in Hw.
  - replace w with 0%nat in * by lia. cbn [each_pixel firstn map concat]. now destruct out.
  - destruct w as [|w].
    + destruct out; [|cbn [length] in Lo; lia]. cbn [each_pixel length firstn map concat]. now replace (n <=? 0)%nat with false by lia.
    + cbn [each_pixel]. replace (n <=? length out)%nat with true by nia. cbn [firstn map concat].
      rewrite Hg by (rewrite firstn_length; nia). f_equal. apply IH; [rewrite skipn_length; nia|assumption|lia].
Qed.
Lemma map_row n width (ls : list (list Z)) (P : nat -> list Z -> Prop) : Forall (fun l => length l = n) ls -> length ls = width ->
  (forall i, (i < width)%nat -> P i (nth i ls [])) -> each_of n width (concat ls) P.
Proof.
  intros F L H. split; [rewrite (concat_length_const n) by exact F; now rewrite L|].
  intros i Hi. rewrite concat_pixel by (rewrite ?L; assumption). now apply H.
Qed.
Lemma as_u8_id x : sample x -> as_u8 x = x.
Proof. intros H. now apply Z.mod_small. Qed.
(** Grayscale output of YCbCr and grayscale images is the luminance, exactly; grayscale images as RGB or RGBA repeat it. *)
Theorem luma_rows avx cin c y rest width out :
  (cin = YCbCr /\ c = Luma) \/ (cin = Luma /\ In c [Luma; RGB; RGBA]) ->
  (width <= length y)%nat -> Forall sample y -> length out = (width * num_components c)%nat ->
  exists row, convert_row avx cin c (y :: rest) width out = Ok row /\
    each_of (num_components c) width row (fun i px =>
      px = match c with RGB => repeat (nth i y 0) 3 | RGBA => repeat (nth i y 0) 3 ++ [255] | _ => [nth i y 0] end).
Proof.
  intros Hc Hw Hy Lo.
  set (h := fun a : Z => match c with RGB => repeat a 3 | RGBA => repeat a 3 ++ [255] | _ => [a] end).
  set (h' := fun a : Z => h (as_u8 a)).
  assert (E : convert_row avx cin c (y :: rest) width out = Ok (each_pixel (num_components c) (fun a _ => h' a) y out)).
  { unfold convert_row, comp. cbn [nth]. destruct Hc as [[-> ->]|[-> H]]; [reflexivity|]. cbn [In] in H.
    destruct H as [<-|[<-|[<-|[]]]]; reflexivity. }
  rewrite E. eexists. split; [reflexivity|].
  assert (N : (0 < num_components c)%nat) by (destruct Hc as [[_ ->]|[_ H]]; cbn [In num_components] in *; [lia|intuition (subst; cbn [num_components]; lia)]).
  rewrite (each_pixel_ok _ _ h') with (w := width) by (auto || lia).
  apply map_row.
  - apply Forall_forall. intros l Hl. apply in_map_iff in Hl. destruct Hl as (a & <- & _).
    unfold h', h. destruct Hc as [[_ ->]|[_ H]]; [reflexivity|]. cbn [In] in H. destruct H as [<-|[<-|[<-|[]]]]; reflexivity.
  - rewrite map_length, firstn_length. lia.
  - intros i Hi. rewrite (map_nth_in _ _ _ 0) by (rewrite firstn_length; lia). rewrite nth_firstn by exact Hi.
    unfold h'. rewrite as_u8_id by (apply Forall_nth; [assumption|lia]). reflexivity.
Qed.
Print Assumptions luma_rows.
Example luma_demo : (10 <= length demo_y)%nat /\
  match convert_row true Luma RGBA [demo_y] 10 (repeat 0 40) with Ok row => skipn 36 row = [99; 99; 99; 255] | _ => False end.
Proof. vm_compute. split; [repeat constructor|reflexivity]. Qed.

(** CMYK images (stored inverted, as Adobe does): each colour is scaled by the black value, rounded. *)
Lemma blinn_scaled a b : sample a -> sample b -> scaled a b (blinn a b) /\ sample (blinn a b).
Proof.
  unfold sample, scaled. intros Ha Hb. unfold blinn, as_u8. rewrite !Z.shiftr_div_pow2 by lia. change (2 ^ 8) with 256.
  assert (B : 0 <= a * b <= 65025) by nia. set (p := a * b) in *. clearbody p. clear Ha Hb.
  rewrite Z.mod_small; lia.
Qed.
Theorem cmyk_row_colours_partial avx c m y k width out :
  (width <= length c)%nat -> length c = length m -> length m = length y -> length y = length k ->
  Forall sample c -> Forall sample m -> Forall sample y -> Forall sample k -> length out = (width * 3)%nat ->
  exists row, convert_row avx CMYK RGB [c; m; y; k] width out = Ok row /\
    each_of 3 width row (fun i px => exists r g b, px = [r; g; b] /\
      scaled (nth i c 0) (nth i k 0) r /\ scaled (nth i m 0) (nth i k 0) g /\ scaled (nth i y 0) (nth i k 0) b).
Proof.
  intros Hw L1 L2 L3 Hc Hm Hy Hk Lo. unfold convert_row, comp. cbn [nth andb num_components Nat.eqb].
  eexists. split; [reflexivity|].
  erewrite (each_pixel_ok 3 _ (fun '(c, (m, (y, k))) => _)) with (w := width);
    [|intros (? & ? & ? & ?) ? _; reflexivity|exact Lo|lia|rewrite !combine_length; lia].
  apply map_row.
  - apply Forall_forall. intros l Hl. apply in_map_iff in Hl. destruct Hl as ((? & ? & ? & ?) & <- & _). reflexivity.
  - rewrite map_length, firstn_length, !combine_length. lia.
  - intros i Hi. rewrite (map_nth_in _ _ _ (0, (0, (0, 0)))) by (rewrite firstn_length, !combine_length; lia).
    rewrite nth_firstn by exact Hi. rewrite !combine_nth by (rewrite ?combine_length; lia).
    assert (S : forall l, Forall sample l -> length l = length c -> sample (nth i l 0)) by (intros l F E; apply Forall_nth; [exact F|lia]).
    rewrite !as_u8_id by (apply S; (assumption || lia)).
    do 3 eexists. split; [reflexivity|]. repeat split; apply blinn_scaled; apply S; assumption || lia.
Qed.
Print Assumptions cmyk_row_colours_partial.
(** The same for YCCK images: the colours are those of the YCbCr conversion, inverted and scaled by the black value. *)
Theorem ycck_row_colours_partial avx y cb cr k width out :
  (1 <= width <= length y)%nat -> length y = length cb -> length cb = length cr -> length cr = length k ->
  Forall sample y -> Forall sample cb -> Forall sample cr -> Forall sample k -> length out = (width * 3)%nat ->
  exists row, convert_row avx YCCK RGB [y; cb; cr; k] width out = Ok row /\
    each_of 3 width row (fun i px => exists r g b r' g' b', px = [r'; g'; b'] /\
      near r (exact_red (nth i y 0) (nth i cb 0) (nth i cr 0)) /\
      near g (exact_green (nth i y 0) (nth i cb 0) (nth i cr 0)) /\
      near b (exact_blue (nth i y 0) (nth i cb 0) (nth i cr 0)) /\
      scaled (255 - r) (nth i k 0) r' /\ scaled (255 - g) (nth i k 0) g' /\ scaled (255 - b) (nth i k 0) b').
Proof.
  intros Hw L1 L2 L3 Hy Hb Hr Hk Lo.
  destruct (ycbcr_row_colours avx RGB y cb cr width out) as (row & E & Lr & P); try assumption; [left; reflexivity|].
  cbn [num_components] in Lr, P.
  assert (E' : ycbcr_row (match choose avx RGB with Some f => f | None => fun _ _ _ _ => Panic end) width 3 y cb cr out = Ok row).
  { rewrite <- E. unfold convert_row, comp. cbn [nth andb num_components]. destruct avx; reflexivity. }
  assert (C : convert_row avx YCCK RGB [y; cb; cr; k] width out =
    Ok (each_pixel 3 (fun m pix => let m := as_u8 m in
         [blinn (255 - nth 0 pix 0) m; blinn (255 - nth 1 pix 0) m; blinn (255 - nth 2 pix 0) m] ++ skipn 3 pix) k row)).
  { unfold convert_row, comp. cbn [nth andb num_components Nat.eqb]. destruct avx; cbn [choose] in *; rewrite E'; cbn [bind];
      rewrite Lr, Nat.leb_refl; rewrite (firstn_all2 row), (skipn_all2 row) by lia; now rewrite app_nil_r. }
  assert (Lk : (width <= length k)%nat) by lia. rewrite C. eexists. split; [reflexivity|]. clear C E E' Hy Hb Hr L1 L2 L3 Lo.
  set (G := fun (m : Z) (pix : list Z) => _).
  assert (Q : forall w k row, length row = (w * 3)%nat -> (w <= length k)%nat ->
            length (each_pixel 3 G k row) = (w * 3)%nat /\
            forall i, (i < w)%nat -> firstn 3 (skipn (i * 3) (each_pixel 3 G k row)) = G (nth i k 0) (firstn 3 (skipn (i * 3) row))).
  { clear. induction w as [|w IH]; intros k row L Lk.
    - destruct row; [|discriminate]. split; [destruct k; reflexivity|intros; lia].
    - destruct k as [|m k]; cbn [length] in Lk; [lia|]. cbn [each_pixel]. replace (3 <=? length row)%nat with true by lia.
      destruct (IH k (skipn 3 row)) as [I1 I2]; [rewrite skipn_length; lia|lia|].
      destruct row as [|x0 [|x1 [|x2 row]]]; cbn [length] in L; try lia. change (firstn 3 (x0 :: x1 :: x2 :: row)) with [x0; x1; x2]. change (skipn 3 (x0 :: x1 :: x2 :: row)) with row in *.
      split; [rewrite app_length, I1; reflexivity|].
      intros [|i] Hi; [reflexivity|]. cbn [Nat.mul Nat.add nth].
      change (skipn (S (S (S (i * 3)))) (x0 :: x1 :: x2 :: row)) with (skipn (i * 3) row).
      unfold G at 1. cbv zeta. change (skipn 3 [x0; x1; x2]) with (@nil Z). cbn [app skipn]. apply I2. lia. }
  destruct (Q width k row Lr Lk) as [Q1 Q2]. split; [exact Q1|].
  intros i Hi. rewrite Q2 by exact Hi. destruct (P i Hi) as (r & g & b & -> & N1 & N2 & N3).
  unfold G. cbv zeta. cbn [nth skipn app]. exists r, g, b. do 3 eexists. split; [reflexivity|].
  rewrite as_u8_id by (apply Forall_nth; [assumption|lia]).
  assert (Sk : sample (nth i k 0)) by (apply Forall_nth; [assumption|lia]).
  repeat split; try assumption; try apply N1; try apply N2; try apply N3; apply blinn_scaled; try assumption; unfold sample, near in *; lia.
Qed.
Print Assumptions ycck_row_colours_partial.
Example cmyk_demo : (2 <= 3)%nat /\
  convert_row true CMYK RGB [[10; 255; 3]; [20; 255; 3]; [30; 0; 3]; [255; 128; 7]] 2 (repeat 0 6) = Ok [10; 20; 30; 128; 128; 0] /\
  convert_row true YCCK RGB [[10; 255; 3]; [128; 128; 3]; [128; 128; 3]; [255; 128; 7]] 2 (repeat 0 6) = Ok [245; 245; 245; 0; 0; 0].
Proof. vm_compute. repeat split; repeat constructor. Qed.

(** With an alpha channel the claims are false. In YCCK images the last quarter of every row keeps the inverted colours
    and ignores the black value; in CMYK images the pixels are written as if there were three components, so that colours
    end up in the alpha channel and the last quarter is never written. *)
Theorem ycck_rgba_refuted : exists y cb cr k width, (1 <= width <= length y)%nat /\
  length y = length cb /\ length cb = length cr /\ length cr = length k /\
  Forall sample y /\ Forall sample cb /\ Forall sample cr /\ Forall sample k /\
  (exists row, convert_row true YCCK RGBA [y; cb; cr; k] width (repeat 0 (width * 4)) = Ok row /\
   exists i, (i < width)%nat /\ nth i k 0 = 0 /\ nth (i * 4) row 0 = 255).
Proof.
  exists (repeat 255 8), (repeat 128 8), (repeat 128 8), (repeat 0 8), 8%nat.
  assert (F : forall x n, sample x -> Forall sample (repeat x n)) by (intros x n Hx; apply Forall_forall; intros z Hz; apply repeat_spec in Hz; now subst).
  split; [cbn [repeat length]; lia|]. do 3 (split; [reflexivity|]). do 4 (split; [apply F; unfold sample; lia|]).
  eexists. split; [vm_compute; reflexivity|]. exists 7%nat. split; [repeat constructor|]. split; reflexivity.
Qed.
Print Assumptions ycck_rgba_refuted.
Theorem cmyk_rgba_refuted : exists c m y k width, length c = width /\ length m = width /\ length y = width /\ length k = width /\
  Forall sample c /\ Forall sample m /\ Forall sample y /\ Forall sample k /\
  (exists row, convert_row true CMYK RGBA [c; m; y; k] width (repeat 0 (width * 4)) = Ok row /\
   exists i, (i < width)%nat /\ firstn 4 (skipn (i * 4) row) = [0; 0; 0; 0] /\ nth i c 0 = 200 /\ nth i k 0 = 255).
Proof.
  exists (repeat 200 8), (repeat 100 8), (repeat 50 8), (repeat 255 8), 8%nat.
  assert (F : forall x n, sample x -> Forall sample (repeat x n)) by (intros x n Hx; apply Forall_forall; intros z Hz; apply repeat_spec in Hz; now subst).
  do 4 (split; [reflexivity|]). do 4 (split; [apply F; unfold sample; lia|]).
  eexists. split; [vm_compute; reflexivity|]. exists 7%nat. split; [repeat constructor|]. repeat split; reflexivity.
Qed.
Print Assumptions cmyk_rgba_refuted.
(** Two-component images are written as pairs whatever the output colorspace, so that RGB output is garbled. *)
Theorem two_band_rgb_refuted : exists row, convert_row true (MultiBand 2) RGB [[1; 2; 3; 4; 5; 6; 7; 8]; [11; 12; 13; 14; 15; 16; 17; 18]] 4 (repeat 0 12) = Ok row /\
  row = [1; 11; 2; 12; 3; 13; 4; 14; 5; 15; 6; 16].
Proof. eexists. split; vm_compute; reflexivity. Qed.
Print Assumptions two_band_rgb_refuted.
