(** Neighbourhood filters: statistics (C96), edges (C97) and convolution (C98). *)
From Verif Require Import Base BaseProof Loops HdrProof GeomModel GeomSpec GeomProof MedianModel MedianSpec MedianProof F32 F32Round DepthModel DepthProof SpatialModel SpatialSpec SpatialProof ToneModel ToneSpec ToneProof ToneProof3.

Definition samples_upto (hi : Z) (l : list Z) : Prop := Forall (fun v => 0 <= v <= hi) l.
(** A picture of the given size; the largest sample is 255 or 65535 *)
Definition picture (hi : Z) (w h : nat) (l : list Z) : Prop :=
  (hi = 255 \/ hi = 65535) /\ (0 < w)%nat /\ (0 < h)%nat /\ length l = (w * h)%nat /\ samples_upto hi l.

Lemma win_nonempty w h l r x y : window w h l r x y <> [].
Proof. intros E. apply (f_equal (@length Z)) in E. rewrite window_length in E. cbn [length] in E. nia. Qed.
Lemma win_samples hi w h l r x y : picture hi w h l -> samples_upto hi (window w h l r x y).
Proof. intros (_ & Hw & Hh & Hl & HF). now apply window_forall. Qed.

(** ** C96 *)

(** Minimum, maximum and their difference over the window, at every pixel, for every radius, in debug and release builds *)
Theorem statistics_of_window dbg hi w h l r : picture hi w h l ->
  exists mn mx gr, spatial_ops dbg hi Minimum l r w h = Ok mn /\ spatial_ops dbg hi Maximum l r w h = Ok mx /\ spatial_ops dbg hi Gradient l r w h = Ok gr /\
    length mn = (w * h)%nat /\ length mx = (w * h)%nat /\ length gr = (w * h)%nat /\
    forall x y, (x < w)%nat -> (y < h)%nat ->
      smallest (window w h l r x y) (px w mn x y) /\ largest (window w h l r x y) (px w mx x y) /\ px w gr x y = px w mx x y - px w mn x y.
Proof.
  intros P. pose proof P as (Hhi & Hw & Hh & Hl & HF).
  assert (S : forall x y, smallest (window w h l r x y) (find_min hi (window w h l r x y))) by (intros x y; apply find_min_ok; [apply win_nonempty|now apply win_samples]).
  assert (L : forall x y, largest (window w h l r x y) (find_max (window w h l r x y))).
  { intros x y. apply find_max_ok; [apply win_nonempty|]. eapply Forall_impl; [|now apply (win_samples hi)]. intros v Hv; cbv beta in *; lia. }
  destruct (filter_image_ok (statistic_fn dbg hi Minimum) (find_min hi) l r w h Hw Hh Hl ltac:(easy)) as (mn & E1 & L1 & N1).
  destruct (filter_image_ok (statistic_fn dbg hi Maximum) find_max l r w h Hw Hh Hl ltac:(easy)) as (mx & E2 & L2 & N2).
  destruct (filter_image_ok (statistic_fn dbg hi Gradient) (fun c => find_max c - find_min hi c) l r w h Hw Hh Hl) as (gr & E3 & L3 & N3).
  { intros x y Hx Hy. cbn [statistic_fn]. unfold find_gradient, sample_op. destruct (S x y) as [S1 S2]. destruct (L x y) as [M1 M2].
    pose proof (win_samples hi w h l r x y P) as WS. unfold samples_upto in WS. rewrite Forall_forall in WS. pose proof (WS _ S1). pose proof (WS _ M1). specialize (S2 _ M1).
    now replace ((0 <=? find_max (window w h l r x y) - find_min hi (window w h l r x y)) && (find_max (window w h l r x y) - find_min hi (window w h l r x y) <=? hi)) with true by lia. }
  exists mn, mx, gr. split; [exact E1|]. split; [exact E2|]. split; [exact E3|]. split; [exact L1|]. split; [exact L2|]. split; [exact L3|].
  intros x y Hx Hy. rewrite N1, N2, N3 by easy. split; [apply S|]. split; [apply L|reflexivity].
Qed.
Print Assumptions statistics_of_window.
Definition ex_pic : list Z := [10; 200; 30; 40; 5; 60].
Example statistics_of_window_ex : picture 255 3 2 ex_pic /\
  spatial_ops true 255 Minimum ex_pic 1 3 2 = Ok [5; 5; 5; 5; 5; 5] /\ spatial_ops true 255 Maximum ex_pic 1 3 2 = Ok [200; 200; 200; 200; 200; 200] /\
  spatial_ops true 255 Gradient [10; 200; 30] 1 3 1 = Ok [190; 190; 170].
Proof. split; [|repeat split; vm_compute; reflexivity]. repeat split; [now left|lia|lia|]. repeat constructor; lia. Qed.

(** The mean: true as long as the 32-bit sum cannot overflow — radius up to 127 for 16-bit, up to 2051 for 8-bit samples.
    Missing from the claim: larger radii. *)
Theorem mean_partial dbg hi w h l r : picture hi w h l -> hi * Z.of_nat ((2 * r + 1) * (2 * r + 1)) < 2 ^ 32 ->
  exists out, spatial_ops dbg hi Mean l r w h = Ok out /\
    is_image w h out (fun x y => total (window w h l r x y) / Z.of_nat ((2 * r + 1) * (2 * r + 1))).
Proof.
  intros P HB. pose proof P as (Hhi & Hw & Hh & Hl & HF). set (n := ((2 * r + 1) * (2 * r + 1))%nat) in *.
  assert (Hn : (0 < n)%nat) by (unfold n; nia). apply (filter_image_ok (find_mean dbg hi) (fun c => total c / Z.of_nat n) l r w h Hw Hh Hl).
  intros x y Hx Hy. unfold find_mean. rewrite window_length. fold n. pose proof (total_bound hi _ (win_samples hi w h l r x y P)) as T. rewrite window_length in T. fold n in T.
  rewrite sum32_ok; [cbn [bind]| lia | eapply Forall_impl; [|now apply (win_samples hi)]; intros v Hv; cbv beta in *; lia | lia].
  rewrite Z.mod_small by lia. replace (Z.of_nat n =? 0) with false by lia. rewrite Z.add_0_l. f_equal. apply Z.mod_small.
  split; [apply Z.div_pos; lia|]. apply Z.div_lt_upper_bound; [lia|]. nia.
Qed.
Print Assumptions mean_partial.
Example mean_partial_ex : spatial_ops true 255 Mean ex_pic 1 3 2 = Ok [58; 65; 71; 43; 50; 56].
Proof. vm_compute. reflexivity. Qed.

(** One white 16-bit pixel and radius 128: a debug build panics, a release build answers with a wrong mean. *)
Theorem mean_refuted : exists w h l r, picture 65535 w h l /\ spatial_ops true 65535 Mean l r w h = Panic /\
  exists out, spatial_ops false 65535 Mean l r w h = Ok out /\ ~ is_image w h out (fun x y => total (window w h l r x y) / Z.of_nat ((2 * r + 1) * (2 * r + 1))).
Proof.
  exists 1%nat, 1%nat, [65535], 128%nat. split; [repeat split; [now right|lia|lia|]; repeat constructor; lia|].
  split; [vm_compute; reflexivity|]. exists [508]. split; [vm_compute; reflexivity|].
  intros [_ N]. specialize (N 0%nat 0%nat ltac:(lia) ltac:(lia)). revert N. vm_compute. discriminate.
Qed.
Print Assumptions mean_refuted.

(** The contrast, documented as (max - min) / (max + min), is useless: as long as the sum fits the type, the quotient is
    cut to zero and the picture goes black; *)
Theorem contrast_is_black dbg hi w h l r : picture hi w h l -> samples_upto (hi / 2) l ->
  spatial_ops dbg hi Contrast l r w h = Ok (repeat 0 (w * h)).
Proof.
  intros P Q. pose proof P as (Hhi & Hw & Hh & Hl & HF).
  destruct (filter_image_ok (find_contrast dbg hi) (fun _ => 0) l r w h Hw Hh Hl) as (out & E & L & N).
  - intros x y Hx Hy. assert (Q' : samples_upto (hi / 2) (window w h l r x y)) by now apply window_forall.
    assert (S : smallest (window w h l r x y) (find_min hi (window w h l r x y))) by (apply find_min_ok; [apply win_nonempty|now apply win_samples]).
    assert (M : largest (window w h l r x y) (find_max (window w h l r x y))).
    { apply find_max_ok; [apply win_nonempty|]. eapply Forall_impl; [|exact Q']. intros v Hv; cbv beta in *; lia. }
    unfold find_contrast. set (mn := find_min hi (window w h l r x y)) in *. set (mx := find_max (window w h l r x y)) in *. clearbody mn mx.
    destruct S as [S1 S2]. destruct M as [M1 M2]. unfold samples_upto in Q'. rewrite Forall_forall in Q'. pose proof (Q' _ S1) as B1. pose proof (Q' _ M1) as B2. cbv beta in B1, B2. specialize (S2 _ M1).
    assert (B3 : mx + mn + 1 <= hi) by (destruct Hhi; subst; change (255 / 2) with 127 in *; change (65535 / 2) with 32767 in *; lia).
    unfold sample_op. replace ((0 <=? mx - mn) && (mx - mn <=? hi)) with true by lia. cbn [bind]. replace ((0 <=? mx + mn) && (mx + mn <=? hi)) with true by lia. cbn [bind].
    rewrite Z.min_r by lia. replace (mx + mn + 1 =? 0) with false by lia. f_equal. apply Z.div_small. lia.
  - unfold spatial_ops. rewrite <- (repeat_length 0 (w * h)) in L. change (statistic_fn dbg hi Contrast) with (find_contrast dbg hi). rewrite E. f_equal.
    apply (is_image_eq w h out (repeat 0 (w * h)) (fun _ _ => 0)); [easy|split; [now rewrite repeat_length in L|exact N]|split; [apply repeat_length|]].
    intros x y Hx Hy. unfold px. apply nth_repeat_lt, idx_bound'; lia.
Qed.
Print Assumptions contrast_is_black.
(** and where it does not fit, a debug build panics and a release build divides by a wrapped sum. *)
Theorem contrast_refuted : picture 255 3 1 [200; 100; 100] /\ spatial_ops true 255 Contrast [200; 100; 100] 1 3 1 = Panic /\
  spatial_ops false 255 Contrast [200; 100; 100] 1 3 1 = Ok [2; 2; 0] /\
  spatial_ops true 255 Contrast [100; 0; 0] 1 3 1 = Ok [0; 0; 0].
Proof. split; [repeat split; [now left|lia|lia|]; repeat constructor; lia|]. repeat split; vm_compute; reflexivity. Qed.
Print Assumptions contrast_refuted.

(** ** C97 *)

(** The claim — each pixel is the length of the documented gradient — fails for the Sobel and the Scharr filter: the
    samples of the bottom right corner are ignored and the bottom middle ones counted instead. *)
Definition corner : list Z := [0; 0; 0; 0; 0; 0; 0; 0; 90].
Theorem edges_refuted : picture 255 3 3 corner /\ window 3 3 corner 1 1 1 = corner /\
  (exists out, sobel true 255 corner 3 3 = Ok out /\ px 3 out 1 1 = 90 /\ ~ root_upto 255 (edge sobel_x sobel_y corner) 90) /\
  (exists out, scharr true 255 [0; 0; 0; 0; 0; 0; 0; 0; 30] 3 3 = Ok out /\ px 3 out 1 1 = 90 /\ ~ root_upto 255 (edge scharr_x scharr_y [0; 0; 0; 0; 0; 0; 0; 0; 30]) 90).
Proof.
  split; [repeat split; [now left|lia|lia|]; repeat constructor; lia|]. split; [vm_compute; reflexivity|]. split.
  - eexists. split; [vm_compute; reflexivity|]. split; [vm_compute; reflexivity|]. unfold root_upto. intros (_ & _ & H).
    revert H. change (edge sobel_x sobel_y corner) with 16200. lia.
  - eexists. split; [vm_compute; reflexivity|]. split; [vm_compute; reflexivity|]. unfold root_upto. intros (_ & _ & H).
    revert H. change (edge scharr_x scharr_y [0; 0; 0; 0; 0; 0; 0; 0; 30]) with 16200. lia.
Qed.
Print Assumptions edges_refuted.
(** 16-bit pictures overflow the 32-bit squares: a debug build panics at a strong edge, a release build shows black there. *)
Theorem edges16_refuted : sobel true 65535 [0; 0; 65535] 3 1 = Panic /\ sobel false 65535 [0; 0; 20000; 40000; 65535] 5 1 = Ok [0; 0; 0; 0; 42926] /\
  scharr true 65535 [0; 0; 65535] 3 1 = Panic.
Proof. repeat split; vm_compute; reflexivity. Qed.
Print Assumptions edges16_refuted.

(** What holds for 8-bit pictures: no panic, and each pixel is the length of the gradient with the shifted horizontal
    matrix. Where the two samples at the bottom right of the window agree, that is the documented value. *)
Lemma map_res f g l r w h : (0 < w)%nat -> (0 < h)%nat -> length l = (w * h)%nat ->
  (forall x y, (x < w)%nat -> (y < h)%nat -> exists v, f (window w h l r x y) = Ok v /\ g (window w h l r x y) v) ->
  exists out, filter_image f l r w h = Ok out /\ length out = (w * h)%nat /\ forall x y, (x < w)%nat -> (y < h)%nat -> g (window w h l r x y) (px w out x y).
Proof.
  intros Hw Hh Hl H. set (k := fun c => match f c with Ok v => v | _ => 0 end).
  destruct (filter_image_ok f k l r w h Hw Hh Hl) as (out & E & L & N).
  { intros x y Hx Hy. destruct (H x y Hx Hy) as (v & E & _). unfold k. now rewrite E. }
  exists out. split; [exact E|]. split; [exact L|]. intros x y Hx Hy. rewrite N by easy. destruct (H x y Hx Hy) as (v & Ev & G). unfold k. now rewrite Ev.
Qed.
Definition bottom_right_agree (c : list Z) : Prop := nth 7 c 0 = nth 8 c 0.
Lemma sobel_agree c : length c = 9%nat -> bottom_right_agree c -> edge sobel_x_code sobel_y c = edge sobel_x sobel_y c.
Proof.
  intros L. do 9 (destruct c as [|? c]; [discriminate|]). destruct c; [|discriminate]. unfold bottom_right_agree. cbn [nth]. intros <-.
  unfold edge, sobel_x, sobel_x_code, sobel_y. cbn [weighted]. lia.
Qed.
Lemma scharr_agree c : length c = 9%nat -> bottom_right_agree c -> edge scharr_x_code scharr_y c = edge scharr_x scharr_y c.
Proof.
  intros L. do 9 (destruct c as [|? c]; [discriminate|]). destruct c; [|discriminate]. unfold bottom_right_agree. cbn [nth]. intros <-.
  unfold edge, scharr_x, scharr_x_code, scharr_y. cbn [weighted]. lia.
Qed.
(** For both depths, given that the squares fit 32 bits *)
Theorem sobel_partial dbg hi w h l : picture hi w h l ->
  (forall x y, (x < w)%nat -> (y < h)%nat -> edge sobel_x_code sobel_y (window w h l 1 x y) < 2 ^ 31) ->
  exists out, sobel dbg hi l w h = Ok out /\ length out = (w * h)%nat /\ forall x y, (x < w)%nat -> (y < h)%nat ->
    root_upto hi (edge sobel_x_code sobel_y (window w h l 1 x y)) (px w out x y) /\
    (bottom_right_agree (window w h l 1 x y) -> root_upto hi (edge sobel_x sobel_y (window w h l 1 x y)) (px w out x y)).
Proof.
  intros (Hhi & Hw & Hh & Hl & HF) HB.
  apply (map_res (sobel_fn dbg hi) (fun c v => root_upto hi (edge sobel_x_code sobel_y c) v /\ (bottom_right_agree c -> root_upto hi (edge sobel_x sobel_y c) v)) l 1 w h Hw Hh Hl).
  intros x y Hx Hy. destruct (sobel_fn_ok dbg hi (window w h l 1 x y) (window_length _ _ _ _ _ _) ltac:(lia) (HB x y Hx Hy)) as (v & E & R).
  exists v. split; [exact E|]. split; [exact R|]. intros A. rewrite <- sobel_agree; [exact R|apply window_length|exact A].
Qed.
Print Assumptions sobel_partial.
Theorem scharr_partial dbg hi w h l : picture hi w h l ->
  (forall x y, (x < w)%nat -> (y < h)%nat -> edge scharr_x_code scharr_y (window w h l 1 x y) < 2 ^ 31) ->
  exists out, scharr dbg hi l w h = Ok out /\ length out = (w * h)%nat /\ forall x y, (x < w)%nat -> (y < h)%nat ->
    root_upto hi (edge scharr_x_code scharr_y (window w h l 1 x y)) (px w out x y) /\
    (bottom_right_agree (window w h l 1 x y) -> root_upto hi (edge scharr_x scharr_y (window w h l 1 x y)) (px w out x y)).
Proof.
  intros (Hhi & Hw & Hh & Hl & HF) HB.
  apply (map_res (scharr_fn dbg hi) (fun c v => root_upto hi (edge scharr_x_code scharr_y c) v /\ (bottom_right_agree c -> root_upto hi (edge scharr_x scharr_y c) v)) l 1 w h Hw Hh Hl).
  intros x y Hx Hy. destruct (scharr_fn_ok dbg hi (window w h l 1 x y) (window_length _ _ _ _ _ _) ltac:(lia) (HB x y Hx Hy)) as (v & E & R).
  exists v. split; [exact E|]. split; [exact R|]. intros A. rewrite <- scharr_agree; [exact R|apply window_length|exact A].
Qed.
Print Assumptions scharr_partial.
(** 8-bit samples always fit. *)
Theorem edges8_fit w h l x y : picture 255 w h l -> edge sobel_x_code sobel_y (window w h l 1 x y) < 2 ^ 31 /\ edge scharr_x_code scharr_y (window w h l 1 x y) < 2 ^ 31.
Proof.
  intros (_ & Hw & Hh & Hl & HF).
  assert (B : Forall is_byte (window w h l 1 x y)) by (apply window_forall; try easy; eapply Forall_impl; [|exact HF]; unfold is_byte; intros v Hv; cbv beta in *; lia).
  split; apply (edge8 _ _ _ 32); try exact B; vm_compute; easy.
Qed.
Print Assumptions edges8_fit.
(** In particular nothing is found in a flat picture, in either depth. *)
Theorem flat_has_no_edges dbg hi w h c : picture hi w h (repeat c (w * h)) ->
  sobel dbg hi (repeat c (w * h)) w h = Ok (repeat 0 (w * h)) /\ scharr dbg hi (repeat c (w * h)) w h = Ok (repeat 0 (w * h)).
Proof.
  intros P. pose proof P as (Hhi & Hw & Hh & Hl & HF).
  assert (W : forall x y, window w h (repeat c (w * h)) 1 x y = repeat c 9).
  { intros x y. assert (Forall (fun v => v = c) (window w h (repeat c (w * h)) 1 x y)) as A.
    { apply window_forall; try easy. apply Forall_forall. intros v Hv. now apply repeat_spec in Hv. }
    pose proof (window_length w h (repeat c (w * h)) 1 x y) as WL. change ((2 * 1 + 1) * (2 * 1 + 1))%nat with 9%nat in WL. rewrite <- WL. clear - A.
    induction A as [|v l Hv _ IH]; cbn [length repeat]; [easy|]. now rewrite <- IH, Hv. }
  assert (Z1 : forall v, root_upto hi 0 v -> v = 0) by (intros v (A & B & _); nia).
  assert (E1 : edge sobel_x_code sobel_y (repeat c 9) = 0) by (unfold edge, sobel_x_code, sobel_y; cbn [repeat weighted]; lia).
  assert (E2 : edge scharr_x_code scharr_y (repeat c 9) = 0) by (unfold edge, scharr_x_code, scharr_y; cbn [repeat weighted]; lia).
  split.
  - destruct (sobel_partial dbg hi w h _ P) as (out & -> & L & N); [intros x y _ _; rewrite W, E1; lia|]. f_equal.
    apply (is_image_eq w h out (repeat 0 (w * h)) (fun _ _ => 0)); [easy|split; [exact L|]|split; [apply repeat_length|]]; intros x y Hx Hy.
    + destruct (N x y Hx Hy) as [R _]. rewrite W, E1 in R. now apply Z1.
    + unfold px. apply nth_repeat_lt, idx_bound'; lia.
  - destruct (scharr_partial dbg hi w h _ P) as (out & -> & L & N); [intros x y _ _; rewrite W, E2; lia|]. f_equal.
    apply (is_image_eq w h out (repeat 0 (w * h)) (fun _ _ => 0)); [easy|split; [exact L|]|split; [apply repeat_length|]]; intros x y Hx Hy.
    + destruct (N x y Hx Hy) as [R _]. rewrite W, E2 in R. now apply Z1.
    + unfold px. apply nth_repeat_lt, idx_bound'; lia.
Qed.
Print Assumptions flat_has_no_edges.
(** That fails for floating point pictures: a weight of 30 instead of 3 makes the Scharr filter see edges in a flat one. *)
Theorem flat_float_refuted : exists c v, scharr_f32 (repeat c 9) = Ok v /\ SFltb (of_int 0) v = true.
Proof. exists (of_int 1). eexists. split; vm_compute; reflexivity. Qed.
Print Assumptions flat_float_refuted.
Example sobel_ex : sobel true 255 [10; 10; 90; 10; 10; 90; 10; 10; 90] 3 3 = Ok [0; 240; 255; 0; 240; 255; 0; 240; 255].
Proof. vm_compute. reflexivity. Qed.

(** ** C98 *)
Lemma weighted_scaled ks c m : Forall (fun v => v = m) c -> length c = length ks -> weighted ks c = m * total ks.
Proof.
  revert c. induction ks as [|k ks IH]; intros [|x c] HF L; try discriminate; cbn [weighted total fold_right]; [lia|].
  inversion HF; subst. rewrite (IH c) by (cbn in L; lia || easy). unfold total. lia.
Qed.
(** With whole numbers as weights and scale one, each pixel is exactly the weighted sum of its window, limited to the
    range of the samples, for 3x3, 5x5 and 7x7 kernels, as long as the sum of the weights' sizes times the largest sample
    stays below 2^24. *)
Theorem convolve_whole_weights hi w h l ks r : picture hi w h l -> (r = 1 \/ r = 2 \/ r = 3)%nat -> length ks = ((2 * r + 1) * (2 * r + 1))%nat ->
  Forall (fun k => Z.abs k < 2 ^ 24) ks -> hi * total (map Z.abs ks) < 2 ^ 24 ->
  exists out, convolve hi (map of_int ks) (of_int 1) l w h = Ok out /\
    is_image w h out (fun x y => Z.max 0 (Z.min hi (weighted ks (window w h l r x y)))).
Proof.
  intros P Hr L HK HB. pose proof P as (Hhi & Hw & Hh & Hl & HF).
  assert (E : convolve hi (map of_int ks) (of_int 1) l w h = filter_image (convolve_fn hi (map of_int ks) (of_int 1)) l r w h).
  { unfold convolve. rewrite map_length, L. destruct Hr as [-> | [-> | ->]]; reflexivity. }
  rewrite E. apply (filter_image_ok (convolve_fn hi (map of_int ks) (of_int 1)) (fun c => Z.max 0 (Z.min hi (weighted ks c))) l r w h Hw Hh Hl).
  intros x y Hx Hy. apply convolve_fn_ok; [destruct Hhi; subst; lia|rewrite window_length; lia|now apply win_samples|exact HK|exact HB].
Qed.
Print Assumptions convolve_whole_weights.
Example convolve_whole_weights_ex : convolve 255 (map of_int [0; -1; 0; -1; 5; -1; 0; -1; 0]) (of_int 1) ex_pic 3 2 = Ok [0; 255; 0; 105; 0; 145].
Proof. vm_compute. reflexivity. Qed.
(** With any weights and a scale of at most one, each pixel is that sum times the scale up to half a level, before it is
    cut to an integer: averages and blurs are covered for all three kernel sizes and both depths. *)
Theorem convolve_accurate hi w h l weights scale r : picture hi w h l -> (r = 1 \/ r = 2 \/ r = 3)%nat -> length weights = ((2 * r + 1) * (2 * r + 1))%nat ->
  Forall ffin weights -> ffin scale -> Z.abs (fval scale) <= unit_ ->
  (4 + 5 * Z.of_nat (length weights)) * (hi * weight_total weights) <= 2 ^ 24 * unit_ ->
  exists out, convolve hi weights scale l w h = Ok out /\ length out = (w * h)%nat /\
    forall x y, (x < w)%nat -> (y < h)%nat -> level_of hi (dot (window w h l r x y) weights * fval scale) (unit_ * unit_) 2 (px w out x y).
Proof.
  intros P Hr L HF Fs Hs HB. pose proof P as (Hhi & Hw & Hh & Hl & HS). assert (Hd : depth hi) by exact Hhi. pose proof (hi_small hi Hd) as Hb.
  assert (E : convolve hi weights scale l w h = filter_image (convolve_fn hi weights scale) l r w h).
  { unfold convolve. clear - L Hr. unfold f32 in *. rewrite L. destruct Hr as [-> | [-> | ->]]; reflexivity. }
  rewrite E. apply (map_res (convolve_fn hi weights scale) (fun c v => level_of hi (dot c weights * fval scale) (unit_ * unit_) 2 v) l r w h Hw Hh Hl).
  intros x y Hx Hy. set (c := window w h l r x y). assert (Lc : length c = length weights) by (unfold c; rewrite window_length; lia).
  assert (Fc : Forall (fun v => 0 <= v <= hi) c) by (now apply win_samples). clearbody c. set (A := hi * weight_total weights) in *.
  pose proof (dot_abs_bound hi ltac:(lia) weights c Fc) as DB. fold A in DB. assert (A0 : 0 <= A) by (unfold A; pose proof (weight_total_pos weights); nia). clearbody A.
  assert (N9 : 9 <= Z.of_nat (length weights) <= 49) by (rewrite L; destruct Hr as [-> | [-> | ->]]; lia).
  assert (A1 : 49 * A <= 2 ^ 24 * unit_) by (clear - HB N9 A0; nia).
  destruct (dot_near A c weights ltac:(clear - A1; unfold unit_ in *; lia) DB ltac:(clear - N9; unfold f32 in *; lia) HF) as [FR NR]; [eapply Forall_impl; [|exact Fc]; intros v Hv; cbv beta in *; lia|exact Lc|].
  pose proof (dot_le_abs c weights) as DL. set (D := dot c weights) in *. unfold convolve_fn. change (of_int 0) with f0. set (R := fold_left fadd _ f0) in *. clearbody R D.
  assert (NR2 : 2 ^ 26 * Z.abs (fval R - D) <= 2 ^ 24 * unit_ + 49 * 2 ^ 52) by (clear - NR HB N9; unfold f32 in *; nia). clear NR HB.
  assert (BR : Z.abs (fval R) <= 2 ^ 20 * unit_) by (clear - NR2 DL DB A1; unfold unit_ in *; lia).
  assert (PB : Z.abs (fval R * fval scale) <= 2 ^ 20 * unit_ * unit_) by (rewrite Z.abs_mul; apply Z.mul_le_mono_nonneg; lia).
  destruct (fmul_val 20 R scale FR Fs ltac:(lia) PB) as [Fm Vm].
  eexists. split; [reflexivity|]. rewrite to_uint_val by (easy || lia). rewrite Vm.
  pose proof (mul_near _ ltac:(etransitivity; [exact PB|]; apply Z.mul_le_mono_nonneg_r; unfold unit_; lia)) as M. set (m := frnd 149 (fval R * fval scale)) in *. clearbody m.
  replace (Z.max 0 (Z.min hi (limit 0 hi (m / unit_)))) with (limit 0 hi (m / unit_)) by (unfold limit; generalize (m / unit_); clear - Hb; intros; lia).
  apply (level_of_near _ _ _ _ _ (m * unit_)); [lia|lia| |apply cut_near2; lia|unfold unit_; lia].
  assert (Q : Z.abs (fval R * fval scale - D * fval scale) <= (unit_ / 4 + 2 ^ 52) * unit_).
  { rewrite <- Z.mul_sub_distr_r, Z.abs_mul. apply Z.mul_le_mono_nonneg; [lia| |lia|exact Hs]. clear - NR2. unfold unit_ in *. lia. }
  set (p := fval R * fval scale) in *. set (q := D * fval scale) in *. clearbody p q.
  assert (M2 : 2 ^ 24 * Z.abs (m * unit_ - p) <= 2 ^ 20 * unit_ * unit_) by (etransitivity; [exact M|]; apply Z.max_lub; [vm_compute; discriminate|exact PB]).
  clear - M2 Q. set (d := m * unit_) in *. clearbody d. unfold unit_ in *. lia.
Qed.
Print Assumptions convolve_accurate.
Definition ninth : f32 := fdiv (of_int 1) (of_int 9).
Example convolve_accurate_ex : Forall ffin (repeat ninth 9) /\ (4 + 5 * Z.of_nat (length (repeat ninth 9))) * (65535 * weight_total (repeat ninth 9)) <= 2 ^ 24 * unit_ /\
  convolve 65535 (repeat ninth 9) (of_int 1) [9; 18; 27; 9; 18; 27; 9; 18; 27] 3 3 = Ok [12; 18; 24; 12; 18; 24; 12; 18; 24].
Proof. split; [apply Forall_forall; intros v Hv; apply repeat_spec in Hv; subst; vm_compute; reflexivity|]. split; [vm_compute; discriminate|vm_compute; reflexivity]. Qed.
(** A kernel with a single one in the middle changes nothing. *)
Theorem convolve_identity hi w h l : picture hi w h l ->
  convolve hi (map of_int [0; 0; 0; 0; 1; 0; 0; 0; 0]) (of_int 1) l w h = Ok l.
Proof.
  intros P. pose proof P as (Hhi & Hw & Hh & Hl & HF).
  destruct (convolve_whole_weights hi w h l [0; 0; 0; 0; 1; 0; 0; 0; 0] 1 P (or_introl eq_refl) eq_refl) as (out & E & I).
  - repeat constructor.
  - change (total _) with 1. destruct Hhi; subst; lia.
  - rewrite E. f_equal. apply (is_image_eq w h out l (px w l)); [easy| |split; [exact Hl|easy]]. destruct I as [L N]. split; [exact L|]. intros x y Hx Hy.
    rewrite N by easy. unfold window. cbn [Nat.mul Nat.add seq concat map app weighted].
    replace (clamp w 1 (x + 1)) with x by (unfold clamp; lia). replace (clamp h 1 (y + 1)) with y by (unfold clamp; lia).
    assert (B : 0 <= px w l x y <= hi) by (unfold px; unfold samples_upto in HF; rewrite Forall_forall in HF; apply HF, nth_In; rewrite Hl; apply idx_bound'; lia). lia.
Qed.
Print Assumptions convolve_identity.
(** Any other number of weights is refused. *)
Theorem convolve_bad_length hi weights scale l w h : length weights <> 9%nat -> length weights <> 25%nat -> length weights <> 49%nat ->
  convolve hi weights scale l w h = Err EOther.
Proof.
  intros A B C. unfold convolve. rewrite (proj2 (Nat.eqb_neq _ _) A), (proj2 (Nat.eqb_neq _ _) B), (proj2 (Nat.eqb_neq _ _) C). reflexivity.
Qed.
Print Assumptions convolve_bad_length.

(** An average with weights 1/9 darkens flat areas: the sum is rounded to just below
    the sample and then cut. *)
Theorem convolve_average_refuted : picture 255 1 1 [3] /\ convolve 255 (repeat ninth 9) (of_int 1) [3] 1 1 = Ok [2].
Proof. split; [repeat split; [now left|lia|lia|]; repeat constructor; lia|]. vm_compute. reflexivity. Qed.
Print Assumptions convolve_average_refuted.
