(** Colorspace conversion: arrangements (C31), all conversions (C58), CMYK (C59), grayscale (C60). *)
From Verif Require Import Base BaseProof Loops F32 DepthModel DepthSpec DepthProof ChannelModel DeintModel DeintProof ColorModel ColorSpec ColorProof CmykProof.

Definition plain : cpu := Cpu false false false false false.
Definition modern : cpu := Cpu true true true true true.
Definition keep : triple := fun a b c => (a, b, c).

(** C58: between the supported colorspaces every conversion of a well-formed image succeeds, whatever the HSL and HSV
    arithmetic; the image is well-formed in the new colorspace (right number of channels, each with its samples in
    range), of the same depth and size, with the same number of frames *)
Theorem conversion_well_formed p a b c e to i : wf i -> convertible (cspace i) -> convertible to ->
  exists i', convert_color p a b c e to i = Done i' /\ wf i' /\ cspace i' = to /\ idepth i' = idepth i /\ npx i' = npx i /\
    length (frames i') = length (frames i).
Proof.
  intros W Cf Ct. destruct (conv_all p a b c e 1 to i W Cf Ct) as [E W']. eexists. split; [exact E|]. split; [exact W'|].
  cbn [cspace idepth npx frames relabel on_frames]. rewrite map_length. easy.
Qed.
Definition two_frames : image := Img RGB D8 2 [[S8 [1; 2]; S8 [3; 4]; S8 [5; 6]]; [S8 [7; 8]; S8 [9; 10]; S8 [11; 12]]].
Lemma two_frames_wf : wf two_frames.
Proof. split; [easy|]. repeat constructor; cbn; unfold is_byte; lia. Qed.
Example well_formed_case : convert_color modern keep keep keep keep HSV two_frames =
  Done (Img HSV D8 2 (frames two_frames)) /\ wf two_frames.
Proof. split; [vm_compute; reflexivity|exact two_frames_wf]. Qed.

(** C58: a colorspace without conversions is an error *)
Lemma convert_unsupported_rgb p a b c e k to i : wf i -> (cspace i = RGB \/ cspace i = RGBA) -> ~ convertible to ->
  convert p a b c e (S k) to i = Failed i.
Proof.
  intros W Hf Ht. change (convert p a b c e (S k) to i) with (execute (convert_impl p a b c e (convert p a b c e k) to) i).
  unfold execute. rewrite confirm_wf by (try easy; destruct Hf as [-> | ->]; exact I). cbn [obind].
  replace (admitted (cspace i)) with true by (destruct Hf as [-> | ->]; reflexivity). cbn [negb]. unfold convert_impl.
  destruct Hf as [-> | ->]; destruct to; cbn [convertible] in Ht; try (exfalso; apply Ht; exact I); reflexivity.
Qed.
Theorem conversion_unsupported_partial p a b c e to i : wf i -> (cspace i = RGB \/ cspace i = RGBA) -> ~ convertible to ->
  convert_color p a b c e to i = Failed i.
Proof. apply convert_unsupported_rgb. Qed.
Example unsupported_case : convert_color modern keep keep keep keep YCbCr two_frames = Failed two_frames.
Proof. vm_compute. reflexivity. Qed.
(** ... but for the other colorspaces the image has changed when the error is reported *)
Theorem conversion_error_changes_image_refuted : exists p a b c e to i i', wf i /\ convertible (cspace i) /\ ~ convertible to /\
  convert_color p a b c e to i = Failed i' /\ i' <> i.
Proof.
  exists modern, keep, keep, keep, keep, YCbCr, (Img Luma D8 1 [[S8 [7]]]), (Img RGB D8 1 [[S8 [7]; S8 [7]; S8 [7]]]).
  split. { split; [easy|]. repeat constructor; cbn; unfold is_byte; lia. }
  split; [exact I|]. split; [easy|]. split; [vm_compute; reflexivity|discriminate].
Qed.

(** C31. RGBA to ARGB and back is not the identity *)
Theorem argb_roundtrip_refuted : exists p a b c e i i1 i2, wf i /\ cspace i = RGBA /\
  convert_color p a b c e ARGB i = Done i1 /\ convert_color p a b c e RGBA i1 = Done i2 /\ i2 <> i.
Proof.
  exists modern, keep, keep, keep, keep, (Img RGBA D8 1 [[S8 [1]; S8 [2]; S8 [3]; S8 [4]]]). do 2 eexists.
  split. { split; [easy|]. repeat constructor; cbn; unfold is_byte; lia. }
  split; [easy|]. split; [vm_compute; reflexivity|]. split; [vm_compute; reflexivity|]. discriminate.
Qed.
(** All other conversions between arrangements show the same picture: the colours stay, alpha stays, a new alpha is opaque *)
Theorem layout_conversion_partial p a b c e to i : wf i -> layout (cspace i) -> cspace i <> ARGB -> layout to ->
  exists i', convert_color p a b c e to i = Done i' /\ cspace i' = to /\
    Forall2 (same_picture (idepth i) (npx i) (cspace i) to) (frames i) (frames i').
Proof.
  intros W Lf Na Lt. assert (Cf : convertible (cspace i)) by now destruct (cspace i). assert (Ct : convertible to) by now destruct to.
  destruct (conv_all p a b c e 1 to i W Cf Ct) as [E _]. eexists. split; [exact E|]. split; [reflexivity|].
  destruct i as [cs d n fs]. destruct W as [_ Wf]. cbn [cspace idepth npx frames relabel on_frames] in *.
  clear E Cf Ct. induction Wf as [|f fs [L F] Wf IH]; cbn [map]; constructor; [|exact IH]. clear IH Wf.
  destruct cs; cbn [layout] in Lf; try contradiction; cbn [num_components] in L; frame_cases f L;
    destruct to; cbn [layout] in Lt; try contradiction; unfold same_picture; cbn -[opaque is_opaque];
    (split; [reflexivity|split; [discriminate|intros HA; try discriminate HA; eexists; (split; [reflexivity|]); try reflexivity; destruct d; reflexivity]]).
Qed.
Example layout_case : convert_color modern keep keep keep keep ARGB two_frames =
  Done (Img ARGB D8 2 [[S8 [255; 255]; S8 [1; 2]; S8 [3; 4]; S8 [5; 6]]; [S8 [255; 255]; S8 [7; 8]; S8 [9; 10]; S8 [11; 12]]]).
Proof. vm_compute. reflexivity. Qed.
(** ... and all round trips among RGB, RGBA, BGR, BGRA that do not lose an alpha channel return the image *)
Theorem layout_roundtrip_partial p a b c e to i : wf i -> layout (cspace i) -> cspace i <> ARGB -> layout to -> to <> ARGB ->
  (has_alpha (cspace i) = true -> has_alpha to = true) ->
  exists i', convert_color p a b c e to i = Done i' /\ convert_color p a b c e (cspace i) i' = Done i.
Proof.
  intros W Lf Nf Lt Nt A. assert (Cf : convertible (cspace i)) by now destruct (cspace i). assert (Ct : convertible to) by now destruct to.
  destruct (conv_all p a b c e 1 to i W Cf Ct) as [E W']. eexists. split; [exact E|].
  destruct (conv_all p a b c e 1 (cspace i) _ W') as [E' _]; [exact Ct|exact Cf|]. unfold convert_color. etransitivity; [exact E'|]. clear E E' W'.
  destruct i as [cs d n fs]. destruct W as [_ Wf]. cbn [cspace idepth npx frames relabel on_frames] in *. f_equal. unfold relabel, on_frames.
  cbn [cspace idepth npx frames]. f_equal. rewrite map_map. rewrite <- (map_id fs) at 2. apply map_ext_in. intros f Hin.
  rewrite Forall_forall in Wf. destruct (Wf f Hin) as [L _]. clear Wf Hin.
  destruct cs; cbn [layout] in Lf; try contradiction; try (exfalso; now apply Nf); cbn [num_components] in L; frame_cases f L;
    destruct to; cbn [layout] in Lt; try contradiction; try (exfalso; now apply Nt); cbn [has_alpha] in A; try (discriminate (A eq_refl)); reflexivity.
Qed.

(** C59: 8-bit RGB survives CMYK *)
Theorem cmyk_u8_roundtrip_partial p a b c e i : wf i -> cspace i = RGB -> idepth i = D8 ->
  exists i', convert_color p a b c e CMYK i = Done i' /\ convert_color p a b c e RGB i' = Done i.
Proof.
  intros W C D. assert (Cf : convertible (cspace i)) by now rewrite C.
  destruct (conv_all p a b c e 1 CMYK i W Cf I) as [E W']. eexists. split; [exact E|].
  destruct (conv_all p a b c e 1 RGB _ W') as [E' _]; [exact I|exact I|]. unfold convert_color. etransitivity; [exact E'|]. clear E E' W'.
  destruct i as [cs d n fs]. destruct W as [_ Wf]. cbn [cspace idepth npx frames relabel on_frames] in *. subst cs d. f_equal. unfold relabel, on_frames.
  cbn [cspace idepth npx frames]. f_equal. rewrite map_map. rewrite <- (map_id fs) at 2. apply map_ext_in. intros f Hin.
  rewrite Forall_forall in Wf. destruct (Wf f Hin) as [L F]. clear Wf Hin. cbn [num_components] in L. frame_cases f L. forall_cases. chan_cases.
  unfold conv_fn. cbn [colorspace_eqb mid first_fn rgb_fn firstn]. unfold cmyk_fn, uncmyk_fn. cbn [cmyk_frame].
  rewrite (zip_to4_pixels rgb_cmyk8 l l0 l1 _ 0 n) by (rewrite ?repeat_length; auto). cbn zeta. cbn [uncmyk_frame].
  rewrite (zip_to3_pixels cmyk_rgb8 _ _ _ _ 0 n) by now rewrite !map_length, seq_length. cbn zeta. cbn [firstn].
  assert (P : forall k, (k < n)%nat -> cmyk_rgb8
     (nth k (map (fun q => fst (fst (fst q))) (map (fun j => rgb_cmyk8 (nth j l 0) (nth j l0 0) (nth j l1 0)) (seq 0 n))) 0)
     (nth k (map (fun q => snd (fst (fst q))) (map (fun j => rgb_cmyk8 (nth j l 0) (nth j l0 0) (nth j l1 0)) (seq 0 n))) 0)
     (nth k (map (fun q => snd (fst q)) (map (fun j => rgb_cmyk8 (nth j l 0) (nth j l0 0) (nth j l1 0)) (seq 0 n))) 0)
     (nth k (map snd (map (fun j => rgb_cmyk8 (nth j l 0) (nth j l0 0) (nth j l1 0)) (seq 0 n))) 0) = (nth k l 0, nth k l0 0, nth k l1 0)).
  { intros k Hk. rewrite !map_map.
    assert (N : forall (g : nat -> Z), nth k (map g (seq 0 n)) 0 = g k).
    { intros g. rewrite (map_nth_in g _ k 0%nat 0) by now rewrite seq_length. f_equal. rewrite seq_nth; lia. }
    rewrite !N. pose proof (cmyk8_roundtrip (nth k l 0) (nth k l0 0) (nth k l1 0)) as X.
    destruct (rgb_cmyk8 _ _ _) as [[[cc m] y] kk]. cbn [fst snd]. apply X; apply Forall_nth_byte; auto; lia. }
  assert (Q : forall x, length x = n -> map (fun k => nth k x 0) (seq 0 n) = x).
  { intros x <-. apply (list_eq_nth 0). { now rewrite map_length, seq_length. }
    intros k Hk. rewrite map_length, seq_length in Hk. rewrite (map_nth_in _ _ k 0%nat 0) by now rewrite seq_length. rewrite seq_nth by lia. reflexivity. }
  set (px := map (fun j => rgb_cmyk8 _ _ _) (seq 0 n)) in *. clearbody px.
  rewrite !map_map. cbn [map].
  f_equal; [|f_equal; [|f_equal]]; f_equal; symmetry; (etransitivity; [symmetry; apply Q; eassumption|]); apply map_ext_in; intros k Hk; apply in_seq in Hk; rewrite P by lia; reflexivity.
Qed.
Example cmyk_case : convert_color modern keep keep keep keep CMYK two_frames =
  Done (Img CMYK D8 2 [[S8 [51; 85]; S8 [153; 170]; S8 [255; 255]; S8 [5; 6]]; [S8 [162; 170]; S8 [209; 213]; S8 [255; 255]; S8 [11; 12]]]).
Proof. vm_compute. reflexivity. Qed.
(** 16-bit and floating point samples do not: white becomes black *)
Theorem cmyk_wide_roundtrip_refuted : exists p a b c e, forall d, In d [D16; D32] ->
  exists i i' i'', wf i /\ cspace i = RGB /\ idepth i = d /\ convert_color p a b c e CMYK i = Done i' /\ convert_color p a b c e RGB i' = Done i'' /\
    i = Img RGB d 1 [[opaque d 1; opaque d 1; opaque d 1]] /\
    exists z, frames i'' = [[z; z; z]] /\ (z = S16 [0] \/ z = SF [of_int 0]).
Proof.
  exists modern, keep, keep, keep, keep. intros d [<-|[<-|[]]].
  - exists (Img RGB D16 1 [[S16 [65535]; S16 [65535]; S16 [65535]]]). do 2 eexists.
    split. { split; [easy|]. repeat constructor; cbn; unfold is_u16; lia. }
    split; [easy|]. split; [easy|]. split; [vm_compute; reflexivity|]. split; [vm_compute; reflexivity|]. split; [reflexivity|]. eexists. split; [reflexivity|]. now left.
  - exists (Img RGB D32 1 [[SF [of_int 1]; SF [of_int 1]; SF [of_int 1]]]). do 2 eexists.
    split. { split; [easy|]. repeat constructor. }
    split; [easy|]. split; [easy|]. split; [vm_compute; reflexivity|]. split; [vm_compute; reflexivity|]. split; [reflexivity|]. eexists. split; [reflexivity|]. now right.
Qed.

(** C60. Gray values of integer images without vector code: close to the weighted sum, for every pixel *)
Definition gray_pixels (hi : Z) (r g b y : list Z) (n : nat) : Prop :=
  length y = n /\ forall k, (k < n)%nat -> 0 <= nth k y 0 <= hi /\ close_gray (nth k r 0) (nth k g 0) (nth k b 0) (nth k y 0).
Lemma gray8_close r g b : is_byte r -> is_byte g -> is_byte b -> close_gray r g b (gray8 255 r g b).
Proof. unfold is_byte, close_gray, gray8. intros Hr Hg Hb. change (2 ^ 14) with 16384. change (2 ^ 15) with 32768. lia. Qed.
Lemma gray16_close r g b : is_u16 r -> is_u16 g -> is_u16 b -> close_gray r g b (gray16 65535 r g b).
Proof. unfold is_u16, close_gray, gray16. intros Hr Hg Hb. change (2 ^ 30) with 1073741824. change (2 ^ 31) with 2147483648. lia. Qed.
Definition vector_gray (p : cpu) : bool := simd p && (avx2 p || sse41 p).
Definition gray_ok (from to : colorspace) (d : depth) (n : nat) (f f' : list samples) : Prop :=
  match f, f' with
  | S8 r :: S8 g :: S8 b :: _, S8 y :: _ => gray_pixels 255 r g b y n
  | S16 r :: S16 g :: S16 b :: _, S16 y :: _ => gray_pixels 65535 r g b y n
  | _, _ => False
  end /\
  (has_alpha to = true -> exists a', alpha to f' = Some a' /\ match alpha from f with Some a => a' = a | None => is_opaque d n a' end).
Theorem gray_values_partial p a b c e to i : wf i -> (cspace i = RGB \/ cspace i = RGBA) -> (to = Luma \/ to = LumaA) ->
  (idepth i = D8 /\ vector_gray p = false) \/ idepth i = D16 ->
  exists i', convert_color p a b c e to i = Done i' /\ cspace i' = to /\ Forall2 (gray_ok (cspace i) to (idepth i) (npx i)) (frames i) (frames i').
Proof.
  intros W Hf Ht Hd. assert (Cf : convertible (cspace i)) by (destruct Hf as [-> | ->]; exact I). assert (Ct : convertible to) by (destruct Ht; subst to; exact I).
  destruct (conv_all p a b c e 1 to i W Cf Ct) as [E _]. eexists. split; [exact E|]. split; [reflexivity|]. clear E Cf Ct.
  destruct i as [cs d n fs]. destruct W as [_ Wf]. cbn [cspace idepth npx frames relabel on_frames] in *.
  induction Wf as [|f fs [L F] Wf IH]; cbn [map]; constructor; [|exact IH]. clear IH Wf.
  assert (G8 : forall r g b, Forall is_byte r -> Forall is_byte g -> Forall is_byte b -> length r = n -> length g = n -> length b = n -> vector_gray p = false ->
     exists y, gray_u8 p r g b (repeat 0 n) 255 = Ok y /\ gray_pixels 255 r g b y n).
  { intros r g b' Br Bg Bb Lr Lg Lb V. unfold gray_u8. unfold vector_gray in V. destruct (simd p), (avx2 p), (sse41 p); try discriminate V; cbn [andb];
      (eexists; (split; [reflexivity|]); rewrite (zip3_pixels (gray8 255) r g b' _ 0 n) by (rewrite ?repeat_length; auto);
       split; [now rewrite map_length, seq_length|]; intros k Hk; rewrite (map_nth_in _ _ k 0%nat 0) by (now rewrite seq_length); rewrite seq_nth by lia; cbn [Nat.add];
       assert (X1 : is_byte (nth k r 0)) by (apply Forall_nth_byte; auto; lia); assert (X2 : is_byte (nth k g 0)) by (apply Forall_nth_byte; auto; lia);
       assert (X3 : is_byte (nth k b' 0)) by (apply Forall_nth_byte; auto; lia);
       (split; [|now apply gray8_close]); pose proof (gray8_range _ _ _ X1 X2 X3) as X4; unfold is_byte in X4; lia). }
  assert (G16 : forall r g b, Forall is_u16 r -> Forall is_u16 g -> Forall is_u16 b -> length r = n -> length g = n -> length b = n ->
     gray_pixels 65535 r g b (zip3 (gray16 65535) r g b (repeat 0 n)) n).
  { intros r g b' Br Bg Bb Lr Lg Lb. rewrite (zip3_pixels (gray16 65535) r g b' _ 0 n) by (rewrite ?repeat_length; auto).
    split; [now rewrite map_length, seq_length|]. intros k Hk. rewrite (map_nth_in _ _ k 0%nat 0) by (now rewrite seq_length). rewrite seq_nth by lia. cbn [Nat.add].
    assert (X1 : is_u16 (nth k r 0)) by (apply Forall_nth_byte; auto; lia). assert (X2 : is_u16 (nth k g 0)) by (apply Forall_nth_byte; auto; lia).
    assert (X3 : is_u16 (nth k b' 0)) by (apply Forall_nth_byte; auto; lia).
    split; [|now apply gray16_close]. pose proof (gray16_range _ _ _ X1 X2 X3) as X4. unfold is_u16 in X4. lia. }
  destruct Hf; subst cs; cbn [num_components] in L; frame_cases f L; forall_cases;
    (destruct Hd as [[-> V] | ->]; chan_cases); destruct Ht; subst to; unfold conv_fn; cbn [colorspace_eqb mid first_fn rgb_fn gray_fn];
    unfold gray_ok, alpha_fn; cbn [has_alpha nth];
    try (match goal with |- context[gray_u8 p ?x ?y ?z _ _] => destruct (G8 x y z) as [o [-> Go]]; auto end);
    (split; [auto|]); intros HA; try discriminate HA; eexists; (split; [reflexivity|]); cbn [alpha]; try reflexivity; cbn [is_opaque opaque]; reflexivity.
Qed.
Example gray_case : convert_color plain keep keep keep keep LumaA (Img RGBA D8 2 [[S8 [255; 0]; S8 [255; 200]; S8 [255; 10]; S8 [9; 8]]]) =
  Done (Img LumaA D8 2 [[S8 [254; 118]; S8 [9; 8]]]).
Proof. vm_compute. reflexivity. Qed.

(** With vector code (the default on x86) it is false: a green picture becomes as dark as a blue one should, and the last pixel of 17 white ones black *)
Theorem gray_vector_refuted : exists p a b c e, forall px n, In (px, n) [((0, 255, 0), 16%nat); ((255, 255, 255), 17%nat)] ->
  exists i i', let '(r, g, bl) := px in i = Img RGB D8 n [[S8 (repeat r n); S8 (repeat g n); S8 (repeat bl n)]] /\
    wf i /\ convert_color p a b c e Luma i = Done i' /\ exists y, frames i' = [[S8 y]] /\ ~ close_gray r g bl (nth (n - 1) y 0).
Proof.
  exists modern, keep, keep, keep, keep. intros px n [H|[H|[]]]; injection H as <- <-; do 2 eexists; cbn beta iota zeta;
    (split; [reflexivity|]); (split; [split; [discriminate|]; repeat constructor; cbn; unfold is_byte; lia|]);
    (split; [vm_compute; reflexivity|]); eexists; (split; [reflexivity|]); unfold close_gray; cbn; lia.
Qed.
(** What the vector code computes: in whole blocks of [k] pixels green and blue are exchanged; of the [m] pixels left over, the first [m / 3] show the last [m / 3] pixels
    of the picture and the others stay black *)
Theorem gray_vector_values_partial p r g b n : vector_gray p = true -> Forall is_byte r -> Forall is_byte g -> Forall is_byte b -> length r = n -> length g = n -> length b = n ->
  exists y, gray_u8 p r g b (repeat 0 n) 255 = Ok y /\ length y = n /\
    let k := if avx2 p then 16%nat else 8%nat in let m := (n mod k)%nat in
    forall q, (q < n)%nat ->
      if (q <? n - m)%nat then close_gray (nth q r 0) (nth q b 0) (nth q g 0) (nth q y 0)
      else if (q <? n - m + m / 3)%nat then let s := (q + m - m / 3)%nat in close_gray (nth s r 0) (nth s g 0) (nth s b 0) (nth q y 0)
      else nth q y 0 = 0.
Proof.
  intros V Br Bg Bb Lr Lg Lb.
  assert (X : exists k, (k = if avx2 p then 16%nat else 8%nat) /\ gray_u8 p r g b (repeat 0 n) 255 = gray_vector k r g b (repeat 0 n)).
  { unfold gray_u8, vector_gray in *. destruct (simd p), (avx2 p), (sse41 p); try discriminate V; cbn [andb]; eauto. }
  destruct X as [k [Ek ->]]. cbv zeta. rewrite <- Ek. assert (Hk : (0 < k)%nat) by (destruct (avx2 p); lia). clear Ek V.
  rewrite (gray_vector_pixels k r g b n) by easy. eexists. split; [reflexivity|].
  assert (Lm : (n mod k <= n)%nat) by (apply Nat.mod_le; lia). set (m := (n mod k)%nat) in *.
  assert (L3 : (m / 3 <= m)%nat) by (apply Nat.div_le_upper_bound; lia). set (t := (m / 3)%nat) in *. clearbody m t.
  split. { rewrite !app_length, !map_length, !seq_length, repeat_length. lia. }
  intros q Hq.
  assert (N : forall (f : nat -> Z) s len j, (j < len)%nat -> nth j (map f (seq s len)) 0 = f (s + j)%nat).
  { intros f s len j Hj. rewrite (map_nth_in f _ j 0%nat 0) by now rewrite seq_length. f_equal. now apply seq_nth. }
  assert (C : forall l s, Forall is_byte l -> length l = n -> (s < n)%nat -> is_byte (nth s l 0)) by (intros l s Bl Ll Hs; apply Forall_nth_byte; auto; lia).
  destruct (q <? n - m)%nat eqn:E1.
  - apply Nat.ltb_lt in E1. rewrite app_nth1 by (rewrite map_length, seq_length; lia). rewrite N by lia. apply gray8_close; apply C; auto.
  - apply Nat.ltb_ge in E1. rewrite app_nth2 by (rewrite map_length, seq_length; lia). rewrite map_length, seq_length.
    destruct (q <? n - m + t)%nat eqn:E2.
    + apply Nat.ltb_lt in E2. rewrite app_nth1 by (rewrite map_length, seq_length; lia). rewrite N by lia. cbn [Nat.add].
      replace (n - t + (q - (n - m)))%nat with (q + m - t)%nat by lia. apply gray8_close; apply C; auto; lia.
    + apply Nat.ltb_ge in E2. rewrite app_nth2 by (rewrite map_length, seq_length; lia). apply nth_repeat.
Qed.
Example vector_gray_case : gray_u8 modern [255] [255] [255] (repeat 0 1) 255 = Ok [0] /\
  gray_u8 modern (repeat 10 16) (repeat 200 16) (repeat 30 16) (repeat 0 16) 255 = Ok (repeat 43 16).
Proof. split; vm_compute; reflexivity. Qed.

Print Assumptions conversion_well_formed.
Print Assumptions conversion_unsupported_partial.
Print Assumptions conversion_error_changes_image_refuted.
Print Assumptions argb_roundtrip_refuted.
Print Assumptions layout_conversion_partial.
Print Assumptions layout_roundtrip_partial.
Print Assumptions cmyk_u8_roundtrip_partial.
Print Assumptions cmyk_wide_roundtrip_refuted.
Print Assumptions gray_values_partial.
Print Assumptions gray_vector_refuted.
Print Assumptions gray_vector_values_partial.
