(** Theorems about bilinear resizing. *)
From Verif Require Import Base BaseProof Loops F32 F32Round DepthModel DepthProof GeomSpec GeomProof ResizeModel ResizeSpec ResizeProof.

Local Notation U := (2 ^ 149).
(** A picture of [w] by [h] samples up to [hi], of one of the two integer depths *)
Definition gray_picture (hi : Z) (w h : nat) (l : list Z) : Prop :=
  (hi = 255 \/ hi = 65535) /\ side w /\ side h /\ length l = (w * h)%nat /\ Forall (fun v => 0 <= v <= hi) l.

Lemma pixel_range hi w h l x y : gray_picture hi w h l -> (x < w)%nat -> (y < h)%nat -> 0 <= px w l x y <= hi.
Proof.
  intros (_ & _ & _ & L & F) Hx Hy. rewrite Forall_forall in F. apply F. unfold px. apply nth_In. rewrite L. now apply idx_bound'.
Qed.
Lemma gray8 w h l : (1 <=? Z.of_nat w) && (Z.of_nat w <=? 2 ^ 20) && (1 <=? Z.of_nat h) && (Z.of_nat h <=? 2 ^ 20) && (length l =? w * h)%nat && forallb (fun v => (0 <=? v) && (v <=? 255)) l = true -> gray_picture 255 w h l.
Proof.
  rewrite !andb_true_iff, forallb_forall, Nat.eqb_eq, !Z.leb_le. intros (((((A & B) & C) & D) & E) & F). unfold gray_picture, side. split; [now left|]. split; [easy|]. split; [easy|]. split; [easy|].
  apply Forall_forall. intros v Hv. specialize (F v Hv). lia.
Qed.
(** All that the loops compute, place by place *)
Lemma resize_runs hi l iw ih ow oh : gray_picture hi iw ih l -> side ow -> side oh ->
  exists out, resize_bilinear hi l iw ih ow oh = Ok out /\ length out = (ow * oh)%nat /\
  forall x y, (x < ow)%nat -> (y < oh)%nat ->
    let P := fmul (of_int (Z.of_nat x)) (ratio iw ow) in let Q := fmul (of_int (Z.of_nat y)) (ratio ih oh) in
    exists x0 y0, (x0 < iw)%nat /\ (y0 < ih)%nat /\ ffin P /\ ffin Q /\ fval P / U = Z.of_nat x0 /\ fval Q / U = Z.of_nat y0 /\
    let a := fsub P (of_int (Z.of_nat x0)) in let b := fsub Q (of_int (Z.of_nat y0)) in
    let x1 := Nat.min (x0 + 1) (iw - 1) in let y1 := Nat.min (y0 + 1) (ih - 1) in
    ffin a /\ ffin b /\ 0 <= fval a <= U /\ 0 <= fval b <= U /\
    px ow out x y = to_uint hi (blend (px iw l x0 y0) (px iw l x1 y0) (px iw l x0 y1) (px iw l x1 y1) a b).
Proof.
  intros (Hhi & Sw & Sh & L & F) So Sp. set (larger := SFltb (ratio iw ow) (of_int 1) && SFltb (ratio ih oh) (of_int 1)).
  set (g := fun inn out i => match place larger (ratio inn out) inn i with Ok v => v | _ => (O, O, of_int 0) end).
  assert (G : forall inn out i, side inn -> side out -> (i < out)%nat -> place larger (ratio inn out) inn i = Ok (g inn out i) /\ (fst (fst (g inn out i)) < inn)%nat /\ (snd (fst (g inn out i)) < inn)%nat).
  { intros inn out i Hi Ho Hx. unfold g. destruct (place_ok larger inn out i Hi Ho Hx) as (i0 & a & -> & B & _). cbn [fst snd]. split; [reflexivity|]. unfold side in *. lia. }
  destruct (bilinear_run hi l iw ih ow oh (g iw ow) (g ih oh) L) as (out & E & LO & PX); [intros; now apply G|intros; now apply G|].
  exists out. split; [exact E|]. split; [exact LO|]. intros x y Hx Hy P Q.
  destruct (place_ok larger iw ow x Sw So Hx) as (x0 & a & Ex & Bx & Fa & Ba & FP & VP & Ea). destruct (place_ok larger ih oh y Sh Sp Hy) as (y0 & b & Ey & By & Fb & Bb & FQ & VQ & Eb).
  exists x0, y0. split; [exact Bx|]. split; [exact By|]. split; [exact FP|]. split; [exact FQ|]. split; [exact VP|]. split; [exact VQ|]. cbv zeta. fold P in Ea. fold Q in Eb. rewrite <- Ea, <- Eb.
  split; [exact Fa|]. split; [exact Fb|]. split; [exact Ba|]. split; [exact Bb|]. rewrite (PX x y Hx Hy). unfold sample_of, g. now rewrite Ex, Ey.
Qed.

(** ** The value between the pixels *)
(** C124. Resizing never fails for sides up to about a million, gives a picture of the wanted size, and every sample is
    the exact bilinear value cut to a whole number, up to the rounding of the arithmetic: a quarter of a step and the
    error in the place, which grows with the sides. *)
Theorem resize_accurate hi l iw ih ow oh : gray_picture hi iw ih l -> side ow -> side oh ->
  exists out, resize_bilinear hi l iw ih ow oh = Ok out /\ length out = (ow * oh)%nat /\ Forall (fun v => 0 <= v <= hi) out /\
  forall x y, (x < ow)%nat -> (y < oh)%nat ->
    let area := Z.of_nat ow * Z.of_nat oh in let err := 2 ^ 20 + hi * (Z.of_nat iw + Z.of_nat ih) in
    exact_sample l iw ih ow oh x y * 2 ^ 22 - (2 ^ 22 + err) * area < px ow out x y * area * 2 ^ 22 <= exact_sample l iw ih ow oh x y * 2 ^ 22 + err * area.
Proof.
  intros HG So Sp. destruct (resize_runs hi l iw ih ow oh HG So Sp) as (out & E & LO & R). exists out. split; [exact E|]. split; [exact LO|].
  assert (Hhi : 0 <= hi <= 65535) by (destruct HG as ([-> | ->] & _); lia).
  split.
  { apply Forall_forall. intros v Hv. apply (In_nth _ _ 0) in Hv as (k & Hk & <-). rewrite LO in Hk. assert (O0 : (0 < ow)%nat) by (unfold side in So; lia).
    pose proof (Nat.div_mod k ow ltac:(lia)) as DM. pose proof (Nat.mod_upper_bound k ow ltac:(lia)) as MB. assert (Hy : (k / ow < oh)%nat) by (apply Nat.div_lt_upper_bound; lia).
    destruct (R (k mod ow)%nat (k / ow)%nat MB Hy) as (x0 & y0 & _ & _ & _ & _ & _ & _ & _ & _ & _ & _ & V). unfold px at 1 in V. replace (k / ow * ow + k mod ow)%nat with k in V by lia. rewrite V.
    apply to_uint_range. lia. }
  intros x y Hx Hy area err. destruct (R x y Hx Hy) as (x0 & y0 & Bx & By & FP & FQ & VP & VQ & Fa & Fb & Ba & Bb & V). cbv zeta in V. clear R.
  pose proof HG as (_ & Sw & Sh & _ & _). pose proof (place_near iw ow x Sw So Hx) as NX. pose proof (place_near ih oh y Sh Sp Hy) as NY. cbv zeta in NX, NY.
  set (P := fmul (of_int (Z.of_nat x)) (ratio iw ow)) in *. set (Q := fmul (of_int (Z.of_nat y)) (ratio ih oh)) in *. set (a := fsub P _) in *. set (b := fsub Q _) in *.
  unfold side in *.
  (* the weights *)
  assert (WA : forall X n i0 c, ffin X -> Z.of_nat n <= 2 ^ 20 -> (i0 < n)%nat -> fval X / U = Z.of_nat i0 -> c = fsub X (of_int (Z.of_nat i0)) -> 0 <= fval X < Z.of_nat n * U /\ Z.abs (fval c - fval X mod U) <= 2 ^ 125 + 1).
  { clear. intros X n i0 c FX Hn Hi VX ->. destruct (of_int_rep (Z.of_nat i0)) as [Fi Vi]; [lia|]. pose proof (Z.mod_pos_bound (fval X) U ltac:(lia)) as M. pose proof (Z.div_mod (fval X) U ltac:(lia)) as DM. rewrite VX in DM.
    destruct (fsub_unit X (of_int (Z.of_nat i0)) FX Fi) as (_ & _ & EE); [rewrite Vi; lia|]. rewrite Vi in EE. replace (fval X - Z.of_nat i0 * U) with (fval X mod U) in EE by lia. split; [lia|exact EE]. }
  destruct (WA P iw x0 a FP ltac:(lia) Bx VP eq_refl) as [RP DA]. destruct (WA Q ih y0 b FQ ltac:(lia) By VQ eq_refl) as [RQ DB]. clear WA.
  set (row := fun j i => px iw l i j).
  assert (HR : forall j i, (j < ih)%nat -> (i < iw)%nat -> 0 <= row j i <= hi) by (intros j i Hj Hi; now apply (pixel_range hi iw ih)).
  set (f := fun j => between (row j) iw (fval P) U). set (g := fun j => between (row j) iw (Z.of_nat (x * iw)) (Z.of_nat ow)).
  (* the sum as interpolation at the rounded place *)
  assert (C1 : 4 * Z.abs (fval (blend (px iw l x0 y0) (px iw l (Nat.min (x0 + 1) (iw - 1)) y0) (px iw l x0 (Nat.min (y0 + 1) (ih - 1))) (px iw l (Nat.min (x0 + 1) (iw - 1)) (Nat.min (y0 + 1) (ih - 1))) a b) * U - between f ih (fval Q) U) <= U * U).
  { pose proof (Z.mod_pos_bound (fval P) U ltac:(lia)) as MP. pose proof (Z.mod_pos_bound (fval Q) U ltac:(lia)) as MQ.
    assert (X1 : (Nat.min (x0 + 1) (iw - 1) < iw)%nat) by (clear - Bx; lia). assert (Y1 : (Nat.min (y0 + 1) (ih - 1) < ih)%nat) by (clear - By; lia).
    pose proof (blend_value (row y0 x0) (row y0 (Nat.min (x0 + 1) (iw - 1))) (row (Nat.min (y0 + 1) (ih - 1)) x0) (row (Nat.min (y0 + 1) (ih - 1)) (Nat.min (x0 + 1) (iw - 1))) a b (fval P mod U) (fval Q mod U)) as BV.
    unfold f, between. rewrite VP, VQ, !Nat2Z.id. apply BV; try assumption.
    - specialize (HR y0 x0 By Bx). clear - HR Hhi. lia.
    - specialize (HR y0 _ By X1). clear - HR Hhi. lia.
    - specialize (HR _ x0 Y1 Bx). clear - HR Hhi. lia.
    - specialize (HR _ _ Y1 X1). clear - HR Hhi. lia.
    - clear - MP. lia.
    - clear - MQ. lia. }
  set (v := fval (blend _ _ _ _ a b)) in C1.
  set (W := Z.of_nat ow) in *. set (H := Z.of_nat oh) in *.
  assert (XB : 0 <= Z.of_nat (x * iw) < Z.of_nat iw * W) by (unfold W; rewrite Nat2Z.inj_mul; clear - Hx Sw; nia).
  assert (YB : 0 <= Z.of_nat (y * ih) < Z.of_nat ih * H) by (unfold H; rewrite Nat2Z.inj_mul; clear - Hy Sh; nia).
  (* the columns *)
  assert (FX : forall j, (j < ih)%nat -> 2 ^ 22 * Z.abs (W * f j - U * g j) <= hi * Z.of_nat iw * (W * U)).
  { intros j Hj. apply (between_units (row j) iw hi (Z.of_nat (x * iw)) W (fval P) U); [clear - Sw; lia|clear - So; lia|lia|exact XB|exact RP|intros i Hi; now apply HR|exact NX]. }
  assert (GB : forall j, (j < ih)%nat -> 0 <= g j <= hi * W) by (intros j Hj; apply between_bound; [clear - Sw; lia|clear - So; lia|exact XB|intros i Hi; now apply HR]).
  (* the rows *)
  pose proof (between_units g ih (hi * W) (Z.of_nat (y * ih)) H (fval Q) U ltac:(clear - Sh; lia) ltac:(clear - Sp; lia) ltac:(lia) YB RQ GB NY) as FY.
  assert (FM : 2 ^ 22 * Z.abs (W * between f ih (fval Q) U - U * between g ih (fval Q) U) <= hi * Z.of_nat iw * (W * U) * U).
  { replace (2 ^ 22 * Z.abs (W * between f ih (fval Q) U - U * between g ih (fval Q) U)) with (Z.abs (between (fun j => 2 ^ 22 * (W * f j)) ih (fval Q) U - between (fun j => 2 ^ 22 * (U * g j)) ih (fval Q) U)).
    - apply (between_lin (fun j => 2 ^ 22 * (W * f j)) (fun j => 2 ^ 22 * (U * g j)) _ ih (fval Q) U (hi * Z.of_nat iw * (W * U))); [clear - Sh; lia|lia|exact RQ| |reflexivity].
      intros j Hj. specialize (FX j Hj). replace (2 ^ 22 * (W * f j) - 2 ^ 22 * (U * g j)) with (2 ^ 22 * (W * f j - U * g j)) by ring. rewrite Z.abs_mul. exact FX.
    - transitivity (Z.abs (2 ^ 22 * (W * between f ih (fval Q) U - U * between g ih (fval Q) U))); [f_equal; unfold between; ring|now rewrite Z.abs_mul]. }
  change (exact_sample l iw ih ow oh x y) with (between g ih (Z.of_nat (y * ih)) H).
  set (ef := between f ih (fval Q) U) in *. set (eg := between g ih (fval Q) U) in *. set (ex := between g ih (Z.of_nat (y * ih)) H) in *.
  assert (W1 : 1 <= W) by (clear - So; lia). assert (H1 : 1 <= H) by (clear - Sp; lia).
  (* total error of the sum, times the area *)
  assert (T : 2 ^ 22 * Z.abs (v * (W * H) - U * ex) <= err * (W * H) * U).
  { apply (Z.mul_le_mono_pos_r _ _ U); [lia|]. replace (2 ^ 22 * Z.abs (v * (W * H) - U * ex) * U) with (2 ^ 22 * Z.abs ((v * U - ef) * (W * H) + (W * ef - U * eg) * H + (H * eg - U * ex) * U)).
    2: { replace ((v * U - ef) * (W * H) + (W * ef - U * eg) * H + (H * eg - U * ex) * U) with ((v * (W * H) - U * ex) * U) by ring. rewrite Z.abs_mul, (Z.abs_eq U) by lia. ring. }
    assert (A1 : 2 ^ 22 * Z.abs ((v * U - ef) * (W * H)) <= 2 ^ 20 * (U * U) * (W * H)).
    { rewrite Z.abs_mul, (Z.abs_eq (W * H)) by (apply Z.mul_nonneg_nonneg; lia). rewrite Z.mul_assoc. apply Z.mul_le_mono_nonneg_r; [apply Z.mul_nonneg_nonneg; lia|]. clear - C1. lia. }
    assert (A2 : 2 ^ 22 * Z.abs ((W * ef - U * eg) * H) <= hi * Z.of_nat iw * (W * U) * U * H).
    { rewrite Z.abs_mul, (Z.abs_eq H) by lia. rewrite Z.mul_assoc. apply Z.mul_le_mono_nonneg_r; [lia|exact FM]. }
    assert (A3 : 2 ^ 22 * Z.abs ((H * eg - U * ex) * U) <= hi * W * Z.of_nat ih * (H * U) * U).
    { rewrite Z.abs_mul, (Z.abs_eq U) by lia. rewrite Z.mul_assoc. apply Z.mul_le_mono_nonneg_r; [lia|exact FY]. }
    replace (err * (W * H) * U * U) with (2 ^ 20 * (U * U) * (W * H) + hi * Z.of_nat iw * (W * U) * U * H + hi * W * Z.of_nat ih * (H * U) * U) by (unfold err; ring).
    clear - A1 A2 A3. revert A1 A2 A3. generalize ((v * U - ef) * (W * H)), ((W * ef - U * eg) * H), ((H * eg - U * ex) * U), (2 ^ 20 * (U * U) * (W * H)), (hi * Z.of_nat iw * (W * U) * U * H), (hi * W * Z.of_nat ih * (H * U) * U). intros. lia. }
  assert (EB : 0 <= ex <= hi * W * H).
  { apply between_bound; [clear - Sh; lia|lia|exact YB|exact GB]. }
  (* the cast *)
  rewrite V. destruct (blend_near 0 hi (px iw l x0 y0) (px iw l (Nat.min (x0 + 1) (iw - 1)) y0) (px iw l x0 (Nat.min (y0 + 1) (ih - 1))) (px iw l (Nat.min (x0 + 1) (iw - 1)) (Nat.min (y0 + 1) (ih - 1))) a b) as (FB & B0 & _);
    [lia|lia|apply HR; clear - Bx By; lia..|assumption|assumption|assumption|assumption|]. fold v in B0.
  rewrite (to_uint_ok hi _ ltac:(lia) FB). fold v. pose proof (Z.mod_pos_bound v U ltac:(lia)) as MV. pose proof (Z.div_mod v U ltac:(lia)) as DV. assert (D0 : 0 <= v / U) by (apply Z.div_pos; [exact B0|lia]).
  rewrite Z.max_r by (clear - D0 Hhi; lia). fold area. unfold area in *. assert (A0 : 0 < W * H) by (apply Z.mul_pos_pos; [clear - W1; lia|clear - H1; lia]). replace (hi * W * H) with (hi * (W * H)) in EB by ring.
  assert (E0 : 0 < err) by (unfold err; clear - Hhi; nia). clear - T EB MV DV D0 A0 E0 Hhi. set (q := v / U) in *. set (r := v mod U) in *. clearbody q r ex err. revert T EB A0. generalize (W * H) as A. intros.
  assert (T1 : 2 ^ 22 * (v * A - U * ex) <= err * A * U) by lia. assert (T2 : - (err * A * U) <= 2 ^ 22 * (v * A - U * ex)) by lia. clear T.
  assert (VA : U * (q * A) <= v * A < U * (q * A) + U * A) by (rewrite DV; clear - MV A0; nia).
  assert (Q1 : q * A * 2 ^ 22 <= ex * 2 ^ 22 + err * A) by (clear - T1 VA; revert T1 VA; generalize (q * A) as qa, (v * A) as va, (err * A) as ea; intros; lia).
  assert (Q2 : ex * 2 ^ 22 - (2 ^ 22 + err) * A < q * A * 2 ^ 22).
  { rewrite Z.mul_add_distr_r. clear - T2 VA. revert T2 VA. generalize (q * A) as qa, (v * A) as va, (err * A) as ea. intros. lia. }
  destruct (Z_le_gt_dec hi q) as [G|G].
  - rewrite Z.min_l by exact G. split.
    + assert (EA : 0 < err * A) by (apply Z.mul_pos_pos; assumption). replace ((2 ^ 22 + err) * A) with (2 ^ 22 * A + err * A) by ring. clear - EB A0 EA. revert EB EA. generalize (hi * A) as ha, (err * A) as ea. intros. lia.
    + assert (HA : hi * A <= q * A) by (apply Z.mul_le_mono_nonneg_r; [clear - A0; lia|exact G]). clear - Q1 HA. lia.
  - rewrite Z.min_r by (clear - G; lia). split; assumption.
Qed.
(** For pictures whose sides add up to at most 12336 pixels (8 bits) the sample is less than two steps below and at most
    one step above the exact value. *)
Corollary resize_accurate8 l iw ih ow oh : gray_picture 255 iw ih l -> side ow -> side oh -> Z.of_nat iw + Z.of_nat ih <= 12336 ->
  exists out, resize_bilinear 255 l iw ih ow oh = Ok out /\ length out = (ow * oh)%nat /\
  forall x y, (x < ow)%nat -> (y < oh)%nat -> let area := Z.of_nat ow * Z.of_nat oh in
    exact_sample l iw ih ow oh x y - 2 * area < px ow out x y * area <= exact_sample l iw ih ow oh x y + area.
Proof.
  intros HG So Sp HS. destruct (resize_accurate 255 l iw ih ow oh HG So Sp) as (out & E & L & _ & A). exists out. split; [exact E|]. split; [exact L|].
  intros x y Hx Hy area. specialize (A x y Hx Hy). cbv zeta in A. fold area in A. assert (A0 : 0 < area) by (unfold area, side in *; clear - So Sp; nia).
  assert (EA : (2 ^ 20 + 255 * (Z.of_nat iw + Z.of_nat ih)) * area <= 2 ^ 22 * area) by (apply Z.mul_le_mono_nonneg_r; [clear - A0; lia|clear - HS; lia]).
  rewrite Z.mul_add_distr_r in A. revert A EA. generalize ((2 ^ 20 + 255 * (Z.of_nat iw + Z.of_nat ih)) * area) as ea, (px ow out x y * area) as oa. clear - A0. intros. lia.
Qed.
Print Assumptions resize_accurate.
Example resize_accurate_ex : gray_picture 255 2 2 [10; 20; 30; 40] /\ side 4 /\
  resize_bilinear 255 [10; 20; 30; 40] 2 2 4 4 = Ok [10; 15; 20; 20; 20; 25; 30; 30; 30; 35; 40; 40; 30; 35; 40; 40] /\
  exact_sample [10; 20; 30; 40] 2 2 4 4 1 1 = 25 * 16 /\ exact_sample [10; 20; 30; 40] 2 2 4 4 3 1 = 30 * 16.
Proof. split; [apply gray8; vm_compute; reflexivity|]. split; [unfold side; lia|]. repeat split; vm_compute; reflexivity. Qed.

(** ** No new light *)
(** C125. A sample of the resized picture is never brighter than the brightest of the four pixels around its place, and
    at most one step darker than the darkest of them. The four are neighbours of a place within a quarter of a pixel of
    the true one. *)
Theorem resize_between_neighbours_partial hi l iw ih ow oh : gray_picture hi iw ih l -> side ow -> side oh ->
  exists out, resize_bilinear hi l iw ih ow oh = Ok out /\ length out = (ow * oh)%nat /\
  forall x y, (x < ow)%nat -> (y < oh)%nat -> exists x0 y0, (x0 < iw)%nat /\ (y0 < ih)%nat /\
    (4 * Z.of_nat (x0 * ow) <= 4 * Z.of_nat (x * iw) + Z.of_nat ow /\ 4 * Z.of_nat (x * iw) <= 4 * Z.of_nat ((x0 + 1) * ow) + Z.of_nat ow) /\
    (4 * Z.of_nat (y0 * oh) <= 4 * Z.of_nat (y * ih) + Z.of_nat oh /\ 4 * Z.of_nat (y * ih) <= 4 * Z.of_nat ((y0 + 1) * oh) + Z.of_nat oh) /\
    forall darkest brightest,
      (forall i j, (x0 <= i <= x0 + 1)%nat -> (i < iw)%nat -> (y0 <= j <= y0 + 1)%nat -> (j < ih)%nat -> darkest <= px iw l i j <= brightest) ->
      darkest - 1 <= px ow out x y <= brightest.
Proof.
  intros HG So Sp. destruct (resize_runs hi l iw ih ow oh HG So Sp) as (out & E & LO & R). exists out. split; [exact E|]. split; [exact LO|].
  assert (Hhi : 0 <= hi <= 65535) by (destruct HG as ([-> | ->] & _); lia). intros x y Hx Hy.
  destruct (R x y Hx Hy) as (x0 & y0 & Bx & By & FP & FQ & VP & VQ & Fa & Fb & Ba & Bb & V). cbv zeta in V. clear R.
  exists x0, y0. split; [exact Bx|]. split; [exact By|]. pose proof HG as (_ & Sw & Sh & _ & _).
  assert (N : forall inn out i i0, side inn -> side out -> (i < out)%nat -> (i0 < inn)%nat -> fval (fmul (of_int (Z.of_nat i)) (ratio inn out)) / U = Z.of_nat i0 ->
    4 * Z.of_nat (i0 * out) <= 4 * Z.of_nat (i * inn) + Z.of_nat out /\ 4 * Z.of_nat (i * inn) <= 4 * Z.of_nat ((i0 + 1) * out) + Z.of_nat out).
  { clear. intros inn out i i0 Hi Ho Hx Hi0 V. pose proof (place_near inn out i Hi Ho Hx) as NX. cbv zeta in NX. set (P := fmul _ _) in *.
    pose proof (Z.mod_pos_bound (fval P) U ltac:(lia)) as M. pose proof (Z.div_mod (fval P) U ltac:(lia)) as DM. rewrite V in DM. unfold side in *.
    assert (ON : Z.of_nat out * Z.of_nat inn * U <= Z.of_nat out * 2 ^ 20 * U) by (apply Z.mul_le_mono_nonneg_r; [lia|]; apply Z.mul_le_mono_nonneg_l; lia).
    rewrite (Nat2Z.inj_mul i0), (Nat2Z.inj_mul (i0 + 1)), Nat2Z.inj_add. change (Z.of_nat 1) with 1. revert NX M DM ON Ho. generalize (fval P) as p, (Z.of_nat (i * inn)) as xi, (Z.of_nat out) as o, (Z.of_nat i0) as k. clear. intros p xi o k. intros.
    assert (PO : U * (k * o) <= o * p < U * (k * o) + U * o) by (rewrite DM; set (r := p mod U) in *; clearbody r; clear - M Ho; nia).
    replace ((k + 1) * o) with (k * o + o) by ring. revert NX PO ON. generalize (o * p) as op, (k * o) as ko, (o * Z.of_nat inn * U) as oi. clear - Ho. intros. lia. }
  split; [now apply N|]. split; [now apply N|]. clear N. intros dk br HN. rewrite V.
  set (x1 := Nat.min (x0 + 1) (iw - 1)). set (y1 := Nat.min (y0 + 1) (ih - 1)).
  assert (X1 : (x0 <= x1 <= x0 + 1)%nat /\ (x1 < iw)%nat) by (unfold x1; lia). assert (Y1 : (y0 <= y1 <= y0 + 1)%nat /\ (y1 < ih)%nat) by (unfold y1; lia).
  pose proof (HN x0 y0 ltac:(lia) Bx ltac:(lia) By) as P00. pose proof (HN x1 y0 ltac:(lia) ltac:(lia) ltac:(lia) By) as P10. pose proof (HN x0 y1 ltac:(lia) Bx ltac:(lia) ltac:(lia)) as P01. pose proof (HN x1 y1 ltac:(lia) ltac:(lia) ltac:(lia) ltac:(lia)) as P11.
  pose proof (pixel_range hi iw ih l x0 y0 HG Bx By) as R00. pose proof (pixel_range hi iw ih l x1 y0 HG ltac:(lia) By) as R10. pose proof (pixel_range hi iw ih l x0 y1 HG Bx ltac:(lia)) as R01. pose proof (pixel_range hi iw ih l x1 y1 HG ltac:(lia) ltac:(lia)) as R11.
  destruct (blend_near (Z.max 0 dk) (Z.min hi br) (px iw l x0 y0) (px iw l x1 y0) (px iw l x0 y1) (px iw l x1 y1) (fsub (fmul (of_int (Z.of_nat x)) (ratio iw ow)) (of_int (Z.of_nat x0))) (fsub (fmul (of_int (Z.of_nat y)) (ratio ih oh)) (of_int (Z.of_nat y0)))) as (FB & B0 & BB);
    [clear; lia|clear - Hhi; lia|clear - P00 R00; lia|clear - P10 R10; lia|clear - P01 R01; lia|clear - P11 R11; lia|assumption..|].
  rewrite (to_uint_ok hi _ ltac:(clear - Hhi; lia) FB). set (v := fval _) in *. pose proof (Z.mod_pos_bound v U ltac:(lia)) as MV. pose proof (Z.div_mod v U ltac:(lia)) as DV. clear - BB MV DV P00 R00 B0. lia.
Qed.
Print Assumptions resize_between_neighbours_partial.
(** A flat picture stays flat up to one step. *)
Corollary resize_flat_partial hi c iw ih ow oh : gray_picture hi iw ih (repeat c (iw * ih)) -> side ow -> side oh ->
  exists out, resize_bilinear hi (repeat c (iw * ih)) iw ih ow oh = Ok out /\ length out = (ow * oh)%nat /\ forall x y, (x < ow)%nat -> (y < oh)%nat -> px ow out x y = c - 1 \/ px ow out x y = c.
Proof.
  intros HG So Sp. destruct (resize_between_neighbours_partial hi _ iw ih ow oh HG So Sp) as (out & E & L & A). exists out. split; [exact E|]. split; [exact L|].
  intros x y Hx Hy. destruct (A x y Hx Hy) as (x0 & y0 & _ & _ & _ & _ & N). specialize (N c c). assert (c - 1 <= px ow out x y <= c); [|lia]. apply N.
  intros i j _ Hi _ Hj. unfold px. pose proof (nth_In (repeat c (iw * ih)) 0 (n := (j * iw + i)%nat) ltac:(rewrite repeat_length; now apply idx_bound')) as I. apply repeat_spec in I. lia.
Qed.
(** That step is there: the exact value is 200 everywhere, the result is not. *)
Theorem resize_flat_refuted : exists out, resize_bilinear 255 (repeat 200 15) 5 3 7 5 = Ok out /\ gray_picture 255 5 3 (repeat 200 15) /\
  px 7 out 1 4 = 199 /\ px 7 out 0 0 = 200 /\ exact_sample (repeat 200 15) 5 3 7 5 1 4 = 200 * 35.
Proof. eexists. split; [vm_compute; reflexivity|]. split; [apply gray8; vm_compute; reflexivity|]. repeat split; vm_compute; reflexivity. Qed.
Print Assumptions resize_flat_refuted.

(** ** Keeping the size *)
(** C126. If the new sides are powers of two that divide the old ones, the picture is sampled exactly: with the same
    sides, it is unchanged. Sides that are not powers of two: not covered, and [resize_same_refuted]. *)
Theorem resize_power_of_two_partial hi l i j k m : 0 <= i -> 0 <= j -> (1 <= k)%nat -> (1 <= m)%nat ->
  let ow := Z.to_nat (2 ^ i) in let oh := Z.to_nat (2 ^ j) in let iw := (k * ow)%nat in let ih := (m * oh)%nat in
  gray_picture hi iw ih l -> exists out, resize_bilinear hi l iw ih ow oh = Ok out /\ is_image ow oh out (fun x y => px iw l (x * k) (y * m)).
Proof.
  intros Hi Hj Hk Hm ow oh iw ih HG. assert (P1 : 0 < 2 ^ i) by (apply Z.pow_pos_nonneg; lia). assert (P2 : 0 < 2 ^ j) by (apply Z.pow_pos_nonneg; lia). pose proof HG as (Hhi' & Sw & Sh & L & _). unfold side in *.
  assert (Hhi : 0 <= hi < 2 ^ 24) by (destruct Hhi' as [-> | ->]; lia).
  assert (Rw : rep (ratio iw ow) (Z.of_nat k)).
  { replace iw with (Z.to_nat (Z.of_nat k * 2 ^ i)) by (unfold iw, ow; rewrite Z2Nat.inj_mul, Nat2Z.id by lia; reflexivity). apply power_ratio; [lia|lia|]. unfold iw, ow in Sw. rewrite Nat2Z.inj_mul, Z2Nat.id in Sw by lia. clear - Sw. lia. }
  assert (Rh : rep (ratio ih oh) (Z.of_nat m)).
  { replace ih with (Z.to_nat (Z.of_nat m * 2 ^ j)) by (unfold ih, oh; rewrite Z2Nat.inj_mul, Nat2Z.id by lia; reflexivity). apply power_ratio; [lia|lia|]. unfold ih, oh in Sh. rewrite Nat2Z.inj_mul, Z2Nat.id in Sh by lia. clear - Sh. lia. }
  set (larger := SFltb (ratio iw ow) (of_int 1) && SFltb (ratio ih oh) (of_int 1)).
  assert (G : forall r inn n i c, (1 <= n)%nat -> rep r (Z.of_nat n) -> inn = (n * c)%nat -> Z.of_nat inn < 2 ^ 24 -> (i < c)%nat -> exists a, place larger r inn i = Ok ((i * n)%nat, Nat.min (i * n + 1) (inn - 1), a) /\ rep a 0 /\ (i * n < inn)%nat).
  { clearbody larger. clear. intros r inn n t c Hn Rr -> B Hi. assert (IN : (t * n < n * c)%nat) by nia. destruct (place_whole larger r (n * c) t n Rr B Hn IN) as (a & E & Ra). now exists a. }
  set (gx := fun x => match place larger (ratio iw ow) iw x with Ok v => v | _ => (O, O, of_int 0) end). set (gy := fun y => match place larger (ratio ih oh) ih y with Ok v => v | _ => (O, O, of_int 0) end).
  destruct (bilinear_run hi l iw ih ow oh gx gy L) as (out & E & LO & PX).
  - intros x Hx. unfold gx. destruct (G (ratio iw ow) iw k x ow Hk Rw eq_refl ltac:(clear - Sw; lia) Hx) as (a & Ea & _ & B). fold larger. rewrite Ea. cbn [fst snd]. split; [reflexivity|]. clear - B. lia.
  - intros y Hy. unfold gy. destruct (G (ratio ih oh) ih m y oh Hm Rh eq_refl ltac:(clear - Sh; lia) Hy) as (a & Ea & _ & B). fold larger. rewrite Ea. cbn [fst snd]. split; [reflexivity|]. clear - B. lia.
  - exists out. split; [exact E|]. split; [exact LO|]. intros x y Hx Hy. rewrite (PX x y Hx Hy). unfold sample_of, gx, gy.
    destruct (G (ratio iw ow) iw k x ow Hk Rw eq_refl ltac:(clear - Sw; lia) Hx) as (a & Ea & Ra & B). destruct (G (ratio ih oh) ih m y oh Hm Rh eq_refl ltac:(clear - Sh; lia) Hy) as (b & Eb & Rb & B'). fold larger. rewrite Ea, Eb.
    assert (IX : (Nat.min (x * k + 1) (iw - 1) < iw)%nat) by (clear - B; lia). assert (IY : (Nat.min (y * m + 1) (ih - 1) < ih)%nat) by (clear - B'; lia).
    pose proof (pixel_range hi iw ih l _ _ HG B B') as R0. pose proof (pixel_range hi iw ih l _ _ HG IX B') as R1. pose proof (pixel_range hi iw ih l _ _ HG B IY) as R2. pose proof (pixel_range hi iw ih l _ _ HG IX IY) as R3.
    rewrite (to_uint_rep hi _ (px iw l (x * k) (y * m))); [clear - R0; lia|lia|]. apply blend_exact; try assumption; clear - Hhi R0 R1 R2 R3; lia.
Qed.
Print Assumptions resize_power_of_two_partial.
Example resize_power_of_two_ex : gray_picture 255 (2 * Z.to_nat (2 ^ 1)) (2 * Z.to_nat (2 ^ 0)) [10; 20; 30; 40; 50; 60; 70; 80] /\ resize_bilinear 255 [10; 20; 30; 40; 50; 60; 70; 80] 4 2 2 1 = Ok [10; 30].
Proof. split; [apply gray8|]; vm_compute; reflexivity. Qed.
(** Resizing to the size the picture already has changes it: a ramp of 41 pixels in a row, all but the first one step darker. *)
Definition ramp41 : list Z := map Z.of_nat (seq 0 41).
Theorem resize_same_refuted : gray_picture 255 41 1 ramp41 /\ resize_bilinear 255 ramp41 41 1 41 1 = Ok (0 :: map (fun v => v - 1) (tl ramp41)) /\
  forall x, (x < 41)%nat -> exact_sample ramp41 41 1 41 1 x 0 = 41 * px 41 ramp41 x 0.
Proof.
  split; [|split].
  - apply gray8. vm_compute. reflexivity.
  - vm_compute. reflexivity.
  - intros x Hx. assert (C : forallb (fun x => exact_sample ramp41 41 1 41 1 x 0 =? 41 * px 41 ramp41 x 0) (seq 0 41) = true) by (vm_compute; reflexivity).
    rewrite forallb_forall in C. apply Z.eqb_eq, C, in_seq. lia.
Qed.
Print Assumptions resize_same_refuted.

(** ** Very wide pictures *)
Lemma loop_each {S} (body : nat -> S -> res S) n : forall i s s', for_loop n i body s = Ok s' -> forall j, (i <= j < i + n)%nat -> exists s1 s2, body j s1 = Ok s2.
Proof.
  induction n as [|n IH]; intros i s s' E j Hj; [lia|]. cbn [for_loop] in E. destruct (body i s) as [s1| | |] eqn:B; try discriminate E. cbn [bind] in E.
  destruct (Nat.eq_dec i j) as [<-|N]; [now exists s, s1|]. apply (IH _ _ _ E). lia.
Qed.
(** C124 without the limit on the sides: stretching one pixel to 16777215 in a row reads past the end. The position of
    the last one is rounded up to 1, and it is only pulled back if the height grows as well. *)
Theorem resize_wide_refuted : gray_picture 255 1 1 [7] /\ forall ow out, Z.of_nat ow = 16777215 -> resize_bilinear 255 [7] 1 1 ow 1 <> Ok out.
Proof.
  split; [apply gray8; vm_compute; reflexivity|].
  intros ow out How E. assert (HI : exists i, Z.of_nat i = 16777214 /\ (i < ow)%nat) by (destruct ow as [|i]; [discriminate How|]; exists i; lia). destruct HI as (i & Hi & Hlt).
  unfold resize_bilinear, bilinear_impl in E. set (out0 := repeat 0 _) in E. unfold for_range at 1 in E. change (1 - 0)%nat with 1%nat in E. cbn [for_loop] in E.
  assert (R1 : ratio 1 1 = of_int 1) by reflexivity. rewrite R1 in E. change (SFltb (of_int 1) (of_int 1)) with false in E. rewrite Bool.andb_false_r in E.
  change (place false (of_int 1) 1 0) with (Ok (O, O, fsub (fmul (of_int 0) (of_int 1)) (of_int 0))) in E. cbn [bind] in E. unfold for_range in E.
  match type of E with bind ?e _ = _ => destruct e as [s'| | |] eqn:L; try discriminate E end. clear E. revert L. match goal with |- for_loop _ _ ?b _ = _ -> _ => set (body := b) end. intros L.
  destruct (loop_each body _ _ _ _ L i) as (s1 & s2 & B); [lia|]. unfold body in B.
  assert (PL : place false (ratio 1 ow) 1 i = Ok (1%nat, O, fsub (of_int 1) (of_int 1))).
  { unfold place, ratio. rewrite How, Hi. vm_compute. reflexivity. }
  rewrite PL in B. cbn [bind] in B. discriminate B.
Qed.
Print Assumptions resize_wide_refuted.
