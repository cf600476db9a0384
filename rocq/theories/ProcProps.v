(** Properties of the arithmetic and pointwise operations: C38 (division), C39 (alpha), C41 (invert, threshold),
    C44 (contrast stretch), C46 (composite). *)
From Verif Require Import Base BaseProof GeomSpec GeomProof ProcModel ProcSpec ProcProof.

(** ** C38 *)

Theorem fastdiv_is_division a d : is_u32 a -> 1 <= d < 2 ^ 32 ->
  (do m <- compute_mod d ; fastdiv a m) = Ok (a / d).
Proof. intros Ha Hd. destruct (fastdiv_exact a d Ha Hd) as (m & -> & E). exact E. Qed.
Print Assumptions fastdiv_is_division.
Example fastdiv_is_division_ex : (do m <- compute_mod 7 ; fastdiv 4294967295 m) = Ok 613566756
  /\ (do m <- compute_mod 1 ; fastdiv 4294967295 m) = Ok 4294967295
  /\ (do m <- compute_mod 4294967295 ; fastdiv 4294967294 m) = Ok 0.
Proof. repeat split; reflexivity. Qed.

(** ** C39 *)

(** Full statement: [forall c a], pre-multiplying gives the product scaled to the sample range, rounded to
    nearest, and opaque alpha keeps the colour. False: opaque white becomes black at both depths, and opaque
    colours from the middle of the range on become one larger. *)
Theorem premultiply_refuted : forall b, b = 8 \/ b = 16 ->
  (exists c, sample b c /\ c <> 0 /\ premul b c (2 ^ b - 1) = Ok 0) /\
  (exists c, sample b c /\ premul b c (2 ^ b - 1) = Ok (c + 1)).
Proof.
  intros b [-> | ->]; split.
  - exists 255. split; [easy|]. split; [easy|reflexivity].
  - exists 200. split; [easy|reflexivity].
  - exists 65535. split; [easy|]. split; [easy|reflexivity].
  - exists 50000. split; [easy|reflexivity].
Qed.
Print Assumptions premultiply_refuted.

(** What holds: the arithmetic never overflows; the result is the rounded product [n], or [n + 1] wrapped to the
    sample range, and it is [n] exactly when the remainder [k = a * c - max * n] satisfies the condition shown.
    Missing for the full statement: the cases where it is [n + 1] (false, see above). *)
Theorem premultiply_partial b c a : b = 8 \/ b = 16 -> sample b c -> sample b a ->
  let n := round_div (a * c) (2 ^ b - 1) in
  let k := a * c - (2 ^ b - 1) * n in
  let half := 2 ^ (b - 1) in
  exists r, premul b c a = Ok r /\ (r = n \/ r = (n + 1) mod 2 ^ b) /\
    (r = n <-> k + n < half - 1 \/ (k + n = half - 1 /\ k + half < n)).
Proof.
  intros Hb Hc Ha. cbv zeta. destruct (premul_spec b c a Hb Hc Ha) as (Hn & Hk & E). cbv zeta in Hn, Hk, E.
  set (n := round_div (a * c) (2 ^ b - 1)) in *. set (k := a * c - (2 ^ b - 1) * n) in *.
  assert (B : 256 <= 2 ^ b) by (destruct Hb as [-> | ->]; easy).
  assert (NE : (n + 1) mod 2 ^ b <> n).
  { destruct (Z.eq_dec n (2 ^ b - 1)) as [->|N]; [replace (2 ^ b - 1 + 1) with (2 ^ b) by lia; rewrite Z.mod_same; lia|].
    rewrite Z.mod_small; lia. }
  eexists. split; [exact E|]. clear E.
  destruct ((k + n <? 2 ^ (b - 1) - 1) || ((k + n =? 2 ^ (b - 1) - 1) && (k + 2 ^ (b - 1) <? n))) eqn:D.
  - split; [now left|]. split; [intros _|easy]. set (h := 2 ^ (b - 1)) in *. clearbody h. clear NE. lia.
  - split; [now right|]. split; [easy|]. intros H. exfalso. set (h := 2 ^ (b - 1)) in *. clearbody h. clear NE. lia.
Qed.
Print Assumptions premultiply_partial.
Example premultiply_partial_ex : premul 8 100 128 = Ok 50 /\ round_div (128 * 100) 255 = 50
  /\ premul 8 1 127 = Ok 1 /\ round_div (127 * 1) 255 = 0 /\ premul 16 40000 30000 = Ok 18311
  /\ round_div (30000 * 40000) 65535 = 18311.
Proof. repeat split; reflexivity. Qed.

(** Zero alpha always gives zero, and whole channels of equal length never panic. *)
Theorem premultiply_zero b cs : b = 8 \/ b = 16 -> Forall (sample b) cs ->
  premultiply b cs (repeat 0 (length cs)) = Ok (repeat 0 (length cs)).
Proof.
  intros Hb Hs. induction Hs as [|c cs Hc Hs IH]; [reflexivity|]. cbn [length repeat].
  unfold premultiply in *. cbn [zip_update]. rewrite IH.
  replace (premul b c 0) with (Ok 0); [reflexivity|]. unfold premul. rewrite Z.mul_0_l. destruct Hb as [-> | ->]; reflexivity.
Qed.
Print Assumptions premultiply_zero.
Example premultiply_zero_ex : premultiply 8 [255; 3] [0; 0] = Ok [0; 0].
Proof. reflexivity. Qed.

Theorem premultiply_safe b cs al : b = 8 \/ b = 16 -> Forall (sample b) cs -> Forall (sample b) al ->
  exists out, premultiply b cs al = Ok out /\ length out = length cs /\ Forall (sample b) out.
Proof.
  intros Hb Hs. revert al. induction Hs as [|c cs Hc Hs IH]; intros al Ha; unfold premultiply in *.
  - exists []. now destruct al.
  - destruct al as [|a al].
    + exists (c :: cs). split; [reflexivity|]. split; [easy|]. now constructor.
    + apply Forall_cons_iff in Ha as [Ha Hal]. destruct (IH al Hal) as (out & E & L & F). cbn [zip_update].
      destruct (premultiply_partial b c a Hb Hc Ha) as (r & Er & Hr & _).
      destruct (premul_spec b c a Hb Hc Ha) as (Hn & _). cbv zeta in *.
      rewrite Er. cbn [bind]. rewrite E. cbn [bind]. exists (r :: out). split; [reflexivity|]. split; [cbn [length]; lia|].
      constructor; [|exact F]. unfold sample in *. destruct Hr as [-> | ->]; [lia|]. apply Z.mod_pos_bound. lia.
Qed.
Print Assumptions premultiply_safe.
Example premultiply_safe_ex : premultiply 8 [10; 200; 7] [255; 100; 0] = Ok [10; 79; 0].
Proof. reflexivity. Qed.

(** Un-pre-multiplying is the correctly rounded quotient, cut at the largest sample value; zero alpha gives 0 and
    opaque alpha keeps every colour. *)
Theorem unpremultiply_rounds b c a : b = 8 \/ b = 16 -> sample b c -> sample b a ->
  unpremul b c a = Ok (if a =? 0 then 0 else Z.min (2 ^ b - 1) (round_div (c * (2 ^ b - 1)) a)) /\
  unpremul b c (2 ^ b - 1) = Ok c.
Proof.
  intros Hb Hc Ha. split; [now apply unpremul_spec|].
  assert (B : 256 <= 2 ^ b) by (destruct Hb as [-> | ->]; easy).
  rewrite unpremul_spec by (try easy; unfold sample; lia). replace (2 ^ b - 1 =? 0) with false by lia. f_equal.
  unfold sample in Hc. set (M := 2 ^ b - 1) in *. unfold round_div.
  replace (2 * (c * M) + M) with (M + c * (2 * M)) by lia. rewrite Z.div_add, Z.div_small by lia. lia.
Qed.
Print Assumptions unpremultiply_rounds.
Example unpremultiply_rounds_ex : unpremul 8 50 128 = Ok 100 /\ unpremul 8 200 100 = Ok 255 /\ unpremul 16 1000 3 = Ok 65535
  /\ unpremul 16 1000 60000 = Ok 1092.
Proof. repeat split; reflexivity. Qed.

(** ** C41 *)

Theorem invert_involutive b l : 0 <= b -> Forall (sample b) l ->
  invert b l = Ok (map (fun x => 2 ^ b - 1 - x) l) /\ (do a <- invert b l ; invert b a) = Ok l.
Proof.
  intros Hb H. rewrite Forall_forall in H. unfold sample in H.
  assert (E : forall l, (forall x, In x l -> 0 <= x < 2 ^ b) -> invert b l = Ok (map (fun x => 2 ^ b - 1 - x) l)).
  { intros l' H'. unfold invert. apply map_res_ok. intros x Hx. unfold invert1. specialize (H' x Hx).
    now replace (2 ^ b - 1 <? x) with false by lia. }
  split; [now apply E|]. rewrite E by easy. cbn [bind]. rewrite E.
  - f_equal. rewrite map_map. transitivity (map (fun x : Z => x) l); [|apply map_id]. apply map_ext. intros x. lia.
  - intros x Hx. apply in_map_iff in Hx as (y & <- & Hy). specialize (H y Hy). lia.
Qed.
Print Assumptions invert_involutive.
Example invert_involutive_ex : invert 8 [0; 1; 255] = Ok [255; 254; 0] /\ invert 16 [0; 1] = Ok [65535; 65534].
Proof. split; reflexivity. Qed.

(** Full statement: every method follows the documented table. False for ThreshToZero: it writes the threshold
    where the table says the sample is kept. *)
Theorem threshold_to_zero_refuted : exists t x, sample 8 t /\ sample 8 x /\
  threshold 8 t ThreshToZero [x] <> [doc_to_zero t x].
Proof. exists 10, 200. split; [easy|]. split; [easy|]. discriminate. Qed.
Print Assumptions threshold_to_zero_refuted.

(** The other three methods, at every depth; and ThreshToZero exactly where it is right. *)
Theorem threshold_documented_partial b t l : 
  threshold b t Binary l = map (doc_binary (2 ^ b - 1) t) l /\
  threshold b t BinaryInv l = map (doc_binary_inv (2 ^ b - 1) t) l /\
  threshold b t ThreshTrunc l = map (doc_trunc t) l /\
  (threshold b t ThreshToZero l = map (doc_to_zero t) l <-> Forall (fun x => x <= t) l).
Proof.
  split; [reflexivity|]. split; [reflexivity|]. split.
  - apply map_ext. intros x. unfold threshold1, doc_trunc. destruct (Z.ltb_spec t x); lia.
  - unfold threshold. induction l as [|x l IH]; [easy|]. cbn [map]. unfold threshold1 at 1, doc_to_zero at 1. split.
    + intros E. injection E as E1 E2. constructor; [destruct (Z.ltb_spec t x); lia|now apply IH].
    + intros F. apply Forall_cons_iff in F as [F1 F2]. replace (t <? x) with false by lia. f_equal. now apply IH.
Qed.
Print Assumptions threshold_documented_partial.
Example threshold_documented_partial_ex : threshold 8 100 Binary [99; 100; 101] = [0; 0; 255]
  /\ threshold 8 100 BinaryInv [99; 100; 101] = [255; 255; 0] /\ threshold 8 100 ThreshTrunc [99; 100; 101] = [99; 100; 100].
Proof. repeat split; reflexivity. Qed.

(** ** C44 *)

(** Never overflows, keeps every sample in range, maps everything from [upper] on to the maximum and everything up
    to [lower] (and below [upper]) to 0, and in between scales linearly. *)
Theorem stretch_values b lower upper l : b = 8 \/ b = 16 -> sample b lower -> sample b upper -> lower <= upper ->
  Forall (sample b) l ->
  exists out, stretch b lower upper l = Ok out /\ length out = length l /\ Forall (sample b) out /\
    forall i, (i < length l)%nat ->
      let x := nth i l 0 in let y := nth i out 0 in
      (upper <= x -> y = 2 ^ b - 1) /\ (x <= lower -> x < upper -> y = 0) /\
      (lower < x < upper -> y = (2 ^ b - 1) * (x - lower) / (upper - lower + 1)).
Proof.
  intros Hb Hl Hu Hlu Hx. destruct (stretch_spec b lower upper l Hb Hl Hu Hlu Hx) as [E F].
  eexists. split; [exact E|]. split; [apply map_length|]. split; [exact F|]. intros i Hi. cbv zeta.
  rewrite (map_nth_in _ _ _ 0 0) by easy. set (x := nth i l 0). clearbody x. unfold stretch_value. split; [|split]; intros.
  - now replace (upper <=? x) with true by lia.
  - replace (upper <=? x) with false by lia. now replace (x <=? lower) with true by lia.
  - replace (upper <=? x) with false by lia. now replace (x <=? lower) with false by lia.
Qed.
Print Assumptions stretch_values.
Example stretch_values_ex : stretch 8 50 200 [0; 50; 51; 125; 199; 200; 255] = Ok [0; 0; 1; 126; 251; 255; 255]
  /\ stretch 16 10 65535 [65534; 65535] = Ok [65532; 65535].
Proof. split; vm_compute; reflexivity. Qed.

Theorem stretch_monotone b lower upper l i j : b = 8 \/ b = 16 -> sample b lower -> sample b upper -> lower <= upper ->
  Forall (sample b) l -> (i < length l)%nat -> (j < length l)%nat -> nth i l 0 <= nth j l 0 ->
  exists out, stretch b lower upper l = Ok out /\ nth i out 0 <= nth j out 0.
Proof.
  intros Hb Hl Hu Hlu Hx Hi Hj Hij. destruct (stretch_spec b lower upper l Hb Hl Hu Hlu Hx) as [E F].
  eexists. split; [exact E|]. rewrite !(map_nth_in _ _ _ 0 0) by easy. rewrite Forall_forall in Hx.
  apply stretch_mono; auto; apply Hx, nth_In; easy.
Qed.
Print Assumptions stretch_monotone.
Example stretch_monotone_ex : stretch 8 9 9 [8; 9; 10] = Ok [0; 255; 255].
Proof. reflexivity. Qed.

Theorem stretch_rejects b lower upper l : upper < lower -> stretch b lower upper l = Err EOther.
Proof. intros H. unfold stretch. now replace (upper <? lower) with true by lia. Qed.
Print Assumptions stretch_rejects.
Example stretch_rejects_ex : stretch 8 9 3 [1] = Err EOther.
Proof. reflexivity. Qed.

(** ** C46 *)

(** The source rectangle lands at (sx, sy), cut to the destination; everything else is unchanged; any position,
    also outside the destination, is accepted. *)
Theorem composite_over_rectangle src dst sx sy ws hs wd hd : (0 < ws)%nat -> (0 < wd)%nat ->
  length src = (ws * hs)%nat -> length dst = (wd * hd)%nat ->
  exists out, composite_over src dst sx sy ws wd = Ok out /\
    is_image wd hd out (fun x y =>
      if ((sx <=? x) && (x - sx <? ws) && (sy <=? y) && (y - sy <? hs))%nat
      then px ws src (x - sx) (y - sy) else px wd dst x y).
Proof. apply composite_over_spec. Qed.
Print Assumptions composite_over_rectangle.
Example composite_over_rectangle_ex :
  composite_over [1; 2; 3; 4] (repeat 9 9) 1 1 2 3 = Ok [9; 9; 9; 9; 1; 2; 9; 3; 4] /\
  composite_over [1; 2; 3; 4] (repeat 9 9) 2 2 2 3 = Ok [9; 9; 9; 9; 9; 9; 9; 9; 1] /\
  composite_over [1; 2; 3; 4] (repeat 9 9) 7 0 2 3 = Ok (repeat 9 9).
Proof. repeat split; reflexivity. Qed.

(** Replacing compositing: everything outside the rectangle becomes the maximum. *)
Theorem composite_src_rectangle b src dst sx sy ws hs wd hd : (0 < ws)%nat -> (0 < wd)%nat ->
  length src = (ws * hs)%nat -> length dst = (wd * hd)%nat ->
  exists out, composite_src b src dst sx sy ws wd = Ok out /\
    is_image wd hd out (fun x y =>
      if ((sx <=? x) && (x - sx <? ws) && (sy <=? y) && (y - sy <? hs))%nat
      then px ws src (x - sx) (y - sy) else 2 ^ b - 1).
Proof.
  intros Hws Hwd Hs Hd. unfold composite_src.
  destruct (composite_over_spec src (map (fun _ => 2 ^ b - 1) dst) sx sy ws hs wd hd Hws Hwd Hs ltac:(now rewrite map_length)) as (out & E & I).
  exists out. split; [exact E|]. eapply is_image_ext; [|exact I]. intros x y Hx Hy. cbv beta.
  assert (P : px wd (map (fun _ => 2 ^ b - 1) dst) x y = 2 ^ b - 1).
  { unfold px. rewrite (map_nth_in _ _ _ 0 0); [easy|]. rewrite Hd. now apply idx_bound'. }
  now rewrite P.
Qed.
Print Assumptions composite_src_rectangle.
Example composite_src_rectangle_ex : composite_src 8 [1; 2] (repeat 9 4) 1 0 1 2 = Ok [255; 1; 255; 2].
Proof. reflexivity. Qed.

(** Placement by gravity: a source that fits is placed entirely inside; corners are exact, and the centre leaves
    margins that differ by at most one. *)
Theorem gravity_inside sw sh dw dh g : (sw <= dw)%nat -> (sh <= dh)%nat ->
  let (x, y) := calculate_gravity sw sh dw dh g in
  (x + sw <= dw)%nat /\ (y + sh <= dh)%nat /\
  match g with
  | Center => (x <= dw - sw - x + 1 /\ dw - sw - x <= x + 1 /\ y <= dh - sh - y + 1 /\ dh - sh - y <= y + 1)%nat
  | TopLeft => x = O /\ y = O
  | TopRight => (x + sw = dw)%nat /\ y = O
  | BottomLeft => x = O /\ (y + sh = dh)%nat
  | BottomRight => (x + sw = dw)%nat /\ (y + sh = dh)%nat
  end.
Proof. intros Hw Hh. destruct g; cbn [calculate_gravity]; lia. Qed.
Print Assumptions gravity_inside.
Example gravity_inside_ex : calculate_gravity 3 2 10 9 Center = (4, 3)%nat /\ calculate_gravity 3 2 10 9 BottomRight = (7, 7)%nat.
Proof. split; reflexivity. Qed.
