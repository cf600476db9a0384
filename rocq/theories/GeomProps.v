(** Properties of the geometric operations: C33 (flips), C34 (transpose), C35 (rotation), C36 (crop), C37 (pad),
    C42 (mirror). Images are read through [px] and described through [is_image] (GeomSpec.v). *)
From Verif Require Import Base BaseProof Loops Slices GeomModel GeomSpec GeomProof.

Definition ex_img : list Z := [1; 2; 3;
                               4; 5; 6].
Definition ex_odd : list Z := [1; 2; 3;
                               4; 5; 6;
                               7; 8; 9].

(** ** C33 *)

Theorem flop_mirrors_rows w h l : (0 < w)%nat -> length l = (w * h)%nat ->
  exists out, flop w l = Ok out /\ is_image w h out (fun x y => px w l (w - 1 - x) y).
Proof. apply flop_spec. Qed.
Print Assumptions flop_mirrors_rows.
Example flop_mirrors_rows_ex : flop 3 ex_img = Ok [3; 2; 1; 6; 5; 4].
Proof. reflexivity. Qed.

Theorem vertical_flip_reverses_rows w h l : (0 < w)%nat -> length l = (w * h)%nat ->
  exists out, vertical_flip w l = Ok out /\ is_image w h out (fun x y => px w l x (h - 1 - y)).
Proof. apply vflip_spec. Qed.
Print Assumptions vertical_flip_reverses_rows.
Example vertical_flip_reverses_rows_ex :
  vertical_flip 3 ex_img = Ok [4; 5; 6; 1; 2; 3] /\ vertical_flip 3 ex_odd = Ok [7; 8; 9; 4; 5; 6; 1; 2; 3].
Proof. split; reflexivity. Qed.

Theorem flip_does_both w h l : (0 < w)%nat -> length l = (w * h)%nat ->
  exists out, flip l = Ok out /\ is_image w h out (fun x y => px w l (w - 1 - x) (h - 1 - y)).
Proof. apply flip_spec. Qed.
Print Assumptions flip_does_both.
Example flip_does_both_ex : flip ex_img = Ok [6; 5; 4; 3; 2; 1] /\ flip ex_odd = Ok [9; 8; 7; 6; 5; 4; 3; 2; 1].
Proof. split; reflexivity. Qed.

(** Each of the three applied twice gives the image back; flip is flop after vertical flip. *)
Theorem flips_involutive w h l : (0 < w)%nat -> length l = (w * h)%nat ->
  (do a <- flop w l ; flop w a) = Ok l /\
  (do a <- vertical_flip w l ; vertical_flip w a) = Ok l /\
  (do a <- flip l ; flip a) = Ok l /\
  (do a <- vertical_flip w l ; flop w a) = flip l.
Proof.
  intros Hw Hl.
  destruct (flop_spec w h l Hw Hl) as (a & Ea & La & Na). destruct (vflip_spec w h l Hw Hl) as (b & Eb & Lb & Nb).
  destruct (flip_spec w h l Hw Hl) as (c & Ec & Lc & Nc). rewrite Ea, Eb, Ec. cbn [bind].
  destruct (flop_spec w h a Hw La) as (a' & Ea' & Ia). destruct (vflip_spec w h b Hw Lb) as (b' & Eb' & Ib).
  destruct (flip_spec w h c Hw Lc) as (c' & Ec' & Ic). destruct (flop_spec w h b Hw Lb) as (d & Ed & Id).
  rewrite Ea', Eb', Ec', Ed.
  split; [|split; [|split]]; f_equal; eapply is_image_eq; try exact Hw; try (apply is_image_self; exact Hl).
  - eapply is_image_ext; [|exact Ia]. intros x y Hx Hy. cbv beta. rewrite Na by lia. f_equal. lia.
  - eapply is_image_ext; [|exact Ib]. intros x y Hx Hy. cbv beta. rewrite Nb by lia. f_equal. lia.
  - eapply is_image_ext; [|exact Ic]. intros x y Hx Hy. cbv beta. rewrite Nc by lia. f_equal; lia.
  - exact Id.
  - split; [exact Lc|]. intros x y Hx Hy. rewrite Nc, Nb by lia. reflexivity.
Qed.
Print Assumptions flips_involutive.
Example flips_involutive_ex : length ex_img = (3 * 2)%nat /\ (do a <- flop 3 ex_img ; flop 3 a) = Ok ex_img.
Proof. split; reflexivity. Qed.

(** ** C34 *)

(** Full statement: [forall w h], transposing puts the sample at (x, y) at (y, x). False: as soon as one side is
    shorter than eight, the remainder handling underflows. With overflow checks the operation panics; without
    them it leaves the samples outside whole tiles unwritten. *)
Theorem transpose_small_refuted :
  (exists w h inp, length inp = (w * h)%nat /\ transpose true w h inp (repeat 0 (w * h)) = Panic) /\
  (exists w h inp out, length inp = (w * h)%nat /\ transpose false w h inp (repeat 0 (w * h)) = Ok out /\
     ~ is_image h w out (fun x y => px w inp y x)).
Proof.
  split.
  - exists 3%nat, 2%nat, ex_img. split; reflexivity.
  - exists 3%nat, 2%nat, ex_img, (repeat 0 6). split; [reflexivity|]. split; [reflexivity|].
    intros [_ H]. specialize (H 0 0 ltac:(lia) ltac:(lia))%nat. discriminate H.
Qed.
Print Assumptions transpose_small_refuted.

(** Missing for the full statement: sides shorter than eight (false, see above). *)
Theorem transpose_partial checked w h inp out : (8 <= w)%nat -> (8 <= h)%nat ->
  length inp = (w * h)%nat -> length out = (w * h)%nat ->
  exists out', transpose checked w h inp out = Ok out' /\ is_image h w out' (fun x y => px w inp y x).
Proof. apply transpose_spec. Qed.
Print Assumptions transpose_partial.
Definition ex_9x10 : list Z := map Z.of_nat (seq 1 90).
Example transpose_partial_ex :
  match transpose true 9 10 ex_9x10 (repeat 0 90) with
  | Ok o => firstn 12 o = [1; 10; 19; 28; 37; 46; 55; 64; 73; 82; 2; 11] /\ nth 89 o 0 = 90
  | _ => False end.
Proof. vm_compute. split; reflexivity. Qed.

Theorem transpose_twice_partial checked w h inp o1 o2 : (8 <= w)%nat -> (8 <= h)%nat ->
  length inp = (w * h)%nat -> length o1 = (w * h)%nat -> length o2 = (w * h)%nat ->
  (do a <- transpose checked w h inp o1 ; transpose checked h w a o2) = Ok inp.
Proof.
  intros Hw Hh Hi L1 L2. destruct (transpose_spec checked w h inp o1 Hw Hh Hi L1) as (a & -> & La & Na). cbn [bind].
  destruct (transpose_spec checked h w a o2 Hh Hw La ltac:(lia)) as (b & -> & Ib). f_equal.
  eapply (is_image_eq w h); [lia| |apply is_image_self; exact Hi].
  eapply is_image_ext; [|exact Ib]. intros x y Hx Hy. cbv beta. now rewrite Na by lia.
Qed.
Print Assumptions transpose_twice_partial.
Example transpose_twice_partial_ex :
  (do a <- transpose true 9 10 ex_9x10 (repeat 0 90) ; transpose true 10 9 a (repeat 7 90)) = Ok ex_9x10.
Proof. vm_compute. reflexivity. Qed.

(** ** C35 *)

(** A quarter turn clockwise: the new column counts old rows from the bottom. *)
Theorem rotate_90_places w h inp out : (0 < w)%nat -> length inp = (w * h)%nat -> length out = (w * h)%nat ->
  exists out', rotate_90 w h inp out = Ok out' /\ is_image h w out' (fun x y => px w inp y (h - 1 - x)).
Proof. apply rotate_90_spec. Qed.
Print Assumptions rotate_90_places.
Example rotate_90_places_ex : rotate_90 3 2 ex_img (repeat 0 6) = Ok [4; 1; 5; 2; 6; 3].
Proof. reflexivity. Qed.

Theorem rotate_270_places w h inp out : (0 < w)%nat -> length inp = (w * h)%nat -> length out = (w * h)%nat ->
  exists out', rotate_270 w h inp out = Ok out' /\ is_image h w out' (fun x y => px w inp (w - 1 - y) x).
Proof. apply rotate_270_spec. Qed.
Print Assumptions rotate_270_places.
Example rotate_270_places_ex : rotate_270 3 2 ex_img (repeat 0 6) = Ok [3; 6; 2; 5; 1; 4].
Proof. reflexivity. Qed.

(** 90 then 270 degrees, and four times 90 degrees, give the image back whatever the output buffers held. *)
Theorem rotate_90_270 w h inp o1 o2 : (0 < w)%nat -> (0 < h)%nat ->
  length inp = (w * h)%nat -> length o1 = (w * h)%nat -> length o2 = (w * h)%nat ->
  (do a <- rotate_90 w h inp o1 ; rotate_270 h w a o2) = Ok inp /\
  (do a <- rotate_270 w h inp o1 ; rotate_90 h w a o2) = Ok inp.
Proof.
  intros Hw Hh Hi L1 L2.
  destruct (rotate_90_spec w h inp o1 Hw Hi L1) as (a & -> & La & Na).
  destruct (rotate_270_spec w h inp o1 Hw Hi L1) as (b & -> & Lb & Nb). cbn [bind].
  destruct (rotate_270_spec h w a o2 Hh La ltac:(lia)) as (c & -> & Ic).
  destruct (rotate_90_spec h w b o2 Hh Lb ltac:(lia)) as (d & -> & Id).
  split; f_equal; (eapply (is_image_eq w h); [exact Hw| |apply is_image_self; exact Hi]).
  - eapply is_image_ext; [|exact Ic]. intros x y Hx Hy. cbv beta. rewrite Na by lia. f_equal. lia.
  - eapply is_image_ext; [|exact Id]. intros x y Hx Hy. cbv beta. rewrite Nb by lia. f_equal. lia.
Qed.
Print Assumptions rotate_90_270.

Theorem rotate_90_four w h inp o1 o2 o3 o4 : (0 < w)%nat -> (0 < h)%nat -> length inp = (w * h)%nat ->
  length o1 = (w * h)%nat -> length o2 = (w * h)%nat -> length o3 = (w * h)%nat -> length o4 = (w * h)%nat ->
  (do a <- rotate_90 w h inp o1 ; do b <- rotate_90 h w a o2 ;
   do c <- rotate_90 w h b o3 ; rotate_90 h w c o4) = Ok inp.
Proof.
  intros Hw Hh Hi L1 L2 L3 L4.
  destruct (rotate_90_spec w h inp o1 Hw Hi L1) as (a & -> & La & Na). cbn [bind].
  destruct (rotate_90_spec h w a o2 Hh La ltac:(lia)) as (b & -> & Lb & Nb). cbn [bind].
  destruct (rotate_90_spec w h b o3 Hw Lb L3) as (c & -> & Lc & Nc). cbn [bind].
  destruct (rotate_90_spec h w c o4 Hh Lc ltac:(lia)) as (d & -> & Id). f_equal.
  eapply (is_image_eq w h); [exact Hw| |apply is_image_self; exact Hi].
  eapply is_image_ext; [|exact Id]. intros x y Hx Hy. cbv beta.
  rewrite Nc, Nb, Na by lia. f_equal; lia.
Qed.
Print Assumptions rotate_90_four.
Example rotate_90_four_ex :
  (do a <- rotate_90 3 2 ex_img (repeat 0 6) ; do b <- rotate_90 2 3 a (repeat 9 6) ;
   do c <- rotate_90 3 2 b (repeat 0 6) ; rotate_90 2 3 c (repeat 0 6)) = Ok ex_img
  /\ (do a <- rotate_90 3 2 ex_img (repeat 0 6) ; rotate_270 2 3 a (repeat 9 6)) = Ok ex_img.
Proof. split; reflexivity. Qed.

(** Full statement for 180 degrees: the sample at (x, y) goes to (w-1-x, h-1-y). False for even and odd heights. *)
Theorem rotate_180_refuted :
  (exists w h l out, length l = (w * h)%nat /\ Nat.even h = true /\ rotate_180 w l = Ok out /\
     ~ is_image w h out (fun x y => px w l (w - 1 - x) (h - 1 - y))) /\
  (exists w h l out, length l = (w * h)%nat /\ Nat.even h = false /\ rotate_180 w l = Ok out /\
     ~ is_image w h out (fun x y => px w l (w - 1 - x) (h - 1 - y)) /\
     ~ is_image w h out (fun x y => px w l x (h - 1 - y))).
Proof.
  split.
  - exists 3%nat, 2%nat, ex_img, [4; 5; 6; 1; 2; 3]. split; [reflexivity|]. split; [reflexivity|]. split; [reflexivity|].
    intros [_ H]. specialize (H 0 0 ltac:(lia) ltac:(lia))%nat. discriminate H.
  - exists 3%nat, 3%nat, ex_odd, [5; 6; 7; 4; 1; 2; 3; 8; 9]. split; [reflexivity|]. split; [reflexivity|]. split; [reflexivity|].
    split; intros [_ H]; specialize (H 0 0 ltac:(lia) ltac:(lia))%nat; discriminate H.
Qed.
Print Assumptions rotate_180_refuted.

(** What holds: for even heights the operation is exactly the vertical flip (so the rotation is right only for
    images whose rows are symmetric), and for images one sample wide it is right for every height. *)
Theorem rotate_180_even_is_vertical_flip w m l : (0 < w)%nat -> length l = (w * (2 * m))%nat ->
  rotate_180 w l = vertical_flip w l.
Proof.
  intros Hw Hl. destruct (rotate_180_even w m l Hw Hl) as (a & -> & Ia).
  destruct (vflip_spec w (2 * m) l Hw Hl) as (b & -> & Ib). f_equal. now apply (is_image_eq w (2 * m) a b _ Hw Ia).
Qed.
Print Assumptions rotate_180_even_is_vertical_flip.
Example rotate_180_even_ex : rotate_180 3 ex_img = Ok [4; 5; 6; 1; 2; 3].
Proof. reflexivity. Qed.

Theorem rotate_180_partial h l : length l = (1 * h)%nat ->
  exists out, rotate_180 1 l = Ok out /\ is_image 1 h out (fun x y => px 1 l (1 - 1 - x) (h - 1 - y)).
Proof. apply rotate_180_narrow. Qed.
Print Assumptions rotate_180_partial.
Example rotate_180_partial_ex : rotate_180 1 [1; 2; 3; 4; 5] = Ok [5; 4; 3; 2; 1].
Proof. reflexivity. Qed.

(** ** C36 *)

(** Inside the image the window is copied exactly. *)
Theorem crop_window iw ih inp ow oh out x y : (0 < iw)%nat -> (0 < ow)%nat ->
  length inp = (iw * ih)%nat -> length out = (ow * oh)%nat -> (x + ow <= iw)%nat -> (y + oh <= ih)%nat ->
  is_image ow oh (crop inp iw out ow oh x y) (fun i j => px iw inp (x + i) (y + j)).
Proof.
  intros Hiw How Hi Ho Hx Hy. eapply is_image_ext; [|now apply (crop_spec iw ih)].
  intros i j Hi' Hj. cbv beta. now replace ((x + ow <=? iw) && (y + j <? ih))%nat with true by lia.
Qed.
Print Assumptions crop_window.
Example crop_window_ex : crop ex_odd 3 (repeat 0 4) 2 2 1 1 = [5; 6; 8; 9].
Proof. reflexivity. Qed.

(** A window that sticks out on the right changes nothing; one that sticks out at the bottom is filled as far as
    the image goes and keeps what the output held below. *)
Theorem crop_outside iw ih inp ow oh out x y : (0 < iw)%nat -> (0 < ow)%nat ->
  length inp = (iw * ih)%nat -> length out = (ow * oh)%nat ->
  ((iw < x + ow)%nat -> crop inp iw out ow oh x y = out) /\
  ((x + ow <= iw)%nat -> is_image ow oh (crop inp iw out ow oh x y)
     (fun i j => if (y + j <? ih)%nat then px iw inp (x + i) (y + j) else px ow out i j)).
Proof.
  intros Hiw How Hi Ho. pose proof (crop_spec iw ih inp ow oh out x y Hiw How Hi Ho) as H. split; intros Hx.
  - eapply (is_image_eq ow oh); [exact How| |apply is_image_self; exact Ho].
    eapply is_image_ext; [|exact H]. intros i j _ _. cbv beta. now replace (x + ow <=? iw)%nat with false by lia.
  - eapply is_image_ext; [|exact H]. intros i j _ _. cbv beta. now replace (x + ow <=? iw)%nat with true by lia.
Qed.
Print Assumptions crop_outside.
Example crop_outside_ex : crop ex_odd 3 [11; 12; 13; 14] 2 2 2 0 = [11; 12; 13; 14]
  /\ crop ex_odd 3 [11; 12; 13; 14] 2 2 0 2 = [7; 8; 13; 14].
Proof. split; reflexivity. Qed.

(** ** C37 *)

Theorem pad_replicate_nearest l w h pdx pdy : (0 < w)%nat -> (0 < h)%nat -> length l = (w * h)%nat ->
  exists out, pad_replicate l w h pdx pdy = Ok out /\
    is_image (w + pdx * 2) (h + pdy * 2) out (fun x y => px w l (clamp w pdx x) (clamp h pdy y)).
Proof. apply pad_replicate_spec. Qed.
Print Assumptions pad_replicate_nearest.
Example pad_replicate_nearest_ex : pad_replicate ex_img 3 2 1 1 =
  Ok [1; 1; 2; 3; 3;
      1; 1; 2; 3; 3;
      4; 4; 5; 6; 6;
      4; 4; 5; 6; 6].
Proof. reflexivity. Qed.

Theorem pad_constant_centres l w h pdx pdy : (0 < w)%nat -> length l = (w * h)%nat ->
  exists out, pad_constant l w h pdx pdy = Ok out /\
    is_image (w + pdx * 2) (h + pdy * 2) out (fun x y =>
      if ((pdx <=? x) && (x <? pdx + w) && (pdy <=? y) && (y <? pdy + h))%nat then px w l (x - pdx) (y - pdy) else 0).
Proof. apply pad_constant_spec. Qed.
Print Assumptions pad_constant_centres.
Example pad_constant_centres_ex : pad_constant ex_img 3 2 2 1 =
  Ok [0; 0; 0; 0; 0; 0; 0;
      0; 0; 1; 2; 3; 0; 0;
      0; 0; 4; 5; 6; 0; 0;
      0; 0; 0; 0; 0; 0; 0].
Proof. reflexivity. Qed.

(** ** C42 *)

(** The half each mode keeps according to its documentation. *)
Definition documented (m : mirror_mode) : side :=
  match m with North => Top | South => Bottom | East => LeftHalf | West => RightHalf end.

(** Full statement: [forall m], mirror keeps the documented half. False: East and West are exchanged. *)
Theorem mirror_documented_refuted : forall m, m = East \/ m = West ->
  exists w h l out, length l = (w * h)%nat /\ mirror m w h l = Ok out /\
    ~ is_image w h out (reflect (documented m) w h (px w l)).
Proof.
  intros m [-> | ->].
  - exists 3%nat, 2%nat, ex_img, [3; 2; 3; 6; 5; 6]. split; [reflexivity|]. split; [reflexivity|].
    intros [_ H]. specialize (H 0 0 ltac:(lia) ltac:(lia))%nat. discriminate H.
  - exists 3%nat, 2%nat, ex_img, [1; 2; 1; 4; 5; 4]. split; [reflexivity|]. split; [reflexivity|].
    intros [_ H]. specialize (H 0 0 ltac:(lia) ltac:(lia))%nat. discriminate H.
Qed.
Print Assumptions mirror_documented_refuted.

Theorem mirror_documented_partial m w h l : m = North \/ m = South -> (0 < w)%nat -> length l = (w * h)%nat ->
  exists out, mirror m w h l = Ok out /\ is_image w h out (reflect (documented m) w h (px w l)).
Proof. intros [-> | ->] Hw Hl; [apply (mirror_spec North)|apply (mirror_spec South)]; easy. Qed.
Print Assumptions mirror_documented_partial.
Example mirror_documented_partial_ex : mirror North 3 3 ex_odd = Ok [1; 2; 3; 4; 5; 6; 1; 2; 3]
  /\ mirror South 3 3 ex_odd = Ok [7; 8; 9; 4; 5; 6; 7; 8; 9].
Proof. split; reflexivity. Qed.

(** East and West do each other's documented work. *)
Theorem mirror_east_west_exchanged w h l : (0 < w)%nat -> length l = (w * h)%nat ->
  (exists out, mirror East w h l = Ok out /\ is_image w h out (reflect (documented West) w h (px w l))) /\
  (exists out, mirror West w h l = Ok out /\ is_image w h out (reflect (documented East) w h (px w l))).
Proof. intros Hw Hl. split; [apply (mirror_spec East)|apply (mirror_spec West)]; easy. Qed.
Print Assumptions mirror_east_west_exchanged.
Example mirror_east_west_exchanged_ex : mirror East 5 1 [1; 2; 3; 4; 5] = Ok [5; 4; 3; 4; 5]
  /\ mirror West 5 1 [1; 2; 3; 4; 5] = Ok [1; 2; 3; 2; 1] /\ mirror West 4 1 [1; 2; 3; 4] = Ok [1; 2; 2; 1].
Proof. repeat split; reflexivity. Qed.

(** For every mode the result is symmetric and mirroring it again changes nothing. *)
Theorem mirror_symmetric_idempotent m w h l : (0 < w)%nat -> length l = (w * h)%nat ->
  exists out, mirror m w h l = Ok out /\ mirror m w h out = Ok out /\
    forall x y, (x < w)%nat -> (y < h)%nat ->
      match m with
      | North | South => px w out x y = px w out x (h - 1 - y)
      | East | West => px w out x y = px w out (w - 1 - x) y
      end.
Proof.
  intros Hw Hl. destruct (mirror_spec m w h l Hw Hl) as (out & E & L & N).
  destruct (mirror_spec m w h out Hw L) as (out2 & E2 & I2). exists out. split; [exact E|]. split.
  - rewrite E2. f_equal. eapply (is_image_eq w h); [exact Hw| |apply is_image_self; exact L].
    eapply is_image_ext; [|exact I2]. intros x y Hx Hy.
    destruct m; cbn [kept reflect] in *; rewrite !N by lia; f_equal; lia.
  - intros x y Hx Hy. destruct m; rewrite !N by lia; cbn [kept reflect]; f_equal; lia.
Qed.
Print Assumptions mirror_symmetric_idempotent.
Example mirror_symmetric_idempotent_ex : mirror East 3 2 ex_img = Ok [3; 2; 3; 6; 5; 6]
  /\ mirror East 3 2 [3; 2; 3; 6; 5; 6] = Ok [3; 2; 3; 6; 5; 6].
Proof. split; reflexivity. Qed.
