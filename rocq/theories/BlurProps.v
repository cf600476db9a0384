(** The box blur (C45, C53). *)
From Verif Require Import Base Loops HdrProof GeomModel GeomSpec GeomProof ProcModel BlurModel BlurSpec BlurProof.

(** The claim that a constant image stays constant is false: when the filter is cut to an even width, one tap is
    missing from every sum and one column is never written. The 8 by 8 image of 100s blurred with radius 5 gets a
    row of 76s with a black column in it. *)
Theorem box_blur_constant_refuted : exists w h r c out, (8 <= w)%nat /\ (8 <= h)%nat /\ (2 <= r)%nat /\ 0 < c < 2 ^ 8 /\
  box_blur 8 true (repeat c (w * h)) w h r = Ok out /\ px w out 0 0 < c /\ px w out 3 0 = 0.
Proof.
  exists 8%nat, 8%nat, 5%nat, 100.
  assert (E : match box_blur 8 true (repeat 100 (8 * 8)) 8 8 5 with Ok o => (px 8 o 0 0 =? 76) && (px 8 o 3 0 =? 0) | _ => false end = true)
    by (vm_compute; reflexivity).
  destruct (box_blur 8 true (repeat 100 (8 * 8)) 8 8 5) as [out| | |]; [|easy|easy|easy]. exists out.
  apply andb_true_iff in E as [E1 E2]. repeat apply conj; try lia. reflexivity.
Qed.
Print Assumptions box_blur_constant_refuted.

(** A narrow image is not blurred at all but stops the program (overflow checks on). *)
Theorem box_blur_narrow_refuted : box_blur 8 true (repeat 100 5) 1 5 3 = Panic.
Proof. vm_compute. reflexivity. Qed.
Print Assumptions box_blur_narrow_refuted.

(** What the blur computes for every image of at least 8 by 8 samples, at both integer depths and every radius, when
    the filter fits the image or is cut to an odd length in both directions: no panic, and every output sample is the
    average of row averages over [taps]. [mw] and [mh] are the half lengths of the filter in the two directions; the
    last two bounds keep the 32-bit sums from overflowing. Missing from the full claim: sides below 8 and filters cut
    to an even length. *)
Theorem box_blur_values_partial b checked img w h r mw mh : b = 8 \/ b = 16 -> (8 <= w)%nat -> (8 <= h)%nat -> (2 <= r)%nat ->
  let r' := (r + (if Nat.even r then 1 else 0))%nat in
  Nat.min (2 * r' + 1) w = (2 * mw + 1)%nat -> Nat.min (2 * r' + 1) h = (2 * mh + 1)%nat ->
  (2 ^ b - 1) * Z.of_nat (2 * mw + 2) < 2 ^ 32 -> (2 ^ b - 1) * Z.of_nat (2 * mh + 2) < 2 ^ 32 ->
  length img = (w * h)%nat -> Forall (fun v => 0 <= v < 2 ^ b) img ->
  exists out, box_blur b checked img w h r = Ok out /\
    is_image w h out (fun x y => average (fun u => average (fun t => px w img t u) (taps w mw x)) (taps h mh y)).
Proof. apply blur_spec. Qed.
Print Assumptions box_blur_values_partial.

(** All taps are columns of the image, and there are [2 m + 1] of them: the blur is a true average. *)
Theorem taps_inside w m x : (2 * m + 1 <= w)%nat -> (x < w)%nat ->
  length (taps w m x) = (2 * m + 1)%nat /\ forall t, In t (taps w m x) -> (t < w)%nat.
Proof. intros Hw Hx. split; [now apply taps_length|]. intros t. now apply taps_in. Qed.
Print Assumptions taps_inside.

(** Every output sample lies between the smallest and the largest sample of the image. *)
Theorem box_blur_range_partial b checked img w h r mw mh lo hi : b = 8 \/ b = 16 -> (8 <= w)%nat -> (8 <= h)%nat -> (2 <= r)%nat ->
  let r' := (r + (if Nat.even r then 1 else 0))%nat in
  Nat.min (2 * r' + 1) w = (2 * mw + 1)%nat -> Nat.min (2 * r' + 1) h = (2 * mh + 1)%nat ->
  (2 ^ b - 1) * Z.of_nat (2 * mw + 2) < 2 ^ 32 -> (2 ^ b - 1) * Z.of_nat (2 * mh + 2) < 2 ^ 32 ->
  length img = (w * h)%nat -> Forall (fun v => 0 <= v < 2 ^ b) img -> Forall (fun v => lo <= v <= hi) img ->
  exists out, box_blur b checked img w h r = Ok out /\ length out = (w * h)%nat /\ Forall (fun v => lo <= v <= hi) out.
Proof.
  intros Hb Hw Hh Hr r' Mw Mh Bw Bh Hl Hs Hlh.
  destruct (blur_spec b checked img w h r mw mh Hb Hw Hh Hr Mw Mh Bw Bh Hl Hs) as (out & E & I).
  exists out. split; [exact E|]. split; [apply I|]. apply (image_forall _ w h out _ I); [lia|]. intros x y Hx Hy.
  apply average_bounds; [rewrite taps_length by lia; lia|]. intros u Hu. apply taps_in in Hu; [|lia|easy].
  apply average_bounds; [rewrite taps_length by lia; lia|]. intros t Ht. apply taps_in in Ht; [|lia|easy].
  rewrite Forall_forall in Hlh. apply Hlh, nth_In. rewrite Hl. now apply idx_bound'.
Qed.
Print Assumptions box_blur_range_partial.

(** A constant image stays as it is. *)
Theorem box_blur_constant_partial b checked c w h r mw mh : b = 8 \/ b = 16 -> (8 <= w)%nat -> (8 <= h)%nat -> (2 <= r)%nat ->
  let r' := (r + (if Nat.even r then 1 else 0))%nat in
  Nat.min (2 * r' + 1) w = (2 * mw + 1)%nat -> Nat.min (2 * r' + 1) h = (2 * mh + 1)%nat ->
  (2 ^ b - 1) * Z.of_nat (2 * mw + 2) < 2 ^ 32 -> (2 ^ b - 1) * Z.of_nat (2 * mh + 2) < 2 ^ 32 ->
  0 <= c < 2 ^ b -> box_blur b checked (repeat c (w * h)) w h r = Ok (repeat c (w * h)).
Proof.
  intros Hb Hw Hh Hr r' Mw Mh Bw Bh Hc.
  destruct (box_blur_range_partial b checked (repeat c (w * h)) w h r mw mh c c Hb Hw Hh Hr Mw Mh Bw Bh (repeat_length _ _)) as (out & E & L & F).
  - apply Forall_forall. intros v Hv. apply repeat_spec in Hv. lia.
  - apply Forall_forall. intros v Hv. apply repeat_spec in Hv. lia.
  - rewrite E. f_equal. rewrite <- L. clear - F. induction F as [|v l Hv F IH]; cbn [length repeat]; [easy|]. f_equal; [lia|easy].
Qed.
Print Assumptions box_blur_constant_partial.

Definition grad : list Z := concat (repeat (map (fun k => Z.of_nat k * 10) (seq 0 9)) 10).
Example box_blur_ex : match box_blur 8 true grad 9 10 3 with Ok o => firstn 9 o | _ => [] end = [14; 21; 30; 40; 50; 54; 57; 58; 58].
Proof. vm_compute. reflexivity. Qed.
Example box_blur_ex_hyp : Nat.min (2 * 3 + 1) 9 = (2 * 3 + 1)%nat /\ Nat.min (2 * 3 + 1) 10 = (2 * 3 + 1)%nat /\
  (2 ^ 8 - 1) * Z.of_nat (2 * 3 + 2) < 2 ^ 32.
Proof. repeat split; lia. Qed.

(** C53: the average should be over the columns centred on each sample. It is not: everything is shifted by one. *)
Theorem box_blur_centred_refuted : exists img w h r m out x y, (8 <= w)%nat /\ (8 <= h)%nat /\ length img = (w * h)%nat /\
  Forall (fun v => 0 <= v < 2 ^ 8) img /\ (r = 2 * m + 1)%nat /\ (2 * r + 1 <= w)%nat /\ (2 * r + 1 <= h)%nat /\
  (r <= x)%nat /\ (x + r < w)%nat /\ (r <= y)%nat /\ (y + r < h)%nat /\
  box_blur 8 true img w h r = Ok out /\
  px w out x y <> average (fun u => average (fun t => px w img t u) (centred_taps w r x)) (centred_taps h r y).
Proof.
  exists grad, 9%nat, 10%nat, 3%nat, 1%nat.
  assert (E : match box_blur 8 true grad 9 10 3 with
    | Ok o => negb (px 9 o 4 4 =? average (fun u => average (fun t => px 9 grad t u) (centred_taps 9 3 4)) (centred_taps 10 3 4))
    | _ => false end = true) by (vm_compute; reflexivity).
  assert (F : forallb (fun v => (0 <=? v) && (v <? 2 ^ 8)) grad = true) by (vm_compute; reflexivity).
  destruct (box_blur 8 true grad 9 10 3) as [out| | |]; [|easy|easy|easy]. exists out, 4%nat, 4%nat.
  apply negb_true_iff, Z.eqb_neq in E. repeat apply conj; try lia; try reflexivity; try exact E.
  apply Forall_forall. intros v Hv. rewrite forallb_forall in F. specialize (F v Hv). lia.
Qed.
Print Assumptions box_blur_centred_refuted.

(** Where it is centred: away from the right edge the taps of [x] are exactly the textbook taps of [x + 1]. *)
Theorem box_blur_taps_partial w m x : (x + 1 + m < w)%nat -> taps w m x = centred_taps w m (x + 1).
Proof.
  intros H. unfold taps, centred_taps. replace (x + m + 1 <? w)%nat with true by lia.
  apply map_ext_in. intros k Hk. apply in_seq in Hk. lia.
Qed.
Print Assumptions box_blur_taps_partial.
Example box_blur_taps_ex : taps 9 2 3 = [2; 3; 4; 5; 6]%nat /\ taps 9 2 0 = [0; 0; 1; 2; 3]%nat /\ taps 9 2 8 = [4; 5; 8; 8; 8]%nat.
Proof. repeat split. Qed.
