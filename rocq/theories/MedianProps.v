(** The median filter (C40). *)
From Verif Require Import Base Loops HdrProof GeomModel GeomSpec GeomProof MedianModel MedianSpec MedianProof.

(** The full claim — every output sample is the median of its window — is false: on a 5x5 image of 25 different
    samples the centre of the radius-2 filter is the 12th smallest, not the 13th. *)
Definition ramp25 : list Z := map Z.of_nat (seq 1 25).
Theorem median_claim_refuted : exists l r w h out x y, (0 < w)%nat /\ length l = (w * h)%nat /\ Forall (in_levels 256) l /\
  (2 <= r)%nat /\ (x < w)%nat /\ (y < h)%nat /\ median_op 256 l r w h = Ok out /\ ~ is_median (window w h l r x y) (px w out x y).
Proof.
  exists ramp25, 2%nat, 5%nat, 5%nat.
  assert (E : exists out, median_op 256 ramp25 2 5 5 = Ok out /\ px 5 out 2 2 = 12).
  { eexists. split; vm_compute; reflexivity. }
  destruct E as (out & E & V). exists out, 2%nat, 2%nat. repeat apply conj; try lia.
  - reflexivity.
  - unfold ramp25, in_levels. apply Forall_forall. intros v Hv. apply in_map_iff in Hv as (k & <- & Hk). apply in_seq in Hk. lia.
  - exact E.
  - rewrite V. unfold is_median, kth_smallest.
    replace (count_le 12 (window 5 5 ramp25 2 2 2)) with 12%nat by (vm_compute; reflexivity).
    replace (length (window 5 5 ramp25 2 2 2) / 2 + 1)%nat with 13%nat by (vm_compute; reflexivity). lia.
Qed.
Print Assumptions median_claim_refuted.

(** Nor does a radius of 0 or 1 filter at all. *)
Theorem median_small_radius_identity levels l r w h : (r < 2)%nat -> median_op levels l r w h = Ok l.
Proof. intros H. unfold median_op. now replace (r <? 2)%nat with true by lia. Qed.
Print Assumptions median_small_radius_identity.

(** What holds, for every image, every radius from 2, every position: no panic — the running histogram never
    underflows — and the output sample is the ((2r+1)² / 2)-th smallest of the window. The true median is one rank
    higher; that gap is what is missing from the claim. The bound is that of the 32-bit counters. *)
Theorem median_partial levels l r w h : (0 < w)%nat -> (0 < h)%nat -> (2 <= r)%nat -> length l = (w * h)%nat ->
  Forall (in_levels levels) l -> Z.of_nat ((2 * r + 1) * (2 * r + 1)) < 2 ^ 32 ->
  exists out, median_op levels l r w h = Ok out /\ length out = (w * h)%nat /\
    forall x y, (x < w)%nat -> (y < h)%nat ->
      kth_smallest (length (window w h l r x y) / 2) (window w h l r x y) (px w out x y).
Proof.
  intros Hw Hh Hr Hl HL HB. unfold median_op. replace (r <? 2)%nat with false by lia.
  destruct (median_spec levels l r w h Hw Hh ltac:(lia) Hl HL HB) as (out & E & L & K).
  exists out. split; [exact E|]. split; [exact L|]. intros x y Hx Hy.
  change (window w h l r x y) with (win (fun a b => px w l (clamp w r a) (clamp h r b)) (2 * r + 1) x y).
  rewrite win_length. now apply K.
Qed.
Print Assumptions median_partial.

(** Order statistics are unique, so the theorem determines the output. *)
Theorem kth_smallest_unique k l v v' : kth_smallest k l v -> kth_smallest k l v' -> v = v'.
Proof.
  unfold kth_smallest. intros [A B] [A' B'].
  assert (M : forall a b, a < b -> (count_le a l <= count_lt b l)%nat).
  { intros a b H. clear - H. unfold count_le, count_lt. induction l as [|x l IH]; cbn [filter length]; [lia|].
    destruct (Z.leb_spec x a), (Z.ltb_spec x b); cbn [length]; lia. }
  destruct (Z.lt_trichotomy v v') as [H|[H|H]]; [|easy|]; apply M in H; lia.
Qed.
Print Assumptions kth_smallest_unique.

(** Every output sample is one of the samples of its window: the filter invents no values. *)
Theorem median_from_window levels l r w h : (0 < w)%nat -> (0 < h)%nat -> (2 <= r)%nat -> length l = (w * h)%nat ->
  Forall (in_levels levels) l -> Z.of_nat ((2 * r + 1) * (2 * r + 1)) < 2 ^ 32 ->
  exists out, median_op levels l r w h = Ok out /\ length out = (w * h)%nat /\
    forall x y, (x < w)%nat -> (y < h)%nat -> In (px w out x y) (window w h l r x y).
Proof.
  intros Hw Hh Hr Hl HL HB. destruct (median_partial levels l r w h Hw Hh Hr Hl HL HB) as (out & E & L & K).
  exists out. split; [exact E|]. split; [exact L|]. intros x y Hx Hy. destruct (K x y Hx Hy) as [K1 K2].
  apply count_lt_le_in. lia.
Qed.
Print Assumptions median_from_window.

(** In particular a constant image is left as it is, by any radius. *)
Theorem median_constant levels r w h c : (0 < w)%nat -> (0 < h)%nat -> in_levels levels c ->
  Z.of_nat ((2 * r + 1) * (2 * r + 1)) < 2 ^ 32 -> median_op levels (repeat c (w * h)) r w h = Ok (repeat c (w * h)).
Proof.
  intros Hw Hh Hc HB. destruct (Nat.lt_ge_cases r 2) as [Hr|Hr]; [now apply median_small_radius_identity|].
  assert (F : Forall (in_levels levels) (repeat c (w * h))) by (apply Forall_forall; intros v Hv; now apply repeat_spec in Hv as ->).
  destruct (median_from_window levels (repeat c (w * h)) r w h Hw Hh Hr (repeat_length _ _) F HB) as (out & E & L & K).
  rewrite E. f_equal. apply (is_image_eq w h out (repeat c (w * h)) (fun _ _ => c)); [easy|split; [exact L|]|split; [apply repeat_length|]];
    intros x y Hx Hy; [|unfold px; apply nth_repeat_lt, idx_bound'; lia].
  specialize (K x y Hx Hy). unfold window in K. apply in_concat in K as (row & Hr1 & Hv).
  apply in_map_iff in Hr1 as (d & <- & _). apply in_map_iff in Hv as (e & <- & _).
  unfold px. apply nth_repeat_lt, idx_bound'; unfold clamp; lia.
Qed.
Print Assumptions median_constant.

(** The hypotheses are met by a real image: a bright speck in a gradient is removed by the radius-2 filter. *)
Definition speck : list Z := [10; 11; 12; 13; 10; 255; 12; 13; 10; 11; 12; 13].
Example median_speck : median_op 256 speck 2 4 3 = Ok [10; 11; 12; 13; 10; 11; 12; 13; 10; 11; 12; 13].
Proof. vm_compute. reflexivity. Qed.
