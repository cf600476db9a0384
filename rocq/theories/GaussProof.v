(** Lemmas for the Gaussian blur. *)
From Coq Require Import Floats.SpecFloat.
From Verif Require Import Base Loops HdrProof GeomModel GeomSpec GeomProof ProcModel BlurModel BlurSpec BlurProof F32 GaussModel GaussSpec.

Lemma half_odd n r : Nat.odd (Nat.min (2 * r + 1) n) = true -> Nat.min (2 * r + 1) n = (2 * half n r + 1)%nat.
Proof. intros H. apply Nat.odd_spec in H as [k E]. unfold half. rewrite E. lia. Qed.

Definition within (lo hi : Z) (l : list Z) : Prop := Forall (fun v => lo <= v <= hi) l.

Lemma pass_ok b inp out w h r lo hi f : b = 8 \/ b = 16 -> (2 <= w)%nat -> (1 <= r)%nat ->
  Nat.odd (Nat.min (2 * r + 1) w) = true -> (2 ^ b - 1) * (Z.of_nat w + 1) < 2 ^ 32 ->
  0 <= lo -> hi < 2 ^ b -> is_image w h inp f -> length out = (w * h)%nat -> within lo hi inp ->
  exists out', box_blur_inner b inp out w r = Ok out' /\ is_image w h out' (row_pass w r f) /\ within lo hi out'.
Proof.
  intros Hb Hw Hr Ho HB Hlo Hhi [Hl Hf] Hol Hin. pose proof (half_odd w r Ho) as Hm.
  assert (Hmw : (2 * half w r + 1 <= w)%nat) by (rewrite <- Hm; lia).
  destruct (inner_spec b inp out w h r (half w r) Hb Hw Hr Hm Hl Hol) as (out' & E & I).
  - eapply Forall_impl; [|exact Hin]. cbv beta. intros; lia.
  - eapply Z.le_lt_trans; [|exact HB]. apply Z.mul_le_mono_nonneg_l; [destruct Hb as [-> | ->]; lia|lia].
  - exists out'. split; [exact E|]. split.
    + eapply is_image_ext; [|exact I]. intros x y Hx Hy. unfold row_pass. apply average_ext. intros t Ht. apply taps_in in Ht; [|lia|easy].
      now apply Hf.
    + apply (image_forall _ w h out' _ I); [lia|]. intros x y Hx Hy.
      apply average_bounds; [rewrite taps_length by lia; lia|]. intros t Ht. apply taps_in in Ht; [|lia|easy].
      unfold within in Hin. rewrite Forall_forall in Hin. apply Hin. unfold px. apply nth_In. rewrite Hl. now apply idx_bound'.
Qed.

Lemma passes_ok b inp out w h r0 r1 r2 lo hi f : b = 8 \/ b = 16 -> (2 <= w)%nat ->
  Forall (fun r => (1 <= r)%nat /\ Nat.odd (Nat.min (2 * r + 1) w) = true) [r0; r1; r2] -> (2 ^ b - 1) * (Z.of_nat w + 1) < 2 ^ 32 ->
  0 <= lo -> hi < 2 ^ b -> is_image w h inp f -> length out = (w * h)%nat -> within lo hi inp ->
  exists a o, passes b inp out w r0 r1 r2 = Ok (a, o) /\ length a = (w * h)%nat /\
    is_image w h o (row_pass w r2 (row_pass w r1 (row_pass w r0 f))) /\ within lo hi o.
Proof.
  intros Hb Hw HR HB Hlo Hhi HI Ho Hin. inversion HR as [|? ? (R0 & O0) HR1]; subst. inversion HR1 as [|? ? (R1 & O1) HR2]; subst.
  inversion HR2 as [|? ? (R2 & O2) _]; subst. unfold passes.
  destruct (pass_ok b inp out w h r0 lo hi f Hb Hw R0 O0 HB Hlo Hhi HI Ho Hin) as (s1 & -> & I1 & W1). cbn [bind].
  destruct (pass_ok b s1 inp w h r1 lo hi _ Hb Hw R1 O1 HB Hlo Hhi I1 (proj1 HI) W1) as (s2 & -> & I2 & W2). cbn [bind].
  destruct (pass_ok b s2 s1 w h r2 lo hi _ Hb Hw R2 O2 HB Hlo Hhi I2 (proj1 I1) W2) as (s3 & -> & I3 & W3). cbn [bind].
  exists s2, s3. split; [reflexivity|]. split; [exact (proj1 I2)|]. auto.
Qed.

Lemma within_image w h l f lo hi : (0 < w)%nat -> is_image w h l f -> within lo hi l ->
  forall x y, (x < w)%nat -> (y < h)%nat -> lo <= f x y <= hi.
Proof.
  intros Hw [L N] H x y Hx Hy. rewrite <- N by easy. unfold within in H. rewrite Forall_forall in H. apply H. unfold px. apply nth_In.
  rewrite L. now apply idx_bound'.
Qed.

Lemma Ok_same A (a c : A) : Ok a = Ok c -> a = c.
Proof. now intros [= ->]. Qed.

Lemma box_gauss_shape fsqrt sigma rs : box_gauss fsqrt sigma = Ok rs ->
  exists r0 r1 r2, rs = [r0; r1; r2] /\ Forall (fun r => Nat.odd r = true) rs.
Proof.
  assert (O : forall c, Nat.odd (if (c mod 2 =? 0)%nat then (c + 1)%nat else c) = true).
  { intros c. destruct (c mod 2 =? 0)%nat eqn:E; apply Nat.odd_spec; [exists (c / 2)%nat|exists (c / 2)%nat]; lia. }
  assert (G : forall l, length l = 3%nat -> exists r0 r1 r2, map (fun c => if (c mod 2 =? 0)%nat then (c + 1)%nat else c) l = [r0; r1; r2] /\
     Forall (fun r => Nat.odd r = true) (map (fun c => if (c mod 2 =? 0)%nat then (c + 1)%nat else c) l)).
  { intros [|a [|b [|c [|d l]]]] H; try discriminate H. do 3 eexists. split; [reflexivity|].
    cbn [map]. constructor; [apply O|]. constructor; [apply O|]. constructor; [apply O|constructor]. }
  unfold box_gauss. destruct (SFltb (of_int 0) sigma); cbv zeta.
  - match goal with |- context [if ?c then Panic else _] => destruct c; [discriminate|] end. cbn [bind]. intros H. apply Ok_same in H. subst rs.
    apply G. rewrite map_length. apply seq_length.
  - cbn [bind]. intros H. apply Ok_same in H. subst rs. apply (G (repeat 1%nat 3)). reflexivity.
Qed.

Lemma gaussian_ok b checked fsqrt sigma img w h r0 r1 r2 lo hi : b = 8 \/ b = 16 -> (8 <= w)%nat -> (8 <= h)%nat ->
  box_gauss fsqrt sigma = Ok [r0; r1; r2] ->
  Forall (fun r => Nat.odd (Nat.min (2 * r + 1) w) = true /\ Nat.odd (Nat.min (2 * r + 1) h) = true) [r0; r1; r2] ->
  (2 ^ b - 1) * (Z.of_nat w + 1) < 2 ^ 32 -> (2 ^ b - 1) * (Z.of_nat h + 1) < 2 ^ 32 ->
  0 <= lo -> hi < 2 ^ b -> length img = (w * h)%nat -> within lo hi img ->
  exists out, gaussian_blur b checked fsqrt sigma img w h = Ok out /\
    is_image w h out (col_pass h r2 (col_pass h r1 (col_pass h r0 (row_pass w r2 (row_pass w r1 (row_pass w r0 (px w img))))))) /\
    within lo hi out.
Proof.
  intros Hb Hw Hh HG HO Bw Bh Hlo Hhi Hl Hin. unfold gaussian_blur. rewrite HG. cbn [bind].
  destruct (box_gauss_shape _ _ _ HG) as (_ & _ & _ & _ & HR).
  assert (HW : Forall (fun r => (1 <= r)%nat /\ Nat.odd (Nat.min (2 * r + 1) w) = true) [r0; r1; r2] /\
               Forall (fun r => (1 <= r)%nat /\ Nat.odd (Nat.min (2 * r + 1) h) = true) [r0; r1; r2]).
  { rewrite !Forall_forall in *. split; intros r Hr; (split; [|apply (HO r Hr)]); specialize (HR r Hr); apply Nat.odd_spec in HR as [k ->]; lia. }
  destruct HW as (HW & HH).
  destruct (passes_ok b img (repeat 0 (w * h)) w h r0 r1 r2 lo hi (px w img) Hb ltac:(lia) HW Bw Hlo Hhi) as (a & o & -> & La & I1 & W1);
    [split; [exact Hl|reflexivity]|apply repeat_length|exact Hin|]. cbn [bind fst snd].
  destruct (transpose_spec checked w h o a Hw Hh (proj1 I1) La) as (t1 & -> & T1). cbn [bind].
  set (F := row_pass w r2 (row_pass w r1 (row_pass w r0 (px w img)))) in *.
  assert (T1' : is_image h w t1 (fun x y => F y x)).
  { eapply is_image_ext; [|exact T1]. intros x y Hx Hy. cbv beta. now apply I1. }
  assert (WT : within lo hi t1).
  { apply (image_forall _ h w t1 _ T1'); [lia|]. intros x y Hx Hy. apply (within_image w h o F lo hi ltac:(lia) I1 W1); easy. }
  destruct (passes_ok b t1 o h w r0 r1 r2 lo hi _ Hb ltac:(lia) HH Bh Hlo Hhi T1') as (a2 & o2 & -> & La2 & I2 & W2);
    [rewrite (proj1 I1); lia|exact WT|]. cbn [bind fst snd].
  destruct (transpose_spec checked h w o2 a2 Hh Hw (proj1 I2) La2) as (t2 & -> & T2). exists t2. split; [reflexivity|].
  assert (T2' : is_image w h t2 (fun x y => row_pass h r2 (row_pass h r1 (row_pass h r0 (fun x y => F y x))) y x)).
  { eapply is_image_ext; [|exact T2]. intros x y Hx Hy. cbv beta. now apply I2. }
  split; [exact T2'|]. apply (image_forall _ w h t2 _ T2'); [lia|]. intros x y Hx Hy.
  apply (within_image h w o2 _ lo hi ltac:(lia) I2 W2); easy.
Qed.
