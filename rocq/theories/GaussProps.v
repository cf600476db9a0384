(** The Gaussian blur and sharpening (C132 - C134). *)
From Coq Require Import Floats.SpecFloat.
From Verif Require Import Base Loops HdrProof GeomModel GeomSpec GeomProof ProcModel BlurModel BlurSpec BlurProof F32.
From Verif Require Import GaussModel GaussSpec GaussProof.

(** The correctly rounded square root of the processor, used in the concrete cases *)
Definition sqrt32 : f32 -> f32 := SFsqrt 24 128.

(** What the Gaussian blur computes for every picture of at least 8 by 8 samples, at both integer depths, when all three
    filters fit the picture or are cut to an odd length: no panic, and every sample is the result of three averages along
    the columns of three averages along the rows. The square root is arbitrary. Missing from the full claim: sides below 8
    and filters cut to an even length; both are refuted below. *)
Theorem gaussian_values_partial b checked fsqrt sigma img w h r0 r1 r2 : b = 8 \/ b = 16 -> (8 <= w)%nat -> (8 <= h)%nat ->
  box_gauss fsqrt sigma = Ok [r0; r1; r2] ->
  Forall (fun r => Nat.odd (Nat.min (2 * r + 1) w) = true /\ Nat.odd (Nat.min (2 * r + 1) h) = true) [r0; r1; r2] ->
  (2 ^ b - 1) * (Z.of_nat w + 1) < 2 ^ 32 -> (2 ^ b - 1) * (Z.of_nat h + 1) < 2 ^ 32 ->
  length img = (w * h)%nat -> Forall (fun v => 0 <= v <= 2 ^ b - 1) img ->
  exists out, gaussian_blur b checked fsqrt sigma img w h = Ok out /\
    is_image w h out (col_pass h r2 (col_pass h r1 (col_pass h r0 (row_pass w r2 (row_pass w r1 (row_pass w r0 (px w img))))))).
Proof.
  intros Hb Hw Hh HG HO Bw Bh Hl Hs.
  destruct (gaussian_ok b checked fsqrt sigma img w h r0 r1 r2 0 (2 ^ b - 1) Hb Hw Hh HG HO Bw Bh ltac:(lia) ltac:(lia) Hl Hs)
    as (out & E & I & _). exists out. auto.
Qed.
Print Assumptions gaussian_values_partial.

(** Every blurred sample lies between the smallest and the largest sample of the picture. *)
Theorem gaussian_range_partial b checked fsqrt sigma img w h r0 r1 r2 lo hi : b = 8 \/ b = 16 -> (8 <= w)%nat -> (8 <= h)%nat ->
  box_gauss fsqrt sigma = Ok [r0; r1; r2] ->
  Forall (fun r => Nat.odd (Nat.min (2 * r + 1) w) = true /\ Nat.odd (Nat.min (2 * r + 1) h) = true) [r0; r1; r2] ->
  (2 ^ b - 1) * (Z.of_nat w + 1) < 2 ^ 32 -> (2 ^ b - 1) * (Z.of_nat h + 1) < 2 ^ 32 ->
  0 <= lo -> hi < 2 ^ b -> length img = (w * h)%nat -> Forall (fun v => lo <= v <= hi) img ->
  exists out, gaussian_blur b checked fsqrt sigma img w h = Ok out /\ length out = (w * h)%nat /\ Forall (fun v => lo <= v <= hi) out.
Proof.
  intros Hb Hw Hh HG HO Bw Bh Hlo Hhi Hl Hs.
  destruct (gaussian_ok b checked fsqrt sigma img w h r0 r1 r2 lo hi Hb Hw Hh HG HO Bw Bh Hlo Hhi Hl Hs) as (out & E & I & W).
  exists out. split; [exact E|]. split; [apply I|exact W].
Qed.
Print Assumptions gaussian_range_partial.

(** A flat picture stays as it is. *)
Theorem gaussian_flat_partial b checked fsqrt sigma c w h r0 r1 r2 : b = 8 \/ b = 16 -> (8 <= w)%nat -> (8 <= h)%nat ->
  box_gauss fsqrt sigma = Ok [r0; r1; r2] ->
  Forall (fun r => Nat.odd (Nat.min (2 * r + 1) w) = true /\ Nat.odd (Nat.min (2 * r + 1) h) = true) [r0; r1; r2] ->
  (2 ^ b - 1) * (Z.of_nat w + 1) < 2 ^ 32 -> (2 ^ b - 1) * (Z.of_nat h + 1) < 2 ^ 32 -> 0 <= c < 2 ^ b ->
  gaussian_blur b checked fsqrt sigma (repeat c (w * h)) w h = Ok (repeat c (w * h)).
Proof.
  intros Hb Hw Hh HG HO Bw Bh Hc.
  destruct (gaussian_range_partial b checked fsqrt sigma (repeat c (w * h)) w h r0 r1 r2 c c Hb Hw Hh HG HO Bw Bh ltac:(lia) ltac:(lia))
    as (out & -> & L & F).
  - apply repeat_length.
  - apply Forall_forall. intros v Hv. apply repeat_spec in Hv. lia.
  - f_equal. rewrite <- L. apply Forall_eq_repeat. eapply Forall_impl; [|exact F]. cbv beta. intros; lia.
Qed.
Print Assumptions gaussian_flat_partial.

(** The three filters always have an odd radius, whatever the deviation and the square root. *)
Theorem gaussian_three_odd_boxes fsqrt sigma rs : box_gauss fsqrt sigma = Ok rs ->
  length rs = 3%nat /\ Forall (fun r => Nat.odd r = true) rs.
Proof. intros H. destruct (box_gauss_shape _ _ _ H) as (r0 & r1 & r2 & -> & F). auto. Qed.
Print Assumptions gaussian_three_odd_boxes.

Example gaussian_boxes_ex :
  map (fun s => box_gauss sqrt32 s) [of_int 0; of_int 1; of_int 2; fdiv (of_int 7) (of_int 10); of_int 5; fdiv (of_int 7) (of_int 2)] =
  [Ok [1; 1; 1]; Ok [3; 3; 3]; Ok [5; 5; 5]; Ok [1; 1; 3]; Ok [11; 11; 11]; Ok [7; 7; 7]]%nat.
Proof. vm_compute. reflexivity. Qed.

Definition ramp (w h : nat) : list Z := map (fun k => Z.of_nat ((k * 37) mod 200) + 20) (seq 0 (w * h)).

Example gaussian_hypotheses_ex :
  box_gauss sqrt32 (of_int 1) = Ok [3; 3; 3]%nat /\
  Forall (fun r => Nat.odd (Nat.min (2 * r + 1) 9) = true /\ Nat.odd (Nat.min (2 * r + 1) 10) = true) [3; 3; 3]%nat /\
  Forall (fun v => 20 <= v <= 219) (ramp 9 10) /\ length (ramp 9 10) = (9 * 10)%nat /\
  match gaussian_blur 8 true sqrt32 (of_int 1) (ramp 9 10) 9 10 with
  | Ok o => px 9 o 4 5 = col_pass 10 3 (col_pass 10 3 (col_pass 10 3 (row_pass 9 3 (row_pass 9 3 (row_pass 9 3 (px 9 (ramp 9 10))))))) 4 5
  | _ => False
  end.
Proof.
  split; [vm_compute; reflexivity|]. split; [repeat constructor|]. split; [|split; vm_compute; reflexivity].
  apply Forall_forall. intros v Hv. apply in_map_iff in Hv as (k & <- & _). pose proof (Nat.mod_upper_bound (k * 37) 200). lia.
Qed.

(** The claim that a flat picture stays flat is false when a filter is cut to an even length. *)
Theorem gaussian_flat_refuted :
  match gaussian_blur 8 true sqrt32 (of_int 2) (repeat 100 (10 * 10)) 10 10 with
  | Ok out => exists x y, (x < 10)%nat /\ (y < 10)%nat /\ px 10 out x y < 50
  | _ => False
  end.
Proof.
  assert (E : match gaussian_blur 8 true sqrt32 (of_int 2) (repeat 100 (10 * 10)) 10 10 with
    | Ok out => existsb (fun y => existsb (fun x => px 10 out x y <? 50) (seq 0 10)) (seq 0 10) | _ => false end = true)
    by (vm_compute; reflexivity).
  destruct (gaussian_blur 8 true sqrt32 (of_int 2) (repeat 100 (10 * 10)) 10 10) as [out| | |]; try discriminate E.
  apply existsb_exists in E as (y & Hy & E). apply existsb_exists in E as (x & Hx & E). apply in_seq in Hx, Hy. exists x, y. lia.
Qed.
Print Assumptions gaussian_flat_refuted.

(** A picture with a short side stops the program (overflow checks on). *)
Theorem gaussian_narrow_refuted : gaussian_blur 8 true sqrt32 (of_int 1) (repeat 100 (10 * 5)) 10 5 = Panic.
Proof. vm_compute. reflexivity. Qed.
Print Assumptions gaussian_narrow_refuted.

(** The claim that a blur with deviation sigma spreads a line with about that deviation, and in place, is false. The code
    uses the widths of the three boxes as radii. A line at column 20 of a wide picture, blurred with deviation 1, has its
    brightest column at 17, and its mean square distance to every column is more than 11 instead of 1. *)
Definition line_picture : list Z := concat (repeat (map (fun k => if (k =? 20)%nat then 60000 else 0) (seq 0 41)) 41).
Theorem gaussian_spread_refuted :
  match gaussian_blur 16 true sqrt32 (of_int 1) line_picture 41 41 with
  | Ok out =>
      let row := fun x => px 41 out x 20 in
      let total := fold_right Z.add 0 (map row (seq 0 41)) in
      (forall x, (x < 41)%nat -> row x <= row 17%nat) /\ row 20%nat < row 17%nat /\
      forall c, (c < 41)%nat ->
        11 * total < fold_right Z.add 0 (map (fun x => row x * (Z.of_nat x - Z.of_nat c) ^ 2) (seq 0 41))
  | _ => False
  end.
Proof.
  assert (E : match gaussian_blur 16 true sqrt32 (of_int 1) line_picture 41 41 with
    | Ok out => forallb (fun x => px 41 out x 20 <=? px 41 out 17 20) (seq 0 41) && (px 41 out 20 20 <? px 41 out 17 20) &&
        forallb (fun c => 11 * fold_right Z.add 0 (map (fun x => px 41 out x 20) (seq 0 41)) <?
          fold_right Z.add 0 (map (fun x => px 41 out x 20 * (Z.of_nat x - Z.of_nat c) ^ 2) (seq 0 41))) (seq 0 41)
    | _ => false end = true) by (vm_compute; reflexivity).
  destruct (gaussian_blur 16 true sqrt32 (of_int 1) line_picture 41 41) as [out| | |]; try discriminate E.
  apply andb_true_iff in E as [E E3]. apply andb_true_iff in E as [E1 E2]. rewrite forallb_forall in E1, E3. cbv zeta. split; [|split].
  - intros x Hx. apply Z.leb_le, E1, in_seq. lia.
  - now apply Z.ltb_lt.
  - intros c Hc. apply Z.ltb_lt. apply (E3 c), in_seq. lia.
Qed.
Print Assumptions gaussian_spread_refuted.

Lemma zip_with_length f a c : length a = length c -> length (zip_with f a c) = length a.
Proof. revert c; induction a as [|x a IH]; intros [|y c] H; try easy. cbn. f_equal. apply IH. now injection H. Qed.
Lemma zip_with_nth f a c i : length a = length c -> (i < length a)%nat -> nth i (zip_with f a c) 0 = f (nth i a 0) (nth i c 0).
Proof.
  revert c i; induction a as [|x a IH]; intros [|y c] i H Hi; try easy. destruct i; [reflexivity|]. cbn. apply IH; [now injection H|].
  cbn in Hi. lia.
Qed.

(** Sharpening: every sample that is not darker than its blurred version [bl], and for 16 bits not so bright that the sum
    leaves the range, becomes what unsharp masking prescribes; with 16 bits a sample that is not brighter stays as it is.
    Missing from the full claim: the other samples; see the refutations. *)
Theorem unsharpen_partial b checked fsqrt sigma threshold img w h r0 r1 r2 : b = 8 \/ b = 16 -> (8 <= w)%nat -> (8 <= h)%nat ->
  box_gauss fsqrt sigma = Ok [r0; r1; r2] ->
  Forall (fun r => Nat.odd (Nat.min (2 * r + 1) w) = true /\ Nat.odd (Nat.min (2 * r + 1) h) = true) [r0; r1; r2] ->
  (2 ^ b - 1) * (Z.of_nat w + 1) < 2 ^ 32 -> (2 ^ b - 1) * (Z.of_nat h + 1) < 2 ^ 32 ->
  0 <= threshold < 2 ^ b -> length img = (w * h)%nat -> Forall (fun v => 0 <= v <= 2 ^ b - 1) img ->
  exists out, unsharpen b checked fsqrt sigma threshold img w h = Ok out /\ length out = (w * h)%nat /\
    forall x y, (x < w)%nat -> (y < h)%nat ->
      let p := px w img x y in
      let bl := col_pass h r2 (col_pass h r1 (col_pass h r0 (row_pass w r2 (row_pass w r1 (row_pass w r0 (px w img)))))) x y in
      (bl <= p -> (b = 16 -> 2 * p - bl < 2 ^ 16) -> px w out x y = sharpened b threshold p bl) /\
      (b = 16 -> p <= bl -> px w out x y = p).
Proof.
  intros Hb Hw Hh HG HO Bw Bh Ht Hl Hs.
  destruct (gaussian_ok b checked fsqrt sigma img w h r0 r1 r2 0 (2 ^ b - 1) Hb Hw Hh HG HO Bw Bh ltac:(lia) ltac:(lia) Hl Hs)
    as (bi & E & I & W).
  unfold unsharpen. rewrite E. cbv beta iota delta [bind]. eexists. split; [reflexivity|].
  assert (L : length img = length bi) by (rewrite (proj1 I); exact Hl).
  split; [rewrite zip_with_length by exact L; exact Hl|]. intros x y Hx Hy. cbv zeta.
  set (bl := col_pass h r2 _ x y) in *. set (p := px w img x y).
  assert (Hi : (y * w + x < length img)%nat) by (rewrite Hl; now apply idx_bound').
  assert (Hbl : nth (y * w + x) bi 0 = bl) by (exact (proj2 I x y Hx Hy)).
  assert (Hp0 : 0 <= p <= 2 ^ b - 1).
  { rewrite Forall_forall in Hs. apply Hs. unfold p, px. now apply nth_In. }
  assert (Hb0 : 0 <= bl <= 2 ^ b - 1) by (exact (within_image w h bi _ 0 (2 ^ b - 1) ltac:(lia) I W x y Hx Hy)).
  match goal with |- context [px w (zip_with ?g img bi) x y] => assert (EZ : px w (zip_with g img bi) x y = g p bl) end.
  { unfold px. rewrite zip_with_nth by easy. now rewrite Hbl. }
  rewrite EZ.
  clearbody p bl. clear - Hb Ht Hp0 Hb0. unfold sharpened, sharpen8, sharpen16.
  destruct Hb as [-> | ->]; cbn [Z.eqb Pos.eqb].
  - change (2 ^ 8) with 256 in *. split; [|intros; discriminate]. intros Hle _. rewrite Z.mod_small by lia.
    replace (Z.min threshold 255) with threshold by lia. rewrite Z.abs_eq by lia.
    destruct (threshold <? p - bl); [|reflexivity]. lia.
  - change (2 ^ 16) with 65536 in *. split.
    + intros Hle H. specialize (H eq_refl). rewrite Z.abs_eq, Z.max_r by lia. destruct (threshold <? p - bl); [|reflexivity].
      rewrite Z.mod_small by lia. lia.
    + intros _ H. rewrite Z.max_l by lia. destruct (Z.ltb_spec threshold 0); [lia|reflexivity].
Qed.
Print Assumptions unsharpen_partial.

(** A flat picture is not changed by sharpening. *)
Theorem unsharpen_flat_partial b checked fsqrt sigma threshold c w h r0 r1 r2 : b = 8 \/ b = 16 -> (8 <= w)%nat -> (8 <= h)%nat ->
  box_gauss fsqrt sigma = Ok [r0; r1; r2] ->
  Forall (fun r => Nat.odd (Nat.min (2 * r + 1) w) = true /\ Nat.odd (Nat.min (2 * r + 1) h) = true) [r0; r1; r2] ->
  (2 ^ b - 1) * (Z.of_nat w + 1) < 2 ^ 32 -> (2 ^ b - 1) * (Z.of_nat h + 1) < 2 ^ 32 ->
  0 <= threshold < 2 ^ b -> 0 <= c < 2 ^ b ->
  unsharpen b checked fsqrt sigma threshold (repeat c (w * h)) w h = Ok (repeat c (w * h)).
Proof.
  intros Hb Hw Hh HG HO Bw Bh Ht Hc. unfold unsharpen. rewrite (gaussian_flat_partial b checked fsqrt sigma c w h r0 r1 r2) by easy.
  cbn [bind]. f_equal. generalize (w * h)%nat as n. induction n as [|n IH]; [reflexivity|]. cbn [repeat zip_with]. f_equal; [|exact IH].
  destruct Hb as [-> | ->]; cbn [Z.eqb Pos.eqb]; unfold sharpen8, sharpen16; rewrite Z.sub_diag.
  - change (0 mod 2 ^ 8) with 0. destruct (Z.ltb_spec (Z.min threshold 255) 0); [lia|reflexivity].
  - change (Z.max 0 0) with 0. destruct (Z.ltb_spec threshold 0); [lia|reflexivity].
Qed.
Print Assumptions unsharpen_flat_partial.

Definition spot (w h : nat) (bg v : Z) : list Z := map (fun k => if (k =? (h / 2 * w + w / 2))%nat then v else bg) (seq 0 (w * h)).

(** A spot of 150 on 100 becomes 199. With 8 bits even the corner, whose blurred version is 101, becomes white. *)
Example unsharpen_ex :
  match unsharpen 8 true sqrt32 (of_int 1) 5 (spot 9 9 100 150) 9 9 with Ok o => px 9 o 4 4 = 199 /\ px 9 o 0 0 = 255 | _ => False end /\
  match unsharpen 16 true sqrt32 (of_int 1) 5 (spot 9 9 100 150) 9 9 with Ok o => px 9 o 4 4 = 199 /\ px 9 o 0 0 = 100 | _ => False end.
Proof. vm_compute. repeat split. Qed.

(** With 8 bits a dark spot is made white: the prescribed value is black. *)
Theorem unsharpen_dark_refuted :
  match unsharpen 8 true sqrt32 (of_int 1) 5 (spot 9 9 100 50) 9 9, gaussian_blur 8 true sqrt32 (of_int 1) (spot 9 9 100 50) 9 9 with
  | Ok out, Ok bl => px 9 (spot 9 9 100 50) 4 4 = 50 /\ px 9 out 4 4 = 255 /\ sharpened 8 5 50 (px 9 bl 4 4) < 50
  | _, _ => False
  end.
Proof. vm_compute. repeat split. Qed.
Print Assumptions unsharpen_dark_refuted.

(** With 16 bits a bright spot becomes darker than its surroundings: the sum wraps. *)
Theorem unsharpen_wrap_refuted :
  match unsharpen 16 true sqrt32 (of_int 1) 5 (spot 9 9 40000 60000) 9 9, gaussian_blur 16 true sqrt32 (of_int 1) (spot 9 9 40000 60000) 9 9 with
  | Ok out, Ok bl => px 9 out 4 4 < 20000 /\ sharpened 16 5 60000 (px 9 bl 4 4) = 65535
  | _, _ => False
  end.
Proof. vm_compute. repeat split. Qed.
Print Assumptions unsharpen_wrap_refuted.
