(** Proofs about the tone filters, continued: contrast, blending, sums of products, gamma and hue. *)
From Verif Require Import Base BaseProof F32 F32Round ToneModel ToneSpec ToneProof.

(** ** Contrast *)
Lemma contrast_val c x : ffin (contrast_factor c) -> Z.abs (fval (contrast_factor c)) <= 2 ^ 100 * unit_ -> sample 255 x ->
  contrast1 c x = limit 0 255 (frnd 0 (frnd 149 (fval (contrast_factor c) * ((x - 128) * unit_)) + 128 * unit_) / unit_).
Proof.
  intros Ff Hf Hx. unfold contrast1. set (f := contrast_factor c) in *. clearbody f. unfold sample in Hx.
  destruct (fsub_rep (of_int x) (of_int 128) x 128 (of_int_rep x ltac:(lia)) (of_int_rep 128 ltac:(lia)) ltac:(lia)) as [Fs Vs]. fold unit_ in Vs.
  assert (P : Z.abs (fval f * ((x - 128) * unit_)) <= 2 ^ 108 * unit_ * unit_).
  { rewrite Z.abs_mul. replace (2 ^ 108 * unit_ * unit_) with ((2 ^ 100 * unit_) * (2 ^ 8 * unit_)) by (unfold unit_; ring). apply Z.mul_le_mono_nonneg; unfold unit_ in *; lia. }
  destruct (fmul_val 108 _ _ Ff Fs ltac:(lia)) as [Fm Vm]; [rewrite Vs; exact P|]. rewrite Vs in Vm.
  destruct (of_int_rep 128 ltac:(lia)) as [F128 V128]. fold unit_ in V128.
  assert (B : Z.abs (frnd 149 (fval f * ((x - 128) * unit_))) <= 2 ^ 108 * unit_) by (apply frnd_bound; [lia|lia|exact P]).
  destruct (fadd_val 109 _ _ Fm F128 ltac:(lia)) as [Fa Va]. { rewrite Vm, V128. unfold unit_ in *. lia. } rewrite Vm, V128 in Va.
  destruct (fclamp_val _ f0 (of_int 255) 0 255 Fa (of_int_rep 0 ltac:(lia)) (of_int_rep 255 ltac:(lia)) ltac:(lia)) as [Fc Vc].
  rewrite to_uint_val by (easy || lia). rewrite Vc, Va. rewrite Z.mul_0_l. apply limit_div. lia.
Qed.
Lemma contrast_mono c x x' : ffin (contrast_factor c) -> 0 <= fval (contrast_factor c) <= 2 ^ 100 * unit_ -> sample 255 x -> sample 255 x' -> x <= x' -> contrast1 c x <= contrast1 c x'.
Proof.
  intros Ff Hf Hx Hx' H. rewrite !contrast_val by (easy || lia). apply limit_mono, Z.div_le_mono; [unfold unit_; lia|]. apply frnd_mono; [lia|]. apply Z.add_le_mono_r, frnd_mono; [lia|].
  apply Z.mul_le_mono_nonneg_l; [lia|]. unfold unit_. lia.
Qed.
Lemma contrast_mid c : ffin (contrast_factor c) -> Z.abs (fval (contrast_factor c)) <= 2 ^ 100 * unit_ -> contrast1 c 128 = 128.
Proof.
  intros Ff Hf. rewrite contrast_val by (easy || (unfold sample; lia)). rewrite Z.sub_diag, Z.mul_0_l, Z.mul_0_r. change (frnd 149 0) with (0 * unit_). rewrite <- Z.mul_add_distr_r.
  rewrite frnd_int by lia. rewrite Z.div_mul by (unfold unit_; lia). reflexivity.
Qed.

(** ** Blending *)
Definition rest (alpha : f32) : f32 := fsub f1 alpha.
Lemma rest_val alpha : ffin alpha -> 0 <= fval alpha <= unit_ -> ffin (rest alpha) /\ 0 <= fval (rest alpha) <= unit_ /\ Z.abs (fval (rest alpha) - (unit_ - fval alpha)) <= 2 ^ 125.
Proof.
  intros F H. unfold rest. destruct (of_int_rep 1 ltac:(lia)) as [F1 V1]. fold f1 in F1, V1. fold unit_ in V1.
  destruct (fsub_val 0 _ _ F1 F ltac:(lia)) as [Fs Vs]; [rewrite V1; unfold unit_ in *; lia|]. rewrite V1, Z.mul_1_l in Vs. split; [exact Fs|]. rewrite Vs. split; [split|].
  - apply frnd_nonneg; lia.
  - transitivity (frnd 0 (1 * unit_)); [apply frnd_mono; lia|rewrite frnd_int; lia].
  - pose proof (add_near (unit_ - fval alpha)) as A. clear - A H. unfold unit_ in *. lia.
Qed.
Lemma scaled k d : ffin k -> 0 <= fval k <= unit_ -> 0 <= d < 2 ^ 16 ->
  ffin (fmul k (of_int d)) /\ fval (fmul k (of_int d)) = frnd 149 (fval k * (d * unit_)) /\ 0 <= fval (fmul k (of_int d)) <= 2 ^ 16 * unit_ /\
  Z.abs (fval (fmul k (of_int d)) - fval k * d) <= 2 ^ 141.
Proof.
  intros F H Hd. destruct (int_rep d ltac:(lia)) as [Fd Vd]. set (kv := fval k) in *.
  assert (P : 0 <= kv * (d * unit_) <= 2 ^ 16 * unit_ * unit_).
  { split; [unfold unit_ in *; nia|]. replace (2 ^ 16 * unit_ * unit_) with (unit_ * (2 ^ 16 * unit_)) by ring. apply Z.mul_le_mono_nonneg; unfold unit_ in *; lia. }
  destruct (fmul_val 16 _ _ F Fd ltac:(lia)) as [Fm Vm]; [rewrite Vd; fold kv; rewrite (Z.abs_eq _ (proj1 P)); apply P|]. rewrite Vd in Vm. fold kv in Vm.
  split; [exact Fm|]. split; [exact Vm|]. rewrite Vm. split.
  - split; [apply frnd_nonneg; [lia|apply P]|]. pose proof (frnd_bound 149 16 (kv * (d * unit_)) ltac:(lia) ltac:(lia)) as B. rewrite (Z.abs_eq _ (proj1 P)) in B. specialize (B (proj2 P)). lia.
  - pose proof (mul_near (kv * (d * unit_))) as N. rewrite (Z.abs_eq _ (proj1 P)) in N. specialize (N ltac:(etransitivity; [apply P|]; apply Z.mul_le_mono_nonneg_r; unfold unit_; lia)).
    set (m := frnd 149 (kv * (d * unit_))) in *. clearbody m. apply Z.mul_le_mono_pos_r with (unit_ * 2 ^ 24); [unfold unit_; lia|].
    replace (Z.abs (m - kv * d) * (unit_ * 2 ^ 24)) with (2 ^ 24 * Z.abs (m * unit_ - kv * (d * unit_))).
    2:{ replace (m * unit_ - kv * (d * unit_)) with ((m - kv * d) * unit_) by ring. rewrite Z.abs_mul, (Z.abs_eq unit_) by (unfold unit_; lia). ring. }
    etransitivity; [exact N|]. apply Z.max_lub; [vm_compute; discriminate|]. etransitivity; [apply P|]. vm_compute. discriminate.
Qed.
Lemma mix_val hi alpha s d : depth hi -> ffin alpha -> 0 <= fval alpha <= unit_ -> sample hi s -> sample hi d ->
  mix hi alpha s d = limit 0 hi (frnd 0 (frnd 149 (fval alpha * (s * unit_)) + frnd 149 (fval (rest alpha) * (d * unit_))) / unit_) /\
  Z.abs (frnd 0 (frnd 149 (fval alpha * (s * unit_)) + frnd 149 (fval (rest alpha) * (d * unit_))) - (fval alpha * s + (unit_ - fval alpha) * d)) <= 2 ^ 144.
Proof.
  intros Hh F H Hs Hd. pose proof (hi_small hi Hh). unfold sample in *. destruct (rest_val alpha F H) as (Fr & Br & Nr). unfold mix. fold (rest alpha).
  destruct (scaled alpha s F H ltac:(lia)) as (F1 & V1 & B1 & N1). destruct (scaled (rest alpha) d Fr Br ltac:(lia)) as (F2 & V2 & B2 & N2).
  destruct (fadd_val 17 _ _ F1 F2 ltac:(lia)) as [Fa Va]; [clear - B1 B2; unfold unit_ in *; lia|]. split.
  - rewrite to_uint_val by (easy || lia). now rewrite Va, V1, V2.
  - rewrite <- V1, <- V2. pose proof (add_near (fval (fmul alpha (of_int s)) + fval (fmul (rest alpha) (of_int d)))) as A.
    set (p := fval (fmul alpha (of_int s))) in *. set (q := fval (fmul (rest alpha) (of_int d))) in *. clearbody p q. set (z := frnd 0 (p + q)) in *. clearbody z.
    assert (D : Z.abs (fval (rest alpha) * d - (unit_ - fval alpha) * d) <= 2 ^ 141).
    { rewrite <- Z.mul_sub_distr_r, Z.abs_mul. change (2 ^ 141) with (2 ^ 125 * 2 ^ 16). apply Z.mul_le_mono_nonneg; lia. }
    set (x1 := fval alpha * s) in *. set (x2 := fval (rest alpha) * d) in *. set (x3 := (unit_ - fval alpha) * d) in *. clearbody x1 x2 x3. clear - A D N1 N2 B1 B2. unfold unit_ in *. lia.
Qed.
Lemma mix_level hi alpha s d : depth hi -> ffin alpha -> 0 <= fval alpha <= unit_ -> sample hi s -> sample hi d ->
  level_of hi (fval alpha * s + (unit_ - fval alpha) * d) unit_ 32 (mix hi alpha s d).
Proof.
  intros Hh F H Hs Hd. pose proof (hi_small hi Hh). destruct (mix_val hi alpha s d Hh F H Hs Hd) as [-> N].
  set (z := frnd 0 _) in *. clearbody z. apply (level_of_near _ _ _ _ _ z); [lia|lia| |pose proof (cut_near hi z ltac:(lia)); lia|unfold unit_; lia].
  set (t := fval alpha * s + (unit_ - fval alpha) * d) in *. clearbody t. clear - N. unfold unit_ in *. lia.
Qed.
Lemma mix_mono hi alpha s s' d d' : depth hi -> ffin alpha -> 0 <= fval alpha <= unit_ -> sample hi s -> sample hi d -> sample hi s' -> sample hi d' -> s <= s' -> d <= d' ->
  mix hi alpha s d <= mix hi alpha s' d'.
Proof.
  intros Hh F H Hs Hd Hs' Hd' L1 L2. rewrite (proj1 (mix_val hi alpha s d Hh F H Hs Hd)), (proj1 (mix_val hi alpha s' d' Hh F H Hs' Hd')).
  destruct (rest_val alpha F H) as (_ & Br & _). apply limit_mono, Z.div_le_mono; [unfold unit_; lia|]. apply frnd_mono; [lia|].
  apply Z.add_le_mono; apply frnd_mono; try lia; apply Z.mul_le_mono_nonneg_l; unfold unit_ in *; lia.
Qed.
Lemma mix_same hi alpha m : depth hi -> ffin alpha -> 0 <= fval alpha <= unit_ -> sample hi m -> m - 1 <= mix hi alpha m m <= m.
Proof.
  intros Hh F H Hm. pose proof (hi_small hi Hh). destruct (mix_val hi alpha m m Hh F H Hm Hm) as [-> N].
  set (z := frnd 0 _) in *. clearbody z. replace (fval alpha * m + (unit_ - fval alpha) * m) with (m * unit_) in N by ring. unfold sample in Hm.
  assert (m - 1 <= z / unit_) by (apply Z.div_le_lower_bound; clear - N; unfold unit_ in *; lia). assert (z / unit_ < m + 1) by (apply Z.div_lt_upper_bound; clear - N; unfold unit_ in *; lia).
  unfold limit. lia.
Qed.
Lemma mix_between hi alpha s d : depth hi -> ffin alpha -> 0 <= fval alpha <= unit_ -> sample hi s -> sample hi d -> Z.min s d - 1 <= mix hi alpha s d <= Z.max s d.
Proof.
  intros Hh F H Hs Hd. assert (S1 : sample hi (Z.min s d)) by (unfold sample in *; lia). assert (S2 : sample hi (Z.max s d)) by (unfold sample in *; lia).
  pose proof (mix_same hi alpha _ Hh F H S1). pose proof (mix_same hi alpha _ Hh F H S2).
  pose proof (mix_mono hi alpha (Z.min s d) s (Z.min s d) d Hh F H S1 S1 Hs Hd ltac:(lia) ltac:(lia)).
  pose proof (mix_mono hi alpha s (Z.max s d) d (Z.max s d) Hh F H Hs Hd S2 S2 ltac:(lia) ltac:(lia)). lia.
Qed.
Lemma mix_one hi s d : depth hi -> sample hi s -> sample hi d -> mix hi f1 s d = s.
Proof.
  intros Hh Hs Hd. pose proof (hi_small hi Hh). unfold sample in *. unfold mix. change (fsub f1 f1) with f0.
  assert (R1 : rep (fmul f1 (of_int s)) (1 * s)) by (apply fmul_rep; [apply (of_int_rep 1); lia|apply of_int_rep; lia|lia]).
  assert (R2 : rep (fmul f0 (of_int d)) (0 * d)) by (apply fmul_rep; [apply (of_int_rep 0); lia|apply of_int_rep; lia|lia]).
  rewrite (to_uint_rep hi _ (1 * s + 0 * d) ltac:(lia)); [lia|]. apply fadd_rep; [exact R1|exact R2|lia].
Qed.
