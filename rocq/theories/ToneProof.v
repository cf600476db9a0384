(** Proofs about the tone filters: values of single precision expressions, up to rounding. *)
From Verif Require Import Base BaseProof F32 F32Round ToneModel ToneSpec.

(** ** Bounds of rounded values *)
Lemma frnd_pow k j : 0 <= k -> 0 <= j -> frnd k (2 ^ j * unit_ * 2 ^ k) = 2 ^ j * unit_.
Proof.
  intros Hk Hj. change k with (0 + k) at 1. rewrite rnds_scale by lia. unfold unit_. rewrite <- Z.pow_add_r by lia.
  rewrite <- (Z.mul_1_l (2 ^ (j + 149))). apply rnds_id; lia.
Qed.
Lemma frnd_bound k j z : 0 <= k -> 0 <= j -> Z.abs z <= 2 ^ j * unit_ * 2 ^ k -> Z.abs (frnd k z) <= 2 ^ j * unit_.
Proof.
  intros Hk Hj H. pose proof (rnds_mono 24 ltac:(lia) k z _ Hk (proj2 (proj1 (Z.abs_le _ _) H))) as A.
  pose proof (rnds_mono 24 ltac:(lia) k _ z Hk (proj1 (proj1 (Z.abs_le _ _) H))) as B. rewrite rnds_opp in B. rewrite frnd_pow in A, B by easy. lia.
Qed.
Lemma fits_pow j v : 0 <= j < 128 -> Z.abs v <= 2 ^ j * unit_ -> fits 24 128 v.
Proof.
  intros Hj H. unfold fits, unit_ in *. change (128 - SpecFloat.emin 24 128) with (128 + 149). rewrite Z.pow_add_r by lia.
  assert (2 ^ j < 2 ^ 128) by (apply Z.pow_lt_mono_r; lia). nia.
Qed.
Lemma fmul_val j x y : ffin x -> ffin y -> 0 <= j < 128 -> Z.abs (fval x * fval y) <= 2 ^ j * unit_ * unit_ ->
  ffin (fmul x y) /\ fval (fmul x y) = frnd 149 (fval x * fval y).
Proof.
  intros Fx Fy Hj H. apply (mul_ok 24 128 ltac:(lia) ltac:(lia) x y Fx Fy). change (- SpecFloat.emin 24 128) with 149.
  apply (fits_pow j); [easy|]. apply frnd_bound; [lia|lia|exact H].
Qed.
Lemma fadd_val j x y : ffin x -> ffin y -> 0 <= j < 128 -> Z.abs (fval x + fval y) <= 2 ^ j * unit_ ->
  ffin (fadd x y) /\ fval (fadd x y) = frnd 0 (fval x + fval y).
Proof.
  intros Fx Fy Hj H. apply (add_ok 24 128 ltac:(lia) ltac:(lia) x y Fx Fy). apply (fits_pow j); [easy|]. apply frnd_bound; lia.
Qed.
Lemma fsub_val j x y : ffin x -> ffin y -> 0 <= j < 128 -> Z.abs (fval x - fval y) <= 2 ^ j * unit_ ->
  ffin (fsub x y) /\ fval (fsub x y) = frnd 0 (fval x - fval y).
Proof.
  intros Fx Fy Hj H. apply (sub_ok 24 128 ltac:(lia) ltac:(lia) x y Fx Fy). apply (fits_pow j); [easy|]. apply frnd_bound; lia.
Qed.
Lemma frnd_near k z : 0 <= k -> 2 * Z.abs (frnd k z * 2 ^ k - z) <= Z.max (2 ^ k) (Z.abs z / 2 ^ 23).
Proof. intros Hk. apply (rnds_near 24 ltac:(lia) k z Hk). Qed.
Lemma frnd_mono k z z' : 0 <= k -> z <= z' -> frnd k z <= frnd k z'.
Proof. apply rnds_mono. lia. Qed.
Lemma frnd_int a : Z.abs a < 2 ^ 24 -> frnd 0 (a * unit_) = a * unit_. Proof. apply frnd_id. Qed.
Lemma frnd_int2 a : Z.abs a < 2 ^ 24 -> frnd 149 (a * unit_ * unit_) = a * unit_.
Proof. intros H. change 149 with (0 + 149) at 1. unfold unit_. rewrite rnds_scale by lia. now apply frnd_id. Qed.

Lemma frnd_nonneg k z : 0 <= k -> 0 <= z -> 0 <= frnd k z. Proof. exact (frnd_mono k 0 z). Qed.
Lemma frnd_nonpos k z : 0 <= k -> z <= 0 -> frnd k z <= 0. Proof. exact (frnd_mono k z 0). Qed.

Lemma fclamp_val x lo hi a b : ffin x -> rep lo a -> rep hi b -> a <= b ->
  ffin (fclamp x lo hi) /\ fval (fclamp x lo hi) = limit (a * unit_) (b * unit_) (fval x).
Proof.
  intros Fx [Fl Vl] [Fh Vh] H. unfold fclamp, limit, unit_. rewrite !(ltb_ok 24 128) by easy. rewrite Vl, Vh.
  destruct (Z.ltb_spec (fval x) (a * 2 ^ 149)); [split; [easy|]; rewrite Vl; nia|].
  destruct (Z.ltb_spec (b * 2 ^ 149) (fval x)); (split; [easy|]); rewrite ?Vh; nia.
Qed.
Lemma to_uint_val hi x : 0 <= hi -> ffin x -> to_uint hi x = limit 0 hi (fval x / unit_).
Proof. intros H F. rewrite to_uint_ok by easy. reflexivity. Qed.
Lemma limit_div hi z : 0 <= hi -> limit 0 hi (limit 0 (hi * unit_) z / unit_) = limit 0 hi (z / unit_).
Proof.
  intros H. unfold limit. assert (0 < unit_) by (unfold unit_; lia). set (u := unit_) in *. clearbody u.
  destruct (Z.le_gt_cases 0 z) as [P|P].
  - destruct (Z.le_gt_cases z (hi * u)).
    + rewrite (Z.min_r (hi * u)) by lia. rewrite (Z.max_r 0 z) by lia. reflexivity.
    + rewrite (Z.min_l (hi * u)), (Z.max_r 0 (hi * u)), Z.div_mul by nia. assert (hi <= z / u) by (apply Z.div_le_lower_bound; nia). lia.
  - replace (Z.max 0 (Z.min (hi * u) z)) with 0 by nia. rewrite Z.div_0_l by lia. assert (z / u < 0) by (apply Z.div_lt_upper_bound; lia). lia.
Qed.
(** Cutting loses less than one level. *)
Lemma cut_near hi z : 0 <= hi -> limit 0 (hi * unit_) z - unit_ < limit 0 hi (z / unit_) * unit_ <= limit 0 (hi * unit_) z.
Proof.
  intros H. rewrite <- limit_div by easy. assert (U : 0 < unit_) by (unfold unit_; lia). assert (B : 0 <= limit 0 (hi * unit_) z <= hi * unit_) by (unfold limit; nia).
  set (w := limit 0 (hi * unit_) z) in *. clearbody w. set (u := unit_) in *. clearbody u.
  assert (Q : 0 <= w / u <= hi) by (split; [apply Z.div_pos; lia|apply Z.div_le_upper_bound; lia]). unfold limit. rewrite Z.min_r, Z.max_r by lia.
  pose proof (Z.div_mod w u ltac:(lia)). pose proof (Z.mod_pos_bound w u ltac:(lia)). nia.
Qed.
Lemma limit_mono lo hi z z' : z <= z' -> limit lo hi z <= limit lo hi z'.
Proof. unfold limit. lia. Qed.
Lemma limit_near lo hi z z' d : lo <= hi -> Z.abs (z - z') <= d -> Z.abs (limit lo hi z - limit lo hi z') <= d.
Proof. unfold limit. lia. Qed.
Lemma int_rep a : Z.abs a < 2 ^ 24 -> ffin (of_int a) /\ fval (of_int a) = a * unit_.
Proof. intros H. exact (of_int_rep a H). Qed.

(** ** Brightness *)
Lemma hi_small hi : depth hi -> 0 < hi < 2 ^ 16. Proof. intros [-> | ->]; lia. Qed.

(** The scaled amount *)
Definition amount (hi : Z) (value : f32) : f32 := fmul (fclamp value (of_int (-1)) f1) (fsub (of_int hi) f0).
Lemma amount_val hi value : depth hi -> ffin value ->
  ffin (amount hi value) /\ fval (amount hi value) = frnd 149 (limit (- unit_) unit_ (fval value) * (hi * unit_)).
Proof.
  intros Hd F. pose proof (hi_small hi Hd) as Hh. unfold amount.
  destruct (fclamp_val value (of_int (-1)) f1 (-1) 1 F (of_int_rep (-1) ltac:(lia)) (of_int_rep 1 ltac:(lia)) ltac:(lia)) as [Fc Vc].
  assert (R : rep (fsub (of_int hi) f0) (hi - 0)) by (apply (fsub_rep _ _ hi 0 (of_int_rep hi ltac:(lia)) (of_int_rep 0 ltac:(lia))); lia).
  destruct R as [Fs Vs]. rewrite Z.sub_0_r in Vs. fold unit_ in Vs.
  destruct (fmul_val 16 _ _ Fc Fs ltac:(lia)) as [Fm Vm].
  - rewrite Vc, Vs. assert (B : Z.abs (limit (-1 * unit_) (1 * unit_) (fval value)) <= unit_) by (unfold limit, unit_; lia).
    rewrite Z.abs_mul. rewrite (Z.abs_eq (hi * unit_)) by (unfold unit_; lia). replace (2 ^ 16 * unit_ * unit_) with (unit_ * (2 ^ 16 * unit_)) by ring.
    apply Z.mul_le_mono_nonneg; [lia|exact B|unfold unit_; lia|unfold unit_; lia].
  - split; [exact Fm|]. rewrite Vm, Vc, Vs. now rewrite Z.mul_1_l, Z.mul_opp_l, Z.mul_1_l || easy.
Qed.
Lemma brighten_val hi value x : depth hi -> ffin value -> sample hi x ->
  brighten1 hi value x = limit 0 hi (frnd 0 (x * unit_ + fval (amount hi value)) / unit_) /\ Z.abs (fval (amount hi value)) <= 2 ^ 16 * unit_.
Proof.
  intros Hd F Hx. pose proof (hi_small hi Hd) as Hh. unfold sample in Hx. destruct (amount_val hi value Hd F) as [Fa Va].
  assert (B : Z.abs (fval (amount hi value)) <= 2 ^ 16 * unit_).
  { rewrite Va. apply frnd_bound; [lia|lia|]. assert (B : Z.abs (limit (- unit_) unit_ (fval value)) <= unit_) by (unfold limit, unit_; lia).
    rewrite Z.abs_mul. rewrite (Z.abs_eq (hi * unit_)) by (unfold unit_; lia). fold unit_. replace (2 ^ 16 * unit_ * unit_) with (unit_ * (2 ^ 16 * unit_)) by ring.
    apply Z.mul_le_mono_nonneg; [lia|exact B|unfold unit_; lia|unfold unit_; lia]. }
  split; [|exact B]. unfold brighten1. fold (amount hi value). destruct (int_rep x ltac:(lia)) as [Fi Vi].
  destruct (fadd_val 17 _ _ Fi Fa ltac:(lia)) as [Fs Vs]; [rewrite Vi; unfold unit_ in *; lia|].
  destruct (fclamp_val _ f0 (of_int hi) 0 hi Fs (of_int_rep 0 ltac:(lia)) (of_int_rep hi ltac:(lia)) ltac:(lia)) as [Fc Vc].
  rewrite to_uint_val by (easy || lia). rewrite Vc, Vs, Vi. rewrite Z.mul_0_l. apply limit_div. lia.
Qed.
Lemma level_of_near hi num den slack v z : 0 < slack -> 0 <= hi -> slack * Z.abs (z - num) <= den -> limit 0 (hi * den) z - den <= v * den <= limit 0 (hi * den) z -> 0 <= den ->
  level_of hi num den slack v.
Proof.
  intros Hs Hh Hz Hv Hd. unfold level_of. assert (A : Z.abs (limit 0 (hi * den) z - limit 0 (hi * den) num) <= Z.abs (z - num)) by (apply limit_near; [nia|lia]).
  set (p := limit 0 (hi * den) z) in *. set (q := limit 0 (hi * den) num) in *. clearbody p q. nia.
Qed.
Lemma brighten_level hi value x : depth hi -> ffin value -> sample hi x ->
  level_of hi (x * unit_ + limit (- unit_) unit_ (fval value) * hi) unit_ 64 (brighten1 hi value x).
Proof.
  intros Hd F Hx. destruct (brighten_val hi value x Hd F Hx) as [-> B]. destruct (amount_val hi value Hd F) as [_ Va]. pose proof (hi_small hi Hd) as Hh. unfold sample in Hx.
  set (c := limit (- unit_) unit_ (fval value)) in *. assert (Hc : Z.abs c <= unit_) by (unfold c, limit, unit_; lia). clearbody c.
  set (a := fval (amount hi value)) in *. clearbody a.
  pose proof (frnd_near 149 (c * (hi * unit_)) ltac:(lia)) as N1. rewrite <- Va in N1. fold unit_ in N1.
  pose proof (frnd_near 0 (x * unit_ + a) ltac:(lia)) as N2. set (s := frnd 0 (x * unit_ + a)) in *. clearbody s. clear Va F.
  assert (E1 : 2 * Z.abs (a - c * hi) <= 2 ^ 16 * unit_ / 2 ^ 23).
  { apply Z.mul_le_mono_pos_r with unit_; [unfold unit_; lia|]. replace (2 * Z.abs (a - c * hi) * unit_) with (2 * Z.abs (a * unit_ - c * (hi * unit_))).
    2:{ rewrite <- Z.mul_assoc. f_equal. rewrite <- (Z.abs_eq unit_) at 3 by (unfold unit_; lia). rewrite <- Z.abs_mul. f_equal. ring. }
    etransitivity; [exact N1|]. apply Z.max_lub.
    - unfold unit_. vm_compute. discriminate.
    - apply Z.div_le_upper_bound; [lia|]. replace (2 ^ 23 * (2 ^ 16 * unit_ / 2 ^ 23 * unit_)) with (2 ^ 16 * unit_ * unit_) by (unfold unit_; vm_compute; reflexivity).
      replace (c * (hi * unit_)) with (c * hi * unit_) by ring. rewrite !Z.abs_mul, (Z.abs_eq unit_), (Z.abs_eq hi) by (unfold unit_; lia).
      apply Z.mul_le_mono_nonneg_r; [unfold unit_; lia|]. rewrite (Z.mul_comm (2 ^ 16)). apply Z.mul_le_mono_nonneg; lia. }
  assert (E2 : 2 * Z.abs (s - (x * unit_ + a)) <= 2 ^ 17 * unit_ / 2 ^ 23).
  { rewrite Z.pow_0_r, Z.mul_1_r in N2. etransitivity; [exact N2|]. apply Z.max_lub; [vm_compute; discriminate|]. apply Z.div_le_mono; [lia|]. unfold unit_ in *. lia. }
  change (2 ^ 16 * unit_ / 2 ^ 23) with (2 ^ 142) in E1. change (2 ^ 17 * unit_ / 2 ^ 23) with (2 ^ 143) in E2.
  assert (E3 : 64 * Z.abs (s - (x * unit_ + c * hi)) <= unit_) by (clear - E1 E2; unfold unit_ in *; lia).
  apply (level_of_near _ _ _ _ _ s); [lia|lia|exact E3| |unfold unit_; lia].
  pose proof (cut_near hi s ltac:(lia)). lia.
Qed.
Lemma brighten_mono hi value x x' : depth hi -> ffin value -> sample hi x -> sample hi x' -> x <= x' -> brighten1 hi value x <= brighten1 hi value x'.
Proof.
  intros Hd F Hx Hx' H. rewrite (proj1 (brighten_val hi value x Hd F Hx)), (proj1 (brighten_val hi value x' Hd F Hx')).
  apply limit_mono, Z.div_le_mono; [unfold unit_; lia|]. apply frnd_mono; [lia|]. unfold unit_. lia.
Qed.
Lemma brighten_mono_value hi v v' x : depth hi -> ffin v -> ffin v' -> sample hi x -> fval v <= fval v' -> brighten1 hi v x <= brighten1 hi v' x.
Proof.
  intros Hd F F' Hx H. rewrite (proj1 (brighten_val hi v x Hd F Hx)), (proj1 (brighten_val hi v' x Hd F' Hx)). pose proof (hi_small hi Hd).
  apply limit_mono, Z.div_le_mono; [unfold unit_; lia|]. apply frnd_mono; [lia|]. rewrite (proj2 (amount_val hi v Hd F)), (proj2 (amount_val hi v' Hd F')).
  apply Z.add_le_mono_l, frnd_mono; [lia|]. apply Z.mul_le_mono_nonneg_r; [unfold unit_; lia|]. now apply limit_mono.
Qed.
(** Whole amounts are exact. *)
Lemma brighten_whole hi value x k : depth hi -> ffin value -> sample hi x -> limit (- unit_) unit_ (fval value) * hi = k * unit_ -> brighten1 hi value x = limit 0 hi (x + k).
Proof.
  intros Hd F Hx Hk. pose proof (hi_small hi Hd) as Hh. rewrite (proj1 (brighten_val hi value x Hd F Hx)), (proj2 (amount_val hi value Hd F)).
  assert (Kb : Z.abs k <= hi). { assert (B : Z.abs (limit (- unit_) unit_ (fval value)) <= unit_) by (unfold limit, unit_; lia). unfold unit_ in *. nia. }
  rewrite Z.mul_assoc, Hk. rewrite frnd_int2 by lia. rewrite <- Z.mul_add_distr_r. unfold sample in Hx. rewrite frnd_int by lia. now rewrite Z.div_mul by (unfold unit_; lia).
Qed.

(** ** Exposure *)
Lemma mul_near z : Z.abs z <= 2 ^ 100 * unit_ * unit_ -> 2 ^ 24 * Z.abs (frnd 149 z * unit_ - z) <= Z.max (2 ^ 23 * unit_) (Z.abs z).
Proof.
  intros _. pose proof (frnd_near 149 z ltac:(lia)) as N. fold unit_ in N. pose proof (Z.mul_div_le (Z.abs z) (2 ^ 23) ltac:(lia)). lia.
Qed.
Lemma add_near z : 2 ^ 24 * Z.abs (frnd 0 z - z) <= Z.max (2 ^ 23) (Z.abs z).
Proof. pose proof (frnd_near 0 z ltac:(lia)) as N. rewrite Z.pow_0_r, Z.mul_1_r in N. pose proof (Z.mul_div_le (Z.abs z) (2 ^ 23) ltac:(lia)). lia. Qed.

Definition black_level (hi : Z) (black : f32) : f32 := fmul (fclamp black f0 f1) (of_int hi).
Lemma black_val hi black : depth hi -> ffin black ->
  ffin (black_level hi black) /\ fval (black_level hi black) = frnd 149 (limit 0 unit_ (fval black) * (hi * unit_)) /\ 0 <= fval (black_level hi black) <= hi * unit_ /\
  Z.abs (fval (black_level hi black) - limit 0 unit_ (fval black) * hi) <= 2 ^ 141.
Proof.
  intros Hd F. pose proof (hi_small hi Hd) as Hh. unfold black_level.
  destruct (fclamp_val black f0 f1 0 1 F (of_int_rep 0 ltac:(lia)) (of_int_rep 1 ltac:(lia)) ltac:(lia)) as [Fc Vc]. rewrite Z.mul_0_l, Z.mul_1_l in Vc.
  destruct (int_rep hi ltac:(lia)) as [Fs Vs]. set (c := limit 0 unit_ (fval black)) in *. assert (Hc : 0 <= c <= unit_) by (unfold c, limit, unit_; lia). clearbody c.
  assert (B : 0 <= c * (hi * unit_) <= hi * unit_ * unit_).
  { split; [unfold unit_; nia|]. replace (hi * unit_ * unit_) with (unit_ * (hi * unit_)) by ring. apply Z.mul_le_mono_nonneg_r; [unfold unit_; lia|lia]. }
  destruct (fmul_val 16 _ _ Fc Fs ltac:(lia)) as [Fm Vm].
  { rewrite Vc, Vs. rewrite (Z.abs_eq _ (proj1 B)). etransitivity; [apply B|]. apply Z.mul_le_mono_nonneg_r; unfold unit_; lia. }
  rewrite Vc, Vs in Vm. split; [exact Fm|]. split; [exact Vm|]. rewrite Vm. split.
  - split; [apply frnd_nonneg; [lia|apply B]|]. transitivity (frnd 149 (hi * unit_ * unit_)); [apply frnd_mono; [lia|apply B]|rewrite frnd_int2; lia].
  - pose proof (mul_near (c * (hi * unit_))) as N. rewrite (Z.abs_eq (c * (hi * unit_)) (proj1 B)) in N. specialize (N ltac:(etransitivity; [apply B|]; apply Z.mul_le_mono_nonneg_r; unfold unit_; lia)).
    set (m := frnd 149 (c * (hi * unit_))) in *. clearbody m. apply Z.mul_le_mono_pos_r with (unit_ * 2 ^ 24); [unfold unit_; lia|].
    replace (Z.abs (m - c * hi) * (unit_ * 2 ^ 24)) with (2 ^ 24 * Z.abs (m * unit_ - c * (hi * unit_))).
    2:{ replace (m * unit_ - c * (hi * unit_)) with ((m - c * hi) * unit_) by ring. rewrite Z.abs_mul, (Z.abs_eq unit_) by (unfold unit_; lia). ring. }
    etransitivity; [exact N|]. apply Z.max_lub; [vm_compute; discriminate|]. etransitivity; [apply B|]. replace (2 ^ 141 * (unit_ * 2 ^ 24)) with (2 ^ 16 * unit_ * unit_) by (vm_compute; reflexivity).
    apply Z.mul_le_mono_nonneg_r; unfold unit_; lia.
Qed.
Definition above_black (hi : Z) (black : f32) (x : Z) : f32 := fsub (of_int x) (black_level hi black).
Lemma above_val hi black x : depth hi -> ffin black -> sample hi x ->
  ffin (above_black hi black x) /\ fval (above_black hi black x) = frnd 0 (x * unit_ - fval (black_level hi black)) /\ Z.abs (fval (above_black hi black x)) <= hi * unit_ /\
  Z.abs (fval (above_black hi black x) - (x * unit_ - limit 0 unit_ (fval black) * hi)) <= 2 ^ 142.
Proof.
  intros Hd F Hx. pose proof (hi_small hi Hd) as Hh. destruct (black_val hi black Hd F) as (Fb & Vb & B & N). clear Vb. unfold above_black.
  destruct (int_rep x ltac:(unfold sample in Hx; lia)) as [Fi Vi]. set (b := black_level hi black) in *. clearbody b. set (c := limit 0 unit_ (fval black) * hi) in *. clearbody c. unfold sample in Hx.
  destruct (fsub_val 16 _ _ Fi Fb ltac:(lia)) as [Fs Vs]; [rewrite Vi; unfold unit_ in *; lia|]. rewrite Vi in Vs. split; [exact Fs|]. split; [exact Vs|]. rewrite Vs.
  assert (C : Z.abs (x * unit_ - fval b) <= hi * unit_) by (unfold unit_ in *; lia).
  split.
  - pose proof (frnd_mono 0 (x * unit_ - fval b) (hi * unit_) ltac:(lia) ltac:(lia)) as M1. pose proof (frnd_mono 0 (- hi * unit_) (x * unit_ - fval b) ltac:(lia) ltac:(lia)) as M2.
    rewrite frnd_int in M1, M2 by lia. lia.
  - pose proof (add_near (x * unit_ - fval b)) as A. clear - A C N Hh. unfold unit_ in *. lia.
Qed.
Lemma exposure_val hi e black x : depth hi -> ffin e -> ffin black -> sample hi x -> Z.abs (fval e) <= 2 ^ 100 * unit_ ->
  exposure1 hi e black x = limit 0 hi (frnd 149 (fval (above_black hi black x) * fval e) / unit_).
Proof.
  intros Hd Fe Fb Hx He. pose proof (hi_small hi Hd) as Hh. destruct (above_val hi black x Hd Fb Hx) as (Fa & _ & B & _). unfold exposure1. fold (black_level hi black). fold (above_black hi black x).
  set (a := above_black hi black x) in *. clearbody a.
  destruct (fmul_val 116 _ _ Fa Fe ltac:(lia)) as [Fm Vm].
  { rewrite Z.abs_mul. replace (2 ^ 116 * unit_ * unit_) with ((2 ^ 16 * unit_) * (2 ^ 100 * unit_)) by (unfold unit_; ring). apply Z.mul_le_mono_nonneg; unfold unit_ in *; lia. }
  destruct (fclamp_val _ f0 (of_int hi) 0 hi Fm (of_int_rep 0 ltac:(lia)) (of_int_rep hi ltac:(lia)) ltac:(lia)) as [Fc Vc].
  rewrite to_uint_val by (easy || lia). rewrite Vc, Vm. rewrite Z.mul_0_l. apply limit_div. lia.
Qed.
Lemma above_mono hi black x x' : depth hi -> ffin black -> sample hi x -> sample hi x' -> x <= x' -> fval (above_black hi black x) <= fval (above_black hi black x').
Proof.
  intros Hd Fb Hx Hx' H. destruct (above_val hi black x Hd Fb Hx) as (_ & -> & _). destruct (above_val hi black x' Hd Fb Hx') as (_ & -> & _). apply frnd_mono; [lia|]. unfold unit_. lia.
Qed.
Lemma exposure_mono hi e black x x' : depth hi -> ffin e -> ffin black -> sample hi x -> sample hi x' -> 0 <= fval e <= 2 ^ 100 * unit_ -> x <= x' ->
  exposure1 hi e black x <= exposure1 hi e black x'.
Proof.
  intros Hd Fe Fb Hx Hx' He H. rewrite !exposure_val by (easy || lia). apply limit_mono, Z.div_le_mono; [unfold unit_; lia|]. apply frnd_mono; [lia|].
  apply Z.mul_le_mono_nonneg_r; [lia|]. now apply above_mono.
Qed.
Lemma exposure_below_black hi e black x : depth hi -> ffin e -> ffin black -> sample hi x -> 0 <= fval e <= 2 ^ 100 * unit_ ->
  x * unit_ <= limit 0 unit_ (fval black) * hi -> exposure1 hi e black x = 0.
Proof.
  intros Hd Fe Fb Hx He H. pose proof (hi_small hi Hd) as Hh. rewrite exposure_val by (easy || lia). destruct (above_val hi black x Hd Fb Hx) as (_ & Va & _). destruct (black_val hi black Hd Fb) as (_ & Vb & _).
  assert (A : fval (above_black hi black x) <= 0).
  { rewrite Va. apply frnd_nonpos; [lia|]. rewrite Vb.
    assert (x * unit_ <= frnd 149 (limit 0 unit_ (fval black) * (hi * unit_))); [|lia]. unfold sample in Hx. rewrite <- (frnd_int2 x) by lia. apply frnd_mono; [lia|].
    rewrite Z.mul_assoc. apply Z.mul_le_mono_nonneg_r; [unfold unit_; lia|exact H]. }
  assert (M : frnd 149 (fval (above_black hi black x) * fval e) <= 0).
  { apply frnd_nonpos; [lia|]. nia. }
  unfold limit. assert (frnd 149 (fval (above_black hi black x) * fval e) / unit_ <= 0); [|lia]. apply Z.div_le_upper_bound; [unfold unit_; lia|lia].
Qed.
Lemma cut_near2 hi z : 0 <= hi -> limit 0 (hi * (unit_ * unit_)) (z * unit_) - unit_ * unit_ <= limit 0 hi (z / unit_) * (unit_ * unit_) <= limit 0 (hi * (unit_ * unit_)) (z * unit_).
Proof.
  intros H. pose proof (cut_near hi z H) as C. assert (U : 0 < unit_) by (unfold unit_; lia).
  replace (limit 0 (hi * (unit_ * unit_)) (z * unit_)) with (limit 0 (hi * unit_) z * unit_).
  2:{ unfold limit. rewrite <- Z.mul_max_distr_nonneg_r, <- Z.mul_min_distr_nonneg_r by lia. f_equal. f_equal. ring. }
  set (v := limit 0 hi (z / unit_)) in *. set (w := limit 0 (hi * unit_) z) in *. clearbody v w. set (u := unit_) in *. clearbody u. nia.
Qed.
Lemma exposure_level hi e black x : depth hi -> ffin e -> ffin black -> sample hi x -> Z.abs (fval e) <= 8 * unit_ ->
  level_of hi ((x * unit_ - limit 0 unit_ (fval black) * hi) * fval e) (unit_ * unit_) 8 (exposure1 hi e black x).
Proof.
  intros Hd Fe Fb Hx He. pose proof (hi_small hi Hd) as Hh. rewrite exposure_val by (easy || (unfold unit_ in *; lia)). destruct (above_val hi black x Hd Fb Hx) as (_ & _ & B & N).
  set (a := fval (above_black hi black x)) in *. clearbody a. set (t := x * unit_ - limit 0 unit_ (fval black) * hi) in *. clearbody t. set (ev := fval e) in *. clearbody ev.
  assert (P : Z.abs (a * ev) <= 2 ^ 19 * unit_ * unit_).
  { rewrite Z.abs_mul. replace (2 ^ 19 * unit_ * unit_) with ((2 ^ 16 * unit_) * (8 * unit_)) by (unfold unit_; ring). apply Z.mul_le_mono_nonneg; unfold unit_ in *; lia. }
  pose proof (mul_near (a * ev) ltac:(etransitivity; [exact P|]; apply Z.mul_le_mono_nonneg_r; unfold unit_; lia)) as M.
  assert (Q : Z.abs (a * ev - t * ev) <= 2 ^ 145 * unit_).
  { replace (a * ev - t * ev) with ((a - t) * ev) by ring. rewrite Z.abs_mul. replace (2 ^ 145 * unit_) with (2 ^ 142 * (8 * unit_)) by ring. apply Z.mul_le_mono_nonneg; lia. }
  set (m := frnd 149 (a * ev)) in *. clearbody m. set (p := a * ev) in *. clearbody p. set (q := t * ev) in *. clearbody q.
  apply (level_of_near _ _ _ _ _ (m * unit_)); [lia|lia| |apply cut_near2; lia|unfold unit_; lia].
  assert (M2 : 2 ^ 24 * Z.abs (m * unit_ - p) <= 2 ^ 19 * unit_ * unit_) by (etransitivity; [exact M|]; apply Z.max_lub; [vm_compute; discriminate|exact P]).
  clear - M2 Q. set (d := m * unit_) in *. clearbody d. unfold unit_ in *. lia.
Qed.
Lemma exposure_one hi x : depth hi -> sample hi x -> exposure1 hi f1 f0 x = x.
Proof.
  intros Hd Hx. pose proof (hi_small hi Hd) as Hh. destruct (int_rep 1 ltac:(lia)) as [F1 V1]. destruct (int_rep 0 ltac:(lia)) as [F0 V0]. fold f1 in F1, V1. fold f0 in F0, V0.
  rewrite exposure_val by (easy || (rewrite V1; unfold unit_; lia)). destruct (above_val hi f0 x Hd F0 Hx) as (_ & Va & _). destruct (black_val hi f0 Hd F0) as (_ & Vb & _). unfold sample in Hx.
  rewrite Va, Vb, V0, V1. replace (limit 0 unit_ (0 * unit_) * (hi * unit_)) with (0 * unit_ * unit_) by reflexivity. rewrite frnd_int2 by lia. rewrite Z.mul_0_l, Z.sub_0_r, frnd_int by lia.
  replace (x * unit_ * (1 * unit_)) with (x * unit_ * unit_) by ring. rewrite frnd_int2 by lia. rewrite Z.div_mul by (unfold unit_; lia). unfold limit. lia.
Qed.
