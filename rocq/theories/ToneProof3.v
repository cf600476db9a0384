(** Proofs about the tone filters, continued: sums of products, gamma and hue. *)
From Verif Require Import Base BaseProof F32 F32Round ToneModel ToneSpec ToneProof ToneProof2.

(** ** Sums of products of samples and weights *)
Lemma product_val k x : ffin k -> 0 <= x < 2 ^ 16 -> Z.abs (x * fval k) <= 2 ^ 100 * unit_ ->
  ffin (fmul (of_int x) k) /\ 2 ^ 24 * Z.abs (fval (fmul (of_int x) k) - x * fval k) <= Z.abs (x * fval k) + 2 ^ 23.
Proof.
  intros F Hx H. destruct (int_rep x ltac:(lia)) as [Fx Vx]. set (kv := fval k) in *.
  assert (E : x * unit_ * kv = x * kv * unit_) by ring. assert (Ub : 0 < unit_) by (unfold unit_; lia).
  assert (P : Z.abs (x * unit_ * kv) <= 2 ^ 100 * unit_ * unit_) by (rewrite E, Z.abs_mul, (Z.abs_eq unit_) by lia; apply Z.mul_le_mono_nonneg_r; [lia|exact H]).
  destruct (fmul_val 100 _ _ Fx F ltac:(lia)) as [Fm Vm]; [rewrite Vx; exact P|]. rewrite Vx in Vm. fold kv in Vm. split; [exact Fm|]. rewrite Vm.
  pose proof (mul_near _ P) as N. set (m := frnd 149 (x * unit_ * kv)) in *. clearbody m. rewrite E in N.
  replace (m * unit_ - x * kv * unit_) with ((m - x * kv) * unit_) in N by ring. rewrite !Z.abs_mul, (Z.abs_eq unit_), <- Z.abs_mul in N by lia.
  set (p := Z.abs (x * kv)) in *. assert (0 <= p) by (unfold p; lia). clearbody p. set (d := Z.abs (m - x * kv)) in *. clearbody d. clear - N H0 Ub.
  apply Z.mul_le_mono_pos_r with unit_; [exact Ub|]. nia.
Qed.
Definition dot_abs (xs : list Z) (ks : list f32) : Z := fold_right Z.add 0 (map (fun xk => Z.abs (fst xk * fval (snd xk))) (combine xs ks)).
Lemma dot_abs_pos xs ks : 0 <= dot_abs xs ks.
Proof. unfold dot_abs. induction (combine xs ks) as [|a l IH]; cbn [map fold_right]; lia. Qed.
Lemma dot_le_abs xs ks : Z.abs (dot xs ks) <= dot_abs xs ks.
Proof. unfold dot, dot_abs. induction (combine xs ks) as [|a l IH]; cbn [map fold_right]; lia. Qed.

(** One step of the sum: [S] the float, [s] the exact sum of [n] products whose absolute values add up to [q] *)
Lemma sum_step A n S s q k x : 0 <= n < 64 -> 0 <= q -> q + Z.abs (x * fval k) <= A -> A <= 2 ^ 90 * unit_ -> ffin S -> ffin k -> 0 <= x < 2 ^ 16 -> Z.abs s <= q ->
  2 ^ 26 * Z.abs (fval S - s) <= 4 * q + n * (5 * A + 2 ^ 52) ->
  ffin (fadd S (fmul (of_int x) k)) /\
  2 ^ 26 * Z.abs (fval (fadd S (fmul (of_int x) k)) - (s + x * fval k)) <= 4 * (q + Z.abs (x * fval k)) + (n + 1) * (5 * A + 2 ^ 52).
Proof.
  intros Hn Hq HA HA2 FS Fk Hx Hs HE. destruct (product_val k x Fk Hx ltac:(unfold unit_ in *; lia)) as [Fm Nm]. set (p := x * fval k) in *. clearbody p.
  set (t := fval (fmul (of_int x) k)) in *.
  assert (HE' : 2 ^ 26 * Z.abs (fval S - s) <= 4 * A + 64 * (5 * A + 2 ^ 52)) by nia.
  assert (B : Z.abs (fval S + t) <= A + A / 4 + 2 ^ 49) by (clear HE Fm; lia).
  destruct (fadd_val 100 S _ FS Fm ltac:(lia)) as [Fa Va]; [fold t; clear - B HA2; unfold unit_ in *; lia|]. fold t in Va. split; [exact Fa|]. rewrite Va.
  pose proof (add_near (fval S + t)) as N. set (z := frnd 0 (fval S + t)) in *. clearbody z t. clear - N B Nm HE Hn. lia.
Qed.
Lemma sum_near A : A <= 2 ^ 90 * unit_ -> forall ks xs n S s q, 0 <= n -> n + Z.of_nat (length ks) <= 64 -> 0 <= q -> q + dot_abs xs ks <= A ->
  Forall ffin ks -> Forall (fun x => 0 <= x < 2 ^ 16) xs -> length xs = length ks -> ffin S -> Z.abs s <= q ->
  2 ^ 26 * Z.abs (fval S - s) <= 4 * q + n * (5 * A + 2 ^ 52) ->
  let R := fold_left fadd (map (fun xw => fmul (of_int (fst xw)) (snd xw)) (combine xs ks)) S in
  ffin R /\ 2 ^ 26 * Z.abs (fval R - (s + dot xs ks)) <= 4 * (q + dot_abs xs ks) + (n + Z.of_nat (length ks)) * (5 * A + 2 ^ 52).
Proof.
  intros HA. induction ks as [|k ks IH]; intros [|x xs] n S s q Hn Hl Hq Hqa Fk Fx L FS Hs HE; try discriminate.
  - cbn [combine map fold_left length] in *. unfold dot, dot_abs. cbn [combine map fold_right]. split; [exact FS|]. rewrite !Z.add_0_r. exact HE.
  - inversion Fk as [|? ? Fk1 Fk2]; subst. inversion Fx as [|? ? Fx1 Fx2]; subst. cbn [combine map fold_left length fst snd] in *.
    assert (E1 : dot (x :: xs) (k :: ks) = x * fval k + dot xs ks) by reflexivity.
    assert (E2 : dot_abs (x :: xs) (k :: ks) = Z.abs (x * fval k) + dot_abs xs ks) by reflexivity. rewrite E2 in *. rewrite E1.
    pose proof (dot_abs_pos xs ks). destruct (sum_step A n S s q k x ltac:(lia) Hq ltac:(lia) HA FS Fk1 Fx1 Hs HE) as [Fa Na].
    destruct (IH xs (n + 1) _ (s + x * fval k) (q + Z.abs (x * fval k)) ltac:(lia) ltac:(lia) ltac:(lia) ltac:(lia) Fk2 Fx2 ltac:(lia) Fa ltac:(lia) Na) as [FR NR].
    split; [exact FR|]. rewrite !Z.add_assoc in *. replace (n + Z.of_nat (Datatypes.S (length ks))) with (n + 1 + Z.of_nat (length ks)) by lia. exact NR.
Qed.
(** From zero *)
Lemma dot_near A xs ks : A <= 2 ^ 90 * unit_ -> dot_abs xs ks <= A -> (length ks <= 64)%nat -> Forall ffin ks -> Forall (fun x => 0 <= x < 2 ^ 16) xs -> length xs = length ks ->
  let R := fold_left fadd (map (fun xw => fmul (of_int (fst xw)) (snd xw)) (combine xs ks)) f0 in
  ffin R /\ 2 ^ 26 * Z.abs (fval R - dot xs ks) <= 4 * A + Z.of_nat (length ks) * (5 * A + 2 ^ 52).
Proof.
  intros HA HD HL FK FX L. destruct (int_rep 0 ltac:(lia)) as [F0 V0]. fold f0 in F0, V0. rewrite Z.mul_0_l in V0.
  destruct (sum_near A HA ks xs 0 f0 0 0 ltac:(lia) ltac:(lia) ltac:(lia) ltac:(lia) FK FX L F0 ltac:(lia)) as [FR NR]; [rewrite V0; lia|].
  split; [exact FR|]. rewrite !Z.add_0_l in NR. lia.
Qed.

(** ** The colour matrix *)
Lemma dot_abs_bound hi : 0 <= hi -> forall ks xs, Forall (fun x => 0 <= x <= hi) xs -> dot_abs xs ks <= hi * weight_total ks.
Proof.
  intros Hh. induction ks as [|k ks IH]; intros xs F.
  { destruct xs; cbn; lia. }
  destruct xs as [|x xs]. { pose proof (weight_total_pos (k :: ks)). change (dot_abs [] (k :: ks)) with 0. nia. }
  inversion F as [|? ? F1 F2]; subst. specialize (IH xs F2). unfold dot_abs in *. cbn [combine map fold_right weight_total fst snd]. rewrite Z.abs_mul, (Z.abs_eq x) by lia. nia.
Qed.
Lemma sum_five hi k0 k1 k2 k3 k4 r g b a m : depth hi -> sample hi r -> sample hi g -> sample hi b -> sample hi a -> sample hi m -> Forall ffin [k0; k1; k2; k3; k4] ->
  hi * weight_total [k0; k1; k2; k3; k4] <= 2 ^ 90 * unit_ ->
  let A := hi * weight_total [k0; k1; k2; k3; k4] in
  let R := fadd (fadd (fadd (fadd (fmul (of_int r) k0) (fmul (of_int g) k1)) (fmul (of_int b) k2)) (fmul (of_int a) k3)) (fmul (of_int m) k4) in
  ffin R /\ 2 ^ 26 * Z.abs (fval R - dot [r; g; b; a; m] [k0; k1; k2; k3; k4]) <= 29 * A + 5 * 2 ^ 52.
Proof.
  intros Hd Hr Hg Hb Ha Hm FK HA A R. pose proof (hi_small hi Hd) as Hh. inversion FK as [|? ? F0 FK']; subst.
  assert (FX : Forall (fun x => 0 <= x <= hi) [r; g; b; a; m]) by (repeat constructor; unfold sample in *; lia).
  pose proof (dot_abs_bound hi ltac:(lia) [k0; k1; k2; k3; k4] _ FX) as DB. fold A in DB, HA.
  assert (ED : dot_abs [r; g; b; a; m] [k0; k1; k2; k3; k4] = Z.abs (r * fval k0) + dot_abs [g; b; a; m] [k1; k2; k3; k4]) by reflexivity. rewrite ED in DB.
  pose proof (dot_abs_pos [g; b; a; m] [k1; k2; k3; k4]) as DP. clearbody A. inversion FX as [|? ? X0 FX']; subst.
  destruct (product_val k0 r F0 ltac:(lia) ltac:(unfold unit_ in *; lia)) as [Fp Np].
  destruct (sum_near A HA [k1; k2; k3; k4] [g; b; a; m] 1 (fmul (of_int r) k0) (r * fval k0) (Z.abs (r * fval k0))) as [FR NR]; try (cbn [length]; lia); try easy.
  - eapply Forall_impl; [|exact FX']. intros v Hv; cbv beta in *; lia.
  - cbn [combine map fold_left fst snd] in FR, NR. fold R in FR, NR. split; [exact FR|]. cbn [length] in NR. 
    change (r * fval k0 + dot [g; b; a; m] [k1; k2; k3; k4]) with (dot [r; g; b; a; m] [k0; k1; k2; k3; k4]) in NR. clear - NR DB. lia.
Qed.
Lemma dot_five r g b a m k0 k1 k2 k3 k4 : dot [r; g; b; a; m] [k0; k1; k2; k3; k4] = r * fval k0 + g * fval k1 + b * fval k2 + a * fval k3 + m * fval k4.
Proof. unfold dot. cbn [combine map fold_right fst snd]. ring. Qed.
Lemma matrix_level hi k0 k1 k2 k3 k4 r g b a : depth hi -> sample hi r -> sample hi g -> sample hi b -> sample hi a -> Forall ffin [k0; k1; k2; k3; k4] ->
  29 * (hi * weight_total [k0; k1; k2; k3; k4]) <= 2 ^ 24 * unit_ ->
  level_of hi (r * fval k0 + g * fval k1 + b * fval k2 + a * fval k3 + hi * fval k4) unit_ 2 (matrix_row hi [k0; k1; k2; k3; k4] [r; g; b; a]).
Proof.
  intros Hd Hr Hg Hb Ha FK HA. pose proof (hi_small hi Hd) as Hh. assert (Hm : sample hi hi) by (unfold sample; lia).
  destruct (sum_five hi k0 k1 k2 k3 k4 r g b a hi Hd Hr Hg Hb Ha Hm FK ltac:(unfold unit_ in *; lia)) as [FR NR]. rewrite dot_five in NR. cbn [matrix_row].
  set (R := fadd _ _) in *. rewrite to_uint_val by (easy || lia). set (z := fval R) in *. clearbody z.
  apply (level_of_near _ _ _ _ _ z); [lia|lia| |pose proof (cut_near hi z ltac:(lia)); lia|unfold unit_; lia].
  set (t := r * fval k0 + g * fval k1 + b * fval k2 + a * fval k3 + hi * fval k4) in *. clearbody t. clear - NR HA. unfold unit_ in *. lia.
Qed.
(** Whole entries are exact *)
Lemma matrix_whole hi m0 m1 m2 m3 m4 r g b a : depth hi -> sample hi r -> sample hi g -> sample hi b -> sample hi a ->
  hi * (Z.abs m0 + Z.abs m1 + Z.abs m2 + Z.abs m3 + Z.abs m4) < 2 ^ 24 ->
  matrix_row hi (map of_int [m0; m1; m2; m3; m4]) [r; g; b; a] = limit 0 hi (m0 * r + m1 * g + m2 * b + m3 * a + m4 * hi).
Proof.
  intros Hd Hr Hg Hb Ha H. pose proof (hi_small hi Hd) as Hh. unfold sample in *. cbn [map matrix_row].
  rewrite !Z.mul_add_distr_l in H.
  assert (K : forall k, 0 <= hi * Z.abs k /\ Z.abs k <= hi * Z.abs k) by (clear - Hh; intros k; split; nia).
  assert (P : forall x k, 0 <= x <= hi -> hi * Z.abs k < 2 ^ 24 -> rep (fmul (of_int x) (of_int k)) (x * k) /\ Z.abs (x * k) <= hi * Z.abs k).
  { intros x k Hx Hk. assert (B : Z.abs (x * k) <= hi * Z.abs k) by (rewrite Z.abs_mul, (Z.abs_eq x) by lia; apply Z.mul_le_mono_nonneg_r; lia). split; [|exact B].
    destruct (K k). apply fmul_rep; [apply of_int_rep; lia|apply of_int_rep; lia|lia]. }
  destruct (K m0) as [K0 _], (K m1) as [K1 _], (K m2) as [K2 _], (K m3) as [K3 _], (K m4) as [K4 _]. clear K.
  pose proof (P r m0 Hr) as Q0. pose proof (P g m1 Hg) as Q1. pose proof (P b m2 Hb) as Q2. pose proof (P a m3 Ha) as Q3. pose proof (P hi m4 ltac:(lia)) as Q4. clear P.
  set (c0 := hi * Z.abs m0) in *. set (c1 := hi * Z.abs m1) in *. set (c2 := hi * Z.abs m2) in *. set (c3 := hi * Z.abs m3) in *. set (c4 := hi * Z.abs m4) in *. clearbody c0 c1 c2 c3 c4.
  destruct (Q0 ltac:(lia)) as [P0 B0]. destruct (Q1 ltac:(lia)) as [P1 B1]. destruct (Q2 ltac:(lia)) as [P2 B2]. destruct (Q3 ltac:(lia)) as [P3 B3]. destruct (Q4 ltac:(lia)) as [P4 B4].
  apply Z.abs_le in B0, B1, B2, B3, B4. clear Q0 Q1 Q2 Q3 Q4.
  assert (S1 := fadd_rep _ _ _ _ P0 P1 ltac:(lia)). assert (S2 := fadd_rep _ _ _ _ S1 P2 ltac:(lia)). assert (S3 := fadd_rep _ _ _ _ S2 P3 ltac:(lia)). assert (S4 := fadd_rep _ _ _ _ S3 P4 ltac:(lia)).
  rewrite (to_uint_rep hi _ _ ltac:(lia) S4). unfold limit. do 2 f_equal. ring.
Qed.

(** ** Gamma *)
Definition inv_of (hi : Z) : f32 := fdiv f1 (of_int hi).
Definition base (hi x : Z) : f32 := fmul (of_int x) (inv_of hi).
Lemma inv_ok hi : depth hi -> ffin (inv_of hi) /\ 0 <= fval (inv_of hi) <= unit_ /\ frnd 149 (hi * unit_ * fval (inv_of hi)) = unit_.
Proof. intros [-> | ->]; (split; [vm_compute; reflexivity|split; [split; vm_compute; discriminate|vm_compute; reflexivity]]). Qed.
Lemma base_val hi x : depth hi -> sample hi x -> ffin (base hi x) /\ fval (base hi x) = frnd 149 (x * unit_ * fval (inv_of hi)) /\ 0 <= fval (base hi x) <= unit_.
Proof.
  intros Hd Hx. pose proof (hi_small hi Hd) as Hh. destruct (inv_ok hi Hd) as (Fi & Bi & Ei). unfold sample in Hx. destruct (int_rep x ltac:(lia)) as [Fx Vx]. unfold base.
  set (iv := inv_of hi) in *. clearbody iv.
  destruct (fmul_val 16 _ _ Fx Fi ltac:(lia)) as [Fm Vm].
  { rewrite Vx, Z.abs_mul. rewrite (Z.abs_eq (x * unit_)), (Z.abs_eq (fval iv)) by (unfold unit_; lia). apply Z.mul_le_mono_nonneg; unfold unit_ in *; lia. }
  rewrite Vx in Vm. split; [exact Fm|]. split; [exact Vm|]. rewrite Vm. split; [apply frnd_nonneg; [lia|]; unfold unit_ in *; nia|].
  rewrite <- Ei at 2. apply frnd_mono; [lia|]. apply Z.mul_le_mono_nonneg_r; [lia|]. unfold unit_. lia.
Qed.
Lemma base_mono hi x x' : depth hi -> sample hi x -> sample hi x' -> x <= x' -> fval (base hi x) <= fval (base hi x').
Proof.
  intros Hd Hx Hx' H. destruct (base_val hi x Hd Hx) as (_ & -> & _). destruct (base_val hi x' Hd Hx') as (_ & -> & _). destruct (inv_ok hi Hd) as (_ & Bi & _).
  apply frnd_mono; [lia|]. apply Z.mul_le_mono_nonneg_r; [lia|]. unfold unit_. lia.
Qed.
Lemma gamma_val powf hi value x : depth hi -> sample hi x -> ffin (powf (base hi x) value) -> 0 <= fval (powf (base hi x) value) <= unit_ ->
  gamma_entry powf hi value x = limit 0 hi (frnd 149 (hi * unit_ * fval (powf (base hi x) value)) / unit_).
Proof.
  intros Hd Hx Fp Bp. pose proof (hi_small hi Hd) as Hh. unfold gamma_entry. fold (inv_of hi). fold (base hi x). set (p := powf (base hi x) value) in *. clearbody p.
  destruct (int_rep hi ltac:(lia)) as [Fh Vh].
  assert (B : 0 <= hi * unit_ * fval p <= hi * unit_ * unit_) by (split; [unfold unit_ in *; nia|]; apply Z.mul_le_mono_nonneg_l; unfold unit_ in *; lia).
  destruct (fmul_val 16 _ _ Fh Fp ltac:(lia)) as [Fm Vm].
  { rewrite Vh, (Z.abs_eq _ (proj1 B)). etransitivity; [apply B|]. apply Z.mul_le_mono_nonneg_r; unfold unit_; lia. }
  rewrite Vh in Vm. rewrite (ltb_ok 24 128) by easy. rewrite Vm, Vh.
  assert (frnd 149 (hi * unit_ * fval p) <= hi * unit_) by (transitivity (frnd 149 (hi * unit_ * unit_)); [apply frnd_mono; [lia|apply B]|rewrite frnd_int2; lia]).
  replace (hi * unit_ <? frnd 149 (hi * unit_ * fval p)) with false by lia. rewrite to_uint_val by (easy || lia). now rewrite Vm.
Qed.
Lemma gamma_lookup powf hi value l : depth hi -> Forall (sample hi) l -> gamma powf hi value l = map (gamma_entry powf hi value) l.
Proof.
  intros Hd F. unfold gamma. apply map_ext_in. intros x Hx. apply (proj1 (Forall_forall _ _) F) in Hx. unfold sample in Hx. unfold gamma_lut.
  rewrite (map_nth_in _ _ _ 0%nat 1) by (rewrite seq_length; lia). rewrite seq_nth by lia. f_equal. lia.
Qed.

(** ** Hue, saturation and lightness *)
Lemma scaled_wide k x : ffin k -> Z.abs (fval k) <= 2 ^ 80 * unit_ -> 0 <= x < 2 ^ 16 ->
  ffin (fmul k (of_int x)) /\ fval (fmul k (of_int x)) = frnd 149 (fval k * (x * unit_)) /\ Z.abs (frnd 149 (fval k * (x * unit_))) <= 2 ^ 96 * unit_.
Proof.
  intros F H Hx. destruct (int_rep x ltac:(lia)) as [Fx Vx].
  assert (P : Z.abs (fval k * (x * unit_)) <= 2 ^ 96 * unit_ * unit_).
  { rewrite Z.abs_mul, (Z.abs_eq (x * unit_)) by (unfold unit_; lia). replace (2 ^ 96 * unit_ * unit_) with ((2 ^ 80 * unit_) * (2 ^ 16 * unit_)) by (unfold unit_; ring). apply Z.mul_le_mono_nonneg; unfold unit_ in *; lia. }
  destruct (fmul_val 96 _ _ F Fx ltac:(lia)) as [Fm Vm]; [rewrite Vx; exact P|]. rewrite Vx in Vm. split; [exact Fm|]. split; [exact Vm|]. apply frnd_bound; [lia|lia|exact P].
Qed.
Lemma hsv_row_val hi k0 k1 k2 r g b : depth hi -> sample hi r -> sample hi g -> sample hi b -> Forall ffin [k0; k1; k2] ->
  Z.abs (fval k0) <= 2 ^ 80 * unit_ -> Z.abs (fval k1) <= 2 ^ 80 * unit_ -> Z.abs (fval k2) <= 2 ^ 80 * unit_ ->
  hsv_row hi [k0; k1; k2] [r; g; b] =
  limit 0 hi (frnd 0 (frnd 0 (frnd 149 (fval k0 * (r * unit_)) + frnd 149 (fval k1 * (g * unit_))) + frnd 149 (fval k2 * (b * unit_))) / unit_).
Proof.
  intros Hd Hr Hg Hb FK H0 H1 H2. pose proof (hi_small hi Hd) as Hh. unfold sample in *. inversion FK as [|? ? F0 FK']; subst. inversion FK' as [|? ? F1 FK2]; subst. inversion FK2 as [|? ? F2 _]; subst.
  destruct (scaled_wide k0 r F0 H0 ltac:(lia)) as (G0 & V0 & B0). destruct (scaled_wide k1 g F1 H1 ltac:(lia)) as (G1 & V1 & B1). destruct (scaled_wide k2 b F2 H2 ltac:(lia)) as (G2 & V2 & B2). cbn [hsv_row].
  set (a0 := frnd 149 (fval k0 * (r * unit_))) in *. set (a1 := frnd 149 (fval k1 * (g * unit_))) in *. set (a2 := frnd 149 (fval k2 * (b * unit_))) in *. clearbody a0 a1 a2. clear H0 H1 H2.
  destruct (fadd_val 97 _ _ G0 G1 ltac:(lia)) as [S1 W1]; [rewrite V0, V1; clear - B0 B1; unfold unit_ in *; lia|]. rewrite V0, V1 in W1.
  assert (B3 : Z.abs (frnd 0 (a0 + a1)) <= 2 ^ 97 * unit_) by (apply frnd_bound; [lia|lia|clear - B0 B1; unfold unit_ in *; lia]).
  destruct (fadd_val 98 _ _ S1 G2 ltac:(lia)) as [S2 W2]; [rewrite W1, V2; clear - B3 B2; unfold unit_ in *; lia|]. rewrite W1, V2 in W2.
  destruct (fclamp_val _ f0 (of_int hi) 0 hi S2 (of_int_rep 0 ltac:(lia)) (of_int_rep hi ltac:(lia)) ltac:(lia)) as [Fc Vc].
  rewrite to_uint_val by (easy || lia). rewrite Vc, W2, Z.mul_0_l. apply limit_div. lia.
Qed.
(** Adding or subtracting nothing *)
Lemma keep_add x y : ffin x -> ffin y -> fval y = 0 -> ffin (fadd x y) /\ fval (fadd x y) = fval x.
Proof.
  intros Fx Fy E. destruct (add_ok 24 128 ltac:(lia) ltac:(lia) x y Fx Fy) as [F V].
  - rewrite E, Z.add_0_r. rewrite (sval_rnds 24 128 ltac:(lia) x Fx). apply (sval_fits 24 128 ltac:(lia) ltac:(lia) x Fx).
  - split; [exact F|]. unfold fadd. rewrite V, E, Z.add_0_r. apply (sval_rnds 24 128 ltac:(lia) x Fx).
Qed.
Lemma keep_sub x y : ffin x -> ffin y -> fval y = 0 -> ffin (fsub x y) /\ fval (fsub x y) = fval x.
Proof.
  intros Fx Fy E. destruct (sub_ok 24 128 ltac:(lia) ltac:(lia) x y Fx Fy) as [F V].
  - rewrite E, Z.sub_0_r. rewrite (sval_rnds 24 128 ltac:(lia) x Fx). apply (sval_fits 24 128 ltac:(lia) ltac:(lia) x Fx).
  - split; [exact F|]. unfold fsub. rewrite V, E, Z.sub_0_r. apply (sval_rnds 24 128 ltac:(lia) x Fx).
Qed.
Lemma mul_zero x y : ffin x -> ffin y -> fval x = 0 \/ fval y = 0 -> ffin (fmul x y) /\ fval (fmul x y) = 0.
Proof.
  intros Fx Fy E. assert (P : fval x * fval y = 0) by (destruct E as [-> | ->]; lia). destruct (fmul_val 0 x y Fx Fy ltac:(lia)) as [F V]; [rewrite P; unfold unit_; lia|].
  split; [exact F|]. rewrite V, P. reflexivity.
Qed.
Lemma lit_fin n : In n [299; 701; 168; 587; 330; 114; 497; 328; 413; 35; 292; 300; 1250; 588; 1050; 886; 203] -> ffin (lit n 1000) /\ Z.abs (fval (lit n 1000)) <= 2 * unit_.
Proof. intros H. cbn [In] in H. repeat (destruct H as [<- | H]; [split; [vm_compute; reflexivity|vm_compute; discriminate]|]). easy. Qed.
(** Without saturation the weights are those of lightness alone. *)
Lemma weight_gray v vsu vsw a b c : ffin a -> ffin (fst b) -> ffin (fst c) -> ffin v -> ffin vsu -> ffin vsw -> fval vsu = 0 -> fval vsw = 0 -> Z.abs (fval a) <= 2 * unit_ -> Z.abs (fval v) <= 2 ^ 78 * unit_ ->
  ffin (hsv_weight v vsu vsw (plus a) b c) /\ fval (hsv_weight v vsu vsw (plus a) b c) = frnd 149 (fval a * fval v) /\ Z.abs (fval (hsv_weight v vsu vsw (plus a) b c)) <= 2 ^ 80 * unit_.
Proof.
  intros Fa Fb Fc Fv Fu Fw Eu Ew Ha Hv. destruct b as [b sb], c as [c sc]. unfold hsv_weight. cbn [plus fst snd] in *.
  assert (P : Z.abs (fval a * fval v) <= 2 ^ 80 * unit_ * unit_).
  { rewrite Z.abs_mul. replace (2 ^ 80 * unit_ * unit_) with ((4 * unit_) * (2 ^ 78 * unit_)) by (unfold unit_; ring). apply Z.mul_le_mono_nonneg; unfold unit_ in *; lia. }
  destruct (fmul_val 80 a v Fa Fv ltac:(lia) P) as [Ft Vt].
  destruct (mul_zero b vsu Fb Fu (or_intror Eu)) as [F1 Z1]. destruct (mul_zero c vsw Fc Fw (or_intror Ew)) as [F2 Z2].
  assert (D : forall w : f32, ffin w -> fval w = fval (fmul a v) -> ffin w /\ fval w = frnd 149 (fval a * fval v) /\ Z.abs (fval w) <= 2 ^ 80 * unit_).
  { intros w G W. split; [exact G|]. rewrite W, Vt. split; [reflexivity|]. apply frnd_bound; [lia|lia|exact P]. }
  destruct (keep_sub _ _ Ft F1 Z1) as [G1 W1]. destruct (keep_add _ _ Ft F1 Z1) as [G1' W1'].
  destruct sb, sc; apply D.
  - apply keep_sub; assumption.
  - rewrite <- W1. apply keep_sub; assumption.
  - apply keep_add; assumption.
  - rewrite <- W1. apply keep_add; assumption.
  - apply keep_sub; assumption.
  - rewrite <- W1'. apply keep_sub; assumption.
  - apply keep_add; assumption.
  - rewrite <- W1'. apply keep_add; assumption.
Qed.
