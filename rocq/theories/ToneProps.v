(** Tone and colour filters: brightness (C99), exposure and contrast (C100), blending (C101), gamma (C102), colour
    matrices (C103), hue and saturation (C104). [level_of hi num den slack v] says that v is num/den, limited to the range
    of the samples and cut to an integer, with an error of at most 1/slack level before the cut. *)
From Verif Require Import Base BaseProof F32 F32Round ToneModel ToneSpec ToneProof ToneProof2 ToneProof3.

Definition half : f32 := S754_finite false 8388608 (-24).
Lemma half_fin : ffin half /\ 2 * fval half = unit_. Proof. split; vm_compute; reflexivity. Qed.

Lemma Forall3 {A} (P : A -> Prop) a b c : P a -> P b -> P c -> Forall P [a; b; c].
Proof. intros Ha Hb Hc. exact (Forall_cons _ Ha (Forall_cons _ Hb (Forall_cons _ Hc (Forall_nil _)))). Qed.

(** ** C99 *)

(** Every sample grows by the amount times the largest sample, for every amount from -1 to 1; amounts beyond count as
    -1 or 1. *)
Theorem brighten_accurate hi value l : depth hi -> ffin value -> Forall (sample hi) l ->
  Forall2 (fun x v => level_of hi (x * unit_ + limit (- unit_) unit_ (fval value) * hi) unit_ 64 v) l (brighten hi value l).
Proof. intros Hd F H. unfold brighten. induction H; cbn [map]; constructor; [now apply brighten_level|easy]. Qed.
Print Assumptions brighten_accurate.
(** If the amount is a whole number [k] of levels, there is no error at all. *)
Theorem brighten_exact hi value k l : depth hi -> ffin value -> Forall (sample hi) l -> limit (- unit_) unit_ (fval value) * hi = k * unit_ ->
  brighten hi value l = map (fun x => limit 0 hi (x + k)) l.
Proof. intros Hd F H E. unfold brighten. apply map_ext_in. intros x Hx. apply (proj1 (Forall_forall _ _) H) in Hx. now apply brighten_whole. Qed.
Print Assumptions brighten_exact.
(** In particular 0 changes nothing, 1 makes all white and -1 all black. *)
Theorem brighten_ends hi l : depth hi -> Forall (sample hi) l ->
  brighten hi (of_int 0) l = l /\ brighten hi (of_int 1) l = map (fun _ => hi) l /\ brighten hi (of_int (-1)) l = map (fun _ => 0) l.
Proof.
  intros Hd H. pose proof (hi_small hi Hd) as Hh.
  assert (E : forall a k, -1 <= a <= 1 -> k = a * hi -> brighten hi (of_int a) l = map (fun x => limit 0 hi (x + k)) l).
  { intros a k Ha Hk. destruct (int_rep a ltac:(lia)) as [F V]. apply brighten_exact; [easy|easy|easy|]. rewrite V, Hk. replace (limit (- unit_) unit_ (a * unit_)) with (a * unit_) by (unfold limit, unit_; lia). ring. }
  rewrite (E 0 0), (E 1 hi), (E (-1) (- hi)) by lia. clear E. rewrite Forall_forall in H. split; [|split].
  - rewrite <- (map_id l) at 2. apply map_ext_in. intros x Hx. specialize (H x Hx). unfold sample, limit in *. lia.
  - apply map_ext_in. intros x Hx. specialize (H x Hx). unfold sample, limit in *. lia.
  - apply map_ext_in. intros x Hx. specialize (H x Hx). unfold sample, limit in *. lia.
Qed.
Print Assumptions brighten_ends.
(** The order of the samples is kept, and a larger amount never gives a darker sample. *)
Theorem brighten_monotone hi v v' x x' : depth hi -> ffin v -> ffin v' -> sample hi x -> sample hi x' -> fval v <= fval v' -> x <= x' ->
  brighten1 hi v x <= brighten1 hi v' x'.
Proof.
  intros Hd F F' Hx Hx' Hv H. transitivity (brighten1 hi v x'); [now apply brighten_mono|now apply brighten_mono_value].
Qed.
Print Assumptions brighten_monotone.
Example brighten_ex : ffin half /\ brighten 255 half [0; 100; 200] = [127; 227; 255] /\ brighten 65535 half [7] = [32774].
Proof. split; [vm_compute; reflexivity|]. split; vm_compute; reflexivity. Qed.

(** ** C100 *)
Theorem exposure_accurate hi e black l : depth hi -> ffin e -> ffin black -> Z.abs (fval e) <= 8 * unit_ -> Forall (sample hi) l ->
  Forall2 (fun x v => level_of hi ((x * unit_ - limit 0 unit_ (fval black) * hi) * fval e) (unit_ * unit_) 8 v) l (exposure hi e black l).
Proof. intros Hd Fe Fb He H. unfold exposure. induction H; cbn [map]; constructor; [now apply exposure_level|easy]. Qed.
Print Assumptions exposure_accurate.
(** Exposure 1 with black level 0 changes nothing; samples at or below the black level become black; the order is kept. *)
Theorem exposure_neutral hi l : depth hi -> Forall (sample hi) l -> exposure hi (of_int 1) (of_int 0) l = l.
Proof.
  intros Hd H. unfold exposure. rewrite <- (map_id l) at 2. apply map_ext_in. intros x Hx. apply (proj1 (Forall_forall _ _) H) in Hx. now apply exposure_one.
Qed.
Print Assumptions exposure_neutral.
Theorem exposure_monotone hi e black x x' : depth hi -> ffin e -> ffin black -> sample hi x -> sample hi x' -> 0 <= fval e <= 2 ^ 100 * unit_ -> x <= x' ->
  exposure1 hi e black x <= exposure1 hi e black x' /\ (x * unit_ <= limit 0 unit_ (fval black) * hi -> exposure1 hi e black x = 0).
Proof. intros Hd Fe Fb Hx Hx' He H. split; [now apply exposure_mono|]. now apply exposure_below_black. Qed.
Print Assumptions exposure_monotone.
Example exposure_ex : exposure 255 (of_int 2) half [100; 150; 200; 255] = [0; 45; 145; 255].
Proof. vm_compute. reflexivity. Qed.
(** The documentation calls 0 the default; it turns every picture black. *)
Theorem exposure_default_refuted : exists l, Forall (sample 255) l /\ exposure 255 (of_int 0) (of_int 0) l <> l /\ exposure 255 (of_int 0) (of_int 0) l = [0; 0].
Proof. exists [10; 255]. split; [repeat constructor; lia|]. split; vm_compute; [discriminate|reflexivity]. Qed.
Print Assumptions exposure_default_refuted.

(** Contrast 0 changes nothing. *)
Theorem contrast_neutral l : Forall (sample 255) l -> contrast (of_int 0) l = l.
Proof.
  intros H. unfold contrast. rewrite <- (map_id l) at 2. apply map_ext_in. intros x Hx. apply (proj1 (Forall_forall _ _) H) in Hx.
  assert (G : forallb (fun n => contrast1 (of_int 0) (Z.of_nat n) =? Z.of_nat n) (seq 0 256) = true) by (vm_compute; reflexivity).
  rewrite forallb_forall in G. unfold sample in Hx. specialize (G (Z.to_nat x)). rewrite Z2Nat.id in G by lia. apply Z.eqb_eq, G, in_seq. lia.
Qed.
Print Assumptions contrast_neutral.
(** If the factor is a number that is not negative, the order is kept and the middle level stays where it is. *)
Theorem contrast_monotone c x x' : ffin (contrast_factor c) -> 0 <= fval (contrast_factor c) <= 2 ^ 100 * unit_ -> sample 255 x -> sample 255 x' -> x <= x' ->
  contrast1 c x <= contrast1 c x' /\ contrast1 c 128 = 128.
Proof. intros F H Hx Hx' L. split; [now apply contrast_mono|]. apply contrast_mid; [exact F|lia]. Qed.
Print Assumptions contrast_monotone.
Example contrast_ex : ffin (contrast_factor (of_int 100)) /\ contrast (of_int 100) [0; 100; 128; 150; 255] = [0; 64; 128; 177; 255] /\
  contrast (of_int (-255)) [0; 77; 255] = [128; 128; 128].
Proof. split; [vm_compute; reflexivity|]. split; vm_compute; reflexivity. Qed.

(** ** C101 *)
Definition mixed (hi : Z) (alpha : f32) (src dest out : list Z) : Prop :=
  length out = length dest /\ forall i, (i < length dest)%nat ->
    level_of hi (fval alpha * nth i src 0 + (unit_ - fval alpha) * nth i dest 0) unit_ 32 (nth i out 0) /\
    Z.min (nth i src 0) (nth i dest 0) - 1 <= nth i out 0 <= Z.max (nth i src 0) (nth i dest 0).
Lemma fle_val x y : ffin x -> ffin y -> fle x y = (fval x <=? fval y).
Proof. intros Fx Fy. unfold fle, SFleb. rewrite (compare_ok 24 128) by easy. unfold Z.leb. now destruct (fval x ?= fval y). Qed.
(** Between 0 and 1 each sample is the mixture of the two, and lies between them or one level below. *)
Theorem blend_mixes hi alpha src dest : depth hi -> ffin alpha -> is_normal alpha = true -> 0 < fval alpha < unit_ -> Forall (sample hi) src -> Forall (sample hi) dest -> length src = length dest ->
  exists out, blend hi alpha src dest = Ok out /\ mixed hi alpha src dest out.
Proof.
  intros Hd F N B Hs Hdst L. unfold blend, blend_channel. rewrite N, andb_false_r. destruct (int_rep 0 ltac:(lia)) as [F0 V0]. destruct (int_rep 1 ltac:(lia)) as [F1 V1]. fold f0 in F0, V0. fold f1 in F1, V1.
  rewrite !fle_val, V0, V1 by easy. replace (fval alpha <=? 0 * unit_) with false by lia. replace (1 * unit_ <=? fval alpha) with false by lia. cbn [bind].
  eexists. split; [reflexivity|]. rewrite combine_length, L, Nat.min_id, skipn_all, app_nil_r. split; [rewrite map_length, combine_length, L; lia|]. intros i Hi.
  rewrite (map_nth_in _ _ i (0, 0) 0) by (rewrite combine_length; lia). rewrite combine_nth by easy. cbn [fst snd].
  assert (S1 : sample hi (nth i src 0)) by (rewrite Forall_forall in Hs; apply Hs, nth_In; lia). assert (S2 : sample hi (nth i dest 0)) by (rewrite Forall_forall in Hdst; apply Hdst, nth_In; lia).
  split; [apply mix_level|apply mix_between]; easy || lia.
Qed.
Print Assumptions blend_mixes.
(** At 0 or below the picture stays as it is; at 1 it becomes the source; values that are no numbers are refused. *)
Theorem blend_ends hi src dest : depth hi -> Forall (sample hi) src -> length src = length dest ->
  (forall alpha, ffin alpha -> is_normal alpha = true \/ fval alpha = 0 -> fval alpha <= 0 -> blend hi alpha src dest = Ok dest) /\
  blend hi (of_int 1) src dest = Ok src /\
  blend hi S754_nan src dest = Err EOther /\ (forall s, blend hi (S754_infinity s) src dest = Err EOther).
Proof.
  intros Hd Hs L. split; [|split; [|split; [reflexivity|reflexivity]]].
  - intros alpha F N H. unfold blend. assert (G : negb (is_zero alpha) && negb (is_normal alpha) = false).
    { destruct N as [-> | E]; [apply andb_false_r|]. destruct alpha as [s|s| |s m e]; try easy. cbn [sval] in E. exfalso. pose proof (bounded_inv 24 128 ltac:(lia) m e F) as (B1 & _).
      assert (0 < Z.pos m * 2 ^ (e - SpecFloat.emin 24 128)) by (apply Z.mul_pos_pos; [lia|apply Z.pow_pos_nonneg; lia]). destruct s; cbn [cond_Zopp] in E; lia. }
    rewrite G. unfold blend_channel. destruct (int_rep 0 ltac:(lia)) as [F0 V0]. fold f0 in F0, V0. rewrite fle_val, V0 by easy. now replace (fval alpha <=? 0 * unit_) with true by lia.
  - unfold blend, blend_channel. fold f1. change (negb (is_zero f1) && negb (is_normal f1)) with false. change (fle f1 f0) with false. change (fle f1 f1) with true. cbv iota. rewrite L, Nat.eqb_refl. cbn [bind].
    rewrite combine_length, Nat.min_id, skipn_all, app_nil_r. f_equal. clear L. induction Hs as [|x l Hx _ IH]; [easy|]. cbn [combine map fst snd]. rewrite IH. f_equal. now apply mix_one.
Qed.
Print Assumptions blend_ends.
Example blend_ex : is_normal half = true /\ blend 255 half [100; 0; 255] [0; 7; 254] = Ok [50; 3; 254].
Proof. split; vm_compute; reflexivity. Qed.
(** Above 1 the documentation promises the source; the samples are mixed all the same. *)
Theorem blend_above_one_refuted : exists alpha src dest, ffin alpha /\ is_normal alpha = true /\ unit_ < fval alpha /\ Forall (sample 255) src /\
  blend 255 alpha src dest = Ok [0; 0] /\ src = [100; 200].
Proof.
  exists (of_int 100000000), [100; 200], [1; 2]. split; [vm_compute; reflexivity|]. split; [vm_compute; reflexivity|]. split; [vm_compute; reflexivity|]. split; [repeat constructor; lia|]. split; vm_compute; reflexivity.
Qed.
Print Assumptions blend_above_one_refuted.
(** Blending a picture with itself may darken it. *)
Theorem blend_itself_refuted : exists alpha, ffin alpha /\ 0 < fval alpha < unit_ /\ blend 255 alpha [3] [3] = Ok [2].
Proof. exists (lit 1 10). split; [vm_compute; reflexivity|]. split; [split; vm_compute; reflexivity|vm_compute; reflexivity]. Qed.
Print Assumptions blend_itself_refuted.

(** ** C102: gamma. The power function is any function with the stated properties; [value] is the exponent. *)
Section Gamma.
Variable powf : f32 -> f32 -> f32.
Variable value : f32.
(** Powers of numbers from 0 to 1 are numbers from 0 to 1, and in the same order (positive exponent) *)
Definition unit_power : Prop :=
  (forall a, ffin a -> 0 <= fval a <= unit_ -> ffin (powf a value) /\ 0 <= fval (powf a value) <= unit_) /\
  (forall a b, ffin a -> ffin b -> 0 <= fval a <= fval b -> fval b <= unit_ -> fval (powf a value) <= fval (powf b value)).
(** Gamma correction keeps the order of the samples, *)
Theorem gamma_monotone hi l i j : depth hi -> unit_power -> Forall (sample hi) l -> (i < length l)%nat -> (j < length l)%nat -> nth i l 0 <= nth j l 0 ->
  nth i (gamma powf hi value l) 0 <= nth j (gamma powf hi value l) 0.
Proof.
  intros Hd [P1 P2] H Hi Hj L. pose proof (hi_small hi Hd) as Hh. rewrite gamma_lookup by easy. rewrite !(map_nth_in _ _ _ 0 0) by easy.
  rewrite Forall_forall in H. pose proof (H _ (nth_In l 0 Hi)) as Si. pose proof (H _ (nth_In l 0 Hj)) as Sj. set (x := nth i l 0) in *. set (y := nth j l 0) in *. clearbody x y.
  destruct (base_val hi x Hd Si) as (Fx & _ & Bx). destruct (base_val hi y Hd Sj) as (Fy & _ & By). destruct (P1 _ Fx Bx) as [Gx Cx]. destruct (P1 _ Fy By) as [Gy Cy].
  rewrite !gamma_val by easy. apply limit_mono, Z.div_le_mono; [unfold unit_; lia|]. apply frnd_mono; [lia|]. apply Z.mul_le_mono_nonneg_l; [unfold unit_; lia|].
  apply P2; [easy|easy| |lia]. split; [lia|now apply base_mono].
Qed.
(** stays in range, *)
Theorem gamma_range hi l : depth hi -> unit_power -> Forall (sample hi) l -> length (gamma powf hi value l) = length l /\ Forall (sample hi) (gamma powf hi value l).
Proof.
  intros Hd [P1 P2] H. pose proof (hi_small hi Hd) as Hh. rewrite gamma_lookup by easy. split; [apply map_length|]. apply Forall_map. eapply Forall_impl; [|exact H]. intros x Sx; cbv beta.
  destruct (base_val hi x Hd Sx) as (Fx & _ & Bx). destruct (P1 _ Fx Bx) as [Gx Cx]. rewrite gamma_val by easy. unfold sample, limit. lia.
Qed.
(** and leaves black and white alone, if powers of 0 and 1 are 0 and 1. *)
Theorem gamma_ends hi : depth hi -> unit_power -> (forall a, ffin a -> fval a = 0 -> fval (powf a value) = 0) -> (forall a, ffin a -> fval a = unit_ -> fval (powf a value) = unit_) ->
  gamma powf hi value [0; hi] = [0; hi].
Proof.
  intros Hd [P1 P2] Z0 O1. pose proof (hi_small hi Hd) as Hh. assert (S0 : sample hi 0) by (unfold sample; lia). assert (S1 : sample hi hi) by (unfold sample; lia).
  rewrite gamma_lookup by (exact Hd || exact (Forall_cons _ S0 (Forall_cons _ S1 (Forall_nil _)))). cbn [map]. destruct (inv_ok hi Hd) as (_ & _ & Ei).
  destruct (base_val hi 0 Hd S0) as (Fx & Vx & Bx). destruct (base_val hi hi Hd S1) as (Fy & Vy & By). destruct (P1 _ Fx Bx) as [Gx Cx]. destruct (P1 _ Fy By) as [Gy Cy].
  rewrite !gamma_val by easy. rewrite Z0, O1; [|easy|rewrite Vy; exact Ei|easy|rewrite Vx, !Z.mul_0_l; reflexivity].
  f_equal; [rewrite Z.mul_0_r; change (frnd 149 0) with 0; unfold limit; rewrite Z.div_0_l by (unfold unit_; lia); lia|]. f_equal.
  rewrite frnd_int2 by lia. rewrite Z.div_mul by (unfold unit_; lia). unfold limit. lia.
Qed.
(** and an exponent that makes samples brighter than the maximum (a negative one) gives the maximum. *)
Theorem gamma_bright hi x : depth hi -> sample hi x -> ffin (powf (base hi x) value) -> unit_ <= fval (powf (base hi x) value) <= 2 ^ 64 * unit_ ->
  gamma powf hi value [x] = [hi].
Proof.
  intros Hd Hx Fp Bp. rewrite gamma_lookup by (exact Hd || exact (Forall_cons _ Hx (Forall_nil _))). cbn [map]. f_equal.
  pose proof (hi_small hi Hd) as Hh. unfold gamma_entry. fold (inv_of hi). fold (base hi x). set (p := powf (base hi x) value) in *. clearbody p.
  destruct (int_rep hi ltac:(lia)) as [Fh Vh].
  assert (B : hi * unit_ * unit_ <= hi * unit_ * fval p <= hi * unit_ * (2 ^ 64 * unit_)) by (split; apply Z.mul_le_mono_nonneg_l; unfold unit_ in *; lia).
  assert (B0 : 0 <= hi * unit_ * fval p) by (transitivity (hi * unit_ * unit_); [unfold unit_; lia|apply B]).
  destruct (fmul_val 80 _ _ Fh Fp ltac:(lia)) as [Fm Vm].
  { rewrite Vh, (Z.abs_eq _ B0). etransitivity; [apply B|]. unfold unit_. lia. }
  rewrite Vh in Vm. rewrite (ltb_ok 24 128) by easy. rewrite Vm, Vh.
  assert (hi * unit_ <= frnd 149 (hi * unit_ * fval p)) by (transitivity (frnd 149 (hi * unit_ * unit_)); [rewrite frnd_int2; lia|apply frnd_mono; [lia|apply B]]).
  destruct (hi * unit_ <? frnd 149 (hi * unit_ * fval p)) eqn:L.
  - rewrite to_uint_val by (easy || lia). rewrite Vh, Z.div_mul by (unfold unit_; lia). unfold limit. lia.
  - rewrite to_uint_val by (easy || lia). rewrite Vm. replace (frnd 149 (hi * unit_ * fval p)) with (hi * unit_) by lia. rewrite Z.div_mul by (unfold unit_; lia). unfold limit. lia.
Qed.
End Gamma.
Print Assumptions gamma_bright.
Print Assumptions gamma_monotone.
Print Assumptions gamma_range.
Print Assumptions gamma_ends.
(** Squaring meets the requirements. *)
Example unit_power_ex : unit_power (fun a _ => fmul a a) (of_int 2).
Proof.
  assert (V : forall a, ffin a -> 0 <= fval a <= unit_ -> ffin (fmul a a) /\ fval (fmul a a) = frnd 149 (fval a * fval a)).
  { intros a F B. apply (fmul_val 0); [easy|easy|lia|]. rewrite Z.abs_eq by nia. change (2 ^ 0 * unit_ * unit_) with (unit_ * unit_). apply Z.mul_le_mono_nonneg; lia. }
  split.
  - intros a F B. destruct (V a F B) as [G E]. split; [exact G|]. rewrite E. split; [apply frnd_nonneg; nia|]. rewrite <- (Z.mul_1_l unit_), <- (frnd_int2 1) by lia. apply frnd_mono; [lia|]. rewrite Z.mul_1_l. apply Z.mul_le_mono_nonneg; lia.
  - intros a b Fa Fb Ba Bb. rewrite (proj2 (V a Fa ltac:(lia))), (proj2 (V b Fb ltac:(lia))). apply frnd_mono; [lia|]. apply Z.mul_le_mono_nonneg; lia.
Qed.
Example gamma_bright_ex : gamma (fun _ _ => of_int 3) 255 (of_int (-2)) [7] = [255].
Proof. vm_compute. reflexivity. Qed.
Example gamma_ex : gamma (fun a _ => fmul a a) 255 (of_int 2) [0; 16; 128; 200; 255] = [0; 1; 64; 156; 255].
Proof. vm_compute. reflexivity. Qed.
(** Exponent 1, with a power function that is right about it, changes nothing at 8 bits; *)
Theorem gamma_neutral_partial powf value l : (forall a, powf a value = a) -> Forall (sample 255) l -> gamma powf 255 value l = l.
Proof.
  intros P H. rewrite gamma_lookup by (easy || now left). rewrite <- (map_id l) at 2. apply map_ext_in. intros x Hx. apply (proj1 (Forall_forall _ _) H) in Hx. unfold gamma_entry. rewrite P.
  change (gamma_entry (fun a _ => a) 255 value x = x).
  assert (G : forallb (fun n => gamma_entry (fun a _ => a) 255 f1 (Z.of_nat n) =? Z.of_nat n) (seq 0 256) = true) by (vm_compute; reflexivity).
  rewrite forallb_forall in G. unfold sample in Hx. specialize (G (Z.to_nat x)). rewrite Z2Nat.id in G by lia. apply Z.eqb_eq, G, in_seq. lia.
Qed.
Print Assumptions gamma_neutral_partial.
(** at 16 bits it darkens some samples. *)
Theorem gamma_neutral_refuted powf value : (forall a, powf a value = a) -> gamma_entry powf 65535 value 257 = 256.
Proof. intros P. unfold gamma_entry. rewrite P. vm_compute. reflexivity. Qed.
Print Assumptions gamma_neutral_refuted.

(** ** C103: colour matrices. A row with entries m0..m4 gives m0*red + m1*green + m2*blue + m3*opacity + m4*(largest
    sample). *)
Theorem matrix_accurate hi k0 k1 k2 k3 k4 r g b a : depth hi -> sample hi r -> sample hi g -> sample hi b -> sample hi a -> Forall ffin [k0; k1; k2; k3; k4] ->
  29 * (hi * weight_total [k0; k1; k2; k3; k4]) <= 2 ^ 24 * unit_ ->
  level_of hi (r * fval k0 + g * fval k1 + b * fval k2 + a * fval k3 + hi * fval k4) unit_ 2 (matrix_row hi [k0; k1; k2; k3; k4] [r; g; b; a]).
Proof. exact (matrix_level hi k0 k1 k2 k3 k4 r g b a). Qed.
Print Assumptions matrix_accurate.
(** With whole entries there is no error. *)
Theorem matrix_exact hi (m : list (list Z)) r g b a : depth hi -> sample hi r -> sample hi g -> sample hi b -> sample hi a ->
  Forall (fun row => length row = 5%nat /\ hi * fold_right Z.add 0 (map Z.abs row) < 2 ^ 24) m ->
  color_matrix hi (map (map of_int) m) [r; g; b; a] =
  map (fun row => limit 0 hi (fold_right Z.add 0 (map (fun mx => fst mx * snd mx) (combine row [r; g; b; a; hi])))) m.
Proof.
  intros Hd Hr Hg Hb Ha H. unfold color_matrix. rewrite map_map. apply map_ext_in. intros row Hin. rewrite Forall_forall in H. destruct (H row Hin) as [L B].
  do 5 (destruct row as [|? row]; [discriminate|]). destruct row; [|discriminate]. cbn [map fold_right] in B. rewrite matrix_whole by (easy || lia). cbn [combine map fold_right fst snd]. f_equal. ring.
Qed.
Print Assumptions matrix_exact.
Definition identity_matrix : list (list Z) := [[1; 0; 0; 0; 0]; [0; 1; 0; 0; 0]; [0; 0; 1; 0; 0]; [0; 0; 0; 1; 0]].
Theorem matrix_identity hi r g b a : depth hi -> sample hi r -> sample hi g -> sample hi b -> sample hi a ->
  color_matrix hi (map (map of_int) identity_matrix) [r; g; b; a] = [r; g; b; a].
Proof.
  intros Hd Hr Hg Hb Ha. pose proof (hi_small hi Hd) as Hh. unfold identity_matrix. rewrite matrix_exact by (easy || (repeat constructor; cbn [map fold_right Z.abs]; lia)).
  cbn [map combine fold_right fst snd]. unfold limit, sample in *. f_equal; [lia|]. f_equal; [lia|]. f_equal; [lia|]. f_equal. lia.
Qed.
Print Assumptions matrix_identity.
(** A matrix can be made from exactly twenty numbers, row by row. *)
Theorem matrix_slice s : (length s = 20%nat -> exists m, matrix_from_slice s = Some m /\ concat m = s /\ Forall (fun row => length row = 5%nat) m) /\
  (length s <> 20%nat -> matrix_from_slice s = None).
Proof.
  split; intros L; unfold matrix_from_slice.
  - do 20 (destruct s as [|? s]; [discriminate|]). destruct s; [|discriminate]. eexists. split; [reflexivity|]. split; [reflexivity|]. repeat constructor.
  - now rewrite (proj2 (Nat.eqb_neq _ _) L).
Qed.
Print Assumptions matrix_slice.
(** The matrix that the documentation gives for inverting colours does not: blue is not inverted, and opacity is lost. *)
Definition documented_inversion : list (list f32) :=
  let l := map (fun n => lit n 10) in [l [-10; 0; 0; 0; 10]; l [0; -10; 0; 0; 10]; l [0; 0; -1; 0; 10]; l [0; 0; 0; 10; 10]].
Theorem matrix_inversion_refuted : color_matrix 255 documented_inversion [10; 20; 200; 100] = [245; 235; 235; 255].
Proof. vm_compute. reflexivity. Qed.
Print Assumptions matrix_inversion_refuted.
Example matrix_ex : color_matrix 255 (map (map of_int) [[0; 0; 1; 0; 0]; [-1; 0; 0; 0; 1]; [1; 1; 0; 0; 0]; [0; 0; 0; 1; 0]]) [10; 20; 200; 100] = [200; 245; 30; 100].
Proof. vm_compute. reflexivity. Qed.

(** ** C104: hue, saturation and lightness. Cosine and sine are any functions with the stated values. *)
Section Hsv.
Variables cosf sinf : f32 -> f32.
Definition zero_angle : Prop := cosf (of_int 0) = of_int 1 /\ sinf (of_int 0) = of_int 0.
(** The claim: rotation by 0 with saturation 1 and lightness 1 changes nothing. Red and green are indeed kept. *)
Lemma neutral_rows : zero_angle -> exists k0 k1, hsv_rows cosf sinf (of_int 0) (of_int 1) (of_int 1) = [[f1; f0; f0]; [f0; f1; f0]; [k0; k1; f1]] /\
  ffin k0 /\ ffin k1 /\ - unit_ <= 999 * fval k0 <= 0 /\ - unit_ <= 999 * fval k1 <= 0.
Proof.
  intros [C S]. do 2 eexists. split.
  - unfold hsv_rows. change (fdiv (fmul (of_int 0) fpi) (of_int 180)) with (of_int 0). rewrite C, S. vm_compute. reflexivity.
  - split; [vm_compute; reflexivity|]. split; [vm_compute; reflexivity|]. split; (split; vm_compute; discriminate).
Qed.
Theorem hsv_neutral_partial hi r g b : zero_angle -> depth hi -> sample hi r -> sample hi g -> sample hi b ->
  exists b', hsv_pixel cosf sinf hi (of_int 0) (of_int 1) (of_int 1) [r; g; b] = [r; g; b'] /\ b - hi / 499 - 1 <= b' <= b.
Proof.
  intros Zr Hd Hr Hg Hb. pose proof (hi_small hi Hd) as Hh. destruct (neutral_rows Zr) as (k0 & k1 & E & F0 & F1 & B0 & B1). unfold hsv_pixel. rewrite E. cbn [map].
  destruct (int_rep 0 ltac:(lia)) as [G0 V0]. destruct (int_rep 1 ltac:(lia)) as [G1 V1]. fold f0 in G0, V0. fold f1 in G1, V1.
  assert (W : unit_ <= 2 ^ 80 * unit_) by (unfold unit_; lia). assert (U : 0 < unit_) by (unfold unit_; lia). unfold sample in *.
  assert (Z1 : forall x, 0 <= x <= hi -> frnd 149 (1 * unit_ * (x * unit_)) = x * unit_) by (intros x Hx; rewrite Z.mul_1_l, Z.mul_comm; apply frnd_int2; lia).
  assert (Z0 : forall x, frnd 149 (0 * unit_ * (x * unit_)) = 0) by (intros x; rewrite !Z.mul_0_l; reflexivity).
  assert (Zi : forall x, 0 <= x <= hi -> frnd 0 (x * unit_) = x * unit_) by (intros x Hx; apply frnd_int; lia).
  exists (hsv_row hi [k0; k1; f1] [r; g; b]).
  assert (R1 : hsv_row hi [f1; f0; f0] [r; g; b] = r).
  { rewrite hsv_row_val by (assumption || (apply Forall3; assumption) || (rewrite ?V0, ?V1; lia)). rewrite V0, V1. rewrite Z1, !Z0 by easy. rewrite !Z.add_0_r, !Zi by easy. rewrite Z.div_mul by lia. unfold limit. lia. }
  assert (R2 : hsv_row hi [f0; f1; f0] [r; g; b] = g).
  { rewrite hsv_row_val by (assumption || (apply Forall3; assumption) || (rewrite ?V0, ?V1; lia)). rewrite V0, V1. rewrite Z1, !Z0 by easy. rewrite !Z.add_0_r, !Z.add_0_l, !Zi by easy. rewrite Z.div_mul by lia. unfold limit. lia. }
  split; [now rewrite R1, R2|]. clear R1 R2.
  { rewrite hsv_row_val by (assumption || (apply Forall3; assumption) || (rewrite ?V0, ?V1; lia)). rewrite V1. rewrite Z1 by easy.
    assert (Q : forall kv x, - unit_ <= 999 * kv <= 0 -> 0 <= x <= hi -> - hi * unit_ <= 998 * frnd 149 (kv * (x * unit_)) <= 0).
    { intros kv x Bk Hx. assert (P0 : kv * x <= 0) by nia. assert (P1 : - hi * unit_ <= 999 * (kv * x)) by nia. split; [|pose proof (frnd_nonpos 149 (kv * (x * unit_)) ltac:(lia) ltac:(nia)); lia].
      assert (HU : hi * unit_ <= 2 ^ 16 * unit_) by (apply Z.mul_le_mono_nonneg_r; lia).
      assert (Pb : Z.abs (kv * (x * unit_)) <= 2 ^ 16 * unit_ * unit_) by (rewrite Z.mul_assoc, Z.abs_mul, (Z.abs_eq unit_) by lia; apply Z.mul_le_mono_nonneg_r; lia).
      pose proof (mul_near (kv * (x * unit_)) ltac:(etransitivity; [exact Pb|]; apply Z.mul_le_mono_nonneg_r; lia)) as N. set (m := frnd 149 (kv * (x * unit_))) in *. clearbody m.
      rewrite Z.mul_assoc in N. set (p := kv * x) in *. clearbody p. replace (m * unit_ - p * unit_) with ((m - p) * unit_) in N by ring. rewrite !Z.abs_mul, (Z.abs_eq unit_) in N by lia.
      assert (N2 : 2 ^ 24 * Z.abs (m - p) <= Z.max (2 ^ 23) (Z.abs p)) by (apply Z.mul_le_mono_pos_r with unit_; [lia|]; rewrite <- Z.mul_max_distr_nonneg_r by lia; lia).
      clear - N2 P0 P1 Hd Hh. destruct Hd; subst hi; unfold unit_ in *; lia. }
    pose proof (Q _ r B0 Hr) as Q0. pose proof (Q _ g B1 Hg) as Q1. set (p := frnd 149 (fval k0 * (r * unit_))) in *. set (q := frnd 149 (fval k1 * (g * unit_))) in *. clearbody p q. clear Q.
    pose proof (add_near (p + q)) as N1. pose proof (frnd_nonpos 0 (p + q) ltac:(lia) ltac:(lia)) as N0. set (s := frnd 0 (p + q)) in *. clearbody s.
    pose proof (add_near (s + b * unit_)) as N2. pose proof (frnd_mono 0 (s + b * unit_) (b * unit_) ltac:(lia) ltac:(lia)) as N3. rewrite Zi in N3 by easy. set (z := frnd 0 (s + b * unit_)) in *. clearbody z.
    assert (z / unit_ <= b) by (apply Z.div_le_upper_bound; lia).
    assert (b - hi / 499 - 1 <= z / unit_).
    { apply Z.div_le_lower_bound; [lia|]. clear - N0 N1 N2 Q0 Q1 Hd Hb. destruct Hd; subst hi; [change (255 / 499) with 0|change (65535 / 499) with 131]; unfold unit_ in *; lia. }
    unfold limit. lia. }
Qed.
(** Blue is not: white becomes yellowish. *)
Theorem hsv_neutral_refuted : zero_angle -> hsv_pixel cosf sinf 255 (of_int 0) (of_int 1) (of_int 1) [255; 255; 255] = [255; 255; 254] /\
  hsv_pixel cosf sinf 65535 (of_int 0) (of_int 1) (of_int 1) [65535; 65535; 65535] = [65535; 65535; 65403].
Proof.
  intros [C S]. unfold hsv_pixel, hsv_rows. change (fdiv (fmul (of_int 0) fpi) (of_int 180)) with (of_int 0). rewrite C, S. split; vm_compute; reflexivity.
Qed.
(** Saturation 0 gives a gray picture, whatever the hue, for every lightness *)
Theorem hsv_gray hi h s v r g b : depth hi -> sample hi r -> sample hi g -> sample hi b ->
  ffin (cosf (fdiv (fmul h fpi) (of_int 180))) -> ffin (sinf (fdiv (fmul h fpi) (of_int 180))) -> ffin s -> ffin v -> fval s = 0 -> Z.abs (fval v) <= 2 ^ 78 * unit_ ->
  exists y, hsv_pixel cosf sinf hi h s v [r; g; b] = [y; y; y] /\ sample hi y /\ (fval v <= 0 -> y = 0).
Proof.
  intros Hd Hr Hg Hb Fc Fs' Fsat Fv Es Hv. unfold hsv_pixel, hsv_rows. set (co := cosf _) in *. set (si := sinf _) in *. clearbody co si.
  destruct (mul_zero v s Fv Fsat (or_intror Es)) as [Fvs Evs]. destruct (mul_zero (fmul v s) co Fvs Fc (or_introl Evs)) as [Fu Eu]. destruct (mul_zero (fmul v s) si Fvs Fs' (or_introl Evs)) as [Fw Ew].
  set (vsu := fmul (fmul v s) co) in *. set (vsw := fmul (fmul v s) si) in *. clearbody vsu vsw. clear Fvs Evs Fc Fs'.
  assert (K : forall a b' c, In a [299; 701; 168; 587; 330; 114; 497; 328; 413; 35; 292; 300; 1250; 588; 1050; 886; 203] -> ffin (fst b') -> ffin (fst c) ->
    ffin (hsv_weight v vsu vsw (plus (lit a 1000)) b' c) /\ fval (hsv_weight v vsu vsw (plus (lit a 1000)) b' c) = frnd 149 (fval (lit a 1000) * fval v) /\
    Z.abs (fval (hsv_weight v vsu vsw (plus (lit a 1000)) b' c)) <= 2 ^ 80 * unit_).
  { intros a b' c Ha Fb Fc. destruct (lit_fin a Ha) as [F B]. now apply weight_gray. }
  assert (FL : forall a, In a [299; 701; 168; 587; 330; 114; 497; 328; 413; 35; 292; 300; 1250; 588; 1050; 886; 203] -> ffin (lit a 1000)) by (intros a Ha; apply (lit_fin a Ha)).
  set (w299 := frnd 149 (fval (lit 299 1000) * fval v)) in *. set (w587 := frnd 149 (fval (lit 587 1000) * fval v)) in *. set (w114 := frnd 149 (fval (lit 114 1000) * fval v)) in *.
  set (y := limit 0 hi (frnd 0 (frnd 0 (frnd 149 (w299 * (r * unit_)) + frnd 149 (w587 * (g * unit_))) + frnd 149 (w114 * (b * unit_))) / unit_)).
  assert (R : forall b0 c0 b1 c1 b2 c2, ffin (fst b0) -> ffin (fst c0) -> ffin (fst b1) -> ffin (fst c1) -> ffin (fst b2) -> ffin (fst c2) ->
    hsv_row hi [hsv_weight v vsu vsw (plus (lit 299 1000)) b0 c0; hsv_weight v vsu vsw (plus (lit 587 1000)) b1 c1; hsv_weight v vsu vsw (plus (lit 114 1000)) b2 c2] [r; g; b] = y).
  { intros b0 c0 b1 c1 b2 c2 I1 I2 I3 I4 I5 I6. destruct (K 299 b0 c0 ltac:(cbn [In]; tauto) I1 I2) as (A0 & A1 & A2). destruct (K 587 b1 c1 ltac:(cbn [In]; tauto) I3 I4) as (C0 & C1 & C2). destruct (K 114 b2 c2 ltac:(cbn [In]; tauto) I5 I6) as (D0 & D1 & D2).
    rewrite hsv_row_val by (assumption || (apply Forall3; assumption)). rewrite A1, C1, D1. reflexivity. }
  exists y. split; [|split].
  - cbn [map]. f_equal; [|f_equal; [|f_equal]]; try reflexivity; apply R; cbn [plus minus fst]; apply FL; cbn [In]; tauto.
  - pose proof (hi_small hi Hd). unfold y, sample, limit. lia.
  - intros Nv. assert (P : forall n, In n [299; 587; 114] -> frnd 149 (fval (lit n 1000) * fval v) <= 0).
    { intros n Hn. apply frnd_nonpos; [lia|]. assert (0 <= fval (lit n 1000)) by (cbn [In] in Hn; destruct Hn as [<- | [<- | [<- | []]]]; vm_compute; discriminate). nia. }
    pose proof (P 299 ltac:(cbn [In]; tauto)) as P0. pose proof (P 587 ltac:(cbn [In]; tauto)) as P1. pose proof (P 114 ltac:(cbn [In]; tauto)) as P2. fold w299 in P0. fold w587 in P1. fold w114 in P2.
    assert (U : 0 < unit_) by (unfold unit_; lia). unfold sample in *.
    pose proof (frnd_nonpos 149 (w299 * (r * unit_)) ltac:(lia) ltac:(nia)). pose proof (frnd_nonpos 149 (w587 * (g * unit_)) ltac:(lia) ltac:(nia)). pose proof (frnd_nonpos 149 (w114 * (b * unit_)) ltac:(lia) ltac:(nia)).
    pose proof (frnd_nonpos 0 (frnd 149 (w299 * (r * unit_)) + frnd 149 (w587 * (g * unit_))) ltac:(lia) ltac:(lia)).
    pose proof (frnd_nonpos 0 (frnd 0 (frnd 149 (w299 * (r * unit_)) + frnd 149 (w587 * (g * unit_))) + frnd 149 (w114 * (b * unit_))) ltac:(lia) ltac:(lia)) as M.
    unfold y. set (z := frnd 0 (frnd 0 _ + _)) in *. clearbody z. pose proof (hi_small hi Hd). assert (z / unit_ <= 0) by (apply Z.div_le_upper_bound; lia). unfold limit. lia.
Qed.
(** Negative lightness should give black; with the hue turned by half a circle it does not. *)
Definition angle180 : f32 := fdiv (fmul (of_int 180) fpi) (of_int 180).
Theorem hsv_negative_refuted : cosf angle180 = of_int (-1) -> sinf angle180 = S754_finite true 12303662 (-47) ->
  hsv_pixel cosf sinf 255 (of_int 180) (of_int 1) (of_int (-1)) [255; 0; 0] <> [0; 0; 0].
Proof. intros C S. unfold hsv_pixel, hsv_rows. fold angle180. rewrite C, S. vm_compute. discriminate. Qed.
End Hsv.
Print Assumptions hsv_neutral_partial.
Print Assumptions hsv_neutral_refuted.
Print Assumptions hsv_gray.
Print Assumptions hsv_negative_refuted.
Example hsv_ex : zero_angle (fun _ => of_int 1) (fun _ => of_int 0) /\ hsv_pixel (fun _ => of_int 1) (fun _ => of_int 0) 255 (of_int 0) (of_int 0) (of_int 1) [200; 100; 50] = [124; 124; 124].
Proof. split; [split; reflexivity|vm_compute; reflexivity]. Qed.
