(** Lemmas for bilinear resizing: bounds on the rounding errors. *)
From Verif Require Import Base BaseProof Loops F32 F32Round HdrFloatProps GeomSpec GeomProof ResizeModel ResizeSpec.

Local Notation U := (2 ^ 149).

(** ** Error bounds of single operations *)
Lemma rnds_le k z j : 0 <= k -> 0 <= j -> z <= 2 ^ j * 2 ^ k -> frnd k z <= 2 ^ j.
Proof.
  intros Hk Hj H. pose proof (rnds_mono 24 ltac:(lia) k z (2 ^ j * 2 ^ k) Hk H) as M.
  pose proof (rnds_scale 24 0 (2 ^ j) k ltac:(lia) Hk) as S. rewrite Z.add_0_l in S. rewrite S in M.
  pose proof (rnds_id 24 ltac:(lia) 1 j) as I. rewrite Z.mul_1_l in I. rewrite I in M by (try lia; cbn; lia). exact M.
Qed.
Lemma rnds_nonneg k z : 0 <= k -> 0 <= z -> 0 <= frnd k z.
Proof. intros Hk H. pose proof (rnds_mono 24 ltac:(lia) k 0 z Hk H) as M. exact M. Qed.
Lemma rnds_err k z : 0 <= k -> 0 <= z -> 2 ^ 24 * Z.abs (frnd k z * 2 ^ k - z) <= z + 2 ^ 23 * 2 ^ k.
Proof.
  intros Hk H. pose proof (rnds_near 24 ltac:(lia) k z Hk) as N. rewrite (Z.abs_eq z) in N by easy. change (24 - 1) with 23 in N.
  pose proof (Z.mul_div_le z (2 ^ 23) ltac:(lia)) as D. assert (P : 0 < 2 ^ k) by (apply Z.pow_pos_nonneg; lia).
  generalize dependent (frnd k z). intros f N. revert N D. generalize (Z.abs (f * 2 ^ k - z)) as e. generalize (z / 2 ^ 23) as q. revert P. generalize (2 ^ k) as K.
  clear -H. intros. lia.
Qed.
Lemma small_fits v j : 0 <= v <= 2 ^ j -> 0 <= j < 277 -> fits 24 128 v.
Proof. intros H Hj. unfold fits. change (128 - SpecFloat.emin 24 128) with 277. rewrite Z.abs_eq by easy. eapply Z.le_lt_trans; [apply H|]. apply Z.pow_lt_mono_r; lia. Qed.

Lemma fmul_int n x j : 0 <= n < 2 ^ 24 -> ffin x -> 0 <= fval x -> 0 <= j < 277 -> n * fval x <= 2 ^ j ->
  let v := fval (fmul (of_int n) x) in ffin (fmul (of_int n) x) /\ 0 <= v <= 2 ^ j /\ 2 ^ 24 * Z.abs (v - n * fval x) <= n * fval x + 2 ^ 23.
Proof.
  intros Hn Fx Px Hj B v. destruct (of_int_rep n) as [Fn Vn]; [lia|]. unfold v, fmul.
  pose proof (mul_ok 24 128 ltac:(lia) ltac:(lia) (of_int n) x Fn Fx) as A. rewrite Vn in A.
  replace (n * U * fval x) with (n * fval x * U) in A by ring. change (- SpecFloat.emin 24 128) with (0 + 149) in A. rewrite rnds_scale in A by lia.
  assert (P0 : 0 <= n * fval x) by (apply Z.mul_nonneg_nonneg; lia).
  assert (R : 0 <= frnd 0 (n * fval x) <= 2 ^ j) by (split; [apply rnds_nonneg; lia|apply rnds_le; [lia|lia|rewrite Z.pow_0_r; lia]]).
  destruct A as [F V]; [now apply (small_fits _ j)|]. split; [exact F|]. rewrite V. split; [exact R|].
  pose proof (rnds_err 0 (n * fval x) ltac:(lia) P0) as E. rewrite Z.pow_0_r, Z.mul_1_r in E. lia.
Qed.
Lemma fmul_int_r n x j : 0 <= n < 2 ^ 24 -> ffin x -> 0 <= fval x -> 0 <= j < 277 -> n * fval x <= 2 ^ j ->
  let v := fval (fmul x (of_int n)) in ffin (fmul x (of_int n)) /\ 0 <= v <= 2 ^ j /\ 2 ^ 24 * Z.abs (v - n * fval x) <= n * fval x + 2 ^ 23.
Proof.
  intros Hn Fx Px Hj B v. destruct (of_int_rep n) as [Fn Vn]; [lia|]. unfold v, fmul.
  pose proof (mul_ok 24 128 ltac:(lia) ltac:(lia) x (of_int n) Fx Fn) as A. rewrite Vn in A.
  replace (fval x * (n * U)) with (n * fval x * U) in A by ring. change (- SpecFloat.emin 24 128) with (0 + 149) in A. rewrite rnds_scale in A by lia.
  assert (P0 : 0 <= n * fval x) by (apply Z.mul_nonneg_nonneg; lia).
  assert (R : 0 <= frnd 0 (n * fval x) <= 2 ^ j) by (split; [apply rnds_nonneg; lia|apply rnds_le; [lia|lia|rewrite Z.pow_0_r; lia]]).
  destruct A as [F V]; [now apply (small_fits _ j)|]. split; [exact F|]. rewrite V. split; [exact R|].
  pose proof (rnds_err 0 (n * fval x) ltac:(lia) P0) as E. rewrite Z.pow_0_r, Z.mul_1_r in E. lia.
Qed.
Lemma fmul_unit x y j : ffin x -> ffin y -> 0 <= fval x <= 2 ^ j -> 0 <= j < 277 -> 0 <= fval y <= U ->
  let v := fval (fmul x y) in ffin (fmul x y) /\ 0 <= v <= 2 ^ j /\ 2 ^ 24 * Z.abs (v * U - fval x * fval y) <= fval x * fval y + 2 ^ 23 * U.
Proof.
  intros Fx Fy Hx Hj Hy v. unfold v, fmul. pose proof (mul_ok 24 128 ltac:(lia) ltac:(lia) x y Fx Fy) as A. change (- SpecFloat.emin 24 128) with 149 in A.
  assert (P0 : 0 <= fval x * fval y) by (apply Z.mul_nonneg_nonneg; lia).
  assert (P1 : fval x * fval y <= 2 ^ j * U) by (apply Z.mul_le_mono_nonneg; lia).
  assert (R : 0 <= frnd 149 (fval x * fval y) <= 2 ^ j) by (split; [apply rnds_nonneg; lia|apply rnds_le; lia]).
  destruct A as [F V]; [now apply (small_fits _ j)|]. split; [exact F|]. rewrite V. split; [exact R|]. apply rnds_err; lia.
Qed.
Lemma fadd_err x y j : ffin x -> ffin y -> 0 <= fval x -> 0 <= fval y -> fval x + fval y <= 2 ^ j -> 0 <= j < 277 ->
  let v := fval (fadd x y) in ffin (fadd x y) /\ 0 <= v <= 2 ^ j /\ 2 ^ 24 * Z.abs (v - (fval x + fval y)) <= fval x + fval y + 2 ^ 23.
Proof.
  intros Fx Fy Hx Hy H Hj v. unfold v, fadd. pose proof (add_ok 24 128 ltac:(lia) ltac:(lia) x y Fx Fy) as A.
  assert (R : 0 <= frnd 0 (fval x + fval y) <= 2 ^ j) by (split; [apply rnds_nonneg; lia|apply rnds_le; [lia|lia|rewrite Z.pow_0_r; lia]]).
  destruct A as [F V]; [now apply (small_fits _ j)|]. split; [exact F|]. rewrite V. split; [exact R|].
  pose proof (rnds_err 0 (fval x + fval y) ltac:(lia) ltac:(lia)) as E. rewrite Z.pow_0_r, Z.mul_1_r in E. lia.
Qed.
(** A difference of at most 1 *)
Lemma fsub_unit x y : ffin x -> ffin y -> 0 <= fval x - fval y <= U ->
  let v := fval (fsub x y) in ffin (fsub x y) /\ 0 <= v <= U /\ Z.abs (v - (fval x - fval y)) <= 2 ^ 125 + 1.
Proof.
  intros Fx Fy H v. unfold v, fsub. pose proof (sub_ok 24 128 ltac:(lia) ltac:(lia) x y Fx Fy) as A.
  assert (R : 0 <= frnd 0 (fval x - fval y) <= 2 ^ 149) by (split; [apply rnds_nonneg; lia|apply rnds_le; lia]).
  destruct A as [F V]; [now apply (small_fits _ 149)|]. split; [exact F|]. rewrite V. split; [exact R|].
  pose proof (rnds_err 0 (fval x - fval y) ltac:(lia) ltac:(lia)) as E. rewrite Z.pow_0_r, Z.mul_1_r in E. lia.
Qed.

(** ** The interpolation *)
Lemma term_err p u v : 0 <= p <= 65535 -> ffin u -> ffin v -> 0 <= fval u <= U -> 0 <= fval v <= U ->
  let t := fmul (fmul (of_int p) u) v in
  ffin t /\ 0 <= fval t <= 2 ^ 165 /\ Z.abs (fval t * U - p * (fval u * fval v)) <= 2 ^ 143 * U.
Proof.
  intros Hp Fu Fv Hu Hv t. destruct (fmul_int p u 165) as (F1 & B1 & E1); [lia|exact Fu|lia|lia|nia|].
  destruct (fmul_unit (fmul (of_int p) u) v 165 F1 Fv B1 ltac:(lia) Hv) as (F2 & B2 & E2).
  split; [exact F2|]. split; [exact B2|]. fold t in B2, E2. generalize dependent (fval t). generalize dependent (fval (fmul (of_int p) u)). intros t1 B1 E1 t2 B2 E2. revert Hu Hv E1 E2. generalize (fval u) as a, (fval v) as b. clear -Hp B1 B2. intros a b Ha Hb E1 E2.
  assert (X1 : p * a <= 65535 * U) by nia.
  assert (Y1 : Z.abs (t1 - p * a) <= 2 ^ 141 + 1) by lia.
  assert (X2 : 0 <= t1 * b <= 2 ^ 165 * U) by nia.
  assert (Y2 : Z.abs (t2 * U - t1 * b) <= 2 ^ 141 * U + U) by lia.
  assert (Y3 : Z.abs (t1 * b - p * (a * b)) <= (2 ^ 141 + 1) * U).
  { replace (t1 * b - p * (a * b)) with ((t1 - p * a) * b) by ring. rewrite Z.abs_mul, (Z.abs_eq b) by lia. apply Z.mul_le_mono_nonneg; lia. }
  lia.
Qed.
Lemma weights_sum lo hi p00 p10 p01 p11 a wa b wb : 0 <= lo -> hi <= 65535 -> lo <= p00 <= hi -> lo <= p10 <= hi -> lo <= p01 <= hi -> lo <= p11 <= hi ->
  0 <= a <= U -> 0 <= b <= U -> 0 <= wa <= U -> 0 <= wb <= U -> Z.abs (wa - (U - a)) <= 2 ^ 125 + 1 -> Z.abs (wb - (U - b)) <= 2 ^ 125 + 1 ->
  let s := p00 * (wa * wb) + p10 * (a * wb) + p01 * (wa * b) + p11 * (a * b) in
  lo * U * U - 2 ^ 143 * U <= s <= hi * U * U + 2 ^ 143 * U.
Proof.
  intros Hl Hh H0 H1 H2 H3 Ha Hb Hwa Hwb Ea Eb s.
  assert (Q : forall p w, lo <= p <= hi -> 0 <= w -> lo * w <= p * w <= hi * w) by (intros; split; apply Z.mul_le_mono_nonneg_r; lia).
  pose proof (Q p00 (wa * wb) H0 ltac:(apply Z.mul_nonneg_nonneg; lia)). pose proof (Q p10 (a * wb) H1 ltac:(apply Z.mul_nonneg_nonneg; lia)).
  pose proof (Q p01 (wa * b) H2 ltac:(apply Z.mul_nonneg_nonneg; lia)). pose proof (Q p11 (a * b) H3 ltac:(apply Z.mul_nonneg_nonneg; lia)).
  set (A := wa + a). set (B := wb + b). assert (HA : U - 2 ^ 126 <= A <= U + 2 ^ 126) by (unfold A; lia). assert (HB : U - 2 ^ 126 <= B <= U + 2 ^ 126) by (unfold B; lia).
  assert (S1 : lo * (A * B) <= s <= hi * (A * B)).
  { unfold s, A, B. replace (lo * ((wa + a) * (wb + b))) with (lo * (wa * wb) + lo * (a * wb) + lo * (wa * b) + lo * (a * b)) by ring.
    replace (hi * ((wa + a) * (wb + b))) with (hi * (wa * wb) + hi * (a * wb) + hi * (wa * b) + hi * (a * b)) by ring. lia. }
  assert (AB : (U - 2 ^ 126) * (U - 2 ^ 126) <= A * B <= (U + 2 ^ 126) * (U + 2 ^ 126)) by (split; apply Z.mul_le_mono_nonneg; lia).
  assert (L : lo * ((U - 2 ^ 126) * (U - 2 ^ 126)) <= s) by (etransitivity; [apply Z.mul_le_mono_nonneg_l; [exact Hl|apply AB]|apply S1]).
  assert (G : s <= hi * ((U + 2 ^ 126) * (U + 2 ^ 126))) by (etransitivity; [apply S1|apply Z.mul_le_mono_nonneg_l; [lia|apply AB]]).
  clear - L G Hl Hh H0. lia.
Qed.
Lemma blend_near lo hi p00 p10 p01 p11 a b : 0 <= lo -> hi <= 65535 -> lo <= p00 <= hi -> lo <= p10 <= hi -> lo <= p01 <= hi -> lo <= p11 <= hi ->
  ffin a -> ffin b -> 0 <= fval a <= U -> 0 <= fval b <= U ->
  let v := blend p00 p10 p01 p11 a b in ffin v /\ 0 <= fval v /\ (4 * lo - 1) * U <= 4 * fval v <= (4 * hi + 1) * U.
Proof.
  intros Hl Hh H0 H1 H2 H3 Fa Fb Ha Hb v. destruct (of_int_rep 1) as [Fo Vo]; [lia|]. rewrite Z.mul_1_l in Vo.
  destruct (fsub_unit (of_int 1) a Fo Fa) as (Fwa & Bwa & Ewa); [lia|]. destruct (fsub_unit (of_int 1) b Fo Fb) as (Fwb & Bwb & Ewb); [lia|].
  rewrite Vo in Ewa, Ewb. unfold blend in v. set (wa := fsub (of_int 1) a) in *. set (wb := fsub (of_int 1) b) in *. cbv zeta in v.
  destruct (term_err p00 wa wb) as (F0 & B0 & E0); [lia|easy..|]. destruct (term_err p10 a wb) as (F1 & B1 & E1); [lia|easy..|].
  destruct (term_err p01 wa b) as (F2 & B2 & E2); [lia|easy..|]. destruct (term_err p11 a b) as (F3 & B3 & E3); [lia|easy..|].
  pose proof (weights_sum lo hi p00 p10 p01 p11 (fval a) (fval wa) (fval b) (fval wb) Hl Hh H0 H1 H2 H3 Ha Hb Bwa Bwb Ewa Ewb) as W. cbv zeta in W.
  set (t0 := fmul (fmul (of_int p00) wa) wb) in *. set (t1 := fmul (fmul (of_int p10) a) wb) in *. set (t2 := fmul (fmul (of_int p01) wa) b) in *. set (t3 := fmul (fmul (of_int p11) a) b) in *.
  assert (P166 : 2 ^ 165 + 2 ^ 165 <= 2 ^ 166) by lia.
  destruct (fadd_err t0 t1 166 F0 F1) as (G1 & C1 & D1); [lia|lia|lia|lia|].
  destruct (fadd_err (fadd t0 t1) t2 167 G1 F2) as (G2 & C2 & D2); [lia|lia|lia|lia|].
  destruct (fadd_err (fadd (fadd t0 t1) t2) t3 168 G2 F3) as (G3 & C3 & D3); [lia|lia|lia|lia|].
  fold v in G3, C3, D3. split; [exact G3|]. split; [lia|].
  clear - W E0 E1 E2 E3 B0 B1 B2 B3 C1 C2 C3 D1 D2 D3.
  generalize dependent (fval v). generalize dependent (fval (fadd (fadd t0 t1) t2)). generalize dependent (fval (fadd t0 t1)).
  generalize dependent (fval t0). generalize dependent (fval t1). generalize dependent (fval t2). generalize dependent (fval t3).
  generalize dependent (p00 * (fval wa * fval wb)). generalize dependent (p10 * (fval a * fval wb)). generalize dependent (p01 * (fval wa * fval b)). generalize dependent (p11 * (fval a * fval b)).
  intros. lia.
Qed.

(** ** The reciprocal of a whole number *)
Lemma of_int_form n : 1 <= n < 2 ^ 24 -> exists m e, of_int n = S754_finite false m e /\ 2 ^ 23 <= Zpos m < 2 ^ 24 /\ -23 <= e <= 0 /\ Zpos m = n * 2 ^ (- e).
Proof.
  intros Hn. destruct (of_int_rep n) as [F V]; [lia|]. destruct (of_int n) as [s|s| |s m e]; try (cbn [sval] in V; lia); try easy.
  cbn [sval] in V. destruct (bounded_inv 24 128 ltac:(lia) _ _ F) as (He & Mx & Mn). change (SpecFloat.emin 24 128) with (-149) in *. replace (e - -149) with (e + 149) in V by lia.
  assert (P : 0 < 2 ^ (e + 149)) by (apply Z.pow_pos_nonneg; lia).
  destruct s; cbn [cond_Zopp] in V; [exfalso; assert (0 < Zpos m * 2 ^ (e + 149)) by (apply Z.mul_pos_pos; lia); lia|].
  assert (E0 : -23 <= e).
  { destruct (Z_le_gt_dec (-23) e) as [|G]; [easy|]. exfalso. assert (2 ^ (e + 149) <= 2 ^ 125) by (apply Z.pow_le_mono_r; lia).
    assert (Zpos m * 2 ^ (e + 149) < 2 ^ 24 * 2 ^ (e + 149)) by (apply Z.mul_lt_mono_pos_r; lia). lia. }
  specialize (Mn ltac:(lia)). change (24 - 1) with 23 in Mn.
  assert (E1 : e <= 0).
  { destruct (Z_le_gt_dec e 0) as [|G]; [easy|]. exfalso. assert (2 ^ 150 <= 2 ^ (e + 149)) by (apply Z.pow_le_mono_r; lia).
    assert (2 ^ 23 * 2 ^ 150 <= Zpos m * 2 ^ (e + 149)) by (apply Z.mul_le_mono_nonneg; lia). lia. }
  exists m, e. split; [reflexivity|]. split; [lia|]. split; [lia|].
  assert (EE : U = 2 ^ (- e) * 2 ^ (e + 149)) by (rewrite <- Z.pow_add_r by lia; f_equal; lia). rewrite EE, Z.mul_assoc in V. apply (Z.mul_cancel_r _ _ (2 ^ (e + 149))); [lia|exact V].
Qed.
Definition rounded_up (q : Z) (l : location) : bool :=
  match l with loc_Exact => false | loc_Inexact Lt => false | loc_Inexact Eq => negb (Z.even q) | loc_Inexact Gt => true end.
Lemma round_loc q l e : 2 ^ 23 <= q < 2 ^ 24 -> -149 <= e -> e < 100 ->
  let M := if rounded_up q l then q + 1 else q in
  let x := binary_round_aux 24 128 false q e l in ffin x /\ fval x = M * 2 ^ (e + 149).
Proof.
  intros Hq He He' M. unfold binary_round_aux.
  assert (Lq : Z.log2 q = 23) by (apply Z.log2_unique; lia).
  assert (S1 : shr_fexp 24 128 q e l = (shr_record_of_loc q l, e)).
  { unfold shr_fexp. destruct q as [|p|p]; [lia| |lia]. cbn [Zdigits2]. rewrite digits_log2, Lq. unfold fexp. change (SpecFloat.emin 24 128) with (-149).
    replace (Z.max (23 + 1 + e - 24) (-149) - e) with 0 by lia. reflexivity. }
  rewrite S1. assert (LL : loc_of_shr_record (shr_record_of_loc q l) = l) by (destruct l as [|[| |]]; reflexivity). assert (LM : shr_m (shr_record_of_loc q l) = q) by (destruct l as [|[| |]]; reflexivity).
  rewrite LL, LM. assert (RN : round_nearest_even q l = M).
  { unfold M, rounded_up, round_nearest_even. destruct l as [|[| |]]; [reflexivity|destruct (Z.even q); reflexivity|reflexivity|reflexivity]. }
  rewrite RN. assert (HM : q <= M <= q + 1) by (unfold M; destruct (rounded_up q l); lia). clear RN S1 LL LM.
  destruct (Z.eq_dec M (2 ^ 24)) as [E|NE].
  - rewrite E. unfold shr_fexp, fexp. change (Zdigits2 (2 ^ 24)) with 25. change (SpecFloat.emin 24 128) with (-149).
    replace (Z.max (25 + e - 24) (-149) - e) with 1 by lia. change (shr (shr_record_of_loc (2 ^ 24) loc_Exact) e 1) with (Build_shr_record (2 ^ 23) false false, e + 1).
    cbn [shr_m]. change (2 ^ 23) with (Zpos 8388608). change (128 - 24) with 104. replace (e + 1 <=? 104) with true by (symmetry; apply Z.leb_le; lia). split.
    + cbn [finite]. unfold bounded, canonical_mantissa. change (Zpos (digits2_pos 8388608)) with 24. unfold fexp. change (SpecFloat.emin 24 128) with (-149).
      apply andb_true_intro. split; [apply Zeq_is_eq_bool; lia|apply Z.leb_le; lia].
    + cbn [sval cond_Zopp]. change (SpecFloat.emin 24 128) with (-149). replace (e + 1 - -149) with (1 + (e + 149)) by lia. rewrite Z.pow_add_r by lia. lia.
  - assert (LgM : Z.log2 M = 23) by (apply Z.log2_unique; lia). rewrite (shr_fexp_0 24 128); try (change (SpecFloat.emin 24 128) with (-149)); try rewrite LgM; try lia.
    cbn [shr_m]. clearbody M. destruct M as [|p|p]; [lia| |lia]. change (128 - 24) with 104. replace (e <=? 104) with true by (symmetry; apply Z.leb_le; lia). split.
    + cbn [finite]. unfold bounded, canonical_mantissa. rewrite digits_log2, LgM. unfold fexp. change (SpecFloat.emin 24 128) with (-149).
      apply andb_true_intro. split; [apply Zeq_is_eq_bool; lia|apply Z.leb_le; lia].
    + cbn [sval cond_Zopp]. change (SpecFloat.emin 24 128) with (-149). reflexivity.
Qed.
Lemma location_near m r q : 1 < m -> 0 <= r < m -> let M := if rounded_up q (new_location m r) then q + 1 else q in 2 * Z.abs (M * m - (q * m + r)) <= m.
Proof.
  intros Hm Hr M.
  assert (N : new_location m r = loc_Exact /\ r = 0 \/ new_location m r = loc_Inexact Lt /\ 2 * r <= m \/ new_location m r = loc_Inexact Eq /\ 2 * r = m \/ new_location m r = loc_Inexact Gt /\ m <= 2 * r).
  { unfold new_location, new_location_even, new_location_odd. destruct (Z.even m); (destruct (Zeq_bool r 0) eqn:E0; [left; split; [reflexivity|now apply Zeq_bool_eq]|]).
    - destruct (Z.compare_spec (2 * r) m); right; [right; left|left|right; right]; split; try reflexivity; lia.
    - destruct (Z.compare_spec (2 * r + 1) m); right; [left|left|right; right]; split; try reflexivity; lia. }
  unfold M. destruct N as [[-> N]|[[-> N]|[[-> N]|[-> N]]]]; cbn [rounded_up]; try destruct (negb (Z.even q)); lia.
Qed.
Lemma recip_near n : 1 <= n < 2 ^ 24 -> let x := fdiv (of_int 1) (of_int n) in ffin x /\ 0 <= fval x <= U /\ Z.abs (n * fval x - U) <= 2 ^ 125.
Proof.
  intros Hn x. destruct (of_int_form n Hn) as (m & e & E & Hm & He & Em). unfold x. rewrite E. clear E x.
  change (of_int 1) with (S754_finite false 8388608 (-23)).
  assert (Pe : 0 < 2 ^ (- e)) by (apply Z.pow_pos_nonneg; lia).
  destruct (Z.eq_dec (Zpos m) (2 ^ 23)) as [E23|N23].
  - assert (m = 8388608%positive) by (now injection E23). subst m. pose proof (fdiv_pow2 false 8388608 (-23) (e + 23) ltac:(lia) ltac:(lia) ltac:(lia)) as [F V].
    replace (e + 23 - 23) with e in F, V by lia. split; [exact F|]. rewrite V. cbn [cond_Zopp]. replace (-23 - (e + 23) + 149) with (103 + - e) by lia. rewrite Z.pow_add_r by lia.
    replace (Zpos 8388608 * (2 ^ 103 * 2 ^ (- e))) with (2 ^ 126 * 2 ^ (- e)) by (change (Zpos 8388608) with (2 ^ 23); ring).
    assert (2 ^ (- e) <= 2 ^ 23) by (apply Z.pow_le_mono_r; lia). split; [lia|]. replace (n * (2 ^ 126 * 2 ^ (- e))) with (n * 2 ^ (- e) * 2 ^ 126) by ring. rewrite <- Em. cbn. lia.
  - unfold fdiv. cbn [SFdiv]. unfold SFdiv_core_binary. cbn [Zdigits2]. rewrite !digits_log2. assert (Lm : Z.log2 (Zpos m) = 23) by (apply Z.log2_unique; lia). rewrite Lm.
    change (Z.log2 8388608) with 23. unfold fexp. change (SpecFloat.emin 24 128) with (-149). replace (Z.min _ _) with (-47 - e) by lia. replace (-23 - e - (-47 - e)) with 24 by lia.
    cbn [xorb]. cbv iota. change (Z.shiftl 8388608 24) with (2 ^ 47).
    pose proof (Z.div_eucl_eq (2 ^ 47) (Zpos m) ltac:(lia)) as DE. pose proof (Z_mod_lt (2 ^ 47) (Zpos m) ltac:(lia)) as DR. unfold Z.modulo in DR.
    destruct (Z.div_eucl (2 ^ 47) (Zpos m)) as [q r]. rewrite Z.mul_comm in DE.
    assert (Hq : 2 ^ 23 <= q < 2 ^ 24) by (clear - DE DR Hm N23; nia).
    destruct (round_loc q (new_location (Zpos m) r) (-47 - e) Hq ltac:(lia) ltac:(lia)) as [F V]. split; [exact F|]. rewrite V.
    pose proof (location_near (Zpos m) r q ltac:(lia) DR) as L. cbv zeta in L. rewrite <- DE in L. set (M := if rounded_up q (new_location (Zpos m) r) then q + 1 else q) in *.
    assert (HM : 0 <= M <= 2 ^ 24) by (unfold M; destruct (rounded_up _ _); lia). replace (-47 - e + 149) with (102 + - e) by lia. rewrite Z.pow_add_r by lia.
    assert (2 ^ (- e) <= 2 ^ 23) by (apply Z.pow_le_mono_r; lia). split.
    { split; [apply Z.mul_nonneg_nonneg; lia|]. transitivity (2 ^ 24 * (2 ^ 102 * 2 ^ 23)); [|lia]. apply Z.mul_le_mono_nonneg; lia. }
    replace (n * (M * (2 ^ 102 * 2 ^ (- e)))) with (M * (n * 2 ^ (- e)) * 2 ^ 102) by ring. rewrite <- Em. clear - L Hm. lia.
Qed.

(** ** Positions *)
Lemma ratio_near inn out : 1 <= Z.of_nat inn <= 2 ^ 20 -> 1 <= Z.of_nat out <= 2 ^ 20 -> let r := ratio inn out in
  ffin r /\ 0 <= fval r <= 2 ^ 170 /\ 2 ^ 24 * Z.of_nat out * fval r <= Z.of_nat inn * ((2 ^ 24 + 1) * (2 ^ 24 + 1) * 2 ^ 125) + 2 ^ 23 * Z.of_nat out.
Proof.
  intros Hi' Ho' r.
  destruct (recip_near (Z.of_nat out)) as (F1 & B1 & E1); [lia|]. unfold r, ratio. set (x := fdiv (of_int 1) (of_int (Z.of_nat out))) in *.
  destruct (fmul_int_r (Z.of_nat inn) x 170) as (F2 & B2 & E2); [lia|exact F1|lia|lia|nia|]. split; [exact F2|]. split; [exact B2|].
  generalize dependent (fval (fmul x (of_int (Z.of_nat inn)))). intros v B2 E2. clear F2 F1. revert B1 E1 E2. generalize (fval x) as u. intros. clear x r. revert Hi' Ho' E1 E2. generalize (Z.of_nat inn) as i, (Z.of_nat out) as o. intros.
  assert (K1 : 2 ^ 24 * v <= (2 ^ 24 + 1) * (i * u) + 2 ^ 23) by lia.
  assert (K2 : o * u <= (2 ^ 24 + 1) * 2 ^ 125) by lia.
  assert (K3 : o * (2 ^ 24 * v) <= o * ((2 ^ 24 + 1) * (i * u) + 2 ^ 23)) by (apply Z.mul_le_mono_nonneg_l; lia).
  assert (K4 : (2 ^ 24 + 1) * i * (o * u) <= (2 ^ 24 + 1) * i * ((2 ^ 24 + 1) * 2 ^ 125)) by (apply Z.mul_le_mono_nonneg_l; lia).
  replace (o * ((2 ^ 24 + 1) * (i * u) + 2 ^ 23)) with ((2 ^ 24 + 1) * i * (o * u) + 2 ^ 23 * o) in K3 by ring. replace (2 ^ 24 * o * v) with (o * (2 ^ 24 * v)) by ring.
  replace (i * ((2 ^ 24 + 1) * (2 ^ 24 + 1) * 2 ^ 125)) with ((2 ^ 24 + 1) * i * ((2 ^ 24 + 1) * 2 ^ 125)) by ring. clear -K3 K4. lia.
Qed.
Lemma place_ok clampit inn out i : 1 <= Z.of_nat inn <= 2 ^ 20 -> 1 <= Z.of_nat out <= 2 ^ 20 -> (i < out)%nat -> exists i0 a,
  place clampit (ratio inn out) inn i = Ok (i0, Nat.min (i0 + 1) (inn - 1), a) /\ (i0 < inn)%nat /\ ffin a /\ 0 <= fval a <= U /\
  let p := fmul (of_int (Z.of_nat i)) (ratio inn out) in ffin p /\ fval p / U = Z.of_nat i0 /\ a = fsub p (of_int (Z.of_nat i0)).
Proof.
  intros Hi' Ho' Hx. destruct (ratio_near inn out Hi' Ho') as (Fr & Br & Er). set (r := ratio inn out) in *.
  assert (Hx' : 0 <= Z.of_nat i <= Z.of_nat out - 1) by lia.
  destruct (fmul_int (Z.of_nat i) r 190) as (F2 & B2 & E2); [lia|exact Fr|lia|lia|nia|]. unfold place. set (p := fmul (of_int (Z.of_nat i)) r) in *.
  assert (LT : fval p < Z.of_nat inn * U).
  { clear F2 Fr. clearbody p r. revert B2 E2 Br Er. generalize (fval p) as v. generalize (fval r) as u. intros. revert Hi' Ho' Hx' E2 Er. clear. generalize (Z.of_nat inn) as n, (Z.of_nat out) as o, (Z.of_nat i) as x. intros.
    destruct (Z_lt_le_dec v (n * U)) as [|GE]; [easy|]. exfalso.
    assert (K1 : 2 ^ 24 * v <= (2 ^ 24 + 1) * (x * u) + 2 ^ 23) by lia.
    assert (K2 : (2 ^ 24 * o) * (2 ^ 24 * v) <= (2 ^ 24 * o) * ((2 ^ 24 + 1) * (x * u) + 2 ^ 23)) by (apply Z.mul_le_mono_nonneg_l; lia).
    replace ((2 ^ 24 * o) * ((2 ^ 24 + 1) * (x * u) + 2 ^ 23)) with ((2 ^ 24 + 1) * (x * (2 ^ 24 * o * u)) + 2 ^ 47 * o) in K2 by ring.
    assert (K3 : x * (2 ^ 24 * o * u) <= (o - 1) * (n * ((2 ^ 24 + 1) * (2 ^ 24 + 1) * 2 ^ 125) + 2 ^ 23 * o)).
    { etransitivity; [apply Z.mul_le_mono_nonneg_l; [lia|exact Er]|]. apply Z.mul_le_mono_nonneg_r; [|lia]. apply Z.add_nonneg_nonneg; apply Z.mul_nonneg_nonneg; lia. }
    assert (K4 : (2 ^ 24 * o) * (2 ^ 24 * (n * U)) <= (2 ^ 24 * o) * (2 ^ 24 * v)) by (apply Z.mul_le_mono_nonneg_l; lia).
    assert (NO : n <= n * o <= 2 ^ 20 * n) by nia. assert (OO : o * o <= 2 ^ 20 * o) by nia.
    replace ((2 ^ 24 * o) * (2 ^ 24 * (n * U))) with (2 ^ 197 * (n * o)) in K4 by (change (2 ^ 197) with (2 ^ 24 * 2 ^ 24 * U); ring).
    replace ((o - 1) * (n * ((2 ^ 24 + 1) * (2 ^ 24 + 1) * 2 ^ 125) + 2 ^ 23 * o)) with ((n * o - n) * ((2 ^ 24 + 1) * (2 ^ 24 + 1) * 2 ^ 125) + 2 ^ 23 * (o * o) - 2 ^ 23 * o) in K3 by ring.
    revert K2 K3 K4 NO OO. generalize (x * (2 ^ 24 * o * u)) as s, (n * o) as no, (o * o) as oo, (2 ^ 24 * o * (2 ^ 24 * v)) as w. intros. lia. }
  rewrite (to_uint_ok (2 ^ 64 - 1) p ltac:(lia) F2). assert (Dv : 0 <= fval p / U < Z.of_nat inn) by (split; [apply Z.div_pos; lia|apply Z.div_lt_upper_bound; lia]).
  replace (Z.max 0 (Z.min (2 ^ 64 - 1) (fval p / U))) with (fval p / U) by lia. set (i0 := Z.to_nat (fval p / U)). assert (I0 : (i0 < inn)%nat) by (unfold i0; lia).
  replace (inn =? 0)%nat with false by (symmetry; apply Nat.eqb_neq; clear - I0; lia). replace (if clampit then Nat.min i0 (inn - 1) else i0)%nat with i0 by (clear - I0; destruct clampit; lia).
  exists i0, (fsub p (of_int (Z.of_nat i0))). split; [reflexivity|]. split; [exact I0|].
  destruct (of_int_rep (Z.of_nat i0)) as [Fi Vi]; [lia|]. assert (MD : 0 <= fval p - fval (of_int (Z.of_nat i0)) <= U).
  { rewrite Vi. unfold i0. rewrite Z2Nat.id by lia. pose proof (Z.mod_pos_bound (fval p) U ltac:(lia)). pose proof (Z.div_mod (fval p) U ltac:(lia)). lia. }
  destruct (fsub_unit p (of_int (Z.of_nat i0)) F2 Fi MD) as (Fs & Bs & _). split; [exact Fs|]. split; [exact Bs|]. cbv zeta. split; [exact F2|]. split; [|reflexivity]. unfold i0. lia.
Qed.

(** ** The loops *)
Section Run.
Variables (hi : Z) (inp : list Z) (iw ih ow oh : nat) (gx gy : nat -> nat * nat * f32).
Let larger := SFltb (ratio iw ow) (of_int 1) && SFltb (ratio ih oh) (of_int 1).
Definition sample_of (x y : nat) : Z :=
  let '(x0, x1, a) := gx x in let '(y0, y1, b) := gy y in
  to_uint hi (blend (px iw inp x0 y0) (px iw inp x1 y0) (px iw inp x0 y1) (px iw inp x1 y1) a b).
Hypothesis Hl : length inp = (iw * ih)%nat.
Hypothesis Hx : forall x, (x < ow)%nat -> place larger (ratio iw ow) iw x = Ok (gx x) /\ (fst (fst (gx x)) < iw)%nat /\ (snd (fst (gx x)) < iw)%nat.
Hypothesis Hy : forall y, (y < oh)%nat -> place larger (ratio ih oh) ih y = Ok (gy y) /\ (fst (fst (gy y)) < ih)%nat /\ (snd (fst (gy y)) < ih)%nat.
Lemma bilinear_run : exists out, resize_bilinear hi inp iw ih ow oh = Ok out /\ is_image ow oh out sample_of.
Proof.
  unfold resize_bilinear, bilinear_impl. fold larger.
  destruct (for_range_inv (fun y (out : list Z) => length out = (ow * oh)%nat /\
      forall x' y', (x' < ow)%nat -> (y' < y)%nat -> (y' < oh)%nat -> px ow out x' y' = sample_of x' y') 0 oh
      (fun y out => do py <- place larger (ratio ih oh) ih y ; let '(y0, y1, b) := py in
        for_range 0 ow (fun x out => do px <- place larger (ratio iw ow) iw x ; let '(x0, x1, a) := px in
          do p00 <- get_at inp (y0 * iw + x0) ; do p10 <- get_at inp (y0 * iw + x1) ; do p01 <- get_at inp (y1 * iw + x0) ; do p11 <- get_at inp (y1 * iw + x1) ;
          set_at out (y * ow + x) (to_uint hi (blend p00 p10 p01 p11 a b))) out) (repeat 0 (ow * oh))) as (out & -> & L & N).
  - lia.
  - split; [now rewrite repeat_length|]. intros. lia.
  - intros y out Hy' (L & N). destruct (Hy y ltac:(lia)) as (-> & B0 & B1). cbn [bind]. destruct (gy y) as [[y0 y1] b] eqn:Gy. cbn [fst snd] in B0, B1.
    destruct (for_range_inv (fun x (out : list Z) => length out = (ow * oh)%nat /\
      forall x' y', (x' < ow)%nat -> (y' < oh)%nat -> (y' < y)%nat \/ (y' = y /\ (x' < x)%nat) -> px ow out x' y' = sample_of x' y') 0 ow
      (fun x out => do px <- place larger (ratio iw ow) iw x ; let '(x0, x1, a) := px in
          do p00 <- get_at inp (y0 * iw + x0) ; do p10 <- get_at inp (y0 * iw + x1) ; do p01 <- get_at inp (y1 * iw + x0) ; do p11 <- get_at inp (y1 * iw + x1) ;
          set_at out (y * ow + x) (to_uint hi (blend p00 p10 p01 p11 a b))) out) as (out' & E' & L' & N').
    + lia.
    + split; [easy|]. intros x' y' Hx' Hyy [H|H]; [now apply N|lia].
    + intros x s Hx' (Ls & Ns). destruct (Hx x ltac:(lia)) as (-> & A0 & A1). cbn [bind]. destruct (gx x) as [[x0 x1] a] eqn:Gx. cbn [fst snd] in A0, A1.
      assert (I : forall u v, (u < iw)%nat -> (v < ih)%nat -> get_at inp (v * iw + u) = Ok (px iw inp u v)).
      { intros u v Hu Hv. apply get_at_ok. rewrite Hl. now apply idx_bound'. }
      rewrite !I by easy. cbn [bind]. assert (Hi : (y * ow + x < ow * oh)%nat) by (apply idx_bound'; lia). rewrite set_at_ok by lia. eexists. split; [reflexivity|].
      split; [now rewrite upd_length|]. intros x' y' Hx2 Hy2 H. unfold px at 1.
      destruct (Nat.eq_dec (y' * ow + x') (y * ow + x)) as [E|Ne].
      * apply idx_inj in E as [-> ->]; [|lia|lia]. rewrite upd_nth_same by lia. unfold sample_of. now rewrite Gx, Gy.
      * rewrite upd_nth_other by lia. apply Ns; [easy|easy|]. destruct H as [H|[-> H]]; [now left|].
        right. split; [easy|]. assert (x' <> x) by (intros ->; lia). lia.
    + exists out'. split; [exact E'|]. split; [easy|]. intros x' y' Hx' Hy2 Hyh. apply N'; [easy|easy|]. destruct (Nat.eq_dec y' y); [right; lia|left; lia].
  - exists out. split; [reflexivity|]. split; [exact L|]. intros x y Hx' Hy'. now apply N.
Qed.
End Run.

(** ** Whole ratios *)
Lemma power_ratio k j : 0 <= j -> 1 <= k -> k * 2 ^ j < 2 ^ 24 -> rep (ratio (Z.to_nat (k * 2 ^ j)) (Z.to_nat (2 ^ j))) k.
Proof.
  intros Hj Hk B. assert (Pj : 0 < 2 ^ j) by (apply Z.pow_pos_nonneg; lia). assert (J24 : 2 ^ j < 2 ^ 24) by nia. assert (K24 : k < 2 ^ 24) by nia.
  assert (Jb : j < 24) by (destruct (Z_lt_le_dec j 24) as [|G]; [easy|]; pose proof (Z.pow_le_mono_r 2 24 j ltac:(lia) G); lia).
  unfold ratio. rewrite !Z2Nat.id by nia. destruct (of_int_form (2 ^ j)) as (m & e & E & Hm & He & Em); [lia|]. rewrite E.
  rewrite <- Z.pow_add_r in Em by lia.
  assert (JE : j + - e = 23).
  { destruct (Z_lt_le_dec (j + - e) 23) as [G|G]; [pose proof (Z.pow_le_mono_r 2 (j + - e) 22 ltac:(lia) ltac:(lia)); lia|].
    destruct (Z_le_gt_dec (j + - e) 23) as [G'|G']; [lia|]. pose proof (Z.pow_le_mono_r 2 24 (j + - e) ltac:(lia) ltac:(lia)); lia. }
  rewrite JE in Em. assert (m = 8388608%positive) by (now injection Em). subst m. replace e with (j - 23) by lia.
  change (of_int 1) with (S754_finite false 8388608 (-23)). destruct (fdiv_pow2 false 8388608 (-23) j) as [F V]; [lia|lia|lia|]. set (x := fdiv _ _) in *. cbn [cond_Zopp] in V.
  destruct (of_int_rep (k * 2 ^ j)) as [Fn Vn]; [lia|]. unfold rep, fmul. pose proof (mul_ok 24 128 ltac:(lia) ltac:(lia) x (of_int (k * 2 ^ j)) F Fn) as A.
  replace (fval x * fval (of_int (k * 2 ^ j))) with (k * U * U) in A.
  - change (- SpecFloat.emin 24 128) with (0 + 149) in A. rewrite rnds_scale, frnd_id in A by lia. apply A, fits_int. lia.
  - rewrite V, Vn. replace (Zpos 8388608 * 2 ^ (-23 - j + 149) * (k * 2 ^ j * U)) with (k * (2 ^ 23 * (2 ^ (-23 - j + 149) * 2 ^ j)) * U) by (change (Zpos 8388608) with (2 ^ 23); ring).
    rewrite <- !Z.pow_add_r by lia. do 3 f_equal. lia.
Qed.
Lemma place_whole clampit r inn i k : rep r (Z.of_nat k) -> Z.of_nat inn < 2 ^ 24 -> (1 <= k)%nat -> (i * k < inn)%nat ->
  exists a, place clampit r inn i = Ok ((i * k)%nat, Nat.min (i * k + 1) (inn - 1), a) /\ rep a 0.
Proof.
  intros R Hn Hk Hi. assert (IK : (i <= i * k)%nat) by (clear - Hk; nia). unfold place.
  assert (Ri : rep (of_int (Z.of_nat i)) (Z.of_nat i)) by (apply of_int_rep; lia).
  pose proof (fmul_rep _ _ _ _ Ri R ltac:(rewrite <- Nat2Z.inj_mul; lia)) as Rp. rewrite <- Nat2Z.inj_mul in Rp. set (p := fmul (of_int (Z.of_nat i)) r) in *.
  rewrite (to_uint_rep (2 ^ 64 - 1) p _ ltac:(lia) Rp). replace (Z.to_nat (Z.max 0 (Z.min (2 ^ 64 - 1) (Z.of_nat (i * k))))) with (i * k)%nat by lia.
  replace (inn =? 0)%nat with false by (symmetry; apply Nat.eqb_neq; lia). replace (if clampit then Nat.min (i * k) (inn - 1) else i * k)%nat with (i * k)%nat by (destruct clampit; lia).
  eexists. split; [reflexivity|]. replace 0 with (Z.of_nat (i * k) - Z.of_nat (i * k)) by lia. apply fsub_rep; [exact Rp|apply of_int_rep; lia|lia].
Qed.
Lemma blend_exact p00 p10 p01 p11 a b : 0 <= p00 < 2 ^ 24 -> 0 <= p10 < 2 ^ 24 -> 0 <= p01 < 2 ^ 24 -> 0 <= p11 < 2 ^ 24 -> rep a 0 -> rep b 0 -> rep (blend p00 p10 p01 p11 a b) p00.
Proof.
  intros H0 H1 H2 H3 Ra Rb. unfold blend. cbv zeta. assert (R1 : rep (of_int 1) 1) by (apply of_int_rep; lia).
  pose proof (fsub_rep _ _ _ _ R1 Ra ltac:(lia)) as Wa. pose proof (fsub_rep _ _ _ _ R1 Rb ltac:(lia)) as Wb. change (1 - 0) with 1 in Wa, Wb.
  assert (T : forall p u v x y, 0 <= p < 2 ^ 24 -> rep u x -> rep v y -> 0 <= x <= 1 -> 0 <= y <= 1 -> rep (fmul (fmul (of_int p) u) v) (p * x * y)).
  { intros p u v x y Hp Hu Hv Bx By. apply fmul_rep; [apply fmul_rep; [apply of_int_rep; lia|exact Hu|]|exact Hv|]; (assert (Xc : x = 0 \/ x = 1) by lia; assert (Yc : y = 0 \/ y = 1) by lia; destruct Xc, Yc; subst; lia). }
  pose proof (T p00 _ _ _ _ H0 Wa Wb ltac:(lia) ltac:(lia)) as T0. pose proof (T p10 _ _ _ _ H1 Ra Wb ltac:(lia) ltac:(lia)) as T1.
  pose proof (T p01 _ _ _ _ H2 Wa Rb ltac:(lia) ltac:(lia)) as T2. pose proof (T p11 _ _ _ _ H3 Ra Rb ltac:(lia) ltac:(lia)) as T3.
  pose proof (fadd_rep _ _ _ _ (fadd_rep _ _ _ _ (fadd_rep _ _ _ _ T0 T1 ltac:(lia)) T2 ltac:(lia)) T3 ltac:(lia)) as S.
  replace p00 with (p00 * 1 * 1 + p10 * 0 * 1 + p01 * 1 * 0 + p11 * 0 * 0) at 2 by ring. exact S.
Qed.

(** ** Interpolation in whole numbers *)
Lemma between_scale f n t D k : 0 < D -> 0 < k -> between f n (t * k) (D * k) = k * between f n t D.
Proof. intros HD Hk. unfold between. rewrite Z.div_mul_cancel_r, Zmult_mod_distr_r by lia. ring. Qed.
Lemma between_bound f n H t D : (1 <= n)%nat -> 0 < D -> 0 <= t < Z.of_nat n * D -> (forall i, (i < n)%nat -> 0 <= f i <= H) -> 0 <= between f n t D <= H * D.
Proof.
  intros Hn HD Ht Hf. unfold between. pose proof (Z.mod_pos_bound t D HD) as M. assert (0 <= t / D < Z.of_nat n) by (split; [apply Z.div_pos; lia|apply Z.div_lt_upper_bound; lia]).
  pose proof (Hf (Z.to_nat (t / D)) ltac:(lia)) as A. pose proof (Hf (Nat.min (Z.to_nat (t / D) + 1) (n - 1)) ltac:(lia)) as B. revert A B M.
  generalize (f (Z.to_nat (t / D))) as a, (f (Nat.min (Z.to_nat (t / D) + 1) (n - 1))) as b, (t mod D) as r. clear. intros. nia.
Qed.
Lemma between_lin f g h n t D c : (1 <= n)%nat -> 0 < D -> 0 <= t < Z.of_nat n * D -> (forall i, (i < n)%nat -> Z.abs (f i - g i) <= c) -> h = between f n t D - between g n t D -> Z.abs h <= c * D.
Proof.
  intros Hn HD Ht Hf ->. unfold between. pose proof (Z.mod_pos_bound t D HD) as M. assert (0 <= t / D < Z.of_nat n) by (split; [apply Z.div_pos; lia|apply Z.div_lt_upper_bound; lia]).
  pose proof (Hf (Z.to_nat (t / D)) ltac:(lia)) as A. pose proof (Hf (Nat.min (Z.to_nat (t / D) + 1) (n - 1)) ltac:(lia)) as B. revert A B M.
  generalize (f (Z.to_nat (t / D))) as a, (f (Nat.min (Z.to_nat (t / D) + 1) (n - 1))) as b, (g (Z.to_nat (t / D))) as a', (g (Nat.min (Z.to_nat (t / D) + 1) (n - 1))) as b', (t mod D) as r. clear. intros.
  replace (a * (D - r) + b * r - (a' * (D - r) + b' * r)) with ((a - a') * (D - r) + (b - b') * r) by ring.
  assert (Z.abs ((a - a') * (D - r)) <= c * (D - r)) by (rewrite Z.abs_mul, (Z.abs_eq (D - r)) by lia; apply Z.mul_le_mono_nonneg_r; lia).
  assert (Z.abs ((b - b') * r) <= c * r) by (rewrite Z.abs_mul, (Z.abs_eq r) by lia; apply Z.mul_le_mono_nonneg_r; lia). lia.
Qed.
Lemma between_step f n H t D : 0 < D -> 0 <= t -> t + 1 < Z.of_nat n * D -> (forall i, (i < n)%nat -> 0 <= f i <= H) -> Z.abs (between f n (t + 1) D - between f n t D) <= H.
Proof.
  intros HD Ht Ht' Hf. unfold between. pose proof (Z.mod_pos_bound t D HD) as M. pose proof (Z.div_mod t D ltac:(lia)) as DM.
  assert (Q : 0 <= t / D < Z.of_nat n) by (split; [apply Z.div_pos; lia|apply Z.div_lt_upper_bound; lia]).
  set (q := t / D) in *. set (r := t mod D) in *.
  destruct (Z.eq_dec (r + 1) D) as [E|NE].
  - assert (Eq : (t + 1) / D = q + 1) by (symmetry; apply (Z.div_unique_pos _ _ _ 0); lia). assert (Er : (t + 1) mod D = 0) by (symmetry; apply (Z.mod_unique_pos _ _ (q + 1)); lia).
    assert (QN : q + 1 < Z.of_nat n) by (rewrite <- Eq; apply Z.div_lt_upper_bound; lia). rewrite Eq, Er. replace (Nat.min (Z.to_nat q + 1) (n - 1)) with (Z.to_nat (q + 1)) by lia.
    pose proof (Hf (Z.to_nat q) ltac:(lia)) as A. pose proof (Hf (Z.to_nat (q + 1)) ltac:(lia)) as B. generalize dependent (f (Z.to_nat q)). generalize dependent (f (Z.to_nat (q + 1))).
    intros b B a A. replace D with (r + 1) by lia. rewrite Z.mul_0_r. replace (b * (r + 1 - 0) + 0 - (a * (r + 1 - r) + b * r)) with (b - a) by ring. lia.
  - assert (Eq : (t + 1) / D = q) by (symmetry; apply (Z.div_unique_pos _ _ _ (r + 1)); lia). assert (Er : (t + 1) mod D = r + 1) by (symmetry; apply (Z.mod_unique_pos _ _ q); lia).
    rewrite Eq, Er. pose proof (Hf (Z.to_nat q) ltac:(lia)) as A. pose proof (Hf (Nat.min (Z.to_nat q + 1) (n - 1)) ltac:(lia)) as B.
    generalize dependent (f (Z.to_nat q)). generalize dependent (f (Nat.min (Z.to_nat q + 1) (n - 1))). intros b B a A.
    replace (a * (D - (r + 1)) + b * (r + 1) - (a * (D - r) + b * r)) with (b - a) by ring. lia.
Qed.
Lemma between_lip f n H D t t' : 0 < D -> 0 <= t -> 0 <= t' -> t < Z.of_nat n * D -> t' < Z.of_nat n * D -> (forall i, (i < n)%nat -> 0 <= f i <= H) ->
  Z.abs (between f n t' D - between f n t D) <= H * Z.abs (t' - t).
Proof.
  intros HD.
  assert (W : forall d, 0 <= d -> forall t, 0 <= t -> t + d < Z.of_nat n * D -> (forall i, (i < n)%nat -> 0 <= f i <= H) -> Z.abs (between f n (t + d) D - between f n t D) <= H * d).
  { apply (natlike_ind (fun d => forall t, 0 <= t -> t + d < Z.of_nat n * D -> (forall i, (i < n)%nat -> 0 <= f i <= H) -> Z.abs (between f n (t + d) D - between f n t D) <= H * d)).
    - intros s _ _ _. rewrite Z.add_0_r, Z.sub_diag. lia.
    - intros d Hd IH s Hs B Hf. specialize (IH s Hs ltac:(lia) Hf). pose proof (between_step f n H (s + d) D HD ltac:(lia) ltac:(lia) Hf) as S. replace (s + Z.succ d) with (s + d + 1) by lia.
      rewrite Z.mul_succ_r. clear - IH S. lia. }
  intros Ht Ht' B B' Hf. destruct (Z_le_gt_dec t t') as [L|G].
  - pose proof (W (t' - t) ltac:(lia) t Ht ltac:(lia) Hf) as W'. replace (t + (t' - t)) with t' in W' by lia. replace (Z.abs (t' - t)) with (t' - t) by lia. revert W'. clear. lia.
  - pose proof (W (t - t') ltac:(lia) t' Ht' ltac:(lia) Hf) as W'. replace (t' + (t - t')) with t in W' by lia. replace (Z.abs (t' - t)) with (t - t') by lia. revert W'. clear. lia.
Qed.
(** Two places at most [d] parts of [2^22] of the side apart, in different units *)
Lemma between_units f n H t D t' D' : (1 <= n)%nat -> 0 < D -> 0 < D' -> 0 <= t < Z.of_nat n * D -> 0 <= t' < Z.of_nat n * D' -> (forall i, (i < n)%nat -> 0 <= f i <= H) ->
  2 ^ 22 * Z.abs (D * t' - t * D') <= D * Z.of_nat n * D' -> 2 ^ 22 * Z.abs (D * between f n t' D' - D' * between f n t D) <= H * Z.of_nat n * (D * D').
Proof.
  intros Hn HD HD' Ht Ht' Hf C. rewrite <- (between_scale f n t' D' D), <- (between_scale f n t D D') by lia. rewrite (Z.mul_comm D' D).
  pose proof (between_lip f n H (D * D') (t * D') (t' * D) ltac:(apply Z.mul_pos_pos; lia)) as L.
  assert (H0 : 0 <= H) by (specialize (Hf 0%nat ltac:(lia)); lia).
  specialize (L ltac:(apply Z.mul_nonneg_nonneg; lia) ltac:(apply Z.mul_nonneg_nonneg; lia)).
  assert (B1 : t * D' < Z.of_nat n * (D * D')) by (replace (Z.of_nat n * (D * D')) with (Z.of_nat n * D * D') by ring; apply Z.mul_lt_mono_pos_r; lia).
  assert (B2 : t' * D < Z.of_nat n * (D * D')) by (replace (Z.of_nat n * (D * D')) with (Z.of_nat n * D' * D) by ring; apply Z.mul_lt_mono_pos_r; lia).
  specialize (L B1 B2 Hf). rewrite (Z.mul_comm t' D) in L at 2.
  apply (Z.le_trans _ (2 ^ 22 * (H * Z.abs (D * t' - t * D')))); [apply Z.mul_le_mono_nonneg_l; [lia|exact L]|].
  replace (2 ^ 22 * (H * Z.abs (D * t' - t * D'))) with (H * (2 ^ 22 * Z.abs (D * t' - t * D'))) by ring. replace (H * Z.of_nat n * (D * D')) with (H * (D * Z.of_nat n * D')) by ring.
  apply Z.mul_le_mono_nonneg_l; assumption.
Qed.

(** ** Accuracy of the position and of the value *)
Lemma place_near inn out i : 1 <= Z.of_nat inn <= 2 ^ 20 -> 1 <= Z.of_nat out <= 2 ^ 20 -> (i < out)%nat -> let p := fmul (of_int (Z.of_nat i)) (ratio inn out) in
  2 ^ 22 * Z.abs (Z.of_nat out * fval p - Z.of_nat (i * inn) * U) <= Z.of_nat out * Z.of_nat inn * U.
Proof.
  intros Hi Ho Hx p. destruct (ratio_near inn out Hi Ho) as (Fr & Br & Er). destruct (recip_near (Z.of_nat out)) as (F1 & B1 & E1); [lia|].
  unfold ratio in *. set (x := fdiv (of_int 1) (of_int (Z.of_nat out))) in *.
  destruct (fmul_int_r (Z.of_nat inn) x 170) as (F2 & B2 & E2); [lia|exact F1|lia|lia|nia|]. set (r := fmul x (of_int (Z.of_nat inn))) in *.
  destruct (fmul_int (Z.of_nat i) r 190) as (F3 & B3 & E3); [lia|exact Fr|lia|lia|nia|]. fold p in E3, B3. rewrite Nat2Z.inj_mul.
  clear F1 F2 F3 Fr B3. clearbody p r x. assert (Hx' : 0 <= Z.of_nat i <= Z.of_nat out - 1) by lia. clear Hx. revert Hi Ho Hx' Er B1 E1 E2 E3.
  generalize (Z.of_nat inn) as n, (Z.of_nat out) as o, (Z.of_nat i) as k, (fval p) as v3, (fval r) as v2, (fval x) as v1. clear. intros.
  (* three errors *)
  assert (D1 : 2 ^ 24 * Z.abs (o * v3 - k * (o * v2)) <= k * (o * v2) + 2 ^ 23 * o).
  { replace (o * v3 - k * (o * v2)) with (o * (v3 - k * v2)) by ring. rewrite Z.abs_mul, (Z.abs_eq o) by lia. replace (2 ^ 24 * (o * Z.abs (v3 - k * v2))) with (o * (2 ^ 24 * Z.abs (v3 - k * v2))) by ring.
    replace (k * (o * v2) + 2 ^ 23 * o) with (o * (k * v2 + 2 ^ 23)) by ring. apply Z.mul_le_mono_nonneg_l; lia. }
  assert (D2 : 2 ^ 24 * Z.abs (k * (o * v2) - k * n * (o * v1)) <= k * n * (o * v1) + 2 ^ 23 * (k * o)).
  { replace (k * (o * v2) - k * n * (o * v1)) with (k * o * (v2 - n * v1)) by ring. rewrite Z.abs_mul, (Z.abs_eq (k * o)) by (apply Z.mul_nonneg_nonneg; lia). replace (2 ^ 24 * (k * o * Z.abs (v2 - n * v1))) with (k * o * (2 ^ 24 * Z.abs (v2 - n * v1))) by ring.
    replace (k * n * (o * v1) + 2 ^ 23 * (k * o)) with (k * o * (n * v1 + 2 ^ 23)) by ring. apply Z.mul_le_mono_nonneg_l; [apply Z.mul_nonneg_nonneg; lia|lia]. }
  assert (D3 : Z.abs (k * n * (o * v1) - k * n * U) <= k * n * 2 ^ 125).
  { replace (k * n * (o * v1) - k * n * U) with (k * n * (o * v1 - U)) by ring. rewrite Z.abs_mul, (Z.abs_eq (k * n)) by (apply Z.mul_nonneg_nonneg; lia). apply Z.mul_le_mono_nonneg_l; [apply Z.mul_nonneg_nonneg; lia|lia]. }
  assert (KO : 0 <= k * o <= 2 ^ 20 * o) by (split; [apply Z.mul_nonneg_nonneg; lia|apply Z.mul_le_mono_nonneg_r; lia]).
  assert (KN : 0 <= k * n) by (apply Z.mul_nonneg_nonneg; lia). assert (ON : k * n + n <= o * n) by (replace (k * n + n) with ((k + 1) * n) by ring; apply Z.mul_le_mono_nonneg_r; lia).
  revert D1 D2 D3 KO KN ON. generalize (o * v3) as a, (k * (o * v2)) as b, (k * n * (o * v1)) as c, (k * o) as ko, (k * n) as kn, (o * n) as on. clear -Hi Ho. intros. lia.
Qed.
Lemma blend_value p00 p10 p01 p11 a b a' b' : 0 <= p00 <= 65535 -> 0 <= p10 <= 65535 -> 0 <= p01 <= 65535 -> 0 <= p11 <= 65535 ->
  ffin a -> ffin b -> 0 <= fval a <= U -> 0 <= fval b <= U -> 0 <= a' <= U -> 0 <= b' <= U -> Z.abs (fval a - a') <= 2 ^ 125 + 1 -> Z.abs (fval b - b') <= 2 ^ 125 + 1 ->
  4 * Z.abs (fval (blend p00 p10 p01 p11 a b) * U - ((p00 * (U - a') + p10 * a') * (U - b') + (p01 * (U - a') + p11 * a') * b')) <= U * U.
Proof.
  intros H0 H1 H2 H3 Fa Fb Ha Hb Ha' Hb' Da Db. destruct (of_int_rep 1) as [Fo Vo]; [lia|]. rewrite Z.mul_1_l in Vo. set (v := blend p00 p10 p01 p11 a b).
  destruct (fsub_unit (of_int 1) a Fo Fa) as (Fwa & Bwa & Ewa); [lia|]. destruct (fsub_unit (of_int 1) b Fo Fb) as (Fwb & Bwb & Ewb); [lia|].
  rewrite Vo in Ewa, Ewb. unfold blend in v. set (wa := fsub (of_int 1) a) in *. set (wb := fsub (of_int 1) b) in *. cbv zeta in v.
  assert (W : forall p u w u' w', 0 <= p <= 65535 -> 0 <= u <= U -> 0 <= w' <= U -> Z.abs (u - u') <= 2 ^ 126 + 2 -> Z.abs (w - w') <= 2 ^ 126 + 2 -> Z.abs (p * (u * w) - p * u' * w') <= 65535 * (2 * U * (2 ^ 126 + 2))).
  { clear. intros p u w u' w' Hp Hu Hw Du Dw. replace (p * (u * w) - p * u' * w') with (p * (u * (w - w') + (u - u') * w')) by ring. rewrite Z.abs_mul, (Z.abs_eq p) by lia. apply Z.mul_le_mono_nonneg; [lia|lia|lia|].
    assert (Z.abs (u * (w - w')) <= U * (2 ^ 126 + 2)) by (rewrite Z.abs_mul, (Z.abs_eq u) by lia; apply Z.mul_le_mono_nonneg; lia).
    assert (Z.abs ((u - u') * w') <= (2 ^ 126 + 2) * U) by (rewrite Z.abs_mul, (Z.abs_eq w') by lia; apply Z.mul_le_mono_nonneg; lia). lia. }
  assert (K1 : Z.abs (fval wa - (U - a')) <= 2 ^ 126 + 2) by (clear - Ewa Da; lia). assert (K2 : Z.abs (fval wb - (U - b')) <= 2 ^ 126 + 2) by (clear - Ewb Db; lia).
  assert (K3 : Z.abs (fval a - a') <= 2 ^ 126 + 2) by (clear - Da; lia). assert (K4 : Z.abs (fval b - b') <= 2 ^ 126 + 2) by (clear - Db; lia). assert (K5 : 0 <= U - b' <= U) by (clear - Hb'; lia).
  pose proof (W p00 (fval wa) (fval wb) (U - a') (U - b') H0 Bwa K5 K1 K2) as W0. pose proof (W p10 (fval a) (fval wb) a' (U - b') H1 Ha K5 K3 K2) as W1.
  pose proof (W p01 (fval wa) (fval b) (U - a') b' H2 Bwa Hb' K1 K4) as W2. pose proof (W p11 (fval a) (fval b) a' b' H3 Ha Hb' K3 K4) as W3. clear W.
  destruct (term_err p00 wa wb) as (F0 & B0 & E0); [assumption..|]. destruct (term_err p10 a wb) as (F1 & B1 & E1); [assumption..|].
  destruct (term_err p01 wa b) as (F2 & B2 & E2); [assumption..|]. destruct (term_err p11 a b) as (F3 & B3 & E3); [assumption..|].
  set (t0 := fmul (fmul (of_int p00) wa) wb) in *. set (t1 := fmul (fmul (of_int p10) a) wb) in *. set (t2 := fmul (fmul (of_int p01) wa) b) in *. set (t3 := fmul (fmul (of_int p11) a) b) in *.
  destruct (fadd_err t0 t1 166 F0 F1) as (G1 & C1 & D1); [clear - B0; lia|clear - B1; lia|clear - B0 B1; lia|clear; lia|].
  destruct (fadd_err (fadd t0 t1) t2 167 G1 F2) as (G2 & C2 & D2); [clear - C1; lia|clear - B2; lia|clear - C1 B2; lia|clear; lia|].
  destruct (fadd_err (fadd (fadd t0 t1) t2) t3 168 G2 F3) as (G3 & C3 & D3); [clear - C2; lia|clear - B3; lia|clear - C2 B3; lia|clear; lia|].
  fold v in G3, C3, D3.
  replace ((p00 * (U - a') + p10 * a') * (U - b') + (p01 * (U - a') + p11 * a') * b') with (p00 * (U - a') * (U - b') + p10 * a' * (U - b') + p01 * (U - a') * b' + p11 * a' * b') by ring.
  clear - W0 W1 W2 W3 E0 E1 E2 E3 B0 B1 B2 B3 C1 C2 C3 D1 D2 D3.
  generalize dependent (fval v). generalize dependent (fval (fadd (fadd t0 t1) t2)). generalize dependent (fval (fadd t0 t1)).
  generalize dependent (fval t0). generalize dependent (fval t1). generalize dependent (fval t2). generalize dependent (fval t3).
  generalize dependent (p00 * (fval wa * fval wb)). generalize dependent (p10 * (fval a * fval wb)). generalize dependent (p01 * (fval wa * fval b)). generalize dependent (p11 * (fval a * fval b)).
  generalize (p00 * (U - a') * (U - b')) as s0. generalize (p10 * a' * (U - b')) as s1. generalize (p01 * (U - a') * b') as s2. generalize (p11 * a' * b') as s3.
  intros s3 s2 s1 s0 m3 W3 m2 W2 m1 W1 m0 W0 z3 B3 E3 z2 B2 E2 z1 B1 E1 z0 B0 E0 y1 C1 D1 y2 C2 D2 y3 C3 D3.
  assert (S : Z.abs (y3 - (z0 + z1 + z2 + z3)) <= 2 ^ 145) by (clear - B0 B1 B2 B3 C1 C2 C3 D1 D2 D3; lia).
  assert (T0 : Z.abs (z0 * U - s0) <= 2 ^ 143 * U + 65535 * (2 * U * (2 ^ 126 + 2))) by (clear - E0 W0; lia).
  assert (T1 : Z.abs (z1 * U - s1) <= 2 ^ 143 * U + 65535 * (2 * U * (2 ^ 126 + 2))) by (clear - E1 W1; lia).
  assert (T2 : Z.abs (z2 * U - s2) <= 2 ^ 143 * U + 65535 * (2 * U * (2 ^ 126 + 2))) by (clear - E2 W2; lia).
  assert (T3 : Z.abs (z3 * U - s3) <= 2 ^ 143 * U + 65535 * (2 * U * (2 ^ 126 + 2))) by (clear - E3 W3; lia).
  clear - S T0 T1 T2 T3. lia.
Qed.
