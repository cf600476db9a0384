(** Lemmas for resizing with a separable kernel: the rounded positions stay within the row. *)
From Verif Require Import Base F32 F32Round ResizeProof SepModel.
Local Notation U := (2 ^ 149).

Lemma round_loc25 q l e : 2 ^ 24 <= q < 2 ^ 25 -> -149 <= e -> e < 90 ->
  exists M, let x := binary_round_aux 24 128 false q e l in ffin x /\ fval x = M * 2 ^ (e + 149) /\ 0 <= M <= q + 2.
Proof.
  intros Hq He He'. set (r := shr_1 (shr_record_of_loc q l)).
  assert (Mr : shr_m r = q / 2).
  { unfold r. rewrite <- Z.div2_div. destruct q as [|p|p]; [lia| |lia]. destruct l as [|[| |]]; cbn [shr_record_of_loc shr_1]; destruct p; reflexivity. }
  assert (E : binary_round_aux 24 128 false q e l = binary_round_aux 24 128 false (q / 2) (e + 1) (loc_of_shr_record r)).
  { unfold binary_round_aux.
    assert (S1 : shr_fexp 24 128 q e l = (r, e + 1)).
    { assert (Lq : Z.log2 q = 24) by (apply Z.log2_unique; lia). unfold shr_fexp, r. destruct q as [|p|p]; [lia| |lia]. cbn [Zdigits2]. rewrite digits_log2, Lq. unfold fexp.
      change (SpecFloat.emin 24 128) with (-149). replace (Z.max (24 + 1 + e - 24) (-149) - e) with 1 by lia. reflexivity. }
    assert (S2 : shr_fexp 24 128 (q / 2) (e + 1) (loc_of_shr_record r) = (shr_record_of_loc (q / 2) (loc_of_shr_record r), e + 1)).
    { assert (H2 : 2 ^ 23 <= q / 2 < 2 ^ 24) by (split; [apply Z.div_le_lower_bound; lia|apply Z.div_lt_upper_bound; lia]).
      assert (Lq : Z.log2 (q / 2) = 23) by (apply Z.log2_unique; lia). unfold shr_fexp. destruct (q / 2) as [|p|p]; [lia| |lia]. cbn [Zdigits2]. rewrite digits_log2, Lq. unfold fexp.
      change (SpecFloat.emin 24 128) with (-149). replace (Z.max (23 + 1 + (e + 1) - 24) (-149) - (e + 1)) with 0 by lia. reflexivity. }
    rewrite S1, S2. rewrite Mr. set (l' := loc_of_shr_record r). clearbody l'.
    assert (A : shr_m (shr_record_of_loc (q / 2) l') = q / 2) by (destruct l' as [|[| |]]; reflexivity).
    assert (B : loc_of_shr_record (shr_record_of_loc (q / 2) l') = l') by (destruct l' as [|[| |]]; reflexivity). now rewrite A, B. }
  rewrite E. destruct (round_loc (q / 2) (loc_of_shr_record r) (e + 1)) as [F V]; [split; [apply Z.div_le_lower_bound; lia|apply Z.div_lt_upper_bound; lia]|lia|lia|].
  exists (2 * (if rounded_up (q / 2) (loc_of_shr_record r) then q / 2 + 1 else q / 2)). split; [exact F|]. split.
  - rewrite V. replace (e + 1 + 149) with (1 + (e + 149)) by lia. rewrite Z.pow_add_r by lia. ring.
  - pose proof (Z.mul_div_le q 2 ltac:(lia)). pose proof (Z.div_pos q 2 ltac:(lia) ltac:(lia)). destruct (rounded_up _ _); lia.
Qed.
Lemma div_upper n m : 1 <= n < 2 ^ 24 -> 1 <= m < 2 ^ 24 -> let x := fdiv (of_int n) (of_int m) in ffin x /\ 0 <= fval x /\ m * fval x <= n * (U + 2 ^ 127).
Proof.
  intros Hn Hm x. destruct (of_int_form n Hn) as (a & e1 & E1 & Ha & He1 & Ea). destruct (of_int_form m Hm) as (b & e2 & E2 & Hb & He2 & Eb). unfold x. rewrite E1, E2. clear E1 E2 x.
  assert (La : Z.log2 (Zpos a) = 23) by (apply Z.log2_unique; lia). assert (Lb : Z.log2 (Zpos b) = 23) by (apply Z.log2_unique; lia).
  unfold fdiv. cbn [SFdiv]. unfold SFdiv_core_binary. cbn [Zdigits2]. rewrite !digits_log2, La, Lb. unfold fexp. change (SpecFloat.emin 24 128) with (-149).
  replace (Z.min _ _) with (e1 - e2 - 24) by lia. replace (e1 - e2 - (e1 - e2 - 24)) with 24 by lia. cbn [xorb]. cbv iota.
  rewrite (Z.shiftl_mul_pow2 (Zpos a) 24) by lia.
  pose proof (Z.div_eucl_eq (Zpos a * 2 ^ 24) (Zpos b) ltac:(lia)) as DE. pose proof (Z_mod_lt (Zpos a * 2 ^ 24) (Zpos b) ltac:(lia)) as DR. unfold Z.modulo in DR.
  destruct (Z.div_eucl (Zpos a * 2 ^ 24) (Zpos b)) as [q r].
  assert (Hq : 2 ^ 23 <= q < 2 ^ 25) by (clear - DE DR Ha Hb; nia).
  assert (G : exists M, let y := binary_round_aux 24 128 false q (e1 - e2 - 24) (new_location (Zpos b) r) in ffin y /\ fval y = M * 2 ^ (e1 - e2 - 24 + 149) /\ 0 <= M <= q + 2).
  { destruct (Z.lt_ge_cases q (2 ^ 24)) as [L|L].
    - destruct (round_loc q (new_location (Zpos b) r) (e1 - e2 - 24)) as [F V]; [lia|lia|lia|]. eexists. split; [exact F|]. split; [exact V|]. destruct (rounded_up _ _); lia.
    - apply round_loc25; lia. }
  destruct G as (M & F & V & HM). split; [exact F|]. rewrite V. clear F V.
  replace (e1 - e2 - 24 + 149) with (- e2 + (125 + e1)) by lia. rewrite Z.pow_add_r by lia.
  assert (P1 : 0 < 2 ^ (- e2)) by (apply Z.pow_pos_nonneg; lia). assert (P2 : 0 < 2 ^ (125 + e1)) by (apply Z.pow_pos_nonneg; lia).
  split; [repeat apply Z.mul_nonneg_nonneg; lia|].
  replace (m * (M * (2 ^ (- e2) * 2 ^ (125 + e1)))) with (M * (m * 2 ^ (- e2)) * 2 ^ (125 + e1)) by ring. rewrite <- Eb.
  assert (K : M * Zpos b <= Zpos a * (2 ^ 24 + 4)) by (clear - HM DE DR Ha Hb; nia).
  assert (N : Zpos a * 2 ^ (125 + e1) = n * 2 ^ 125).
  { rewrite Ea. rewrite <- Z.mul_assoc, <- Z.pow_add_r by lia. do 2 f_equal. lia. }
  transitivity (Zpos a * (2 ^ 24 + 4) * 2 ^ (125 + e1)); [apply Z.mul_le_mono_nonneg_r; lia|].
  replace (Zpos a * (2 ^ 24 + 4) * 2 ^ (125 + e1)) with (Zpos a * 2 ^ (125 + e1) * (2 ^ 24 + 4)) by ring. rewrite N. clear. lia.
Qed.
Lemma floor_ok x : ffin x -> floor_i32 x = Z.max (- 2 ^ 31) (Z.min (2 ^ 31 - 1) (fval x / U)).
Proof.
  intros F. destruct x as [s|s| |s m e]; try easy; cbn [floor_i32 sval].
  { destruct (bounded_inv 24 128 ltac:(lia) _ _ F) as (He & _ & _). change (SpecFloat.emin 24 128) with (-149) in *. replace (e - -149) with (e + 149) by lia.
    do 2 f_equal. destruct (Z.leb_spec 0 e).
    + rewrite Z.pow_add_r, Z.mul_assoc by lia. replace (cond_Zopp s (Zpos m * 2 ^ e * 2 ^ 149)) with (cond_Zopp s (Zpos m * 2 ^ e) * 2 ^ 149) by (destruct s; cbn [cond_Zopp]; ring).
      now rewrite Z.div_mul by lia.
    + replace U with (2 ^ (- e) * 2 ^ (e + 149)) by (rewrite <- Z.pow_add_r by lia; f_equal; lia).
      replace (cond_Zopp s (Zpos m * 2 ^ (e + 149))) with (cond_Zopp s (Zpos m) * 2 ^ (e + 149)) by (destruct s; cbn [cond_Zopp]; ring).
      now rewrite Z.div_mul_cancel_r by (apply Z.pow_nonzero; lia). }
Qed.
Lemma position_ok n m o : 1 <= n <= 2 ^ 20 -> 1 <= m <= 2 ^ 20 -> 0 <= Z.of_nat o < m -> -1 <= floor_i32 (position (fdiv (of_int n) (of_int m)) o) <= n.
Proof.
  intros Hn Hm Ho. destruct (div_upper n m ltac:(lia) ltac:(lia)) as (Fx & Px & Bx). set (x := fdiv (of_int n) (of_int m)) in *. unfold position.
  assert (Fh : ffin f32_half) by reflexivity. assert (Vh : fval f32_half = 2 ^ 148) by reflexivity.
  assert (FT : forall v, Z.abs v <= 2 ^ 24 * U -> fits 24 128 v).
  { intros v Hv. unfold fits. change (128 - SpecFloat.emin 24 128) with 277. eapply Z.le_lt_trans; [exact Hv|]. reflexivity. }
  destruct (of_int_rep (Z.of_nat o) ltac:(lia)) as [Fo Vo].
  destruct (add_ok 24 128 ltac:(lia) ltac:(lia) (of_int (Z.of_nat o)) f32_half Fo Fh) as [Fy Vy].
  { rewrite Vo, Vh. replace (Z.of_nat o * U + 2 ^ 148) with ((2 * Z.of_nat o + 1) * 2 ^ 148) by lia. rewrite rnds_id by lia. apply FT. lia. }
  rewrite Vo, Vh in Vy. replace (Z.of_nat o * U + 2 ^ 148) with ((2 * Z.of_nat o + 1) * 2 ^ 148) in Vy by lia. rewrite rnds_id in Vy by lia.
  fold (fadd (of_int (Z.of_nat o)) f32_half) in Fy, Vy. set (y := fadd (of_int (Z.of_nat o)) f32_half) in *.
  assert (Z1 : 0 <= fval y * fval x <= (n + 1) * U * 2 ^ 149).
  { rewrite Vy. split; [apply Z.mul_nonneg_nonneg; lia|]. clear - Px Bx Ho Hn Hm. revert Px Bx. generalize (fval x) as X. intros X Px Bx.
    assert ((2 * Z.of_nat o + 1) * X <= 2 * (m * X)) by nia. clear - H Bx Hn.
    replace ((2 * Z.of_nat o + 1) * 2 ^ 148 * X) with ((2 * Z.of_nat o + 1) * X * 2 ^ 148) by ring.
    transitivity (2 * (m * X) * 2 ^ 148); [apply Z.mul_le_mono_nonneg_r; lia|]. lia. }
  assert (R1 : 0 <= frnd 149 (fval y * fval x) <= (n + 1) * U).
  { split; [apply rnds_nonneg; lia|]. pose proof (rnds_mono 24 ltac:(lia) 149 _ _ ltac:(lia) (proj2 Z1)) as Q. change 149 with (0 + 149) in Q at 2. rewrite rnds_scale in Q by lia.
    rewrite rnds_id in Q by lia. exact Q. }
  destruct (mul_ok 24 128 ltac:(lia) ltac:(lia) y x Fy Fx) as [Fp Vp]; [apply FT; change (- SpecFloat.emin 24 128) with 149; clear - R1 Hn; lia|].
  change (- SpecFloat.emin 24 128) with 149 in Vp. fold (fmul y x) in Fp, Vp. set (p := fmul y x) in *. rewrite <- Vp in R1.
  assert (R2 : - 2 ^ 148 <= frnd 0 (fval p - 2 ^ 148) <= (2 * n + 1) * 2 ^ 148).
  { split.
    - pose proof (rnds_mono 24 ltac:(lia) 0 (-1 * 2 ^ 148) (fval p - 2 ^ 148) ltac:(lia) ltac:(lia)) as Q. rewrite rnds_id in Q by lia. lia.
    - pose proof (rnds_mono 24 ltac:(lia) 0 (fval p - 2 ^ 148) ((2 * n + 1) * 2 ^ 148) ltac:(lia) ltac:(lia)) as Q. rewrite rnds_id in Q by lia. lia. }
  destruct (sub_ok 24 128 ltac:(lia) ltac:(lia) p f32_half Fp Fh) as [Fs Vs]; [rewrite Vh; apply FT; clear - R2 Hn; lia|].
  rewrite Vh in Vs. fold (fsub p f32_half) in Fs, Vs. rewrite (floor_ok _ Fs), Vs.
  assert (D : -1 <= frnd 0 (fval p - 2 ^ 148) / U <= n).
  { split; [apply Z.div_le_lower_bound; lia|]. apply Z.lt_succ_r. apply Z.div_lt_upper_bound; lia. }
  clear - D Hn. lia.
Qed.
