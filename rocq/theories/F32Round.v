(** What the executable floating point operations of the standard library (SpecFloat) compute: every finite number of
    the format is an integer multiple of the smallest one, and sums and products are rounded to nearest, ties to even. *)
From Verif Require Import Base BaseProof F32.

(** [m / 2^t] to the nearest integer, ties to even *)
Definition rne (m t : Z) : Z :=
  let q := m / 2 ^ t in let r := m mod 2 ^ t in
  if 2 * r <? 2 ^ t then q else if 2 ^ t <? 2 * r then q + 1 else if Z.even q then q else q + 1.

Lemma iter_pos_nat {A} (f : A -> A) p : forall x, iter_pos f p x = Nat.iter (Pos.to_nat p) f x.
Proof.
  assert (G : forall n m x, Nat.iter n f (Nat.iter m f x) = Nat.iter (n + m) f x).
  { induction n; intros m x; [easy|]. change (f (Nat.iter n f (Nat.iter m f x)) = f (Nat.iter (n + m) f x)). now rewrite IHn. }
  induction p; intros x; cbn [iter_pos].
  - rewrite !IHp. change (f x) with (Nat.iter 1 f x). rewrite !G. f_equal. lia.
  - rewrite !IHp, G. f_equal. lia.
  - reflexivity.
Qed.

Lemma digits_log2 p : Zpos (digits2_pos p) = Z.log2 (Zpos p) + 1.
Proof.
  induction p; cbn [digits2_pos].
  - rewrite Pos2Z.inj_succ, IHp. change (Zpos p~1) with (2 * Zpos p + 1). rewrite Z.log2_succ_double by lia. lia.
  - rewrite Pos2Z.inj_succ, IHp. change (Zpos p~0) with (2 * Zpos p). rewrite Z.log2_double by lia. lia.
  - reflexivity.
Qed.

(** Dropping [n] bits: the quotient, the last bit dropped, and whether any other was set *)
Lemma shr_iter m n : 0 <= m -> Nat.iter (S n) shr_1 (Build_shr_record m false false) =
  Build_shr_record (m / 2 ^ Z.of_nat (S n)) (Z.odd (m / 2 ^ Z.of_nat n)) (negb (m mod 2 ^ Z.of_nat n =? 0)).
Proof.
  intros Hm. induction n as [|n IH].
  - change (Z.of_nat 1) with 1. change (Z.of_nat 0) with 0. rewrite Z.pow_0_r, Z.div_1_r, Z.mod_1_r. cbn [Nat.iter nat_rect Z.eqb negb].
    change (2 ^ 1) with 2. rewrite <- Z.div2_div. unfold shr_1. destruct m as [|p|p]; [reflexivity| |lia]. now destruct p.
  - change (Nat.iter (S (S n)) shr_1 (Build_shr_record m false false)) with (shr_1 (Nat.iter (S n) shr_1 (Build_shr_record m false false))).
    rewrite IH. clear IH.
    assert (E1 : m / 2 ^ Z.of_nat (S (S n)) = m / 2 ^ Z.of_nat (S n) / 2).
    { rewrite Z.div_div by lia. f_equal. rewrite Nat2Z.inj_succ, Z.pow_succ_r by lia. lia. }
    assert (E2 : m mod 2 ^ Z.of_nat (S n) = m mod 2 ^ Z.of_nat n + 2 ^ Z.of_nat n * (Z.b2z (Z.odd (m / 2 ^ Z.of_nat n)))).
    { rewrite Nat2Z.inj_succ, Z.pow_succ_r by lia. rewrite (Z.mul_comm 2). rewrite Z.rem_mul_r by lia.
      f_equal. f_equal. rewrite Zmod_odd. now destruct (Z.odd _). }
    assert (S2 : negb (m mod 2 ^ Z.of_nat (S n) =? 0) = orb (Z.odd (m / 2 ^ Z.of_nat n)) (negb (m mod 2 ^ Z.of_nat n =? 0))).
    { rewrite E2. pose proof (Z.mod_pos_bound m (2 ^ Z.of_nat n) ltac:(lia)) as B. set (a := m mod 2 ^ Z.of_nat n) in *.
      set (b := 2 ^ Z.of_nat n) in *. clearbody a b. destruct (Z.odd _); cbn [Z.b2z orb].
      - replace (a + b * 1 =? 0) with false by lia. reflexivity.
      - now rewrite Z.mul_0_r, Z.add_0_r. }
    rewrite S2, E1. set (q := m / 2 ^ Z.of_nat (S n)) in *. assert (Hq : 0 <= q) by (apply Z.div_pos; lia). clearbody q.
    rewrite <- Z.div2_div. unfold shr_1. destruct q as [|p|p]; [reflexivity| |lia]. now destruct p.
Qed.

Lemma rne_0 m : rne m 0 = m.
Proof. unfold rne. rewrite Z.pow_0_r, Z.div_1_r, Z.mod_1_r. reflexivity. Qed.

(** Shifting out [n >= 0] bits of an exact mantissa and rounding *)
Lemma shr_rne m e n : 0 <= m -> 0 <= n ->
  let '(mrs, e') := shr (shr_record_of_loc m loc_Exact) e n in
  round_nearest_even (shr_m mrs) (loc_of_shr_record mrs) = rne m n /\ e' = e + n.
Proof.
  intros Hm Hn. destruct n as [|p|p]; [|clear Hn|lia].
  - cbn. rewrite rne_0. split; [easy|lia].
  - cbn [shr shr_record_of_loc]. split; [|easy]. rewrite iter_pos_nat.
    assert (En : exists n, Pos.to_nat p = S n /\ Zpos p = Z.of_nat n + 1) by (exists (Nat.pred (Pos.to_nat p)); lia).
    destruct En as (n & -> & Ep). rewrite shr_iter by easy. unfold rne. rewrite Ep.
    rewrite Nat2Z.inj_succ, Z.pow_succ_r, Z.pow_add_r by lia. change (2 ^ 1) with 2.
    set (h := 2 ^ Z.of_nat n). assert (Hh : 0 < h) by (unfold h; lia). clearbody h.
    assert (E1 : m / (2 * h) = m / h / 2) by (rewrite Z.div_div by lia; f_equal; lia).
    assert (E2 : m mod (h * 2) = m mod h + h * Z.b2z (Z.odd (m / h))).
    { rewrite Z.rem_mul_r by lia. f_equal. f_equal. rewrite Zmod_odd. now destruct (Z.odd _). }
    rewrite (Z.mul_comm h 2) in *. pose proof (Z.mod_pos_bound m h Hh) as B.
    rewrite E2. set (q := m / (2 * h)). set (a := m mod h) in *. clearbody q a. cbn [shr_m].
    destruct (Z.odd (m / h)); cbn [Z.b2z]; destruct (Z.eqb_spec a 0) as [->|Na]; cbn [negb loc_of_shr_record round_nearest_even].
    + replace (2 * (0 + h * 1) <? 2 * h) with false by lia. replace (2 * h <? 2 * (0 + h * 1)) with false by lia. reflexivity.
    + replace (2 * (a + h * 1) <? 2 * h) with false by lia. replace (2 * h <? 2 * (a + h * 1)) with true by lia. reflexivity.
    + replace (2 * (0 + h * 0) <? 2 * h) with true by lia. reflexivity.
    + replace (2 * (a + h * 0) <? 2 * h) with true by lia. reflexivity.
Qed.

(** Rounding is nearest *)
Lemma rne_near m t : 0 <= t -> 2 * Z.abs (rne m t * 2 ^ t - m) <= 2 ^ t.
Proof.
  intros Ht. unfold rne. pose proof (Z.div_mod m (2 ^ t) ltac:(lia)) as D. pose proof (Z.mod_pos_bound m (2 ^ t) ltac:(lia)) as B.
  set (b := 2 ^ t) in *. set (q := m / b) in *. set (r := m mod b) in *. clearbody q r b.
  destruct (Z.ltb_spec (2 * r) b); [nia|]. destruct (Z.ltb_spec b (2 * r)); [nia|]. destruct (Z.even q); nia.
Qed.
Lemma rne_exact m t : 0 <= t -> rne (m * 2 ^ t) t = m.
Proof.
  intros Ht. unfold rne. rewrite Z.div_mul, Z.mod_mul by lia. now replace (2 * 0 <? 2 ^ t) with true by lia.
Qed.
Lemma rne_mono m m' t : 0 <= t -> m <= m' -> rne m t <= rne m' t.
Proof.
  intros Ht H. unfold rne. pose proof (Z.div_mod m (2 ^ t) ltac:(lia)) as D. pose proof (Z.mod_pos_bound m (2 ^ t) ltac:(lia)) as B.
  pose proof (Z.div_mod m' (2 ^ t) ltac:(lia)) as D'. pose proof (Z.mod_pos_bound m' (2 ^ t) ltac:(lia)) as B'.
  pose proof (Z.div_le_mono m m' (2 ^ t) ltac:(lia) H) as Q.
  set (b := 2 ^ t) in *. set (q := m / b) in *. set (r := m mod b) in *. set (q' := m' / b) in *. set (r' := m' mod b) in *. clearbody q r b q' r'.
  assert (C : q < q' \/ q = q' /\ r <= r') by nia. destruct C as [C|[-> C]].
  - destruct (Z.ltb_spec (2 * r) b); destruct (Z.ltb_spec (2 * r') b); destruct (Z.ltb_spec b (2 * r)); destruct (Z.ltb_spec b (2 * r'));
      destruct (Z.even q); destruct (Z.even q'); lia.
  - destruct (Z.ltb_spec (2 * r) b); destruct (Z.ltb_spec (2 * r') b); destruct (Z.ltb_spec b (2 * r)); destruct (Z.ltb_spec b (2 * r'));
      destruct (Z.even q'); lia.
Qed.
Lemma rne_bounds m t a b : 0 <= t -> a * 2 ^ t <= m <= b * 2 ^ t -> a <= rne m t <= b.
Proof. intros Ht [H1 H2]. rewrite <- (rne_exact a t), <- (rne_exact b t) by easy. split; now apply rne_mono. Qed.
Lemma rne_scale m t j : 0 <= t -> 0 <= j -> rne (m * 2 ^ j) (t + j) = rne m t.
Proof.
  intros Ht Hj. unfold rne. rewrite Z.pow_add_r by easy. rewrite Z.div_mul_cancel_r by lia. rewrite Z.mul_mod_distr_r by lia.
  set (r := m mod 2 ^ t). set (b := 2 ^ t). assert (0 < 2 ^ j) by lia. set (c := 2 ^ j) in *. clearbody r b c.
  replace (2 * (r * c) <? b * c) with (2 * r <? b) by nia. replace (b * c <? 2 * (r * c)) with (b <? 2 * r) by nia. reflexivity.
Qed.

Section Format.
Variables prec emax : Z.
Hypothesis Hprec : 1 < prec.
Hypothesis Hemax : prec < emax.
Notation emin := (SpecFloat.emin prec emax).
Notation fexp := (SpecFloat.fexp prec emax).

(** A number of the format; its value in units of the smallest positive number *)
Definition finite (x : spec_float) : Prop :=
  match x with S754_zero _ => True | S754_finite _ m e => bounded prec emax m e = true | _ => False end.
Definition sval (x : spec_float) : Z :=
  match x with S754_finite s m e => cond_Zopp s (Zpos m * 2 ^ (e - emin)) | _ => 0 end.

(** [m / 2^k] units, rounded to the format: [prec] bits at most *)
Definition rnd (k m : Z) : Z := let t := Z.max k (Z.log2 m + 1 - prec) in rne m t * 2 ^ (t - k).

Lemma shr_fexp_0 M e : 0 < M -> Z.log2 M + 1 + e <= e + prec -> emin <= e -> shr_fexp prec emax M e loc_Exact = (Build_shr_record M false false, e).
Proof.
  intros HM H1 H2. unfold shr_fexp, SpecFloat.fexp. destruct M as [|p|p]; [lia| |lia]. cbn [Zdigits2].
  rewrite digits_log2. set (n := Z.max _ _ - e). assert (n <= 0) by lia. unfold shr. destruct n; [easy|lia|easy].
Qed.

Lemma round_aux_ok s M e k : 0 < M -> 0 <= k -> emin - k <= e -> e <= fexp (Z.log2 M + 1 + e) ->
  rnd k (M * 2 ^ (e - (emin - k))) < 2 ^ (emax - emin) ->
  let F := binary_round_aux prec emax s M e loc_Exact in
  finite F /\ sval F = cond_Zopp s (rnd k (M * 2 ^ (e - (emin - k)))).
Proof.
  intros HM Hk He Hn HR. set (d := Z.log2 M + 1) in *. set (n := fexp (d + e) - e).
  assert (Hem : emin <= emax - prec) by (unfold SpecFloat.emin; lia).
  assert (Hn0 : 0 <= n) by (unfold n; lia). set (j := e - (emin - k)) in *.
  assert (Hlog : Z.log2 (M * 2 ^ j) = Z.log2 M + j) by (rewrite Z.log2_mul_pow2 by lia; lia).
  set (e1 := e + n). assert (He1 : e1 = Z.max (d + e - prec) emin) by (unfold e1, n, SpecFloat.fexp; lia).
  assert (Ht : Z.max k (Z.log2 (M * 2 ^ j) + 1 - prec) = n + j) by (rewrite Hlog; unfold j, n, SpecFloat.fexp, d; lia).
  set (N := rne M n).
  assert (ER : rnd k (M * 2 ^ j) = N * 2 ^ (e1 - emin)).
  { unfold rnd. rewrite Ht. rewrite rne_scale by lia. fold N. f_equal. f_equal. unfold e1, j. lia. }
  rewrite ER in *. clear ER Ht Hlog.
  destruct (Z.log2_spec M HM) as [L1 L2].
  assert (HN : 0 <= N <= 2 ^ prec).
  { apply rne_bounds; [easy|]. split; [lia|]. rewrite <- Z.pow_add_r by lia. etransitivity; [apply Z.lt_le_incl, L2|].
    apply Z.pow_le_mono_r; unfold n, SpecFloat.fexp, d; lia. }
  assert (HN2 : emin < e1 -> 2 ^ (prec - 1) <= N).
  { intros H. apply (rne_bounds M n _ (2 ^ prec)); [easy|]. rewrite <- !Z.pow_add_r by lia. split.
    - etransitivity; [|exact L1]. apply Z.pow_le_mono_r; unfold d in *; lia.
    - etransitivity; [apply Z.lt_le_incl, L2|]. apply Z.pow_le_mono_r; unfold n, SpecFloat.fexp, d; lia. }
  cbv zeta. unfold binary_round_aux.
  assert (ES : shr_fexp prec emax M e loc_Exact = shr (shr_record_of_loc M loc_Exact) e n).
  { unfold shr_fexp. do 2 f_equal. unfold n, d. destruct M; [lia| |lia]. cbn [Zdigits2]. now rewrite digits_log2. }
  rewrite ES. clear ES. pose proof (shr_rne M e n ltac:(lia) Hn0) as SR. destruct (shr _ e n) as (mrs & e') eqn:Es. destruct SR as [SR Ee].
  rewrite SR. fold N in SR |- *. fold e1 in Ee. subst e'. clear SR Es mrs.
  destruct (Z.eq_dec N 0) as [N0|N0].
  { rewrite N0 in *. assert (e1 = emin) by (destruct (Z.eq_dec e1 emin); [easy|]; assert (emin < e1) by lia; specialize (HN2 H); assert (0 < 2 ^ (prec - 1)) by lia; lia).
    unfold shr_fexp. cbn [Zdigits2]. unfold SpecFloat.fexp. rewrite H. replace (Z.max (0 + emin - prec) emin - emin) with 0 by lia.
    cbn [shr shr_record_of_loc shr_m]. split; [exact I|]. cbn [sval]. destruct s; reflexivity. }
  destruct (Z.eq_dec N (2 ^ prec)) as [E|NE].
  - unfold shr_fexp. rewrite E.
    assert (EN : exists p, 2 ^ (prec - 1) = Zpos p) by (exists (Z.to_pos (2 ^ (prec - 1))); rewrite Z2Pos.id; lia).
    destruct EN as (p & Ep). assert (EN : 2 ^ prec = Zpos (p~0)).
    { replace prec with (Z.succ (prec - 1)) by lia. rewrite Z.pow_succ_r by lia. rewrite Ep. reflexivity. }
    rewrite EN. cbn [Zdigits2]. rewrite digits_log2, <- EN. rewrite Z.log2_pow2 by lia.
    replace (fexp (prec + 1 + e1) - e1) with 1 by (unfold SpecFloat.fexp; lia).
    rewrite EN. cbn [shr shr_record_of_loc iter_pos shr_1 orb shr_m].
    assert (D : e1 + 1 <= emax - prec).
    { destruct (Z.le_gt_cases (e1 + 1) (emax - prec)) as [|G]; [easy|]. exfalso.
      rewrite E, <- Z.pow_add_r in HR by lia. apply Z.pow_lt_mono_r_iff in HR; lia. }
    replace (e1 + 1 <=? emax - prec) with true by lia. split.
    + cbn [finite]. unfold bounded, canonical_mantissa. rewrite digits_log2, <- Ep, Z.log2_pow2 by lia.
      apply andb_true_intro. split; [|lia]. apply Zeq_is_eq_bool. unfold SpecFloat.fexp. lia.
    + cbn [sval]. f_equal. change (Zpos p~0) with (2 * Zpos p).
      replace (e1 + 1 - emin) with (Z.succ (e1 - emin)) by lia. rewrite Z.pow_succ_r by lia. lia.
  - assert (NP : exists p, N = Zpos p) by (exists (Z.to_pos N); rewrite Z2Pos.id; lia).
    assert (LN : Z.log2 N + 1 <= prec) by (assert (Z.log2 N < prec) by (apply Z.log2_lt_pow2; lia); lia).
    rewrite shr_fexp_0 by lia. cbn [shr_m]. destruct NP as (p & ->).
    assert (D : e1 <= emax - prec).
    { destruct (Z.le_gt_cases e1 (emax - prec)) as [|G]; [easy|]. exfalso. specialize (HN2 ltac:(lia)).
      assert (2 ^ (prec - 1) * 2 ^ (e1 - emin) < 2 ^ (emax - emin)) as Q by (eapply Z.le_lt_trans; [apply Z.mul_le_mono_nonneg_r; [lia|exact HN2]|exact HR]).
      rewrite <- Z.pow_add_r in Q by lia. apply Z.pow_lt_mono_r_iff in Q; lia. }
    replace (e1 <=? emax - prec) with true by lia. split; [|reflexivity].
    cbn [finite]. unfold bounded, canonical_mantissa. rewrite digits_log2.
    apply andb_true_intro. split; [|lia]. apply Zeq_is_eq_bool. unfold SpecFloat.fexp.
    destruct (Z.eq_dec e1 emin) as [->|]; [lia|]. assert (prec - 1 <= Z.log2 (Zpos p)) by (apply Z.log2_le_pow2; lia). lia.
Qed.

Lemma rnd_pos k m : 0 <= k -> 0 <= m -> 0 <= rnd k m.
Proof.
  intros Hk H. unfold rnd. set (t := Z.max _ _). apply Z.mul_nonneg_nonneg; [|apply Z.pow_nonneg; lia].
  apply (rne_bounds m t 0 m); [lia|]. split; [lia|]. rewrite <- (Z.mul_1_r m) at 1. apply Z.mul_le_mono_nonneg_l; lia.
Qed.
(** Numbers of at most [prec] bits are not changed *)
Lemma rnd_id m j : 0 <= m < 2 ^ prec -> 0 <= j -> rnd 0 (m * 2 ^ j) = m * 2 ^ j.
Proof.
  intros Hm Hj. unfold rnd. rewrite Z.sub_0_r. set (t := Z.max _ _).
  destruct (Z.eq_dec m 0) as [->|]. { rewrite Z.mul_0_l. unfold rne. rewrite Zdiv_0_l, Zmod_0_l. now replace (2 * 0 <? 2 ^ t) with true by lia. }
  assert (t <= j).
  { unfold t. rewrite Z.log2_mul_pow2 by lia. assert (Z.log2 m < prec) by (apply Z.log2_lt_pow2; lia). lia. }
  replace j with ((j - t) + t) by lia. rewrite Z.pow_add_r, Z.mul_assoc by lia. rewrite rne_exact by lia. lia.
Qed.
Lemma rnd_small m : 0 <= m < 2 ^ prec -> rnd 0 m = m.
Proof. intros H. generalize (rnd_id m 0 H ltac:(lia)). now rewrite Z.pow_0_r, Z.mul_1_r. Qed.

(** With the sign *)
Definition rnds (k z : Z) : Z := Z.sgn z * rnd k (Z.abs z).
Lemma rnds_opp k z : rnds k (- z) = - rnds k z.
Proof. unfold rnds. rewrite Z.sgn_opp, Z.abs_opp. lia. Qed.
Lemma rnds_cond k s m : 0 < m -> cond_Zopp s (rnd k m) = rnds k (cond_Zopp s m).
Proof. intros H. unfold rnds. destruct s; cbn [cond_Zopp]; rewrite ?Z.sgn_opp, ?Z.abs_opp, Z.sgn_pos, Z.abs_eq by lia; lia. Qed.
Lemma rnds_id z j : Z.abs z < 2 ^ prec -> 0 <= j -> rnds 0 (z * 2 ^ j) = z * 2 ^ j.
Proof.
  intros H Hj. unfold rnds. rewrite Z.abs_mul, (Z.abs_eq (2 ^ j)) by lia. rewrite rnd_id by lia.
  rewrite Z.sgn_mul, (Z.sgn_pos (2 ^ j)) by lia. destruct (Z.sgn_spec z) as [[? ->]|[[? ->]|[? ->]]]; lia.
Qed.

Definition fits (v : Z) : Prop := Z.abs v < 2 ^ (emax - emin).
Lemma fits_rnd k z : 0 <= k -> fits (rnds k z) -> z <> 0 -> rnd k (Z.abs z) < 2 ^ (emax - emin).
Proof. unfold fits, rnds. intros Hk H N. pose proof (rnd_pos k (Z.abs z) Hk ltac:(lia)). destruct (Z.sgn_spec z) as [[? E]|[[? E]|[? E]]]; rewrite E in *; lia. Qed.

Lemma round_ok s m e : emin <= e -> fits (rnds 0 (cond_Zopp s (Zpos m * 2 ^ (e - emin)))) ->
  finite (binary_round prec emax s m e) /\ sval (binary_round prec emax s m e) = rnds 0 (cond_Zopp s (Zpos m * 2 ^ (e - emin))).
Proof.
  intros He HF. apply fits_rnd in HF; [|easy|destruct s; cbn [cond_Zopp]; lia].
  replace (Z.abs (cond_Zopp s (Zpos m * 2 ^ (e - emin)))) with (Zpos m * 2 ^ (e - emin)) in HF by (destruct s; cbn [cond_Zopp]; lia).
  rewrite <- rnds_cond by lia. unfold binary_round. rewrite digits_log2. set (d := Z.log2 (Zpos m) + 1). set (e0 := fexp (d + e)).
  assert (E0 : emin <= e0) by (unfold e0, SpecFloat.fexp; lia).
  destruct (Z.le_gt_cases e e0) as [H|H].
  - unfold shl_align. replace (match e0 - e with Z.neg d0 => (shift_pos d0 m, e0) | _ => (m, e) end) with (m, e) by (destruct (e0 - e) eqn:E; [easy|easy|lia]).
    generalize (round_aux_ok s (Zpos m) e 0 ltac:(lia) ltac:(lia) ltac:(lia) H). rewrite Z.sub_0_r. intros G. now apply G.
  - unfold shl_align. destruct (e0 - e) as [|p|p] eqn:E; [lia|lia|].
    assert (Em : Zpos (shift_pos p m) = Zpos m * 2 ^ (e - e0)).
    { rewrite shift_pos_correct. replace (e - e0) with (Zpos p) by lia. change (Z.pow_pos 2 p) with (2 ^ Zpos p). lia. }
    rewrite Em. generalize (round_aux_ok s (Zpos m * 2 ^ (e - e0)) e0 0 ltac:(lia) ltac:(lia) ltac:(lia)).
    rewrite Z.log2_mul_pow2 by lia. replace (e - e0 + Z.log2 (Zpos m) + 1 + e0) with (d + e) by (unfold d; lia).
    rewrite Z.sub_0_r, <- Z.mul_assoc, <- Z.pow_add_r by lia. replace (e - e0 + (e0 - emin)) with (e - emin) by lia.
    intros G. apply G; [unfold e0; lia|easy].
Qed.

Lemma normalize_ok z e b : emin <= e -> fits (rnds 0 (z * 2 ^ (e - emin))) ->
  finite (binary_normalize prec emax z e b) /\ sval (binary_normalize prec emax z e b) = rnds 0 (z * 2 ^ (e - emin)).
Proof.
  intros He HF. destruct z as [|p|p]; cbn [binary_normalize].
  - split; [exact I|]. reflexivity.
  - apply (round_ok false); easy.
  - replace (Zneg p * 2 ^ (e - emin)) with (cond_Zopp true (Zpos p * 2 ^ (e - emin))) in * by (cbn [cond_Zopp]; lia). now apply (round_ok true).
Qed.

Lemma bounded_inv m e : bounded prec emax m e = true -> emin <= e <= emax - prec /\ Zpos m < 2 ^ prec /\ (emin < e -> 2 ^ (prec - 1) <= Zpos m).
Proof.
  unfold bounded, canonical_mantissa. intros H. apply andb_prop in H as [H1 H2]. apply Zeq_bool_eq in H1. rewrite digits_log2 in H1.
  unfold SpecFloat.fexp in H1. destruct (Z.log2_spec (Zpos m) ltac:(lia)) as [L1 L2].
  split; [lia|]. split.
  - eapply Z.lt_le_trans; [exact L2|]. apply Z.pow_le_mono_r; lia.
  - intros H. etransitivity; [|exact L1]. apply Z.pow_le_mono_r; lia.
Qed.

(** Every number of the format is unchanged by rounding *)
Lemma sval_rnds x : finite x -> rnds 0 (sval x) = sval x.
Proof.
  destruct x as [s|s| |s m e]; cbn [finite sval]; try easy. intros H. apply bounded_inv in H as (H1 & H2 & _).
  rewrite <- rnds_cond by lia. rewrite rnd_id by lia. reflexivity.
Qed.
Lemma sval_fits x : finite x -> fits (sval x).
Proof.
  destruct x as [s|s| |s m e]; cbn [finite sval]; try easy; unfold fits.
  - intros _. rewrite Z.abs_0. apply Z.pow_pos_nonneg; [easy|]. unfold SpecFloat.emin. lia.
  - intros H. apply bounded_inv in H as (H1 & H2 & _).
    replace (Z.abs (cond_Zopp s (Zpos m * 2 ^ (e - emin)))) with (Zpos m * 2 ^ (e - emin)) by (destruct s; cbn [cond_Zopp]; lia).
    eapply Z.lt_le_trans; [apply Z.mul_lt_mono_pos_r; [|exact H2]; lia|]. rewrite <- Z.pow_add_r by lia. apply Z.pow_le_mono_r; lia.
Qed.

Lemma shl_align_ok m e e' : e' <= e -> Zpos (fst (shl_align m e e')) = Zpos m * 2 ^ (e - e').
Proof.
  intros H. unfold shl_align. destruct (e' - e) as [|p|p] eqn:E; [|lia|]; cbn [fst].
  - replace (e - e') with 0 by lia. now rewrite Z.pow_0_r, Z.mul_1_r.
  - rewrite shift_pos_correct. replace (e - e') with (Zpos p) by lia. change (Z.pow_pos 2 p) with (2 ^ Zpos p). apply Z.mul_comm.
Qed.
Lemma cond_mul s a b : cond_Zopp s (a * b) = cond_Zopp s a * b. Proof. destruct s; cbn [cond_Zopp]; lia. Qed.

Lemma add_ok x y : finite x -> finite y -> fits (rnds 0 (sval x + sval y)) ->
  finite (SFadd prec emax x y) /\ sval (SFadd prec emax x y) = rnds 0 (sval x + sval y).
Proof.
  intros Fx Fy HF. destruct x as [sx|sx| |sx mx ex]; try easy; destruct y as [sy|sy| |sy my ey]; try easy; cbn [SFadd].
  - split; [now destruct (Bool.eqb sx sy)|]. now destruct (Bool.eqb sx sy).
  - split; [exact Fy|]. change (sval (S754_zero sx)) with 0. rewrite Z.add_0_l. symmetry. now apply sval_rnds.
  - split; [exact Fx|]. change (sval (S754_zero sy)) with 0. rewrite Z.add_0_r. symmetry. now apply sval_rnds.
  - destruct (bounded_inv _ _ Fx) as (Hx & _ & _). destruct (bounded_inv _ _ Fy) as (Hy & _ & _).
    set (ez := Z.min ex ey). rewrite !shl_align_ok by lia.
    assert (E : (cond_Zopp sx (Zpos mx * 2 ^ (ex - ez)) + cond_Zopp sy (Zpos my * 2 ^ (ey - ez))) * 2 ^ (ez - emin) =
      sval (S754_finite sx mx ex) + sval (S754_finite sy my ey)).
    { cbn [sval]. rewrite Z.mul_add_distr_r. rewrite <- !cond_mul, <- !Z.mul_assoc, <- !Z.pow_add_r by lia.
      now replace (ex - ez + (ez - emin)) with (ex - emin) by lia; replace (ey - ez + (ez - emin)) with (ey - emin) by lia. }
    rewrite <- E in HF |- *. apply normalize_ok; [lia|exact HF].
Qed.
Lemma sub_ok x y : finite x -> finite y -> fits (rnds 0 (sval x - sval y)) ->
  finite (SFsub prec emax x y) /\ sval (SFsub prec emax x y) = rnds 0 (sval x - sval y).
Proof.
  intros Fx Fy HF. destruct x as [sx|sx| |sx mx ex]; try easy; destruct y as [sy|sy| |sy my ey]; try easy; cbn [SFsub].
  - split; [now destruct (Bool.eqb sx (negb sy))|]. now destruct (Bool.eqb sx (negb sy)).
  - split; [exact Fy|]. change (sval (S754_zero sx)) with 0. rewrite Z.sub_0_l, rnds_opp, sval_rnds by easy. cbn [sval]. destruct sy; cbn [negb cond_Zopp]; lia.
  - split; [exact Fx|]. change (sval (S754_zero sy)) with 0. rewrite Z.sub_0_r. symmetry. now apply sval_rnds.
  - destruct (bounded_inv _ _ Fx) as (Hx & _ & _). destruct (bounded_inv _ _ Fy) as (Hy & _ & _).
    set (ez := Z.min ex ey). rewrite !shl_align_ok by lia.
    assert (E : (cond_Zopp sx (Zpos mx * 2 ^ (ex - ez)) - cond_Zopp sy (Zpos my * 2 ^ (ey - ez))) * 2 ^ (ez - emin) =
      sval (S754_finite sx mx ex) - sval (S754_finite sy my ey)).
    { cbn [sval]. rewrite Z.mul_sub_distr_r. rewrite <- !cond_mul, <- !Z.mul_assoc, <- !Z.pow_add_r by lia.
      now replace (ex - ez + (ez - emin)) with (ex - emin) by lia; replace (ey - ez + (ez - emin)) with (ey - emin) by lia. }
    rewrite <- E in HF |- *. apply normalize_ok; [lia|exact HF].
Qed.

Lemma mul_ok x y : finite x -> finite y -> fits (rnds (- emin) (sval x * sval y)) ->
  finite (SFmul prec emax x y) /\ sval (SFmul prec emax x y) = rnds (- emin) (sval x * sval y).
Proof.
  intros Fx Fy HF. assert (Hem : emin < 0) by (unfold SpecFloat.emin; lia).
  destruct x as [sx|sx| |sx mx ex]; try easy; destruct y as [sy|sy| |sy my ey]; try easy; cbn [SFmul].
  - split; [exact I|]. cbn [sval]. now rewrite Z.mul_0_r.
  - destruct (bounded_inv _ _ Fx) as (Hx & _ & Dx). destruct (bounded_inv _ _ Fy) as (Hy & _ & Dy).
    assert (E : sval (S754_finite sx mx ex) * sval (S754_finite sy my ey) = cond_Zopp (xorb sx sy) (Zpos (mx * my) * 2 ^ (ex + ey - (emin - - emin)))).
    { cbn [sval]. replace (ex + ey - (emin - - emin)) with ((ex - emin) + (ey - emin)) by lia. rewrite Z.pow_add_r by lia.
      rewrite Pos2Z.inj_mul. destruct sx, sy; cbn [xorb cond_Zopp]; ring. }
    rewrite E in *. rewrite <- rnds_cond by (apply Z.mul_pos_pos; [easy|apply Z.pow_pos_nonneg; lia]).
    apply round_aux_ok; [easy|lia|lia| |].
    + unfold SpecFloat.fexp. destruct (Z.eq_dec ex emin) as [->|N1].
      * destruct (Z.eq_dec ey emin) as [->|N2]; [lia|]. specialize (Dy ltac:(lia)).
        assert (prec - 1 <= Z.log2 (Zpos (mx * my))) by (apply Z.log2_le_pow2; [lia|]; rewrite Pos2Z.inj_mul; nia). lia.
      * specialize (Dx ltac:(lia)).
        assert (prec - 1 <= Z.log2 (Zpos (mx * my))) by (apply Z.log2_le_pow2; [lia|]; rewrite Pos2Z.inj_mul; nia). lia.
    + apply fits_rnd in HF; [|lia|].
      * replace (Z.abs (cond_Zopp (xorb sx sy) (Zpos (mx * my) * 2 ^ (ex + ey - (emin - - emin))))) with (Zpos (mx * my) * 2 ^ (ex + ey - (emin - - emin))) in HF; [exact HF|].
        destruct (xorb sx sy); cbn [cond_Zopp]; lia.
      * assert (0 < Zpos (mx * my) * 2 ^ (ex + ey - (emin - - emin))) by (apply Z.mul_pos_pos; [easy|apply Z.pow_pos_nonneg; lia]). destruct (xorb sx sy); cbn [cond_Zopp]; lia.
Qed.

(** Comparisons *)
Lemma compare_ok x y : finite x -> finite y -> SFcompare x y = Some (sval x ?= sval y).
Proof.
  assert (POS : forall m e, 0 < Zpos m * 2 ^ (e - emin) \/ e < emin) by (intros m e; destruct (Z.le_gt_cases emin e); [left; lia|now right]).
  assert (LT : forall mx ex my ey, bounded prec emax mx ex = true -> bounded prec emax my ey = true -> ex < ey ->
    Zpos mx * 2 ^ (ex - emin) < Zpos my * 2 ^ (ey - emin)).
  { intros mx ex my ey Bx By L. destruct (bounded_inv _ _ Bx) as (Hx & Mx & _). destruct (bounded_inv _ _ By) as (Hy & _ & Dy). specialize (Dy ltac:(lia)).
    apply Z.lt_le_trans with (2 ^ prec * 2 ^ (ex - emin)); [apply Z.mul_lt_mono_pos_r; [lia|exact Mx]|].
    apply Z.le_trans with (2 ^ (prec - 1) * 2 ^ (ey - emin)); [|apply Z.mul_le_mono_nonneg_r; [lia|exact Dy]].
    rewrite <- !Z.pow_add_r by lia. apply Z.pow_le_mono_r; lia. }
  assert (CMP : forall mx ex my ey, bounded prec emax mx ex = true -> bounded prec emax my ey = true ->
    match ex ?= ey with Eq => Pos.compare_cont Eq mx my | Lt => Lt | Gt => Gt end = (Zpos mx * 2 ^ (ex - emin) ?= Zpos my * 2 ^ (ey - emin))).
  { intros mx ex my ey Bx By. destruct (Z.compare_spec ex ey) as [->|L|L].
    - destruct (bounded_inv _ _ By) as (Hy & _ & _). rewrite <- (Zmult_compare_compat_r (Zpos mx) (Zpos my) (2 ^ (ey - emin))) by lia. reflexivity.
    - symmetry. apply Z.compare_lt_iff. now apply LT.
    - symmetry. apply Z.compare_gt_iff. now apply LT. }
  intros Fx Fy. destruct x as [sx|sx| |sx mx ex]; try easy; destruct y as [sy|sy| |sy my ey]; try easy; cbn [SFcompare sval].
  - destruct (bounded_inv _ _ Fy) as (Hy & _ & _). destruct (POS my ey) as [P|P]; [|lia]. f_equal. symmetry. destruct sy; cbn [cond_Zopp]; [apply Z.compare_gt_iff|apply Z.compare_lt_iff]; lia.
  - destruct (bounded_inv _ _ Fx) as (Hx & _ & _). destruct (POS mx ex) as [P|P]; [|lia]. f_equal. symmetry. destruct sx; cbn [cond_Zopp]; [apply Z.compare_lt_iff|apply Z.compare_gt_iff]; lia.
  - destruct (bounded_inv _ _ Fy) as (Hy & _ & _). destruct (POS my ey) as [Py|P]; [|lia].
    destruct (bounded_inv _ _ Fx) as (Hx & _ & _). destruct (POS mx ex) as [Px|P]; [|lia]. f_equal.
    destruct sx, sy; cbn [cond_Zopp].
    + rewrite Z.compare_opp. rewrite <- CMP by easy. rewrite (Z.compare_antisym ex ey). destruct (Z.compare_spec ex ey) as [->|L|L]; cbn [CompOpp]; try easy.
      change (Pos.compare_cont Eq mx my) with (Pos.compare mx my). change (Pos.compare_cont Eq my mx) with (Pos.compare my mx). symmetry. apply Pos.compare_antisym.
    + symmetry. apply Z.compare_lt_iff. lia.
    + symmetry. apply Z.compare_gt_iff. lia.
    + now apply CMP.
Qed.
Lemma ltb_ok x y : finite x -> finite y -> SFltb x y = (sval x <? sval y).
Proof. intros Hx Hy. unfold SFltb. rewrite compare_ok by easy. unfold Z.ltb. now destruct (sval x ?= sval y). Qed.

(** Rounding is monotone, nearest, and does not depend on the scale *)
Lemma rnd_mono k m m' : 0 <= k -> 0 <= m <= m' -> rnd k m <= rnd k m'.
Proof.
  intros Hk H. unfold rnd. set (t := Z.max k (Z.log2 m + 1 - prec)). set (t' := Z.max k (Z.log2 m' + 1 - prec)).
  pose proof (Z.log2_le_mono m m' ltac:(lia)) as L. destruct (Z.eq_dec t t') as [->|N].
  - apply Z.mul_le_mono_nonneg_r; [apply Z.pow_nonneg; lia|]. apply rne_mono; lia.
  - assert (E : t' = Z.log2 m' + 1 - prec) by lia. assert (Lt : Z.log2 m < Z.log2 m') by lia.
    assert (P : 0 < m') by (destruct (Z.eq_dec m' 0) as [->|]; [|lia]; cbn in Lt; pose proof (Z.log2_nonneg m); lia).
    destruct (Z.log2_spec m' P) as [L1 L2].
    assert (M : m <= 2 ^ Z.log2 m').
    { destruct (Z.eq_dec m 0) as [->|]; [lia|]. destruct (Z.log2_spec m ltac:(lia)) as [_ L3]. etransitivity; [apply Z.lt_le_incl, L3|]. apply Z.pow_le_mono_r; lia. }
    assert (A : rne m t <= 2 ^ (Z.log2 m' - t)).
    { apply (rne_bounds m t 0); [lia|]. split; [lia|]. rewrite <- Z.pow_add_r by lia. now replace (Z.log2 m' - t + t) with (Z.log2 m') by lia. }
    assert (B : 2 ^ (Z.log2 m' - t') <= rne m' t').
    { apply (rne_bounds m' t' _ m'); [lia|]. split; [rewrite <- Z.pow_add_r by lia; now replace (Z.log2 m' - t' + t') with (Z.log2 m') by lia|].
      rewrite <- (Z.mul_1_r m') at 1. apply Z.mul_le_mono_nonneg_l; lia. }
    transitivity (2 ^ (Z.log2 m' - t) * 2 ^ (t - k)); [apply Z.mul_le_mono_nonneg_r; [apply Z.pow_nonneg; lia|exact A]|].
    transitivity (2 ^ (Z.log2 m' - t') * 2 ^ (t' - k)); [|apply Z.mul_le_mono_nonneg_r; [apply Z.pow_nonneg; lia|exact B]].
    rewrite <- !Z.pow_add_r by lia. apply Z.pow_le_mono_r; lia.
Qed.
Lemma rnd_0 k : 0 <= k -> rnd k 0 = 0.
Proof. intros H. unfold rnd. unfold rne. rewrite Zdiv_0_l, Zmod_0_l. set (t := Z.max _ _). replace (2 * 0 <? 2 ^ t) with true by (symmetry; apply Z.ltb_lt; assert (0 < 2 ^ t) by (apply Z.pow_pos_nonneg; lia); lia). reflexivity. Qed.
Lemma rnds_mono k z z' : 0 <= k -> z <= z' -> rnds k z <= rnds k z'.
Proof.
  intros Hk H. unfold rnds. pose proof (rnd_pos k (Z.abs z) Hk ltac:(lia)). pose proof (rnd_pos k (Z.abs z') Hk ltac:(lia)).
  destruct (Z.le_gt_cases 0 z).
  - pose proof (rnd_mono k (Z.abs z) (Z.abs z') Hk ltac:(lia)).
    destruct (Z.eq_dec z 0) as [->|]; [destruct (Z.sgn_spec z') as [[? ->]|[[? ->]|[? ->]]]; cbn [Z.sgn]; lia|]. rewrite !Z.sgn_pos by lia. lia.
  - rewrite (Z.sgn_neg z) by lia. destruct (Z.le_gt_cases 0 z').
    + destruct (Z.sgn_spec z') as [[? ->]|[[? ->]|[? ->]]]; lia.
    + rewrite (Z.sgn_neg z') by lia. pose proof (rnd_mono k (Z.abs z') (Z.abs z) Hk ltac:(lia)). lia.
Qed.
Lemma rnd_scale k m j : 0 <= k -> 0 <= j -> 0 <= m -> rnd (k + j) (m * 2 ^ j) = rnd k m.
Proof.
  intros Hk Hj Hm. destruct (Z.eq_dec m 0) as [->|]; [rewrite Z.mul_0_l, !rnd_0 by lia; easy|].
  unfold rnd. rewrite Z.log2_mul_pow2 by lia. set (t := Z.max k (Z.log2 m + 1 - prec)).
  replace (Z.max (k + j) (j + Z.log2 m + 1 - prec)) with (t + j) by lia. rewrite rne_scale by lia. f_equal. f_equal. lia.
Qed.
Lemma rnds_scale k z j : 0 <= k -> 0 <= j -> rnds (k + j) (z * 2 ^ j) = rnds k z.
Proof.
  intros Hk Hj. unfold rnds. rewrite Z.abs_mul, (Z.abs_eq (2 ^ j)), rnd_scale by lia. rewrite Z.sgn_mul, (Z.sgn_pos (2 ^ j)) by lia. lia.
Qed.
(** The error is at most half a unit, or a fraction [2^-prec] of the number *)
Lemma rnd_near k m : 0 <= k -> 0 <= m -> 2 * Z.abs (rnd k m * 2 ^ k - m) <= Z.max (2 ^ k) (m / 2 ^ (prec - 1)).
Proof.
  intros Hk Hm. unfold rnd. set (t := Z.max k (Z.log2 m + 1 - prec)). rewrite <- Z.mul_assoc, <- Z.pow_add_r by lia.
  replace (t - k + k) with t by lia. etransitivity; [apply rne_near; lia|].
  destruct (Z.le_gt_cases (Z.log2 m + 1 - prec) k).
  - replace t with k by lia. lia.
  - replace t with (Z.log2 m + 1 - prec) by lia. destruct (Z.eq_dec m 0) as [->|]; [change (Z.log2 0) with 0 in *; lia|].
    destruct (Z.log2_spec m ltac:(lia)) as [L1 _].
    assert (2 ^ (Z.log2 m + 1 - prec) <= m / 2 ^ (prec - 1)).
    { apply Z.div_le_lower_bound; [lia|]. rewrite <- Z.pow_add_r by lia. now replace (prec - 1 + (Z.log2 m + 1 - prec)) with (Z.log2 m) by lia. }
    lia.
Qed.
Lemma rnds_near k z : 0 <= k -> 2 * Z.abs (rnds k z * 2 ^ k - z) <= Z.max (2 ^ k) (Z.abs z / 2 ^ (prec - 1)).
Proof.
  intros Hk. pose proof (rnd_near k (Z.abs z) Hk ltac:(lia)) as H. unfold rnds. destruct (Z.sgn_spec z) as [[P ->]|[[P ->]|[P ->]]]; lia.
Qed.
End Format.

(** ** Single precision *)
Notation ffin := (finite 24 128).
Notation fval := (sval 24 128).
Notation frnd := (rnds 24).
(** [x] is the integer [a] *)
Definition rep (x : f32) (a : Z) : Prop := ffin x /\ fval x = a * 2 ^ 149.

Lemma frnd_id a : Z.abs a < 2 ^ 24 -> frnd 0 (a * 2 ^ 149) = a * 2 ^ 149.
Proof. intros H. apply rnds_id; [lia|exact H|lia]. Qed.
Lemma fits_int a : Z.abs a < 2 ^ 24 -> fits 24 128 (a * 2 ^ 149).
Proof. intros H. unfold fits. change (128 - SpecFloat.emin 24 128) with (128 + 149). rewrite Z.abs_mul, (Z.abs_eq (2 ^ 149)) by lia.
  rewrite Z.pow_add_r by lia. apply Z.mul_lt_mono_pos_r; [lia|]. etransitivity; [exact H|]. apply Z.pow_lt_mono_r; lia. Qed.
Lemma of_int_rep a : Z.abs a < 2 ^ 24 -> rep (of_int a) a.
Proof.
  intros H. unfold rep, of_int. pose proof (normalize_ok 24 128 ltac:(lia) ltac:(lia) a 0 false ltac:(unfold SpecFloat.emin; lia)) as N.
  change (0 - SpecFloat.emin 24 128) with 149 in N. rewrite frnd_id in N by easy. apply N, fits_int, H.
Qed.
Lemma fadd_rep x y a b : rep x a -> rep y b -> Z.abs (a + b) < 2 ^ 24 -> rep (fadd x y) (a + b).
Proof.
  intros [Fx Vx] [Fy Vy] H. unfold rep, fadd. pose proof (add_ok 24 128 ltac:(lia) ltac:(lia) x y Fx Fy) as A.
  rewrite Vx, Vy, <- Z.mul_add_distr_r, frnd_id in A by easy. apply A, fits_int, H.
Qed.
Lemma fsub_rep x y a b : rep x a -> rep y b -> Z.abs (a - b) < 2 ^ 24 -> rep (fsub x y) (a - b).
Proof.
  intros [Fx Vx] [Fy Vy] H. unfold rep, fsub. pose proof (sub_ok 24 128 ltac:(lia) ltac:(lia) x y Fx Fy) as A.
  rewrite Vx, Vy, <- Z.mul_sub_distr_r, frnd_id in A by easy. apply A, fits_int, H.
Qed.
Lemma fmul_rep x y a b : rep x a -> rep y b -> Z.abs (a * b) < 2 ^ 24 -> rep (fmul x y) (a * b).
Proof.
  intros [Fx Vx] [Fy Vy] H. unfold rep, fmul. pose proof (mul_ok 24 128 ltac:(lia) ltac:(lia) x y Fx Fy) as A.
  rewrite Vx, Vy in A. replace (a * 2 ^ 149 * (b * 2 ^ 149)) with (a * b * 2 ^ 149 * 2 ^ 149) in A by ring.
  change (- SpecFloat.emin 24 128) with (0 + 149) in A. rewrite rnds_scale, frnd_id in A by (try easy; lia). apply A, fits_int, H.
Qed.
Lemma to_uint_ok hi x : 0 <= hi -> ffin x -> to_uint hi x = Z.max 0 (Z.min hi (fval x / 2 ^ 149)).
Proof.
  intros Hh F. destruct x as [s|s| |s m e]; try easy; cbn [to_uint sval].
  - rewrite Zdiv_0_l. lia.
  - destruct (bounded_inv 24 128 ltac:(lia) _ _ F) as (He & _ & _). change (SpecFloat.emin 24 128) with (-149) in *.
    replace (e - -149) with (e + 149) by lia. destruct s; cbn [cond_Zopp].
    + assert (0 < Zpos m * 2 ^ (e + 149)) by (apply Z.mul_pos_pos; [easy|apply Z.pow_pos_nonneg; lia]).
      assert (- (Zpos m * 2 ^ (e + 149)) / 2 ^ 149 < 0) by (apply Z.div_lt_upper_bound; lia). lia.
    + destruct (Z.leb_spec 0 e).
      * rewrite Z.pow_add_r, Z.mul_assoc by lia. rewrite Z.div_mul by (apply Z.pow_nonzero; lia). assert (0 <= Zpos m * 2 ^ e) by (apply Z.mul_nonneg_nonneg; [easy|apply Z.pow_nonneg; lia]). lia.
      * replace (2 ^ 149) with (2 ^ (- e) * 2 ^ (e + 149)) by (rewrite <- Z.pow_add_r by lia; f_equal; lia).
        rewrite Z.div_mul_cancel_r by (apply Z.pow_nonzero; lia). assert (0 <= Zpos m / 2 ^ (- e)) by (apply Z.div_pos; [easy|apply Z.pow_pos_nonneg; lia]). lia.
Qed.
Lemma to_uint_rep hi x a : 0 <= hi -> rep x a -> to_uint hi x = Z.max 0 (Z.min hi a).
Proof. intros Hh [F V]. rewrite to_uint_ok, V, Z.div_mul by (try easy; lia). reflexivity. Qed.

(** ** The square root of a 32-bit integer in double precision, cut to an integer *)
Lemma sqrt_cast hi n : 0 <= n < 2 ^ 32 ->
  to_uint hi (SFsqrt 53 1024 (binary_normalize 53 1024 n 0 false)) = if n =? 0 then 0 else Z.min hi (Z.sqrt n).
Proof.
  intros Hn. destruct (Z.eqb_spec n 0) as [->|N0]; [reflexivity|].
  pose proof (normalize_ok 53 1024 ltac:(lia) ltac:(lia) n 0 false ltac:(unfold SpecFloat.emin; lia)) as NO.
  change (0 - SpecFloat.emin 53 1024) with 1074 in NO. rewrite rnds_id in NO by lia.
  destruct NO as [F V].
  { unfold fits. change (1024 - SpecFloat.emin 53 1024) with (1024 + 1074). rewrite Z.abs_mul, (Z.abs_eq (2 ^ 1074)) by (apply Z.pow_nonneg; lia).
    rewrite Z.pow_add_r by lia. apply Z.mul_lt_mono_pos_r; [apply Z.pow_pos_nonneg; lia|]. rewrite Z.abs_eq by lia. eapply Z.lt_le_trans; [apply Hn|]. apply Z.pow_le_mono_r; lia. }
  assert (P1074 : 0 < 2 ^ 1074) by (apply Z.pow_pos_nonneg; lia).
  set (B := binary_normalize 53 1024 n 0 false) in *. clearbody B. destruct B as [s|s| |s m e]; try (cbn [finite sval] in *; nia).
  cbn [finite sval] in F, V. destruct (bounded_inv 53 1024 ltac:(lia) _ _ F) as (He & Mx & Mn). change (SpecFloat.emin 53 1024) with (-1074) in *.
  replace (e - -1074) with (e + 1074) in V by lia. destruct s; cbn [cond_Zopp] in V.
  { assert (0 < Zpos m * 2 ^ (e + 1074)) by (apply Z.mul_pos_pos; [easy|apply Z.pow_pos_nonneg; lia]). nia. }
  assert (E1 : -1074 < e).
  { destruct (Z.eq_dec e (-1074)) as [->|]; [|lia]. exfalso. change (-1074 + 1074) with 0 in V. rewrite Z.pow_0_r, Z.mul_1_r in V.
    assert (2 ^ 53 <= n * 2 ^ 1074); [|lia]. transitivity (1 * 2 ^ 1074); [rewrite Z.mul_1_l; apply Z.pow_le_mono_r; lia|]. apply Z.mul_le_mono_nonneg_r; lia. }
  specialize (Mn E1). change (53 - 1) with 52 in Mn.
  assert (E0 : e < -20).
  { destruct (Z.lt_ge_cases e (-20)); [easy|]. exfalso. assert (2 ^ 52 * 2 ^ (e + 1074) <= n * 2 ^ 1074) by (rewrite <- V; apply Z.mul_le_mono_nonneg_r; [apply Z.pow_nonneg; lia|easy]).
    assert (n * 2 ^ 1074 < 2 ^ 32 * 2 ^ 1074) by (apply Z.mul_lt_mono_pos_r; lia).
    rewrite <- Z.pow_add_r in * by lia. assert (2 ^ (32 + 1074) <= 2 ^ (52 + (e + 1074))) by (apply Z.pow_le_mono_r; lia). lia. }
  assert (Vm : Zpos m = n * 2 ^ (- e)).
  { apply (Z.mul_cancel_r _ _ (2 ^ (e + 1074))); [apply Z.pow_nonzero; lia|]. rewrite V, <- Z.mul_assoc, <- Z.pow_add_r by lia. f_equal. f_equal. lia. }
  assert (Lm : Z.log2 (Zpos m) = 52) by (apply Z.log2_unique; lia).
  set (D := 53 + e). assert (Ln : Z.log2 n = D - 1).
  { rewrite Vm, Z.log2_mul_pow2 in Lm by lia. unfold D. lia. }
  assert (HD : 1 <= D <= 32). { split; [pose proof (Z.log2_nonneg n); lia|]. assert (Z.log2 n < 32) by (apply Z.log2_lt_pow2; lia). lia. }
  unfold SFsqrt, SFsqrt_core_binary. cbn [Zdigits2]. rewrite digits_log2, Lm. replace (52 + 1 + e + 1) with (D + 1) by (unfold D; lia).
  set (a := Z.div2 (D + 1)). assert (Ha : 2 * a = D \/ 2 * a = D + 1) by (unfold a; rewrite Z.div2_div; lia).
  set (K := 53 - a). assert (HK : 36 < K <= 52) by (unfold K; lia).
  assert (Ee : Z.min (fexp 53 1024 a) (Z.div2 e) = - K).
  { unfold SpecFloat.fexp. change (SpecFloat.emin 53 1024) with (-1074). rewrite Z.div2_div. unfold K, D in *. lia. }
  rewrite Ee. set (s := e - 2 * - K). assert (Hs : 0 < s) by (unfold s, K, D in *; lia).
  assert (Em : match s with 0 => Zpos m | Zpos _ => Z.shiftl (Zpos m) s | Zneg _ => 0 end = n * 2 ^ (2 * K)).
  { destruct s eqn:Es; [lia| |lia]. rewrite <- Es in *. rewrite Z.shiftl_mul_pow2 by lia. rewrite Vm, <- Z.mul_assoc, <- Z.pow_add_r by lia.
    f_equal. f_equal. unfold s. lia. }
  rewrite Em. clear Em. pose proof (Z.sqrtrem_spec (n * 2 ^ (2 * K)) ltac:(lia)) as SR. destruct (Z.sqrtrem _) as (q & r) eqn:Eq. destruct SR as [SR Rr].
  replace (2 * K) with (K + K) in SR by lia. rewrite Z.pow_add_r in SR by lia.
  set (X := 2 ^ K) in *. assert (HX : 2 ^ 37 <= X) by (apply Z.pow_le_mono_r; lia).
  destruct (Z.log2_spec n ltac:(lia)) as [L1 L2]. rewrite Ln in L1, L2. replace (Z.succ (D - 1)) with D in L2 by lia.
  assert (Q1 : 2 ^ 52 <= q).
  { assert (2 ^ 104 <= n * (X * X)).
    { unfold X. rewrite <- Z.pow_add_r by lia. transitivity (2 ^ (D - 1) * 2 ^ (K + K)); [|apply Z.mul_le_mono_nonneg_r; lia].
      rewrite <- Z.pow_add_r by lia. apply Z.pow_le_mono_r; unfold K; lia. }
    destruct (Z.le_gt_cases (2 ^ 52) q) as [|G]; [easy|]. exfalso. assert (q * q + r <= q * q + 2 * q) by lia.
    assert ((q + 1) * (q + 1) <= 2 ^ 52 * 2 ^ 52) by (apply Z.mul_le_mono_nonneg; lia). change (2 ^ 52 * 2 ^ 52) with (2 ^ 104) in *. lia. }
  assert (Q2 : q < 2 ^ 53).
  { assert (n * (X * X) < 2 ^ 106).
    { unfold X. rewrite <- Z.pow_add_r by lia. apply Z.lt_le_trans with (2 ^ D * 2 ^ (K + K)); [apply Z.mul_lt_mono_pos_r; lia|].
      rewrite <- Z.pow_add_r by lia. apply Z.pow_le_mono_r; unfold K; lia. }
    destruct (Z.lt_ge_cases q (2 ^ 53)) as [|G]; [easy|]. exfalso.
    assert (2 ^ 53 * 2 ^ 53 <= q * q) by (apply Z.mul_le_mono_nonneg; lia). change (2 ^ 53 * 2 ^ 53) with (2 ^ 106) in *. lia. }
  set (t := Z.sqrt n). destruct (Z.sqrt_spec n ltac:(lia)) as [T1 T2]. fold t in T1, T2. pose proof (Z.sqrt_nonneg n) as T0. fold t in T0.
  assert (Tb : t < 2 ^ 16) by (apply (Z.square_lt_simpl_nonneg); lia).
  assert (G1 : t * X <= q).
  { destruct (Z.le_gt_cases (t * X) q) as [|G]; [easy|]. exfalso. assert ((q + 1) * (q + 1) <= (t * X) * (t * X)) by (apply Z.mul_le_mono_nonneg; lia).
    assert ((t * t) * (X * X) <= n * (X * X)) by (apply Z.mul_le_mono_nonneg_r; lia). lia. }
  assert (G2 : q < (t + 1) * X).
  { destruct (Z.lt_ge_cases q ((t + 1) * X)) as [|G]; [easy|]. exfalso. assert (((t + 1) * X) * ((t + 1) * X) <= q * q) by (apply Z.mul_le_mono_nonneg; lia).
    assert (n * (X * X) < (Z.succ t * Z.succ t) * (X * X)) by (apply Z.mul_lt_mono_pos_r; lia). lia. }
  assert (G3 : q < r -> q + 1 < (t + 1) * X).
  { intros G. destruct (Z.eq_dec (q + 1) ((t + 1) * X)) as [E|]; [|lia]. exfalso.
    assert (n * (X * X) <= (Z.succ t * Z.succ t - 1) * (X * X)) by (apply Z.mul_le_mono_nonneg_r; lia).
    assert (q * (q + 1) < n * (X * X)) by lia. rewrite E in H0. replace q with ((t + 1) * X - 1) in H0 by lia.
    assert ((t + 1) * X <= X * X) by (apply Z.mul_le_mono_nonneg_r; lia). lia. }
  assert (FIN : forall N, 2 ^ 52 <= N <= 2 ^ 53 -> t * X <= N < (t + 1) * X ->
    to_uint hi (let '(mrs'', e'') := shr_fexp 53 1024 N (- K) loc_Exact in
      match shr_m mrs'' with 0 => S754_zero false | Zpos m0 => if e'' <=? 1024 - 53 then S754_finite false m0 e'' else S754_infinity false | Zneg _ => S754_nan end) = Z.min hi t).
  { intros N [N1 N2] HN. destruct (Z.eq_dec N (2 ^ 53)) as [E|NE].
    - rewrite E in HN |- *. unfold shr_fexp. change (Zdigits2 (2 ^ 53)) with 54.
      replace (fexp 53 1024 (54 + - K) - - K) with 1 by (unfold SpecFloat.fexp; change (SpecFloat.emin 53 1024) with (-1074); lia).
      change (shr (shr_record_of_loc (2 ^ 53) loc_Exact) (- K) 1) with (Build_shr_record (2 ^ 52) false false, - K + 1). cbn [shr_m].
      change (2 ^ 52) with (Zpos 4503599627370496). cbv beta iota. replace (- K + 1 <=? 1024 - 53) with true by lia. cbn [to_uint].
      replace (0 <=? - K + 1) with false by lia. f_equal. change (Zpos 4503599627370496) with (2 ^ 52).
      replace (- (- K + 1)) with (K - 1) by lia. symmetry. apply (Z.div_unique_pos _ _ _ (2 ^ 52 - t * 2 ^ (K - 1))); [|lia].
      assert (EX : X = 2 * 2 ^ (K - 1)) by (unfold X; rewrite <- Z.pow_succ_r by lia; f_equal; lia). change (2 ^ 53) with (2 * 2 ^ 52) in HN.
      rewrite EX in HN. clear - HN. set (Y := 2 ^ (K - 1)) in *. clearbody Y. lia.
    - rewrite shr_fexp_0; [| | |change (SpecFloat.emin 53 1024) with (-1074)]; [|lia| |lia].
      2:{ assert (Z.log2 N < 53) by (apply Z.log2_lt_pow2; lia). lia. }
      cbn [shr_m]. destruct N as [|p|p]; [lia| |lia]. replace (- K <=? 1024 - 53) with true by lia. cbn [to_uint].
      replace (0 <=? - K) with false by lia. f_equal. rewrite Z.opp_involutive. fold X. symmetry. apply (Z.div_unique_pos _ _ _ (Zpos p - t * X)); lia. }
  unfold binary_round_aux.
  assert (S0 : forall l, shr_fexp 53 1024 q (- K) l = (shr_record_of_loc q l, - K)).
  { intros l. unfold shr_fexp. replace (fexp 53 1024 (Zdigits2 q + - K) - - K) with 0; [reflexivity|].
    assert (Lq : Z.log2 q = 52) by (apply Z.log2_unique; lia). destruct q as [|p|p]; [lia| |lia]. cbn [Zdigits2]. rewrite digits_log2, Lq.
    unfold SpecFloat.fexp. change (SpecFloat.emin 53 1024) with (-1074). lia. }
  rewrite S0. destruct (Zeq_bool r 0) eqn:Er.
  - cbn [shr_record_of_loc shr_m loc_of_shr_record round_nearest_even]. apply FIN; lia.
  - destruct (Zle_bool r q) eqn:Eq2; cbn [shr_record_of_loc shr_m loc_of_shr_record round_nearest_even]; apply FIN; try lia.
Qed.
