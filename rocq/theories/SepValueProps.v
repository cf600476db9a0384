(** Resizing with an interpolating kernel: shrinking by an odd factor keeps the middle sample of every group, exactly. *)
From Verif Require Import Base F32 F32Round ResizeProof AffineProof SepModel SepProof SepProps.
Local Notation U := (2 ^ 149).

Lemma round_loc25_even q e : 2 ^ 24 <= q < 2 ^ 25 -> q mod 2 = 0 -> -149 <= e -> e < 90 ->
  let x := binary_round_aux 24 128 false q e loc_Exact in ffin x /\ fval x = q * 2 ^ (e + 149).
Proof.
  intros Hq Hm He He'. set (h := q / 2). assert (Eq : q = 2 * h) by (unfold h; pose proof (Z.div_mod q 2 ltac:(lia)); lia).
  assert (E : binary_round_aux 24 128 false q e loc_Exact = binary_round_aux 24 128 false h (e + 1) loc_Exact).
  { unfold binary_round_aux. assert (Hh : 2 ^ 23 <= h < 2 ^ 24) by lia. clearbody h. subst q.
    assert (S1 : shr_fexp 24 128 (2 * h) e loc_Exact = (Build_shr_record h false false, e + 1)).
    { assert (Lq : Z.log2 (2 * h) = 24) by (apply Z.log2_unique; lia). unfold shr_fexp. destruct h as [|p|p]; [lia| |lia]. cbn [Z.mul] in *. cbn [Zdigits2]. rewrite digits_log2, Lq. unfold fexp.
      change (SpecFloat.emin 24 128) with (-149). replace (Z.max (24 + 1 + e - 24) (-149) - e) with 1 by lia. reflexivity. }
    assert (S2 : shr_fexp 24 128 h (e + 1) loc_Exact = (Build_shr_record h false false, e + 1)).
    { assert (Lq : Z.log2 h = 23) by (apply Z.log2_unique; lia). unfold shr_fexp. destruct h as [|p|p]; [lia| |lia]. cbn [Zdigits2]. rewrite digits_log2, Lq. unfold fexp.
      change (SpecFloat.emin 24 128) with (-149). replace (Z.max (23 + 1 + (e + 1) - 24) (-149) - (e + 1)) with 0 by lia. reflexivity. }
    now rewrite S1, S2. }
  cbv zeta. rewrite E. destruct (round_loc h loc_Exact (e + 1)) as [F V]; [lia|lia|lia|]. split; [exact F|]. rewrite V. cbn [rounded_up].
  replace (e + 1 + 149) with (1 + (e + 149)) by lia. rewrite Z.pow_add_r by lia. rewrite Eq. ring.
Qed.
Lemma div_exact k m : 1 <= k -> 1 <= m -> k * m < 2 ^ 24 -> rep (fdiv (of_int (k * m)) (of_int m)) k.
Proof.
  intros Hk Hm Hkm. assert (Hm' : m < 2 ^ 24) by nia. destruct (of_int_form (k * m) ltac:(nia)) as (a & e1 & E1 & Ha & He1 & Ea). destruct (of_int_form m ltac:(lia)) as (b & e2 & E2 & Hb & He2 & Eb).
  rewrite E1, E2. clear E1 E2.
  assert (La : Z.log2 (Zpos a) = 23) by (apply Z.log2_unique; lia). assert (Lb : Z.log2 (Zpos b) = 23) by (apply Z.log2_unique; lia).
  unfold fdiv. cbn [SFdiv]. unfold SFdiv_core_binary. cbn [Zdigits2]. rewrite !digits_log2, La, Lb. unfold fexp. change (SpecFloat.emin 24 128) with (-149).
  replace (Z.min _ _) with (e1 - e2 - 24) by lia. replace (e1 - e2 - (e1 - e2 - 24)) with 24 by lia. cbn [xorb]. cbv iota.
  rewrite (Z.shiftl_mul_pow2 (Zpos a) 24) by lia. set (q0 := k * 2 ^ (24 - e1 + e2)).
  assert (Q : Zpos a * 2 ^ 24 = q0 * Zpos b).
  { rewrite Ea, Eb. unfold q0. replace (k * 2 ^ (24 - e1 + e2) * (m * 2 ^ (- e2))) with (k * m * (2 ^ (24 - e1 + e2) * 2 ^ (- e2))) by ring. rewrite <- Z.pow_add_r by lia.
    rewrite <- Z.mul_assoc, <- Z.pow_add_r by lia. do 2 f_equal. lia. }
  pose proof (Z.div_eucl_eq (Zpos a * 2 ^ 24) (Zpos b) ltac:(lia)) as DE. pose proof (Z_mod_lt (Zpos a * 2 ^ 24) (Zpos b) ltac:(lia)) as DR. unfold Z.modulo in DR.
  destruct (Z.div_eucl (Zpos a * 2 ^ 24) (Zpos b)) as [q r].
  assert (QR : q = q0 /\ r = 0) by (clear - DE DR Q; rewrite Q in DE; assert (q = q0) by nia; subst; split; [reflexivity|lia]). destruct QR as [-> ->].
  assert (NL : new_location (Zpos b) 0 = loc_Exact) by (unfold new_location, new_location_even, new_location_odd; destruct (Z.even (Zpos b)); reflexivity). rewrite NL.
  assert (Hq : 2 ^ 23 <= q0 < 2 ^ 25) by (clear - Q Ha Hb; nia).
  assert (V : q0 * 2 ^ (e1 - e2 - 24 + 149) = k * 2 ^ 149) by (unfold q0; rewrite <- Z.mul_assoc, <- Z.pow_add_r by lia; do 2 f_equal; lia).
  unfold rep. rewrite <- V. destruct (Z.lt_ge_cases q0 (2 ^ 24)) as [L|L].
  - destruct (round_loc q0 loc_Exact (e1 - e2 - 24)) as [F W]; [lia|lia|lia|]. split; [exact F|exact W].
  - apply round_loc25_even; [lia| |lia|lia]. unfold q0. replace (24 - e1 + e2) with (23 - e1 + e2 + 1) by lia. rewrite Z.pow_add_r by lia. change (2 ^ 1) with 2. rewrite Z.mul_assoc. apply Z.mod_mul. lia.
Qed.
(** The position of output sample [o] when [2 j + 1] samples become one *)
Lemma position_odd j m o : 0 <= j -> 1 <= m -> (2 * j + 1) * m < 2 ^ 22 -> Z.of_nat o < m ->
  rep (position (fdiv (of_int ((2 * j + 1) * m)) (of_int m)) o) (Z.of_nat o * (2 * j + 1) + j).
Proof.
  intros Hj Hm Hb Ho. set (k := 2 * j + 1) in *. destruct (div_exact k m ltac:(lia) Hm ltac:(lia)) as [Fx Vx]. set (x := fdiv _ _) in *. unfold position.
  assert (B : (2 * Z.of_nat o + 1) * k < 2 ^ 23) by (clear - Hb Ho Hj Hm; assert (0 < k) by lia; nia). assert (B0 : 2 * Z.of_nat o + 1 < 2 ^ 23) by (clear - B Hj; assert (1 <= k) by lia; nia).
  assert (Fh : ffin f32_half) by reflexivity. assert (Vh : fval f32_half = 2 ^ 148) by reflexivity.
  assert (FT : forall v, Z.abs v <= 2 ^ 24 * U -> fits 24 128 v).
  { intros v Hv. unfold fits. change (128 - SpecFloat.emin 24 128) with 277. eapply Z.le_lt_trans; [exact Hv|]. reflexivity. }
  destruct (of_int_rep (Z.of_nat o) ltac:(lia)) as [Fo Vo].
  destruct (add_ok 24 128 ltac:(lia) ltac:(lia) (of_int (Z.of_nat o)) f32_half Fo Fh) as [Fy Vy].
  { rewrite Vo, Vh. replace (Z.of_nat o * U + 2 ^ 148) with ((2 * Z.of_nat o + 1) * 2 ^ 148) by lia. rewrite rnds_id by lia. apply FT. lia. }
  rewrite Vo, Vh in Vy. replace (Z.of_nat o * U + 2 ^ 148) with ((2 * Z.of_nat o + 1) * 2 ^ 148) in Vy by lia. rewrite rnds_id in Vy by lia.
  fold (fadd (of_int (Z.of_nat o)) f32_half) in Fy, Vy. set (y := fadd (of_int (Z.of_nat o)) f32_half) in *.
  assert (E1 : frnd 149 (fval y * fval x) = (2 * Z.of_nat o + 1) * k * 2 ^ 148).
  { rewrite Vy, Vx. replace ((2 * Z.of_nat o + 1) * 2 ^ 148 * (k * 2 ^ 149)) with ((2 * Z.of_nat o + 1) * k * 2 ^ 148 * 2 ^ 149) by ring. change 149 with (0 + 149) at 1. rewrite rnds_scale by lia.
    apply rnds_id; [lia| |lia]. rewrite Z.abs_eq; [clear - B; lia|]. apply Z.mul_nonneg_nonneg; lia. }
  assert (N : 0 <= (2 * Z.of_nat o + 1) * k) by (apply Z.mul_nonneg_nonneg; lia).
  destruct (mul_ok 24 128 ltac:(lia) ltac:(lia) y x Fy Fx) as [Fp Vp]; [change (- SpecFloat.emin 24 128) with 149; rewrite E1; apply FT; clear - B N; lia|].
  change (- SpecFloat.emin 24 128) with 149 in Vp. fold (fmul y x) in Fp, Vp. rewrite E1 in Vp. set (p := fmul y x) in *.
  assert (E2 : frnd 0 (fval p - fval f32_half) = ((2 * Z.of_nat o + 1) * k - 1) * 2 ^ 148).
  { rewrite Vp, Vh. replace ((2 * Z.of_nat o + 1) * k * 2 ^ 148 - 2 ^ 148) with (((2 * Z.of_nat o + 1) * k - 1) * 2 ^ 148) by ring. apply rnds_id; [lia|clear - B N; lia|lia]. }
  destruct (sub_ok 24 128 ltac:(lia) ltac:(lia) p f32_half Fp Fh) as [Fs Vs]; [rewrite E2; apply FT; clear - B N; lia|].
  split; [exact Fs|]. unfold fsub. rewrite Vs, E2. unfold k. ring.
Qed.

(** A kernel function that is 1 at 0 and 0 at the other whole numbers within its radius *)
Definition interpolates (kf : f32 -> f32) : Prop :=
  (forall x, rep x 0 -> rep (kf x) 1) /\ forall x d, rep x d -> d <> 0 -> Z.abs d <= 3 -> rep (kf x) 0.

Definition spike (c s : Z) (i : nat) : Z := if s + Z.of_nat i =? c then 1 else 0.
Lemma sum_reps l zs acc za : Forall2 rep l zs -> rep acc za -> 0 <= za -> Forall (fun z => 0 <= z) zs -> za + fold_right Z.add 0 zs < 2 ^ 24 -> rep (fold_left fadd l acc) (za + fold_right Z.add 0 zs).
Proof.
  intros H. revert acc za. induction H as [|x z l zs Hx H IH]; intros acc za Ra Ha Hz B; cbn [fold_left fold_right]; [now rewrite Z.add_0_r|].
  inversion Hz as [|? ? Hz1 Hz2]; subst. cbn [fold_right] in B. assert (0 <= fold_right Z.add 0 zs) by (clear - Hz2; induction Hz2; cbn; lia).
  replace (za + (z + fold_right Z.add 0 zs)) with (za + z + fold_right Z.add 0 zs) by ring. apply IH; [apply fadd_rep; [easy|easy|lia]|lia|easy|lia].
Qed.
Lemma spike_sum c s n : fold_right Z.add 0 (map (spike c s) (seq 0 n)) = if (s <=? c) && (c <? s + Z.of_nat n) then 1 else 0.
Proof.
  induction n as [|n IH]; [cbn; destruct (Z.leb_spec s c), (Z.ltb_spec c (s + 0)); cbn; lia|].
  rewrite seq_S, map_app. cbn [map Nat.add]. 
  assert (A : forall l z, fold_right Z.add 0 (l ++ [z]) = fold_right Z.add 0 l + z) by (intros l z; induction l as [|u l IHl]; cbn [app fold_right]; [lia|rewrite IHl; lia]).
  rewrite A, IH. unfold spike. destruct (Z.leb_spec s c), (Z.ltb_spec c (s + Z.of_nat n)), (Z.ltb_spec c (s + Z.of_nat (S n))), (Z.eqb_spec (s + Z.of_nat n) c); cbn [andb]; lia.
Qed.
Lemma Forall2_map2 {A B C} (R : B -> C -> Prop) (f : A -> B) (g : A -> C) l : (forall x, In x l -> R (f x) (g x)) -> Forall2 R (map f l) (map g l).
Proof. induction l as [|x l IH]; intros H; cbn; [constructor|constructor; [apply H; now left|]]. apply IH. intros y Hy. apply H. now right. Qed.
Lemma pad_rep k : Forall2 rep (repeat (of_int 0) k) (repeat 0 k).
Proof. induction k as [|k IH]; [apply Forall2_nil|]. cbn [repeat]. apply Forall2_cons; [apply of_int_rep; lia|exact IH]. Qed.
(** The kernel of a position that is a whole number: one weight is 1, the others are 0 *)
Lemma precompute_spike kf a n ratio o c : interpolates kf -> 2 <= a <= 3 -> 1 <= n < 2 ^ 22 -> 0 <= c < n -> rep (position ratio o) c ->
  exists ws, precompute kf a n ratio o = Ok (Kern ws (fst (window a n c)) (snd (window a n c))) /\
    exists pad, Forall2 rep ws (map (spike c (fst (window a n c))) (seq 0 (Z.to_nat (snd (window a n c) - fst (window a n c) + 1))) ++ repeat 0 pad).
Proof.
  intros [K0 K1] Ha Hn Hc Rp. unfold precompute. set (src := position ratio o) in *.
  assert (Fl : floor_i32 src = c) by (destruct Rp as [F V]; rewrite floor_ok, V, Z.div_mul by (easy || lia); lia). rewrite Fl.
  pose proof (window_size a n c) as W. destruct (window a n c) as [s e] eqn:Ew. cbn [fst snd]. destruct W as (W1 & W2 & W3). unfold window in Ew. injection Ew as Es Ee.
  assert (B : c - 3 < s <= c /\ c <= e <= c + 3) by lia. set (cnt := Z.to_nat (e - s + 1)). cbv zeta.
  set (raw := map _ (seq 0 cnt)). assert (Lr : length raw = cnt) by (unfold raw; rewrite map_length; apply seq_length).
  assert (R : Forall2 rep raw (map (spike c s) (seq 0 cnt))).
  { apply Forall2_map2. intros i Hi. apply in_seq in Hi. assert (Rd : rep (fsub (of_int (s + Z.of_nat i)) src) (s + Z.of_nat i - c)) by (apply fsub_rep; [apply of_int_rep; lia|easy|lia]).
    unfold spike. destruct (Z.eqb_spec (s + Z.of_nat i) c) as [E|E]; [apply K0; replace 0 with (s + Z.of_nat i - c) by lia; exact Rd|]. apply (K1 _ _ Rd); lia. }
  rewrite Lr. destruct (Nat.ltb_spec 6 cnt) as [X|_]; [lia|].
  assert (S : rep (fold_left fadd raw (of_int 0)) 1).
  { assert (SS : fold_right Z.add 0 (map (spike c s) (seq 0 cnt)) = 1) by (rewrite spike_sum; destruct (Z.leb_spec s c), (Z.ltb_spec c (s + Z.of_nat cnt)); cbn [andb]; lia).
    replace 1 with (0 + fold_right Z.add 0 (map (spike c s) (seq 0 cnt))) by lia. apply sum_reps; [exact R|apply of_int_rep; lia|lia| |lia].
    apply Forall_forall. intros z Hz. apply in_map_iff in Hz as (i & <- & _). unfold spike. destruct (_ =? _); lia. }
  rewrite (unit_form _ 1 (or_introl eq_refl) S). change (SFltb (of_int 0) (of_int 1)) with true. cbv iota. change (fdiv (of_int 1) (of_int 1)) with (of_int 1).
  eexists. split; [reflexivity|]. rewrite map_length, Lr. exists (6 - cnt)%nat. apply Forall2_app.
  - assert (M : Forall (fun z => z = 0 \/ z = 1) (map (spike c s) (seq 0 cnt))).
    { apply Forall_forall. intros z Hz. apply in_map_iff in Hz as (i & <- & _). unfold spike. destruct (_ =? _); lia. }
    clear - R M. induction R as [|x z l zs Hx H IH]; [constructor|]. inversion M as [|? ? M1 M2]; subst. cbn [map]. constructor; [|now apply IH].
    pose proof (fmul_rep x (of_int 1) z 1 Hx (of_int_rep 1 ltac:(lia)) ltac:(lia)) as P. now rewrite Z.mul_1_r in P.
  - apply pad_rep.
Qed.
(** A spike picks one sample *)
Lemma dot_spike hi c pad vals : forall ws s acc za, 0 <= hi < 2 ^ 24 -> Forall (fun v => 0 <= v <= hi) vals -> Forall2 rep ws (map (fun i => spike c s i) (seq 0 (length vals)) ++ repeat 0 pad) ->
  rep acc za -> (s <= c -> za = 0) -> 0 <= za <= hi ->
  rep (fold_left (fun acc pw => fadd acc (fmul (fst pw) (snd pw))) (combine (map of_int vals) ws) acc)
      (if (s <=? c) && (c <? s + Z.of_nat (length vals)) then nth (Z.to_nat (c - s)) vals 0 else za).
Proof.
  induction vals as [|v vals IH]; intros ws s acc za Hh Hv R Ra Z0 Hz.
  - cbn [map combine fold_left length]. destruct (Z.leb_spec s c), (Z.ltb_spec c (s + Z.of_nat 0)); cbn [andb]; try easy; lia.
  - cbn [length seq map app] in R. inversion R as [|w z ws' zs Hw R' E1 E2]; subst. inversion Hv as [|? ? Hv1 Hv2]; subst.
    cbn [map combine fold_left fst snd length].
    assert (R2 : Forall2 rep ws' (map (fun i => spike c (s + 1) i) (seq 0 (length vals)) ++ repeat 0 pad)).
    { rewrite <- seq_shift, map_map in R'. erewrite map_ext; [exact R'|]. intros i. unfold spike. now replace (s + 1 + Z.of_nat i) with (s + Z.of_nat (S i)) by lia. }
    assert (Q : 0 <= spike c s 0 <= 1) by (unfold spike; destruct (_ =? _); lia). assert (Qv : 0 <= v * spike c s 0 <= v) by (clear - Q Hv1; nia).
    assert (Qa : za + v * spike c s 0 <= hi /\ (s + 1 <= c -> za + v * spike c s 0 = 0) /\ (s = c -> za + v * spike c s 0 = v) /\ (s <> c -> za + v * spike c s 0 = za)).
    { clear - Z0 Hz Hv1. unfold spike. destruct (Z.eqb_spec (s + Z.of_nat 0) c); repeat split; try lia. }
    destruct Qa as (Qa & Qb & Qc & Qd).
    assert (Rv : rep (fmul (of_int v) w) (v * spike c s 0)) by (apply fmul_rep; [apply of_int_rep; lia|easy|lia]).
    pose proof (fadd_rep _ _ _ _ Ra Rv ltac:(lia)) as RA.
    specialize (IH ws' (s + 1) _ _ Hh Hv2 R2 RA Qb ltac:(lia)).
    replace (if (s <=? c) && (c <? s + Z.of_nat (S (length vals))) then nth (Z.to_nat (c - s)) (v :: vals) 0 else za)
      with (if (s + 1 <=? c) && (c <? s + 1 + Z.of_nat (length vals)) then nth (Z.to_nat (c - (s + 1))) vals 0 else za + v * spike c s 0); [exact IH|].
    clear - Qc Qd. destruct (Z.leb_spec (s + 1) c), (Z.leb_spec s c), (Z.ltb_spec c (s + 1 + Z.of_nat (length vals))), (Z.ltb_spec c (s + Z.of_nat (S (length vals)))); cbn [andb]; try lia.
    + replace (Z.to_nat (c - s)) with (S (Z.to_nat (c - (s + 1)))) by lia. reflexivity.
    + replace (Z.to_nat (c - s)) with 0%nat by lia. cbn [nth]. apply Qc. lia.
Qed.
Lemma collect_map {A B} (f : A -> res B) (P : A -> B -> Prop) l : (forall x, In x l -> exists v, f x = Ok v /\ P x v) -> exists r, collect (map f l) = Ok r /\ Forall2 P l r.
Proof.
  induction l as [|x l IH]; intros H; [now exists []|]. destruct (H x (or_introl eq_refl)) as (v & E & Hv). destruct IH as (r & Er & Hr); [intros; apply H; now right|].
  exists (v :: r). cbn [map collect]. rewrite E. cbn [bind]. rewrite Er. split; [reflexivity|now constructor].
Qed.

(** Shrinking a row by an odd factor with an interpolating kernel keeps the middle sample of every group: nothing is averaged. *)
Theorem sep_middle hi kf a j m row : interpolates kf -> 2 <= a <= 3 -> 0 <= hi < 2 ^ 24 -> (1 <= j)%nat -> (1 <= m)%nat ->
  length row = ((2 * j + 1) * m)%nat -> Z.of_nat (length row) <= 2 ^ 20 -> (forall v, In v row -> 0 <= v <= hi) ->
  resize_row hi kf a (length row) m row = Ok (map (fun o => nth (o * (2 * j + 1) + j) row 0) (seq 0 m)).
Proof.
  intros HK Ha Hh Hj Hm Hl Hb Hr. unfold resize_row. destruct (Nat.eqb_spec (length row) m) as [E|_]; [nia|].
  unfold resample, kernels. set (ratio := fdiv _ _).
  assert (P : forall o, (o < m)%nat -> rep (position ratio o) (Z.of_nat (o * (2 * j + 1) + j)) /\ (o * (2 * j + 1) + j < length row)%nat).
  { intros o Ho. split; [|rewrite Hl; nia]. unfold ratio. replace (Z.of_nat (length row)) with ((2 * Z.of_nat j + 1) * Z.of_nat m) in * by (rewrite Hl; lia).
    replace (Z.of_nat (o * (2 * j + 1) + j)) with (Z.of_nat o * (2 * Z.of_nat j + 1) + Z.of_nat j) by lia. apply position_odd; lia. }
  clearbody ratio. set (n := Z.of_nat (length row)) in *.
  destruct (collect_map (precompute kf a n ratio) (fun o k => weigh (map of_int row) k = Ok (nth 0 (match weigh (map of_int row) k with Ok x => [x] | _ => [] end) (of_int 0)) /\
     to_uint hi (nth 0 (match weigh (map of_int row) k with Ok x => [x] | _ => [] end) (of_int 0)) = nth (o * (2 * j + 1) + j) row 0) (seq 0 m)) as (ks & Ek & Hk).
  { intros o Ho. apply in_seq in Ho. destruct (P o ltac:(lia)) as [Rp Hc]. set (c := (o * (2 * j + 1) + j)%nat) in *.
    destruct (precompute_spike kf a n ratio o (Z.of_nat c) HK Ha ltac:(lia) ltac:(lia) Rp) as (ws & E & pad & R). eexists. split; [exact E|].
    pose proof (window_size a n (Z.of_nat c)) as W. destruct (window a n (Z.of_nat c)) as [s e] eqn:Ew. cbn [fst snd] in *. destruct W as (W1 & W2 & W3). unfold window in Ew. injection Ew as Es Ee.
    assert (B : s <= Z.of_nat c <= e) by lia. clear Es Ee E. set (cnt := Z.to_nat (e - s + 1)) in *.
    set (vals := firstn cnt (skipn (Z.to_nat s) row)).
    assert (Lv : length vals = cnt) by (unfold vals; rewrite firstn_length, skipn_length; lia).
    assert (WE : exists x, weigh (map of_int row) (Kern ws s e) = Ok x /\ rep x (nth c row 0)).
    { unfold weigh. cbn [kend kstart kw]. destruct (Z.ltb_spec e s); [lia|]. destruct (Z.ltb_spec s 0); [lia|]. cbn [orb]. fold cnt.
      rewrite skipn_map, firstn_map. fold vals. rewrite map_length, Lv, Nat.eqb_refl. eexists. split; [reflexivity|].
      assert (Hv : Forall (fun v => 0 <= v <= hi) vals).
      { apply Forall_forall. intros v Hv. apply Hr. unfold vals in Hv. rewrite <- (firstn_skipn (Z.to_nat s) row). apply in_or_app. right. rewrite <- (firstn_skipn cnt (skipn (Z.to_nat s) row)). apply in_or_app. now left. }
      rewrite <- Lv in R. pose proof (dot_spike hi (Z.of_nat c) pad vals ws s (of_int 0) 0 Hh Hv R (of_int_rep 0 ltac:(lia)) ltac:(lia) ltac:(lia)) as D.
      destruct (Z.leb_spec s (Z.of_nat c)); [|lia]. destruct (Z.ltb_spec (Z.of_nat c) (s + Z.of_nat (length vals))); [|lia]. cbn [andb] in D.
      replace (nth c row 0) with (nth (Z.to_nat (Z.of_nat c - s)) vals 0); [exact D|].
      unfold vals. rewrite <- (firstn_skipn (Z.to_nat s) row) at 2. rewrite app_nth2 by (rewrite firstn_length; lia). rewrite firstn_length, Nat.min_l by lia.
      replace (Z.to_nat (Z.of_nat c - s)) with (c - Z.to_nat s)%nat by lia.
      rewrite <- (firstn_skipn cnt (skipn (Z.to_nat s) row)) at 2. rewrite app_nth1; [reflexivity|]. rewrite firstn_length, skipn_length. lia. }
    destruct WE as (x & Ex & Rx). rewrite Ex. cbn [nth]. split; [reflexivity|]. rewrite (to_uint_rep hi x _ ltac:(lia) Rx).
    assert (0 <= nth c row 0 <= hi) by (apply Hr, nth_In; lia). lia. }
  rewrite Ek. cbn [bind]. clear Ek P HK Hl Hb.
  assert (F : exists l, collect (map (weigh (map of_int row)) ks) = Ok l /\ Forall2 (fun o x => to_uint hi x = nth (o * (2 * j + 1) + j) row 0) (seq 0 m) l).
  { induction Hk as [|o k os ks [H1 H2] Hk IH]; [exists []; easy|]. destruct IH as (l & El & Fl). cbn [map collect]. rewrite H1. cbn [bind]. rewrite El. cbn [bind]. eexists. split; [reflexivity|]. now constructor. }
  destruct F as (l & -> & Fl). cbn [bind]. f_equal. clear - Fl. induction Fl; cbn [map]; [easy|]. now f_equal.
Qed.

(** Two of the methods have such a kernel. *)
Lemma abs_rep x d : rep x d -> rep (SFabs x) (Z.abs d).
Proof.
  intros [F V]. unfold rep in *. destruct x as [s|s| |s mm e]; try easy; cbn [SFabs].
  - split; [easy|]. cbn [sval] in *. lia.
  - split; [exact F|]. cbn [sval] in *. destruct s; cbn [cond_Zopp] in *; lia.
Qed.
Lemma zero_form x : rep x 0 -> exists s, x = S754_zero s.
Proof.
  intros [F V]. destruct x as [s|s| |s mm e]; try easy; [now exists s|]. exfalso. cbn [sval] in V. destruct (bounded_inv 24 128 ltac:(lia) _ _ F) as (He & _ & _).
  assert (0 < 2 ^ (e - SpecFloat.emin 24 128)) by (apply Z.pow_pos_nonneg; lia). destruct s; cbn [cond_Zopp] in V; nia.
Qed.
Lemma zero_div x : rep x 0 -> rep (fdiv x (of_int 6)) 0.
Proof. intros H. destruct (zero_form x H) as [s ->]. destruct s; now vm_compute. Qed.
Theorem sep_interpolating : interpolates hermite /\ interpolates catmull_rom.
Proof.
  assert (G : forall b c, (forall s, rep (bicubic b c (S754_zero s)) 1) ->
    (forall x, rep x 1 -> rep (fadd (fadd (fadd (fmul (fsub (SFopp b) (fmul (of_int 6) c)) (fmul (fmul x x) x)) (fmul (fadd (fmul (of_int 6) b) (fmul (of_int 30) c)) (fmul x x)))
                     (fmul (fsub (fmul (of_int (-12)) b) (fmul (of_int 48) c)) x))
               (fadd (fmul (of_int 8) b) (fmul (of_int 24) c))) 0) -> interpolates (bicubic b c)).
  { intros b c H0 H1. split.
    - intros x Hx. destruct (zero_form x Hx) as [s ->]. apply H0.
    - intros x d Hx Hd Hd3. pose proof (abs_rep _ _ Hx) as A. unfold bicubic. cbv zeta.
      rewrite (ltb_rep _ _ _ 1 A (of_int_rep 1 ltac:(lia))), (ltb_rep _ _ _ 2 A (of_int_rep 2 ltac:(lia))).
      destruct (Z.ltb_spec (Z.abs d) 1); [lia|]. destruct (Z.ltb_spec (Z.abs d) 2); [|apply of_int_rep; lia].
      replace (Z.abs d) with 1 in A by lia. apply zero_div, H1, A. }
  assert (T : forall x, rep x 1 -> x = of_int 1) by (intros x Hx; exact (unit_form x 1 (or_introl eq_refl) Hx)).
  split; apply G.
  - intros [|]; split; vm_compute; reflexivity.
  - intros x Hx. rewrite (T x Hx). split; vm_compute; reflexivity.
  - intros [|]; split; vm_compute; reflexivity.
  - intros x Hx. rewrite (T x Hx). split; vm_compute; reflexivity.
Qed.
Example sep_middle_example :
  resize_row 255 catmull_rom 2 9 3 [9; 200; 7; 0; 13; 255; 90; 91; 92] = Ok [200; 13; 91] /\ resize_row 255 mitchell 2 9 3 [9; 200; 7; 0; 13; 255; 90; 91; 92] <> Ok [200; 13; 91].
Proof. split; [vm_compute; reflexivity|vm_compute; discriminate]. Qed.
