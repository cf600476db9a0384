(** Theorems about HDR files of floats. *)
From Verif Require Import Base BaseProof Loops Slices HdrModel HdrSpec HdrProof HdrProps F32 F32Round HdrFloatModel.

(** ** Division by a power of two *)
Lemma rnd_once m j : 0 <= m < 2 ^ 24 -> 0 <= j -> rnd 24 1 (m * 2 ^ j * 2 ^ 1) = m * 2 ^ j.
Proof.
  intros Hm Hj. assert (P0 : 0 <= m * 2 ^ j) by (apply Z.mul_nonneg_nonneg; [easy|apply Z.pow_nonneg; lia]).
  etransitivity; [apply (rnd_scale 24 0 (m * 2 ^ j) 1); [easy|easy|exact P0]|]. now apply rnd_id.
Qed.
Lemma fdiv_pow2 s m e k : 2 ^ 23 <= Zpos m < 2 ^ 24 -> -149 <= e - k -> e - k <= 104 ->
  let x := fdiv (S754_finite s m e) (S754_finite false 8388608 (k - 23)) in ffin x /\ fval x = cond_Zopp s (Zpos m * 2 ^ (e - k + 149)).
Proof.
  intros Hm H1 H2. cbv zeta. unfold fdiv. cbn [SFdiv]. unfold SFdiv_core_binary. cbn [Zdigits2]. rewrite !digits_log2.
  assert (Lm : Z.log2 (Zpos m) = 23) by (apply Z.log2_unique; lia). rewrite Lm. change (Z.log2 8388608) with 23.
  unfold fexp. change (SpecFloat.emin 24 128) with (-149). set (e' := Z.min _ _).
  assert (Es : exists j, e - (k - 23) - e' = j /\ 23 <= j <= 24 /\ e' = e - k + 23 - j).
  { exists (e - (k - 23) - e'). unfold e'. lia. }
  destruct Es as (j & -> & Hj & Ee). clearbody e'. assert (J : j = 23 \/ j = 24) by lia.
  assert (Em : match j with Z0 => Zpos m | Zpos _ => Z.shiftl (Zpos m) j | Zneg _ => 0 end = Zpos m * 2 ^ j) by (rewrite <- Z.shiftl_mul_pow2 by lia; destruct j; try lia; reflexivity).
  rewrite Em. clear Em.
  assert (Ed : Z.div_eucl (Zpos m * 2 ^ j) 8388608 = (Zpos m * 2 ^ (j - 23), 0)).
  { assert (EE : Zpos m * 2 ^ j = Zpos m * 2 ^ (j - 23) * 8388608) by (change 8388608 with (2 ^ 23); rewrite <- Z.mul_assoc, <- Z.pow_add_r by lia; f_equal; f_equal; lia).
    pose proof (Z.div_mul (Zpos m * 2 ^ (j - 23)) 8388608 ltac:(lia)) as D. pose proof (Z.mod_mul (Zpos m * 2 ^ (j - 23)) 8388608 ltac:(lia)) as R.
    rewrite <- EE in D, R. unfold Z.div, Z.modulo in D, R. destruct (Z.div_eucl _ _) as [q r]. now subst. }
  rewrite Ed. change (new_location 8388608 0) with loc_Exact. rewrite Bool.xorb_false_r.
  assert (Hp : 0 < 2 ^ (j - 23)) by (apply Z.pow_pos_nonneg; lia).
  assert (LM : Z.log2 (Zpos m * 2 ^ (j - 23)) = j) by (rewrite Z.log2_mul_pow2 by lia; lia).
  assert (EV : Zpos m * 2 ^ (j - 23) * 2 ^ (e' - (-149 - 1)) = Zpos m * 2 ^ (e - k + 149) * 2 ^ 1).
  { rewrite <- !Z.mul_assoc, <- !Z.pow_add_r by lia. f_equal. f_equal. lia. }
  pose proof (rnd_once (Zpos m) (e - k + 149) ltac:(clear - Hm; lia) ltac:(clear - H1; lia)) as ER.
  pose proof (round_aux_ok 24 128 eq_refl eq_refl s (Zpos m * 2 ^ (j - 23)) e' 1 ltac:(apply Z.mul_pos_pos; [easy|exact Hp]) (Z.le_0_1)) as R.
  change (SpecFloat.emin 24 128) with (-149) in R. rewrite EV, LM in R.
  rewrite ER in R. destruct R as [RF RV]; [clear - Ee Hj H1; lia|unfold fexp; change (SpecFloat.emin 24 128) with (-149); clear - Ee Hj H1; lia| |exact (conj RF RV)].
  change (128 - -149) with (24 + 253). clear - Hm H1 H2. rewrite (Z.pow_add_r 2 24 253) by lia.
  eapply Z.lt_le_trans; [apply Z.mul_lt_mono_pos_r; [apply Z.pow_pos_nonneg; lia|apply Hm]|]. apply Z.mul_le_mono_nonneg_l; [lia|]. apply Z.pow_le_mono_r; lia.
Qed.

(** The first division, for all 256 mantissas *)
Definition scaled_ok (v : Z) : bool :=
  match fdiv (of_int v) (of_int 256) with
  | S754_zero false => v =? 0
  | S754_finite false m e => (2 ^ 23 <=? Zpos m) && (Zpos m <? 2 ^ 24) && (-31 <=? e) && (e <=? -24) && (Zpos m * 2 ^ (e + 31) =? v * 2 ^ 23)
  | _ => false
  end.
Lemma scaled v : 0 <= v < 256 -> scaled_ok v = true.
Proof.
  intros H. assert (A : forallb scaled_ok (map Z.of_nat (seq 0 256)) = true) by (vm_compute; reflexivity). rewrite forallb_forall in A. apply A.
  apply in_map_iff. exists (Z.to_nat v). split; [lia|]. apply in_seq. lia.
Qed.

Lemma pow2_u32_ok k : 0 <= k < 32 -> pow2_u32 (Z.land k 31) = S754_finite false 8388608 (k - 23).
Proof.
  intros H. assert (A : forallb (fun k => match pow2_u32 (Z.land k 31) with S754_finite false 8388608 f => f =? k - 23 | _ => false end) (map Z.of_nat (seq 0 32)) = true) by (vm_compute; reflexivity).
  rewrite forallb_forall in A. specialize (A k ltac:(apply in_map_iff; exists (Z.to_nat k); split; [lia|apply in_seq; lia])). cbv beta in A.
  destruct (pow2_u32 (Z.land k 31)) as [s|s| |[|] m e]; try discriminate A.
  destruct (Pos.eq_dec m 8388608) as [->|N].
  - f_equal. lia.
  - exfalso. repeat (destruct m; try discriminate A). now apply N.
Qed.

(** The real number [m * 2 ^ (e - 136)] as a float, exactly ([fval] counts in units of [2 ^ -149]). *)
Definition exactly (x : f32) (m e : Z) : Prop := ffin x /\ fval x = m * 2 ^ (e - 136 + 149).

Lemma convert_neg_ok m e : 0 <= m < 256 -> 97 <= e <= 128 -> exactly (convert_neg m (e - 128)) m e.
Proof.
  intros Hm He. unfold convert_neg, exactly. replace (Z.abs (e - 128)) with (128 - e) by lia. rewrite pow2_u32_ok by lia.
  pose proof (scaled m Hm) as S. unfold scaled_ok in S. destruct (fdiv (of_int m) (of_int 256)) as [[|]|s| |[|] p f]; try discriminate S.
  - cbn [fdiv]. split; [exact I|]. cbn. lia.
  - assert (E : Zpos p * 2 ^ (f + 31) = m * 2 ^ 23) by lia. assert (Sf : -31 <= f <= -24) by lia. assert (Sp : 2 ^ 23 <= Zpos p < 2 ^ 24) by lia. clear S.
    destruct (fdiv_pow2 false p f (128 - e)) as [F V]; [exact Sp|lia|lia|]. split; [exact F|]. rewrite V. cbn [cond_Zopp]. replace (f - (128 - e) + 149) with (f + 31 + (e - 10)) by lia. replace (e - 136 + 149) with (23 + (e - 10)) by lia.
    clear - He E Sf. rewrite (Z.pow_add_r 2 (f + 31)), (Z.pow_add_r 2 23), !Z.mul_assoc, E by lia. reflexivity.
Qed.
Lemma pow_lt p a b j : 0 <= p < 2 ^ a -> 0 <= j <= b -> 0 <= a -> p * 2 ^ j < 2 ^ (a + b).
Proof.
  intros Hp Hj Ha. rewrite Z.pow_add_r by lia. pose proof (Z.pow_pos_nonneg 2 j ltac:(lia) ltac:(lia)). pose proof (Z.pow_le_mono_r 2 j b ltac:(lia) ltac:(lia)). nia.
Qed.
Lemma frnd_mul z j : Z.abs z < 2 ^ 24 -> 0 <= j -> rnds 24 149 (z * 2 ^ j * 2 ^ 149) = z * 2 ^ j.
Proof.
  intros Hz Hj. transitivity (rnds 24 0 (z * 2 ^ j)).
  - exact (rnds_scale 24 0 (z * 2 ^ j) 149 (Z.le_refl 0) ltac:(easy)).
  - now apply rnds_id.
Qed.
Lemma convert_pos_ok m e : 0 <= m < 256 -> 128 < e <= 159 -> exactly (convert_pos m (e - 128)) m e.
Proof.
  intros Hm He. unfold convert_pos, exactly. rewrite Z.abs_eq by lia. rewrite pow2_u32_ok by lia.
  pose proof (scaled m Hm) as S. unfold scaled_ok in S. destruct (fdiv (of_int m) (of_int 256)) as [[|]|s| |[|] p f] eqn:ED; try discriminate S.
  - cbn [fmul]. split; [exact I|]. cbn. lia.
  - assert (Fx : ffin (S754_finite false p f)) by (cbn [finite]; unfold bounded, canonical_mantissa; rewrite digits_log2; apply andb_true_intro; split; [|lia]; apply Zeq_is_eq_bool;
      assert (Lp : Z.log2 (Zpos p) = 23) by (apply Z.log2_unique; lia); rewrite Lp; unfold fexp; change (SpecFloat.emin 24 128) with (-149); lia).
    assert (Fy : ffin (S754_finite false 8388608 (e - 128 - 23))) by (cbn [finite]; unfold bounded, canonical_mantissa; rewrite digits_log2; apply andb_true_intro; split; [|lia]; apply Zeq_is_eq_bool;
      change (Z.log2 8388608) with 23; unfold fexp; change (SpecFloat.emin 24 128) with (-149); lia).
    pose proof (mul_ok 24 128 ltac:(lia) ltac:(lia) _ _ Fx Fy) as M.
    assert (E : Zpos p * 2 ^ (f + 31) = m * 2 ^ 23) by lia. assert (Sf : -31 <= f <= -24) by lia. assert (Sp : 2 ^ 23 <= Zpos p < 2 ^ 24) by lia. clear S.
    assert (EV : fval (S754_finite false p f) * fval (S754_finite false 8388608 (e - 128 - 23)) = Zpos p * 2 ^ (f + e + 21) * 2 ^ 149).
    { cbn [sval cond_Zopp]. change (SpecFloat.emin 24 128) with (-149). change 8388608 with (2 ^ 23).
      replace (2 ^ 23 * 2 ^ (e - 128 - 23 - -149)) with (2 ^ (e + 21)) by (rewrite <- Z.pow_add_r by lia; f_equal; lia).
      rewrite <- !Z.mul_assoc, <- !Z.pow_add_r by lia. f_equal. f_equal. lia. }
    rewrite EV in M. change (- SpecFloat.emin 24 128) with 149 in M.
    pose proof (frnd_mul (Zpos p) (f + e + 21) ltac:(clear - Sp; lia) ltac:(clear - He Sf; lia)) as FM. rewrite FM in M. clear FM.
    destruct M as [F V].
    { clear - He Sf Sp. unfold fits.
      assert (Hj : 0 <= f + e + 21 <= 253) by lia. assert (Hp : 0 <= Zpos p < 2 ^ 24) by lia.
      pose proof (pow_lt (Zpos p) 24 253 (f + e + 21) Hp Hj (Zle_0_pos 24)) as PL.
      assert (P0 : 0 <= Zpos p * 2 ^ (f + e + 21)) by (apply Z.mul_nonneg_nonneg; [apply Pos2Z.is_nonneg|apply Z.pow_nonneg, Z.leb_le; reflexivity]).
      change (128 - SpecFloat.emin 24 128) with (24 + 253). rewrite (Z.abs_eq _ P0). exact PL. }
    split; [exact F|]. unfold fmul. rewrite V. clear - He E Sf. replace (f + e + 21) with (f + 31 + (e - 10)) by lia. replace (e - 136 + 149) with (23 + (e - 10)) by lia.
    rewrite (Z.pow_add_r 2 (f + 31)), (Z.pow_add_r 2 23), !Z.mul_assoc, E by lia. reflexivity.
Qed.

(** Every pixel of a decoded file is exactly its RGBE value, for exponents from 97 to 159 (and black). *)
Theorem hdr_samples_partial mw mh input w h out : hdr_decode_floats mw mh input = Ok (w, h, out) ->
  exists px, hdr_decode mw mh input = Ok (w, h, px) /\ length out = (3 * (w * h))%nat /\
  forall k c, (k < w * h)%nat -> (c < 3)%nat -> 0 <= nth (4 * k + c) px 0 < 256 ->
    let e := nth (4 * k + 3) px 0 in
    (e = 0 -> exactly (nth (3 * k + c) out S754_nan) 0 136) /\ (97 <= e <= 159 -> exactly (nth (3 * k + c) out S754_nan) (nth (4 * k + c) px 0) e).
Proof.
  unfold hdr_decode_floats. pose proof (hdr_decode_safe mw mh input) as S. destruct (hdr_decode mw mh input) as [[[w' h'] px]| | |]; cbn [bind]; try easy.
  intros E. inversion E. subst w' h' out. clear E. destruct S as (L & _). exists px. split; [reflexivity|].
  assert (A : forall n px, length px = (4 * n)%nat -> length (from_pixels px) = (3 * n)%nat /\
    forall k c, (k < n)%nat -> (c < 3)%nat -> 0 <= nth (4 * k + c) px 0 < 256 ->
    let e := nth (4 * k + 3) px 0 in
    (e = 0 -> exactly (nth (3 * k + c) (from_pixels px) S754_nan) 0 136) /\ (97 <= e <= 159 -> exactly (nth (3 * k + c) (from_pixels px) S754_nan) (nth (4 * k + c) px 0) e)).
  { clear. induction n as [|n IH]; intros px L.
    - destruct px; [|discriminate]. split; [reflexivity|]. intros; lia.
    - destruct px as [|r [|g [|b [|e px]]]]; cbn [length] in L; try lia. destruct (IH px ltac:(lia)) as [L' P].
      assert (L3 : length (from_rgbe r g b e) = 3%nat) by (unfold from_rgbe; destruct (e =? 0); [reflexivity|]; cbv zeta; now destruct (0 <? e - 128)).
      cbn [from_pixels]. split; [rewrite app_length, L3, L'; lia|].
      intros k c Hk Hc. destruct k as [|k].
      + replace (4 * 0 + c)%nat with c by lia. replace (3 * 0 + c)%nat with c by lia. change (nth (4 * 0 + 3) (r :: g :: b :: e :: px) 0) with e. cbv zeta. rewrite app_nth1 by lia.
        intros Hv. split; intros He.
        * subst e. unfold from_rgbe. cbn [Z.eqb]. destruct c as [|[|[|c]]]; [| | |lia]; split; reflexivity.
        * unfold from_rgbe. replace (e =? 0) with false by lia. cbv zeta. destruct (0 <? e - 128) eqn:E0;
            (destruct c as [|[|[|c]]]; [| | |lia]); cbn [nth] in *; first [apply convert_pos_ok; lia|apply convert_neg_ok; lia].
      + replace (4 * S k + c)%nat with (S (S (S (S (4 * k + c))))) by lia. replace (4 * S k + 3)%nat with (S (S (S (S (4 * k + 3))))) by lia. cbn [nth].
        rewrite app_nth2 by lia. rewrite L3. replace (3 * S k + c - 3)%nat with (3 * k + c)%nat by lia. apply P; lia. }
  destruct (A (w * h)%nat px ltac:(lia)) as [L' P]. split; [exact L'|exact P].
Qed.
Print Assumptions hdr_samples_partial.
Definition ex_file (px : list Z) : list Z := hdr_magic ++ hdr_format ++ hdr_dims 1 (Z.of_nat (length px / 4)) ++ px.
Example hdr_samples_partial_ex : hdr_decode_floats 100 100 (ex_file [128; 64; 0; 130; 200; 7; 255; 97]) =
  Ok (2%nat, 1%nat, [of_int 2; of_int 1; S754_zero false; S754_finite false 13107200 (-55); S754_finite false 14680064 (-60); S754_finite false 16711680 (-55)]).
Proof. vm_compute. reflexivity. Qed.

(** Outside these exponents values are off by powers of two: the shift count is reduced modulo 32. *)
Theorem hdr_exponent_refuted :
  (exists input, hdr_decode 100 100 input = Ok (1%nat, 1%nat, [128; 128; 128; 160]) /\ hdr_decode_floats 100 100 input = Ok (1%nat, 1%nat, repeat (fdiv (of_int 1) (of_int 2)) 3)) /\
  (exists input, hdr_decode 100 100 input = Ok (1%nat, 1%nat, [128; 128; 128; 96]) /\ hdr_decode_floats 100 100 input = Ok (1%nat, 1%nat, repeat (fdiv (of_int 1) (of_int 2)) 3)).
Proof. split; [exists (ex_file [128; 128; 128; 160])|exists (ex_file [128; 128; 128; 96])]; split; vm_compute; reflexivity. Qed.
Print Assumptions hdr_exponent_refuted.

(** ** Writing floats *)

(** Each pixel is converted by itself: what is read back is the conversion there and back of every pixel, wherever it
    stands (widths with run lengths; others under the condition of C13's flat files). *)
Lemma to_pixels_length exp2 n : forall fs, length fs = (3 * n)%nat -> length (to_pixels exp2 fs) = (4 * n)%nat.
Proof.
  induction n as [|n IH]; intros fs L; [destruct fs; [reflexivity|discriminate]|]. destruct fs as [|r [|g [|b fs]]]; cbn [length] in L; try lia.
  cbn [to_pixels]. rewrite app_length, (IH fs) by lia. unfold float_to_rgbe. destruct (SFltb tiny _); [destruct (frexp exp2 _)|]; cbn [length]; lia.
Qed.
Theorem hdr_floats_pixelwise exp2 w h fs mw mh rest : 8 <= Z.of_nat w <= 32767 -> Z.of_nat h < 2 ^ 64 -> Z.of_nat w <= mw -> Z.of_nat h <= mh ->
  length fs = (w * h * 3)%nat ->
  exists c, hdr_encode_floats exp2 w h fs = Ok c /\ hdr_decode_floats mw mh (c ++ rest) = Ok (w, h, from_pixels (to_pixels exp2 fs)).
Proof.
  intros Hw Hh Hmw Hmh L. unfold hdr_encode_floats. rewrite L, Nat.eqb_refl. cbn [negb].
  assert (L4 : length (to_pixels exp2 fs) = (4 * w * h)%nat) by (rewrite (to_pixels_length exp2 (w * h)) by lia; lia).
  destruct (hdr_image_round_trip w h (to_pixels exp2 fs) mw mh rest Hw Hh Hmw Hmh L4) as (c & E & D). exists c. split; [exact E|]. unfold hdr_decode_floats. now rewrite D.
Qed.
Print Assumptions hdr_floats_pixelwise.
Example hdr_floats_pixelwise_ex : let exp2 _ := fdiv (of_int 1) (of_int 2) in
  let fs := repeat (of_int 4) 12 ++ [of_int 2; of_int 1; of_int 0] ++ repeat (of_int 0) 9 in
  exists c, hdr_encode_floats exp2 8 1 fs = Ok c /\ hdr_decode_floats 100 100 c = Ok (8%nat, 1%nat, from_pixels (to_pixels exp2 fs)) /\
  firstn 4 (to_pixels exp2 fs) = [128; 128; 128; 130].
Proof. intros exp2 fs. eexists. split; [vm_compute; reflexivity|]. split; vm_compute; reflexivity. Qed.

(** A function that is right where the examples need it (correctly rounded). *)
Definition good_at (exp2 : f32 -> f32) : Prop :=
  exp2 (S754_finite true 16030422 (-21)) = S754_finite false 10737086 (-31) /\  (* 2^-7.6438 *)
  exp2 (S754_finite true 8787952 (-20)) = S754_finite false 12884702 (-32).     (* 2^-8.3808 *)
Definition f_005 : f32 := S754_finite false 10737418 (-31).
Definition f_003 : f32 := S754_finite false 12884902 (-32).

(** Dark pixels lose their value: 0.003 is written as black (in the format a mantissa of eight bits and any exponent). *)
Theorem hdr_dark_refuted exp2 : good_at exp2 -> float_to_rgbe exp2 f_003 f_003 f_003 = [0; 0; 0; 128] /\
  from_pixels [0; 0; 0; 128] = repeat (of_int 0) 3 /\ exists m e, 128 <= m < 256 /\ float_to_rgbe exp2 f_003 f_003 f_003 <> [m; m; m; e] /\
  exists x, from_rgbe m m m e = [x; x; x] /\ 128 * Z.abs (fval x - fval f_003) <= fval f_003.
Proof.
  intros [_ G]. assert (E : float_to_rgbe exp2 f_003 f_003 f_003 = [0; 0; 0; 128]).
  { unfold float_to_rgbe. change (fmax (fmax (fmax f32_min f_003) f_003) f_003) with f_003. change (SFltb tiny f_003) with true. cbv iota. unfold frexp.
    change (SFeqb (of_int 0) f_003) with false. cbv iota zeta. replace (fsub (fsub (fast_log2 (habs f_003)) (hfloor (fast_log2 (habs f_003)))) (of_int 1)) with (S754_finite true 8787952 (-20)) by (vm_compute; reflexivity).
    rewrite G. vm_compute. reflexivity. }
  split; [exact E|]. split; [reflexivity|]. exists 196, 120. split; [lia|]. split; [rewrite E; discriminate|].
  eexists. split; [vm_compute; reflexivity|]. vm_compute. discriminate.
Qed.
Print Assumptions hdr_dark_refuted.
Example hdr_dark_refuted_ex : good_at (fun x => match x with S754_finite true 16030422 (-21) => S754_finite false 10737086 (-31) | _ => S754_finite false 12884702 (-32) end).
Proof. split; reflexivity. Qed.

(** A narrow picture of dark pixels, written by the encoder, cannot be read: its pixels are taken for run lengths. *)
Theorem hdr_narrow_dark_refuted exp2 : good_at exp2 ->
  exists c, hdr_encode_floats exp2 2 1 (repeat f_005 6) = Ok c /\ hdr_decode_floats 100 100 c = Err EEof.
Proof.
  intros [G _].
  assert (E : float_to_rgbe exp2 f_005 f_005 f_005 = [1; 1; 1; 128]).
  { unfold float_to_rgbe. change (fmax (fmax (fmax f32_min f_005) f_005) f_005) with f_005. change (SFltb tiny f_005) with true. cbv iota. unfold frexp.
    change (SFeqb (of_int 0) f_005) with false. cbv iota zeta. replace (fsub (fsub (fast_log2 (habs f_005)) (hfloor (fast_log2 (habs f_005)))) (of_int 1)) with (S754_finite true 16030422 (-21)) by (vm_compute; reflexivity).
    rewrite G. vm_compute. reflexivity. }
  unfold hdr_encode_floats. cbn [repeat length Nat.mul Nat.add Nat.eqb negb to_pixels]. rewrite E. eexists. split; [vm_compute; reflexivity|]. vm_compute. reflexivity.
Qed.
Print Assumptions hdr_narrow_dark_refuted.
