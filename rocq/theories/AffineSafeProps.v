(** The affine transform reads within the picture, whatever the transform. *)
From Verif Require Import Base BaseProof Loops F32 F32Round GeomSpec GeomProof GeomModel ResizeModel ResizeProof AffineModel AffineSpec AffineProof AffineProps.

(** A float whose mantissa has at most 24 bits *)
Definition narrow (x : f32) : Prop := match x with S754_finite _ m _ => Zpos m < 2 ^ 24 | _ => True end.

Lemma shr_nonpos n : forall r, shr_m r <= 0 -> shr_m (Nat.iter n shr_1 r) <= 0.
Proof.
  induction n as [|n IH]; intros r H; [exact H|]. cbn [Nat.iter nat_rect]. specialize (IH r H). revert IH. unfold Nat.iter. generalize (nat_rect (fun _ => shr_record) r (fun _ => shr_1) n) as q.
  intros [m x y]. cbn [shr_m]. intros Hm. destruct m as [|p|p]; [cbn; lia|lia|]. destruct p; cbn; lia.
Qed.
Lemma shr_fexp_narrow N e m : shr_m (fst (shr_fexp 24 128 N e loc_Exact)) = Zpos m -> Zpos m < 2 ^ 24.
Proof.
  unfold shr_fexp. set (n := fexp 24 128 (Zdigits2 N + e) - e). destruct N as [|p|p].
  - unfold shr. destruct n as [|n|n]; cbn [fst shr_record_of_loc shr_m]; try discriminate. intros H. exfalso.
    rewrite iter_pos_nat in H. pose proof (shr_nonpos (Pos.to_nat n) (Build_shr_record 0 false false)) as P. cbn [shr_m] in P. specialize (P ltac:(lia)). rewrite H in P. lia.
  - assert (Hn : Z.log2 (Zpos p) + 1 - 24 <= n).
    { unfold n. cbn [Zdigits2]. rewrite digits_log2. unfold SpecFloat.fexp. lia. }
    clearbody n. destruct (Z.log2_spec (Zpos p) ltac:(lia)) as [_ U]. pose proof (Z.log2_nonneg (Zpos p)) as L0.
    assert (G : forall k, 0 <= k -> Z.log2 (Zpos p) + 1 - 24 <= k -> Zpos p / 2 ^ k < 2 ^ 24).
    { intros k Hk Hl. apply Z.div_lt_upper_bound; [apply Z.pow_pos_nonneg; lia|]. rewrite <- Z.pow_add_r by lia.
      eapply Z.lt_le_trans; [exact U|]. apply Z.pow_le_mono_r; lia. }
    unfold shr. destruct n as [|n|n]; cbn [fst shr_record_of_loc shr_m].
    + intros [= <-]. specialize (G 0 ltac:(lia) Hn). rewrite Z.pow_0_r, Z.div_1_r in G. exact G.
    + intros H. rewrite iter_pos_nat in H. destruct (Pos.to_nat n) as [|k] eqn:Ek; [lia|]. rewrite shr_iter in H by lia. cbn [shr_m] in H. rewrite <- H.
      apply G; lia.
    + intros [= <-]. specialize (G 0 ltac:(lia) ltac:(lia)). rewrite Z.pow_0_r, Z.div_1_r in G. exact G.
  - unfold shr. destruct n as [|n|n]; cbn [fst shr_record_of_loc shr_m]; try discriminate. intros H. exfalso.
    rewrite iter_pos_nat in H. pose proof (shr_nonpos (Pos.to_nat n) (Build_shr_record (Zneg p) false false)) as P. cbn [shr_m] in P. specialize (P ltac:(lia)). rewrite H in P. lia.
Qed.
Lemma round_narrow s m e l : narrow (binary_round_aux 24 128 s m e l).
Proof.
  unfold binary_round_aux. destruct (shr_fexp 24 128 m e l) as [r e']. set (N := round_nearest_even _ _).
  pose proof (shr_fexp_narrow N e') as H. destruct (shr_fexp 24 128 N e' loc_Exact) as [r2 e2]. cbn [fst] in H.
  destruct (shr_m r2) as [|p|p]; [exact I| |exact I]. specialize (H p eq_refl). destruct (Zle_bool e2 (128 - 24)); [exact H|exact I].
Qed.
Lemma fmul_narrow x y : narrow (fmul x y).
Proof. unfold fmul, SFmul. destruct x, y; try exact I. apply round_narrow. Qed.
Lemma normalize_narrow m e s : narrow (binary_normalize 24 128 m e s).
Proof. unfold binary_normalize, binary_round. destruct m; [exact I| |]; destruct (shl_align _ _ _); apply round_narrow. Qed.
Lemma fadd_narrow x y : narrow x -> narrow y -> narrow (fadd x y).
Proof.
  intros Hx Hy. unfold fadd, SFadd. destruct x as [s|s| |s m e], y as [s'|s'| |s' m' e']; try exact I; try exact Hx; try exact Hy.
  - destruct (Bool.eqb s s'); exact I.
  - destruct (Bool.eqb s s'); exact I.
  - apply normalize_narrow.
Qed.

(** A whole number from 1 to [2 ^ 24 - 1] has a full mantissa *)
Lemma of_int_form n : 0 < n < 2 ^ 24 -> exists m k, of_int n = S754_finite false m (- k) /\ 0 <= k /\ Zpos m = n * 2 ^ k /\ 2 ^ 23 <= Zpos m.
Proof.
  intros Hn. destruct (of_int_rep n ltac:(lia)) as [F V]. destruct (of_int n) as [s|s| |s m e]; try easy; cbn [sval] in V; [lia|].
  destruct (bounded_inv 24 128 ltac:(lia) _ _ F) as (He & Hm & Hf). change (SpecFloat.emin 24 128) with (-149) in *. replace (e - -149) with (e + 149) in V by lia.
  assert (P : 0 < Zpos m * 2 ^ (e + 149)) by (apply Z.mul_pos_pos; [easy|apply Z.pow_pos_nonneg; lia]).
  destruct s; cbn [cond_Zopp] in V; [lia|]. 
  assert (L : e <= 0).
  { destruct (Z.le_gt_cases e 0) as [|G]; [easy|exfalso]. specialize (Hf ltac:(lia)). change (2 ^ (24 - 1)) with (2 ^ 23) in Hf.
    assert (Q : 2 ^ 150 <= 2 ^ (e + 149)) by (apply Z.pow_le_mono_r; lia). clear P F. revert V Q. generalize (2 ^ (e + 149)) as q. intros q V Q.
    assert (2 ^ 23 * 2 ^ 150 <= Zpos m * q) by (apply Z.mul_le_mono_nonneg; lia). lia. }
  assert (E : Zpos m = n * 2 ^ (- e)).
  { replace (2 ^ 149) with (2 ^ (- e) * 2 ^ (e + 149)) in V by (rewrite <- Z.pow_add_r by lia; f_equal; lia). rewrite Z.mul_assoc in V.
    apply Z.mul_reg_r in V; [exact V|]. apply Z.pow_nonzero; lia. }
  exists m, (- e). rewrite Z.opp_involutive. split; [reflexivity|]. split; [lia|]. split; [exact E|].
  apply Hf. destruct (Z.eq_dec e (-149)) as [->|]; [|lia]. exfalso. change (2 ^ (- -149)) with (2 ^ 149) in E. clear - Hm E Hn. lia.
Qed.
Lemma below_whole x n : narrow x -> 0 <= n < 2 ^ 24 -> SFleb (of_int 0) x = true -> SFltb x (of_int n) = true -> 0 <= to_uint (2 ^ 64 - 1) x < n.
Proof.
  intros Nx Hn H0 H1. change (of_int 0) with (S754_zero false) in H0. destruct (Z.eq_dec n 0) as [->|N0].
  { exfalso. change (of_int 0) with (S754_zero false) in H1. destruct x as [s|[]| |[] m e]; discriminate. }
  destruct (of_int_form n ltac:(lia)) as (m' & k & E & Hk & Em & Hf). rewrite E in H1.
  destruct x as [s|[]| |[] m e]; try discriminate; [cbn [to_uint]; lia|]. cbn [narrow] in Nx. cbn [to_uint]. unfold SFltb in H1. cbn [SFcompare] in H1.
  assert (Pk : 0 < 2 ^ k) by (apply Z.pow_pos_nonneg; lia).
  destruct (Z.compare_spec e (- k)) as [Ee|Ee|Ee]; [| |discriminate].
  - assert (Lm : Zpos m < Zpos m').
    { change (Pos.compare_cont Eq m m') with (Pos.compare m m') in H1. destruct (Pos.compare_spec m m'); [discriminate|lia|discriminate]. }
    subst e. destruct (Z.leb_spec 0 (- k)).
    + assert (k = 0) by lia. subst k. cbn [Z.opp]. rewrite Z.pow_0_r in *. lia.
    + rewrite Z.opp_involutive. assert (0 <= Zpos m / 2 ^ k) by (apply Z.div_pos; lia).
      assert (Zpos m / 2 ^ k < n) by (apply Z.div_lt_upper_bound; [lia|rewrite Z.mul_comm; lia]). lia.
  - destruct (Z.leb_spec 0 e); [lia|]. assert (0 < 2 ^ (- e)) by (apply Z.pow_pos_nonneg; lia).
    assert (0 <= Zpos m / 2 ^ (- e)) by (apply Z.div_pos; lia).
    assert (Zpos m / 2 ^ (- e) < n); [|lia]. apply Z.div_lt_upper_bound; [easy|].
    replace (- e) with (k + 1 + (- e - k - 1)) by lia. rewrite !Z.pow_add_r by lia. assert (Q1 : 0 < 2 ^ (- e - k - 1)) by (apply Z.pow_pos_nonneg; lia).
    revert Q1. generalize (2 ^ (- e - k - 1)) as q. intros q Hq. replace (2 ^ k * 2 ^ 1 * q * n) with (n * 2 ^ k * 2 * q) by ring. rewrite <- Em.
    clear - Nx Hf Hq. change (2 ^ 24) with (2 ^ 23 * 2) in Nx. assert (2 ^ 23 * 2 * 1 <= Zpos m' * 2 * q) by (apply Z.mul_le_mono_nonneg; lia). lia.
Qed.

(** ** C140: the transform never reads outside of the picture
    For every transform — any floats, infinities and NaN included — and every picture with sides up to [2 ^ 24]: if the
    result can be allocated, there is a result of the announced size with samples in range, or the transform is refused. *)
Theorem affine_safe hi t inp w h : (1 <= w)%nat -> (1 <= h)%nat -> Z.of_nat w <= 2 ^ 24 -> Z.of_nat h <= 2 ^ 24 -> length inp = (w * h)%nat -> 0 <= hi ->
  out_width t w h * out_height t w h < 2 ^ 63 ->
  affine_image hi t inp w h = Err EOther \/
  exists out ow oh, affine_image hi t inp w h = Ok (out, ow, oh) /\ length out = (ow * oh)%nat /\ forall x y, (x < ow)%nat -> (y < oh)%nat -> 0 <= px ow out x y <= hi.
Proof.
  intros W1 H1 W2 H2 Hl Hh HA. unfold affine_image. cbv zeta. destruct (inverse t) as [inv|] eqn:Ei; [right|now left].
  replace (2 ^ 63 <=? out_width t w h * out_height t w h) with false by (symmetry; now apply Z.leb_gt).
  set (ow := Z.to_nat (out_width t w h)). set (oh := Z.to_nat (out_height t w h)). clearbody ow oh.
  unfold affine_channel. rewrite Ei. cbv zeta. rewrite repeat_length.
  set (mx := least _). set (my := least _). clearbody mx my.
  assert (Ni : narrow (ttx inv) /\ narrow (tty inv)).
  { unfold inverse in Ei. destruct (SFltb _ _); [discriminate|]. apply (f_equal (fun o => match o with Some i => (ttx i, tty i) | None => (ttx inv, tty inv) end)) in Ei.
    cbn [ttx tty] in Ei. pose proof (f_equal fst Ei) as E1. pose proof (f_equal snd Ei) as E2. cbn [fst snd] in E1, E2. rewrite <- E1, <- E2. split; apply fmul_narrow. }
  destruct Ni as [Nx Ny].
  set (sx := fun ox oy : nat => point_x inv (fadd (of_int (Z.of_nat ox)) mx) (fadd (of_int (Z.of_nat oy)) my)).
  set (sy := fun ox oy : nat => point_y inv (fadd (of_int (Z.of_nat ox)) mx) (fadd (of_int (Z.of_nat oy)) my)).
  set (g := fun ox oy => if SFleb (of_int 0) (sx ox oy) && SFltb (sx ox oy) (of_int (Z.of_nat w - 1)) && SFleb (of_int 0) (sy ox oy) && SFltb (sy ox oy) (of_int (Z.of_nat h - 1)) then
      let x0 := Z.to_nat (to_uint (2 ^ 64 - 1) (sx ox oy)) in let y0 := Z.to_nat (to_uint (2 ^ 64 - 1) (sy ox oy)) in
      Some (to_uint hi (blend (px w inp x0 y0) (px w inp (x0 + 1) y0) (px w inp x0 (y0 + 1)) (px w inp (x0 + 1) (y0 + 1))
        (fsub (sx ox oy) (of_int (Z.of_nat x0))) (fsub (sy ox oy) (of_int (Z.of_nat y0))))) else None).
  destruct (affine_run hi inp w h ow oh inv mx my g) as (out & Eo & Lo & No).
  - intros ox oy out Hx Hy. unfold affine_pixel. cbv zeta. unfold g. fold (sx ox oy) (sy ox oy).
    destruct (SFleb (of_int 0) (sx ox oy)) eqn:C1; [|reflexivity]. destruct (SFltb (sx ox oy) (of_int (Z.of_nat w - 1))) eqn:C2; [|reflexivity].
    destruct (SFleb (of_int 0) (sy ox oy)) eqn:C3; [|reflexivity]. destruct (SFltb (sy ox oy) (of_int (Z.of_nat h - 1))) eqn:C4; [|reflexivity].
    cbn [andb]. cbv zeta.
    assert (Bx : 0 <= to_uint (2 ^ 64 - 1) (sx ox oy) < Z.of_nat w - 1).
    { apply below_whole; [|clear - W1 W2; lia|easy|easy]. unfold sx, point_x. apply fadd_narrow; [apply fadd_narrow; apply fmul_narrow|exact Nx]. }
    assert (By : 0 <= to_uint (2 ^ 64 - 1) (sy ox oy) < Z.of_nat h - 1).
    { apply below_whole; [|clear - H1 H2; lia|easy|easy]. unfold sy, point_y. apply fadd_narrow; [apply fadd_narrow; apply fmul_narrow|exact Ny]. }
    set (x0 := Z.to_nat (to_uint (2 ^ 64 - 1) (sx ox oy))). set (y0 := Z.to_nat (to_uint (2 ^ 64 - 1) (sy ox oy))).
    assert (Lx : (x0 + 1 < w)%nat) by (unfold x0; clear - Bx; lia). assert (Ly : (y0 + 1 < h)%nat) by (unfold y0; clear - By; lia). clearbody x0 y0.
    assert (I : forall u v, (u < w)%nat -> (v < h)%nat -> get_at inp (v * w + u) = Ok (px w inp u v)).
    { intros u v Hu Hv. apply get_at_ok. rewrite Hl. now apply idx_bound'. }
    rewrite !I by lia. reflexivity.
  - rewrite Eo. cbn [bind]. exists out, ow, oh. split; [reflexivity|]. split; [exact Lo|]. intros x y Hx Hy. rewrite No by easy. unfold val_of, g.
    destruct (_ && _); [|lia]. cbv zeta. generalize (blend (px w inp (Z.to_nat (to_uint (2 ^ 64 - 1) (sx x y))) (Z.to_nat (to_uint (2 ^ 64 - 1) (sy x y)))) (px w inp (Z.to_nat (to_uint (2 ^ 64 - 1) (sx x y)) + 1) (Z.to_nat (to_uint (2 ^ 64 - 1) (sy x y)))) (px w inp (Z.to_nat (to_uint (2 ^ 64 - 1) (sx x y))) (Z.to_nat (to_uint (2 ^ 64 - 1) (sy x y)) + 1)) (px w inp (Z.to_nat (to_uint (2 ^ 64 - 1) (sx x y)) + 1) (Z.to_nat (to_uint (2 ^ 64 - 1) (sy x y)) + 1)) (fsub (sx x y) (of_int (Z.of_nat (Z.to_nat (to_uint (2 ^ 64 - 1) (sx x y)))))) (fsub (sy x y) (of_int (Z.of_nat (Z.to_nat (to_uint (2 ^ 64 - 1) (sy x y))))))) as f.
    intros f. clear - Hh. destruct f as [s|[]| |[] m e]; cbn [to_uint]; try lia.
    assert (0 <= if 0 <=? e then Zpos m * 2 ^ e else Zpos m / 2 ^ (- e)); [|lia].
    destruct (Z.leb_spec 0 e); [apply Z.mul_nonneg_nonneg; [lia|apply Z.pow_nonneg; lia]|apply Z.div_pos; [lia|apply Z.pow_pos_nonneg; lia]].
Qed.
Print Assumptions affine_safe.
(** Halving a picture, and a transform with an infinite entry *)
Definition half : f32 := fdiv (of_int 1) (of_int 2).
Example affine_safe_case :
  affine_image 255 (scaling half half) [1; 2; 3; 4; 5; 6; 7; 8; 9; 10; 11; 12; 13; 14; 15; 16] 4 4 = Ok ([1; 3; 9; 11], 2%nat, 2%nat) /\
  affine_image 255 (scaling (S754_infinity false) (of_int 1)) [1; 2; 3; 4] 2 2 = Ok ([], 0%nat, 2%nat).
Proof. split; vm_compute; reflexivity. Qed.
