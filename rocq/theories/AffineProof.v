(** Lemmas for the affine transform: on whole numbers every step is exact. *)
From Verif Require Import Base BaseProof Loops F32 F32Round GeomSpec GeomProof GeomModel ResizeModel ResizeProof AffineModel AffineSpec.

Lemma fopp_rep x a : rep x a -> rep (SFopp x) (- a).
Proof.
  intros [F V]. destruct x as [s|s| |s m e]; try easy; cbn [SFopp] in *; split; try easy.
  - cbn [sval] in *. lia.
  - cbn [sval] in *. destruct s; cbn [negb cond_Zopp] in *; lia.
Qed.
Lemma unit_form x d : d = 1 \/ d = -1 -> rep x d -> x = of_int d.
Proof.
  intros D [F V]. destruct x as [s|s| |s m e]; try easy.
  - cbn [sval] in V. destruct D; subst d; lia.
  - destruct (bounded_inv 24 128 ltac:(lia) _ _ F) as (He & Hm & Hm'). change (SpecFloat.emin 24 128) with (-149) in *. cbn [sval] in V.
    change (SpecFloat.emin 24 128) with (-149) in V. replace (e - -149) with (e + 149) in V by lia.
    assert (A : Zpos m * 2 ^ (e + 149) = 2 ^ 149 /\ d = if s then -1 else 1).
    { assert (0 < Zpos m * 2 ^ (e + 149)) by (apply Z.mul_pos_pos; [easy|apply Z.pow_pos_nonneg; lia]). destruct s; cbn [cond_Zopp] in V; destruct D; subst d; lia. }
    destruct A as [A ->].
    assert (E : e = -23).
    { destruct (Z.lt_trichotomy e (-23)) as [L|[L|L]]; [|easy|].
      - assert (P : 2 ^ (e + 149) <= 2 ^ 125) by (apply Z.pow_le_mono_r; lia).
        assert (0 < 2 ^ (e + 149)) by (apply Z.pow_pos_nonneg; lia). exfalso. revert A P H Hm. generalize (2 ^ (e + 149)) as q. clear. intros q A P H Hm.
        assert (Zpos m * q < 2 ^ 24 * 2 ^ 125) by nia. change (2 ^ 24 * 2 ^ 125) with (2 ^ 149) in *. lia.
      - assert (P : 2 ^ 127 <= 2 ^ (e + 149)) by (apply Z.pow_le_mono_r; lia). specialize (Hm' ltac:(lia)). change (2 ^ (24 - 1)) with (2 ^ 23) in Hm'.
        exfalso. revert A P Hm'. generalize (2 ^ (e + 149)) as q. clear. intros q A P Hm.
        assert (2 ^ 23 * 2 ^ 127 <= Zpos m * q) by (apply Z.mul_le_mono_nonneg; lia). change (2 ^ 23 * 2 ^ 127) with (2 * 2 ^ 149) in *. lia. }
    subst e. change (2 ^ (-23 + 149)) with (2 ^ 126) in A. assert (Zpos m = Zpos 8388608) by lia. injection H as ->. destruct s; reflexivity.
Qed.
Lemma ltb_rep x y a b : rep x a -> rep y b -> SFltb x y = (a <? b).
Proof. intros [Fx Vx] [Fy Vy]. rewrite (ltb_ok 24 128) by easy. rewrite Vx, Vy. clear. destruct (Z.ltb_spec a b), (Z.ltb_spec (a * 2 ^ 149) (b * 2 ^ 149)); lia. Qed.
Lemma leb_rep x y a b : rep x a -> rep y b -> SFleb x y = (a <=? b).
Proof.
  intros [Fx Vx] [Fy Vy]. unfold SFleb. rewrite (compare_ok 24 128) by easy. rewrite Vx, Vy. clear.
  destruct (Z.compare_spec (a * 2 ^ 149) (b * 2 ^ 149)); destruct (Z.leb_spec a b); try reflexivity; lia.
Qed.
Lemma fmin_rep x y a b : rep x a -> rep y b -> rep (fmin x y) (Z.min a b).
Proof.
  intros Rx Ry. replace (fmin x y) with (if SFltb y x then y else x) by (destruct Rx, Ry; now destruct x, y).
  rewrite (ltb_rep _ _ _ _ Ry Rx). destruct (Z.ltb_spec b a); [now rewrite Z.min_r by lia|now rewrite Z.min_l by lia].
Qed.
Lemma fmax_rep x y a b : rep x a -> rep y b -> rep (fmax x y) (Z.max a b).
Proof.
  intros Rx Ry. replace (fmax x y) with (if SFltb x y then y else x) by (destruct Rx, Ry; now destruct x, y).
  rewrite (ltb_rep _ _ _ _ Rx Ry). destruct (Z.ltb_spec a b); [now rewrite Z.max_r by lia|now rewrite Z.max_l by lia].
Qed.
Lemma least_rep p q r s a b c d : rep p a -> rep q b -> rep r c -> rep s d -> rep (least [p; q; r; s]) (Z.min (Z.min a b) (Z.min c d)).
Proof.
  intros P Q R S. unfold least. cbn [fold_left]. replace (fmin (S754_infinity false) p) with p by (destruct P; now destruct p as [[]|[]| |[] ? ?]).
  rewrite Z.min_assoc. repeat apply fmin_rep; easy.
Qed.
Lemma greatest_rep p q r s a b c d : rep p a -> rep q b -> rep r c -> rep s d -> rep (greatest [p; q; r; s]) (Z.max (Z.max a b) (Z.max c d)).
Proof.
  intros P Q R S. unfold greatest. cbn [fold_left]. replace (fmax (S754_infinity true) p) with p by (destruct P; now destruct p as [[]|[]| |[] ? ?]).
  rewrite Z.max_assoc. repeat apply fmax_rep; easy.
Qed.
Lemma ceil_rep x a : 0 <= a < 2 ^ 24 -> rep x a -> ceil_usize x = a.
Proof.
  intros Ha [F V]. destruct x as [s|s| |s m e]; try easy; cbn [sval ceil_usize] in *.
  - lia.
  - destruct (bounded_inv 24 128 ltac:(lia) _ _ F) as (He & _ & _). change (SpecFloat.emin 24 128) with (-149) in *. replace (e - -149) with (e + 149) in V by lia.
    assert (0 < Zpos m * 2 ^ (e + 149)) by (apply Z.mul_pos_pos; [easy|apply Z.pow_pos_nonneg; lia]).
    destruct s; cbn [cond_Zopp] in V; [lia|]. destruct (Z.leb_spec 0 e).
    + rewrite Z.pow_add_r, Z.mul_assoc in V by lia. apply Z.mul_reg_r in V; [|lia]. rewrite V. lia.
    + replace (2 ^ 149) with (2 ^ (- e) * 2 ^ (e + 149)) in V by (rewrite <- Z.pow_add_r by lia; f_equal; lia). rewrite Z.mul_assoc in V.
      apply Z.mul_reg_r in V; [|apply Z.pow_nonzero; lia]. rewrite V. rewrite <- Z.mul_opp_l, Z.div_mul by (apply Z.pow_nonzero; lia). lia.
Qed.

(** ** Transforms whose entries are whole numbers *)
Definition represents (t : affine) (m : imap) : Prop :=
  rep (ta t) (ia m) /\ rep (tb t) (ib m) /\ rep (tc t) (ic m) /\ rep (td t) (id m) /\ rep (ttx t) (itx m) /\ rep (tty t) (ity m).
Definition small (K T : Z) (m : imap) : Prop :=
  Z.abs (ia m) <= K /\ Z.abs (ib m) <= K /\ Z.abs (ic m) <= K /\ Z.abs (id m) <= K /\ Z.abs (itx m) <= T /\ Z.abs (ity m) <= T.

Lemma abs_mul_le a x K X : Z.abs a <= K -> Z.abs x <= X -> Z.abs (a * x) <= K * X.
Proof. intros. rewrite Z.abs_mul. apply Z.mul_le_mono_nonneg; lia. Qed.

Lemma line_rep a b t x y za zb zt zx zy K X T : rep a za -> rep b zb -> rep t zt -> rep x zx -> rep y zy ->
  Z.abs za <= K -> Z.abs zb <= K -> Z.abs zt <= T -> Z.abs zx <= X -> Z.abs zy <= X -> 0 <= K * X -> 2 * (K * X) + T < 2 ^ 24 ->
  rep (fadd (fadd (fmul a x) (fmul b y)) t) (za * zx + zb * zy + zt) /\ Z.abs (za * zx + zb * zy + zt) <= 2 * (K * X) + T.
Proof.
  intros Ra Rb Rt Rx Ry Ha Hb Ht Hx Hy H0 H. pose proof (abs_mul_le _ _ _ _ Ha Hx) as P. pose proof (abs_mul_le _ _ _ _ Hb Hy) as Q.
  revert P Q H H0. generalize (K * X) as B. intros B P Q H H0.
  split; [|clear - P Q Ht; lia]. apply fadd_rep; [|exact Rt|clear - P Q Ht H; lia].
  apply fadd_rep; [apply fmul_rep; [easy|easy|clear - P H Ht H0; lia]|apply fmul_rep; [easy|easy|clear - Q H Ht H0; lia]|clear - P Q H Ht; lia].
Qed.
Lemma point_rep t m K T X x y zx zy : represents t m -> small K T m -> rep x zx -> rep y zy -> Z.abs zx <= X -> Z.abs zy <= X ->
  0 <= K * X -> 2 * (K * X) + T < 2 ^ 24 ->
  (rep (point_x t x y) (move_x m zx zy) /\ Z.abs (move_x m zx zy) <= 2 * (K * X) + T) /\
  (rep (point_y t x y) (move_y m zx zy) /\ Z.abs (move_y m zx zy) <= 2 * (K * X) + T).
Proof.
  intros (Ra & Rb & Rc & Rd & Re & Rf) (Ha & Hb & Hc & Hd & He & Hf) Rx Ry Hx Hy H0 H.
  split; eapply line_rep; eassumption.
Qed.

(** The inverse map *)
Definition back (m : imap) : imap :=
  let D := ia m * id m - ib m * ic m in
  Imap (id m * D) (- ib m * D) (- ic m * D) (ia m * D) ((ib m * ity m - id m * itx m) * D) ((ic m * itx m - ia m * ity m) * D).
Lemma back_move m x y : keeps_area m -> move_x (back m) (move_x m x y) (move_y m x y) = x /\ move_y (back m) (move_x m x y) (move_y m x y) = y.
Proof.
  intros K. unfold move_x, move_y, back. cbn [ia ib ic id itx ity]. set (D := ia m * id m - ib m * ic m).
  assert (E : D * D = 1) by (unfold D; destruct K as [->| ->]; reflexivity). split.
  - transitivity (D * D * x); [unfold D; ring|rewrite E; ring].
  - transitivity (D * D * y); [unfold D; ring|rewrite E; ring].
Qed.
Lemma back_small m K T : keeps_area m -> small K T m -> 0 <= K -> 0 <= T -> small K (2 * (K * T)) (back m).
Proof.
  intros A (Ha & Hb & Hc & Hd & He & Hf) HK HT. unfold small, back. cbn [ia ib ic id itx ity]. set (D := ia m * id m - ib m * ic m).
  assert (E : D = 1 \/ D = -1) by exact A. clearbody D.
  pose proof (abs_mul_le _ _ _ _ Hb Hf). pose proof (abs_mul_le _ _ _ _ Hd He). pose proof (abs_mul_le _ _ _ _ Hc He). pose proof (abs_mul_le _ _ _ _ Ha Hf).
  destruct E; subst D; repeat split; lia.
Qed.
Lemma inverse_rep t m K T : represents t m -> keeps_area m -> small K T m -> 0 <= K -> 0 <= T -> K * K < 2 ^ 22 -> 2 * (K * T) < 2 ^ 24 -> K < 2 ^ 24 ->
  exists inv, inverse t = Some inv /\ represents inv (back m).
Proof.
  intros (Ra & Rb & Rc & Rd & Re & Rf) A (Ha & Hb & Hc & Hd & He & Hf) HK HT H1 H2 H3. unfold inverse.
  set (det := fsub _ _). set (D := ia m * id m - ib m * ic m).
  assert (RD : rep det D).
  { pose proof (abs_mul_le _ _ _ _ Ha Hd). pose proof (abs_mul_le _ _ _ _ Hb Hc). unfold det, D.
    apply fsub_rep; [apply fmul_rep; [easy|easy|lia]|apply fmul_rep; [easy|easy|lia]|lia]. }
  assert (E : D = 1 \/ D = -1) by exact A. rewrite (unit_form _ _ E RD). clear det RD.
  assert (N : SFltb (SFabs (of_int D)) epsilon = false) by (destruct E as [->| ->]; reflexivity). rewrite N.
  assert (I : rep (fdiv (of_int 1) (of_int D)) D).
  { replace (fdiv (of_int 1) (of_int D)) with (of_int D) by (destruct E as [->| ->]; reflexivity). apply of_int_rep. lia. }
  eexists. split; [reflexivity|]. unfold represents, back. cbn [ta tb tc td ttx tty ia ib ic id itx ity]. fold D.
  pose proof (abs_mul_le _ _ _ _ Hb Hf). pose proof (abs_mul_le _ _ _ _ Hd He). pose proof (abs_mul_le _ _ _ _ Hc He). pose proof (abs_mul_le _ _ _ _ Ha Hf).
  assert (M : forall x a, rep x a -> Z.abs a < 2 ^ 24 -> rep (fmul x (fdiv (of_int 1) (of_int D))) (a * D)).
  { intros x a R B. apply fmul_rep; [easy|easy|]. clear - E B. destruct E; subst; lia. }
  split; [|split; [|split; [|split; [|split]]]].
  - apply M; [exact Rd|clear - Hd H3; lia].
  - apply M; [exact (fopp_rep _ _ Rb)|clear - Hb H3; lia].
  - apply M; [exact (fopp_rep _ _ Rc)|clear - Hc H3; lia].
  - apply M; [exact Ra|clear - Ha H3; lia].
  - revert H H0 H2. clear - M Rb Rf Rd Re. generalize (K * T) as B. intros B H H0 H2.
    apply M; [apply fsub_rep; [apply fmul_rep; [exact Rb|exact Rf|clear - H H2; lia]|apply fmul_rep; [exact Rd|exact Re|clear - H0 H2; lia]|]|]; clear - H H0 H2; lia.
  - revert H4 H5 H2. clear - M Rc Re Ra Rf. generalize (K * T) as B. intros B H H0 H2.
    apply M; [apply fsub_rep; [apply fmul_rep; [exact Rc|exact Re|clear - H H2; lia]|apply fmul_rep; [exact Ra|exact Rf|clear - H0 H2; lia]|]|]; clear - H H0 H2; lia.
Qed.

(** ** The box of the corners *)
Lemma corners_rep t m K T w h : represents t m -> small K T m -> 0 <= K -> 0 <= T ->
  let X := Z.max (Z.of_nat w) (Z.of_nat h) in 2 * (2 * (K * X) + T) < 2 ^ 24 -> X < 2 ^ 24 ->
  (rep (least (corners w h (point_x t))) (lowest (move_x m) (Z.of_nat w) (Z.of_nat h)) /\
   out_width t w h = highest (move_x m) (Z.of_nat w) (Z.of_nat h) - lowest (move_x m) (Z.of_nat w) (Z.of_nat h) /\
   - (2 * (K * X) + T) <= lowest (move_x m) (Z.of_nat w) (Z.of_nat h) <= highest (move_x m) (Z.of_nat w) (Z.of_nat h) /\
   highest (move_x m) (Z.of_nat w) (Z.of_nat h) <= 2 * (K * X) + T) /\
  (rep (least (corners w h (point_y t))) (lowest (move_y m) (Z.of_nat w) (Z.of_nat h)) /\
   out_height t w h = highest (move_y m) (Z.of_nat w) (Z.of_nat h) - lowest (move_y m) (Z.of_nat w) (Z.of_nat h) /\
   - (2 * (K * X) + T) <= lowest (move_y m) (Z.of_nat w) (Z.of_nat h) <= highest (move_y m) (Z.of_nat w) (Z.of_nat h) /\
   highest (move_y m) (Z.of_nat w) (Z.of_nat h) <= 2 * (K * X) + T).
Proof.
  intros R S HK HT X HX HX'. assert (KX : 0 <= K * X) by (apply Z.mul_nonneg_nonneg; [easy|unfold X; lia]).
  assert (Rz : rep (of_int 0) 0) by (apply of_int_rep; lia).
  assert (Rw : rep (of_int (Z.of_nat w)) (Z.of_nat w)) by (apply of_int_rep; unfold X in HX'; clear - HX'; lia).
  assert (Rh : rep (of_int (Z.of_nat h)) (Z.of_nat h)) by (apply of_int_rep; unfold X in HX'; clear - HX'; lia).
  assert (Bz : Z.abs 0 <= X) by (unfold X; lia). assert (Bw : Z.abs (Z.of_nat w) <= X) by (unfold X; lia). assert (Bh : Z.abs (Z.of_nat h) <= X) by (unfold X; lia).
  clearbody X. assert (HB : 2 * (K * X) + T < 2 ^ 24) by (clear - HX KX HT; lia).
  destruct (point_rep t m K T X _ _ _ _ R S Rz Rz Bz Bz KX HB) as [[A1 A2] [A3 A4]].
  destruct (point_rep t m K T X _ _ _ _ R S Rw Rz Bw Bz KX HB) as [[B1 B2] [B3 B4]].
  destruct (point_rep t m K T X _ _ _ _ R S Rz Rh Bz Bh KX HB) as [[C1 C2] [C3 C4]].
  destruct (point_rep t m K T X _ _ _ _ R S Rw Rh Bw Bh KX HB) as [[D1 D2] [D3 D4]].
  clear R S Rz Rw Rh Bz Bw Bh. revert HX HB A2 A4 B2 B4 C2 C4 D2 D4. generalize (2 * (K * X) + T) as B. intros B HX HB A2 A4 B2 B4 C2 C4 D2 D4.
  unfold out_width, out_height, out_side, corners, lowest, highest.
  pose proof (least_rep _ _ _ _ _ _ _ _ A1 B1 C1 D1) as L1. pose proof (least_rep _ _ _ _ _ _ _ _ A3 B3 C3 D3) as L2.
  pose proof (greatest_rep _ _ _ _ _ _ _ _ A1 B1 C1 D1) as G1. pose proof (greatest_rep _ _ _ _ _ _ _ _ A3 B3 C3 D3) as G2.
  clear A1 B1 C1 D1 A3 B3 C3 D3. split.
  - split; [exact L1|]. split.
    + apply ceil_rep; [|apply fsub_rep; [exact G1|exact L1|]]; clear - HX A2 B2 C2 D2; lia.
    + clear - A2 B2 C2 D2. lia.
  - split; [exact L2|]. split.
    + apply ceil_rep; [|apply fsub_rep; [exact G2|exact L2|]]; clear - HX A4 B4 C4 D4; lia.
    + clear - A4 B4 C4 D4. lia.
Qed.

(** ** Running the loops *)
Section Run.
Variables (hi : Z) (inp : list Z) (iw ih ow oh : nat) (inv : affine) (mx my : f32) (g : nat -> nat -> option Z).
Hypothesis Hg : forall ox oy out, (ox < ow)%nat -> (oy < oh)%nat ->
  affine_pixel hi inp iw ih ow inv mx my oy ox out = match g ox oy with Some v => set_at out (oy * ow + ox) v | None => Ok out end.
Definition val_of (x y : nat) : Z := match g x y with Some v => v | None => hi end.
Lemma affine_run : exists out,
  for_range 0 oh (fun oy out => for_range 0 ow (fun ox out => affine_pixel hi inp iw ih ow inv mx my oy ox out) out) (repeat hi (ow * oh)) = Ok out /\
  is_image ow oh out val_of.
Proof.
  set (P := fun (done : nat -> nat -> Prop) (out : list Z) => length out = (ow * oh)%nat /\
    forall x y, (x < ow)%nat -> (y < oh)%nat -> (done x y -> px ow out x y = val_of x y) /\ (~ done x y -> px ow out x y = hi)).
  destruct (for_range_inv (fun y => P (fun _ y' => (y' < y)%nat)) 0 oh
    (fun oy out => for_range 0 ow (fun ox out => affine_pixel hi inp iw ih ow inv mx my oy ox out) out) (repeat hi (ow * oh))) as (out & E & L & N).
  - lia.
  - split; [now rewrite repeat_length|]. intros x y Hx Hy. split; [lia|]. intros _. unfold px.
    assert (y * ow + x < ow * oh)%nat by now apply idx_bound'. apply nth_error_nth. now apply nth_error_repeat.
  - intros y out Hy (L & N).
    destruct (for_range_inv (fun x => P (fun x' y' => (y' < y)%nat \/ (y' = y /\ (x' < x)%nat))) 0 ow
      (fun ox out => affine_pixel hi inp iw ih ow inv mx my y ox out) out) as (out' & E' & L' & N').
    + lia.
    + split; [easy|]. intros x' y' Hx' Hy'. destruct (N x' y' Hx' Hy') as [N1 N2]. split; intros H; [apply N1; lia|apply N2; lia].
    + intros x s Hx (Ls & Ns). rewrite Hg by lia. assert (Hi : (y * ow + x < ow * oh)%nat) by (apply idx_bound'; lia).
      assert (G : exists s', match g x y with Some v => set_at s (y * ow + x) v | None => Ok s end = Ok s' /\ length s' = (ow * oh)%nat /\
        px ow s' x y = val_of x y /\ forall x' y', (x' < ow)%nat -> (y' < oh)%nat -> ~ (x' = x /\ y' = y) -> px ow s' x' y' = px ow s x' y').
      { unfold val_of. destruct (g x y) as [v|].
        - rewrite set_at_ok by lia. eexists. split; [reflexivity|]. split; [now rewrite upd_length|]. split.
          + unfold px. rewrite upd_nth_same by lia. reflexivity.
          + intros x' y' Hx' Hy' Ne. unfold px. rewrite upd_nth_other; [reflexivity|]. intros E'.
            first [apply idx_inj in E' as [-> ->]; [now apply Ne|lia|lia] | symmetry in E'; apply idx_inj in E' as [-> ->]; [now apply Ne|lia|lia]].
        - exists s. split; [reflexivity|]. split; [easy|]. split; [|easy]. apply Ns; lia. }
      destruct G as (s' & Es & Ls' & Gs & Go). exists s'. split; [exact Es|]. split; [exact Ls'|]. intros x' y' Hx' Hy'.
      destruct (Nat.eq_dec x' x) as [->|Nx]; [destruct (Nat.eq_dec y' y) as [->|Ny]|].
      * split; [now intros _|]. intros H. exfalso. apply H. right. lia.
      * rewrite Go by (try easy; lia). destruct (Ns x y' Hx' Hy') as [N1 N2]. split; intros H; [apply N1|apply N2]; lia.
      * rewrite Go by (try easy; lia). destruct (Ns x' y' Hx' Hy') as [N1 N2]. split; intros H; [apply N1|apply N2]; lia.
    + exists out'. split; [exact E'|]. split; [exact L'|]. intros x' y' Hx' Hy'. destruct (N' x' y' Hx' Hy') as [N1 N2].
      split; intros H; [apply N1; lia|apply N2; lia].
  - exists out. split; [exact E|]. split; [exact L|]. intros x y Hx Hy. now apply N.
Qed.
End Run.

(** One output sample, when its source point is whole *)
Lemma pixel_whole hi inp iw ih ow inv mx my ox oy out sx sy : (1 <= iw)%nat -> (1 <= ih)%nat -> Z.of_nat iw < 2 ^ 24 -> Z.of_nat ih < 2 ^ 24 ->
  length inp = (iw * ih)%nat -> 0 <= hi < 2 ^ 24 -> (forall v, In v inp -> 0 <= v <= hi) ->
  rep (point_x inv (fadd (of_int (Z.of_nat ox)) mx) (fadd (of_int (Z.of_nat oy)) my)) sx ->
  rep (point_y inv (fadd (of_int (Z.of_nat ox)) mx) (fadd (of_int (Z.of_nat oy)) my)) sy ->
  affine_pixel hi inp iw ih ow inv mx my oy ox out =
    match (if (0 <=? sx) && (sx <? Z.of_nat iw - 1) && (0 <=? sy) && (sy <? Z.of_nat ih - 1) then Some (px iw inp (Z.to_nat sx) (Z.to_nat sy)) else None)
    with Some v => set_at out (oy * ow + ox) v | None => Ok out end.
Proof.
  intros W1 H1 W2 H2 Hl Hh Hr Rx Ry. unfold affine_pixel. cbv zeta. set (fx := point_x _ _ _) in *. set (fy := point_y _ _ _) in *.
  assert (R0 : rep (of_int 0) 0) by (apply of_int_rep; lia).
  assert (Rw : rep (of_int (Z.of_nat iw - 1)) (Z.of_nat iw - 1)) by (apply of_int_rep; lia).
  assert (Rh : rep (of_int (Z.of_nat ih - 1)) (Z.of_nat ih - 1)) by (apply of_int_rep; lia).
  rewrite (leb_rep _ _ _ _ R0 Rx), (leb_rep _ _ _ _ R0 Ry), (ltb_rep _ _ _ _ Rx Rw), (ltb_rep _ _ _ _ Ry Rh).
  destruct (Z.leb_spec 0 sx); [|reflexivity]. destruct (Z.ltb_spec sx (Z.of_nat iw - 1)); [|reflexivity].
  destruct (Z.leb_spec 0 sy); [|reflexivity]. destruct (Z.ltb_spec sy (Z.of_nat ih - 1)); [|reflexivity]. cbn [andb].
  assert (Bx : sx < 2 ^ 24) by lia. assert (By : sy < 2 ^ 24) by lia.
  rewrite (to_uint_rep (2 ^ 64 - 1) _ _ ltac:(lia) Rx), (to_uint_rep (2 ^ 64 - 1) _ _ ltac:(lia) Ry).
  replace (Z.max 0 (Z.min (2 ^ 64 - 1) sx)) with sx by lia. replace (Z.max 0 (Z.min (2 ^ 64 - 1) sy)) with sy by lia.
  rewrite !Z2Nat.id by lia.
  assert (I : forall u v, (u < iw)%nat -> (v < ih)%nat -> get_at inp (v * iw + u) = Ok (px iw inp u v) /\ 0 <= px iw inp u v < 2 ^ 24).
  { intros u v Hu Hv. assert (B : (v * iw + u < length inp)%nat) by (rewrite Hl; now apply idx_bound'). split; [now apply get_at_ok|].
    specialize (Hr (px iw inp u v) (nth_In _ _ B)). lia. }
  assert (Lx : (Z.to_nat sx + 1 < iw)%nat) by lia. assert (Ly : (Z.to_nat sy + 1 < ih)%nat) by lia.
  destruct (I (Z.to_nat sx) (Z.to_nat sy)) as [-> B1]; [lia|lia|]. destruct (I (Z.to_nat sx + 1)%nat (Z.to_nat sy)) as [-> B2]; [lia|lia|].
  destruct (I (Z.to_nat sx) (Z.to_nat sy + 1)%nat) as [-> B3]; [lia|lia|]. destruct (I (Z.to_nat sx + 1)%nat (Z.to_nat sy + 1)%nat) as [-> B4]; [lia|lia|].
  cbn [bind].
  assert (F1 : rep (fsub fx (of_int sx)) 0) by (replace 0 with (sx - sx) by lia; apply fsub_rep; [exact Rx|apply of_int_rep; lia|lia]).
  assert (F2 : rep (fsub fy (of_int sy)) 0) by (replace 0 with (sy - sy) by lia; apply fsub_rep; [exact Ry|apply of_int_rep; lia|lia]).
  rewrite (to_uint_rep _ _ _ (proj1 Hh) (blend_exact _ _ _ _ _ _ B1 B2 B3 B4 F1 F2)).
  assert (V : 0 <= px iw inp (Z.to_nat sx) (Z.to_nat sy) <= hi).
  { apply Hr. unfold px. apply nth_In. rewrite Hl. apply idx_bound'; lia. }
  f_equal. clear - V. lia.
Qed.
