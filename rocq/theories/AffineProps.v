(** What the affine transform does to a picture, for transforms with whole entries that keep areas: shifts, mirror images,
    quarter turns, shears and what is composed of them. *)
From Verif Require Import Base BaseProof Loops F32 F32Round GeomSpec GeomProof GeomModel ResizeModel ResizeProof AffineModel AffineSpec AffineProof.

(** The transform built from whole numbers *)
Definition of_ints (m : imap) : affine := Affine (of_int (ia m)) (of_int (ib m)) (of_int (ic m)) (of_int (id m)) (of_int (itx m)) (of_int (ity m)).
Lemma of_ints_rep m K T : small K T m -> K < 2 ^ 24 -> T < 2 ^ 24 -> represents (of_ints m) m.
Proof.
  intros (Ha & Hb & Hc & Hd & He & Hf) HK HT. unfold represents, of_ints. cbn [ta tb tc td ttx tty].
  split; [|split; [|split; [|split; [|split]]]]; apply of_int_rep; lia.
Qed.

(** ** C140: the picture is moved as asked, except for its last column and row
    Full claim: for every invertible transform the result has the size of the box around the moved picture and shows at every
    place the sample that was moved there ([shows … (inside w h)]), blended between neighbours where the source is not whole.
    Proved: entries -4..4 with determinant 1 or -1, shifts and sides up to 65536, and the last column and row of the picture
    count as outside. The full claim is false, see below. *)
Theorem affine_shows_partial hi m inp w h : keeps_area m -> small 4 65536 m -> (1 <= w)%nat -> (1 <= h)%nat -> Z.of_nat w <= 65536 -> Z.of_nat h <= 65536 ->
  length inp = (w * h)%nat -> 0 <= hi <= 65535 -> (forall v, In v inp -> 0 <= v <= hi) ->
  exists out ow oh, affine_image hi (of_ints m) inp w h = Ok (out, ow, oh) /\
    Z.of_nat ow = highest (move_x m) (Z.of_nat w) (Z.of_nat h) - lowest (move_x m) (Z.of_nat w) (Z.of_nat h) /\
    Z.of_nat oh = highest (move_y m) (Z.of_nat w) (Z.of_nat h) - lowest (move_y m) (Z.of_nat w) (Z.of_nat h) /\
    shows m hi inp w h (inside_but_last w h) out ow oh.
Proof.
  intros A S W1 H1 W2 H2 Hl Hh Hr. pose proof (of_ints_rep m _ _ S ltac:(lia) ltac:(lia)) as R.
  set (X := Z.max (Z.of_nat w) (Z.of_nat h)). assert (BX : 0 <= X <= 65536) by (unfold X; lia).
  pose proof (corners_rep _ _ _ _ w h R S ltac:(lia) ltac:(lia)) as C. cbv zeta in C. fold X in C.
  destruct (C ltac:(clear - BX; lia) ltac:(clear - BX; lia)) as ((Lx & Wx & Ox & Ux) & (Ly & Wy & Oy & Uy)). clear C.
  destruct (inverse_rep _ _ _ _ R A S ltac:(lia) ltac:(lia) ltac:(lia) ltac:(lia) ltac:(lia)) as (inv & Ei & Ri).
  pose proof (back_small _ _ _ A S ltac:(lia) ltac:(lia)) as Si.
  unfold affine_image. cbv zeta. rewrite Ei, Wx, Wy.
  set (lx := lowest (move_x m) (Z.of_nat w) (Z.of_nat h)) in *. set (ux := highest (move_x m) (Z.of_nat w) (Z.of_nat h)) in *.
  set (ly := lowest (move_y m) (Z.of_nat w) (Z.of_nat h)) in *. set (uy := highest (move_y m) (Z.of_nat w) (Z.of_nat h)) in *.
  assert (Q : 2 ^ 63 <=? (ux - lx) * (uy - ly) = false).
  { apply Z.leb_gt. apply Z.le_lt_trans with (2 ^ 21 * 2 ^ 21); [|lia]. apply Z.mul_le_mono_nonneg; clear - BX Ox Ux Oy Uy; lia. }
  rewrite Q. set (ow := Z.to_nat (ux - lx)). set (oh := Z.to_nat (uy - ly)).
  assert (Eow : Z.of_nat ow = ux - lx) by (unfold ow; clear - Ox; lia). assert (Eoh : Z.of_nat oh = uy - ly) by (unfold oh; clear - Oy; lia).
  unfold affine_channel. rewrite Ei. cbv zeta. rewrite repeat_length.
  set (mx := least (corners w h (point_x (of_ints m)))) in *. set (my := least (corners w h (point_y (of_ints m)))) in *.
  set (sx := fun ox oy : nat => move_x (back m) (Z.of_nat ox + lx) (Z.of_nat oy + ly)).
  set (sy := fun ox oy : nat => move_y (back m) (Z.of_nat ox + lx) (Z.of_nat oy + ly)).
  set (g := fun ox oy => if (0 <=? sx ox oy) && (sx ox oy <? Z.of_nat w - 1) && (0 <=? sy ox oy) && (sy ox oy <? Z.of_nat h - 1)
                         then Some (px w inp (Z.to_nat (sx ox oy)) (Z.to_nat (sy ox oy))) else None).
  destruct (affine_run hi inp w h ow oh inv mx my g) as (out & Eo & Lo & No).
  - intros ox oy out Hx Hy. apply pixel_whole; [easy|easy|clear - W2; lia|clear - H2; lia|easy|clear - Hh; lia|easy| |].
    + assert (Bx : Z.abs (Z.of_nat ox + lx) <= 8 * 65536 + 65536) by (clear - BX Ox Ux Eow Hx; lia).
      assert (By : Z.abs (Z.of_nat oy + ly) <= 8 * 65536 + 65536) by (clear - BX Oy Uy Eoh Hy; lia).
      refine (proj1 (proj1 (point_rep inv (back m) 4 (2 * (4 * 65536)) (8 * 65536 + 65536) _ _ _ _ Ri Si _ _ Bx By _ _))); [| |lia|lia].
      * apply fadd_rep; [apply of_int_rep; clear - BX Ox Ux Eow Hx; lia|exact Lx|clear - Bx; lia].
      * apply fadd_rep; [apply of_int_rep; clear - BX Oy Uy Eoh Hy; lia|exact Ly|clear - By; lia].
    + assert (Bx : Z.abs (Z.of_nat ox + lx) <= 8 * 65536 + 65536) by (clear - BX Ox Ux Eow Hx; lia).
      assert (By : Z.abs (Z.of_nat oy + ly) <= 8 * 65536 + 65536) by (clear - BX Oy Uy Eoh Hy; lia).
      refine (proj1 (proj2 (point_rep inv (back m) 4 (2 * (4 * 65536)) (8 * 65536 + 65536) _ _ _ _ Ri Si _ _ Bx By _ _))); [| |lia|lia].
      * apply fadd_rep; [apply of_int_rep; clear - BX Ox Ux Eow Hx; lia|exact Lx|clear - Bx; lia].
      * apply fadd_rep; [apply of_int_rep; clear - BX Oy Uy Eoh Hy; lia|exact Ly|clear - By; lia].
  - rewrite Eo. cbn [bind]. exists out, ow, oh. split; [reflexivity|]. split; [exact Eow|]. split; [exact Eoh|]. split; [exact Lo|].
    intros ox oy x y Hx Hy Ex Ey. destruct (back_move m x y A) as [Bx By]. rewrite Ex, Ey in Bx, By. fold lx ly in Bx, By.
    change (sx ox oy = x) in Bx. change (sy ox oy = y) in By. rewrite No by easy. unfold val_of, g. rewrite Bx, By. unfold inside_but_last.
    destruct (Z.leb_spec 0 x), (Z.ltb_spec x (Z.of_nat w - 1)), (Z.leb_spec 0 y), (Z.ltb_spec y (Z.of_nat h - 1)); cbn [andb];
      (split; intros G; [try reflexivity; exfalso; clear - G H H0 H3 H4; lia|try reflexivity; exfalso; apply G; split; split; assumption]).
Qed.
Print Assumptions affine_shows_partial.
(** A quarter turn of a 3 by 3 picture: the top left 2 by 2 samples are shown *)
Example affine_turn_case :
  let m := Imap 0 (-1) 1 0 0 0 in keeps_area m /\ small 4 65536 m /\
  affine_image 255 (of_ints m) [1; 2; 3; 4; 5; 6; 7; 8; 9] 3 3 = Ok ([255; 255; 4; 255; 255; 5; 255; 255; 255], 3%nat, 3%nat).
Proof. cbv zeta. split; [now left|]. split; [unfold small; cbn; lia|]. vm_compute. reflexivity. Qed.

(** The full claim fails for the identity: the last column and row become white, and a picture one sample wide becomes
    entirely white. *)
Theorem affine_identity_refuted :
  ~ (forall hi inp w h, (1 <= w)%nat -> (1 <= h)%nat -> Z.of_nat w <= 65536 -> Z.of_nat h <= 65536 -> length inp = (w * h)%nat -> 0 <= hi <= 65535 ->
     (forall v, In v inp -> 0 <= v <= hi) ->
     exists out ow oh, affine_image hi identity inp w h = Ok (out, ow, oh) /\ shows (Imap 1 0 0 1 0 0) hi inp w h (inside w h) out ow oh).
Proof.
  intros C. destruct (C 255 [1; 2; 3; 4] 2%nat 2%nat) as (out & ow & oh & E & L & N); try (cbn; lia).
  { assert (V : affine_image 255 identity [1; 2; 3; 4] 2 2 = Ok ([1; 255; 255; 255], 2%nat, 2%nat)) by (vm_compute; reflexivity).
    rewrite V in E. injection E as <- <- <-. destruct (N 1%nat 0%nat 1 0) as [N1 _]; try lia; try reflexivity.
    specialize (N1 ltac:(unfold inside; lia)). vm_compute in N1. discriminate. }
Qed.
Print Assumptions affine_identity_refuted.
(** … whatever the picture is: no sample of the last column or row of any picture survives the identity. *)
Theorem affine_identity_white hi inp w h : (1 <= w)%nat -> (1 <= h)%nat -> Z.of_nat w <= 65536 -> Z.of_nat h <= 65536 ->
  length inp = (w * h)%nat -> 0 <= hi <= 65535 -> (forall v, In v inp -> 0 <= v <= hi) ->
  exists out, affine_image hi identity inp w h = Ok (out, w, h) /\
    is_image w h out (fun x y => if (x <? w - 1)%nat && (y <? h - 1)%nat then px w inp x y else hi).
Proof.
  intros W1 H1 W2 H2 Hl Hh Hr.
  assert (A : keeps_area (Imap 1 0 0 1 0 0)) by now left. assert (S : small 4 65536 (Imap 1 0 0 1 0 0)) by (unfold small; cbn; lia).
  destruct (affine_shows_partial hi _ inp w h A S W1 H1 W2 H2 Hl Hh Hr) as (out & ow & oh & E & Ew & Eh & L & N).
  - unfold highest, lowest, move_x, move_y in Ew, Eh. cbn [ia ib ic id itx ity] in Ew, Eh.
    assert (ow = w) by (clear - Ew; lia). assert (oh = h) by (clear - Eh; lia). subst ow oh.
    exists out. split; [exact E|]. split; [exact L|]. intros x y Hx Hy.
    destruct (N x y (Z.of_nat x) (Z.of_nat y) Hx Hy) as [N1 N2].
    + unfold lowest, move_x. cbn [ia ib ic id itx ity]. clear. lia.
    + unfold lowest, move_y. cbn [ia ib ic id itx ity]. clear. lia.
    + rewrite !Nat2Z.id in N1. unfold inside_but_last in N1, N2.
      destruct (Nat.ltb_spec x (w - 1)); [destruct (Nat.ltb_spec y (h - 1))|]; cbn [andb].
      * apply N1. lia.
      * apply N2. lia.
      * apply N2. lia.
Qed.
Print Assumptions affine_identity_white.
Example affine_identity_case : affine_image 255 identity [1; 2; 3; 4; 5; 6] 1 6 = Ok ([255; 255; 255; 255; 255; 255], 1%nat, 6%nat).
Proof. vm_compute. reflexivity. Qed.

(** ** C141: composing and inverting transforms
    Full claim: [s.then(o)] moves every point as [s] followed by [o] does, and [inverse] undoes a transform.
    The order is the other way round: the composition applies [o] first. Proved on whole numbers. *)
Definition after (s o : imap) : imap :=
  Imap (ia s * ia o + ib s * ic o) (ia s * ib o + ib s * id o) (ic s * ia o + id s * ic o) (ic s * ib o + id s * id o)
       (ia s * itx o + ib s * ity o + itx s) (ic s * itx o + id s * ity o + ity s).
Theorem affine_then_partial s o x y : small 1024 65536 s -> small 32 2048 o -> Z.abs x <= 64 -> Z.abs y <= 64 ->
  let c := compose (of_ints s) (of_ints o) in
  rep (point_x c (of_int x) (of_int y)) (move_x s (move_x o x y) (move_y o x y)) /\
  rep (point_y c (of_int x) (of_int y)) (move_y s (move_x o x y) (move_y o x y)).
Proof.
  intros S O Hx Hy c. pose proof (of_ints_rep s _ _ S ltac:(lia) ltac:(lia)) as Rs. pose proof (of_ints_rep o _ _ O ltac:(lia) ltac:(lia)) as Ro.
  assert (Sc : small 65536 (2 * (1024 * 2048) + 65536) (after s o) /\ represents c (after s o)).
  { destruct Rs as (R1 & R2 & R3 & R4 & R5 & R6), Ro as (Q1 & Q2 & Q3 & Q4 & Q5 & Q6), S as (A1 & A2 & A3 & A4 & A5 & A6), O as (B1 & B2 & B3 & B4 & B5 & B6).
    assert (T : forall p q u v zp zq zu zv, rep p zp -> rep q zq -> rep u zu -> rep v zv -> Z.abs zp <= 1024 -> Z.abs zq <= 1024 -> Z.abs zu <= 32 -> Z.abs zv <= 32 ->
      Z.abs (zp * zu + zq * zv) <= 65536 /\ rep (fadd (fmul p u) (fmul q v)) (zp * zu + zq * zv)).
    { clear. intros p q u v zp zq zu zv P Q U V HP HQ HU HV. pose proof (abs_mul_le _ _ _ _ HP HU). pose proof (abs_mul_le _ _ _ _ HQ HV).
      split; [lia|]. apply fadd_rep; [apply fmul_rep; [easy|easy|lia]|apply fmul_rep; [easy|easy|lia]|lia]. }
    pose proof (line_rep _ _ _ _ _ _ _ _ _ _ 1024 2048 65536 R1 R2 R5 Q5 Q6 A1 A2 A5 B5 B6 ltac:(lia) ltac:(lia)) as [L1 L2].
    pose proof (line_rep _ _ _ _ _ _ _ _ _ _ 1024 2048 65536 R3 R4 R6 Q5 Q6 A3 A4 A6 B5 B6 ltac:(lia) ltac:(lia)) as [L3 L4].
    destruct (T _ _ _ _ _ _ _ _ R1 R2 Q1 Q3 A1 A2 B1 B3) as [T1 T2]. destruct (T _ _ _ _ _ _ _ _ R1 R2 Q2 Q4 A1 A2 B2 B4) as [T3 T4].
    destruct (T _ _ _ _ _ _ _ _ R3 R4 Q1 Q3 A3 A4 B1 B3) as [T5 T6]. destruct (T _ _ _ _ _ _ _ _ R3 R4 Q2 Q4 A3 A4 B2 B4) as [T7 T8].
    split; [unfold small, after; cbn [ia ib ic id itx ity]; exact (conj T1 (conj T3 (conj T5 (conj T7 (conj L2 L4)))))|].
    unfold represents, c, compose, after. cbn [ta tb tc td ttx tty ia ib ic id itx ity].
    exact (conj T2 (conj T4 (conj T6 (conj T8 (conj L1 L3))))). }
  destruct Sc as [Sc Rc].
  destruct (point_rep c (after s o) _ _ 64 _ _ x y Rc Sc ltac:(apply of_int_rep; lia) ltac:(apply of_int_rep; lia) Hx Hy ltac:(lia) ltac:(lia)) as [[P _] [Q _]].
  split.
  - replace (move_x s _ _) with (move_x (after s o) x y); [exact P|]. unfold move_x, move_y, after. cbn [ia ib ic id itx ity]. ring.
  - replace (move_y s _ _) with (move_y (after s o) x y); [exact Q|]. unfold move_x, move_y, after. cbn [ia ib ic id itx ity]. ring.
Qed.
Print Assumptions affine_then_partial.

(** [s.then(o)] does not apply [s] first: scaling by 2 "then" shifting by 1 sends 0 to 2. *)
Theorem affine_then_order_refuted :
  ~ (forall s o x y, point_x (compose s o) x y = point_x o (point_x s x y) (point_y s x y)).
Proof. intros C. specialize (C (scaling (of_int 2) (of_int 2)) (translation (of_int 1) (of_int 0)) (of_int 0) (of_int 0)). vm_compute in C. discriminate. Qed.
Print Assumptions affine_then_order_refuted.
Example affine_then_case : point_x (compose (scaling (of_int 2) (of_int 2)) (translation (of_int 1) (of_int 0))) (of_int 5) (of_int 0) = of_int 12.
Proof. vm_compute. reflexivity. Qed.

(** Inverting undoes a move of whole points *)
Theorem affine_inverse_partial m x y : keeps_area m -> small 4 65536 m -> Z.abs x <= 65536 -> Z.abs y <= 65536 ->
  exists inv, inverse (of_ints m) = Some inv /\
    let px := point_x (of_ints m) (of_int x) (of_int y) in let py := point_y (of_ints m) (of_int x) (of_int y) in
    rep (point_x inv px py) x /\ rep (point_y inv px py) y.
Proof.
  intros A S Hx Hy. pose proof (of_ints_rep m _ _ S ltac:(lia) ltac:(lia)) as R.
  destruct (inverse_rep _ _ _ _ R A S ltac:(lia) ltac:(lia) ltac:(lia) ltac:(lia) ltac:(lia)) as (inv & Ei & Ri).
  pose proof (back_small _ _ _ A S ltac:(lia) ltac:(lia)) as Si. exists inv. split; [exact Ei|]. cbv zeta.
  destruct (point_rep _ _ _ _ 65536 _ _ x y R S ltac:(apply of_int_rep; lia) ltac:(apply of_int_rep; lia) Hx Hy ltac:(lia) ltac:(lia)) as [[P P'] [Q Q']].
  destruct (point_rep _ _ _ _ _ _ _ _ _ Ri Si P Q P' Q' ltac:(lia) ltac:(lia)) as [[U _] [V _]].
  destruct (back_move m x y A) as [Bx By]. rewrite Bx in U. rewrite By in V. now split.
Qed.
Print Assumptions affine_inverse_partial.
Example affine_inverse_case : keeps_area (Imap 2 1 1 1 7 (-3)) /\ small 4 65536 (Imap 2 1 1 1 7 (-3)) /\
  option_map (fun i => point_x i (of_int 12) (of_int 1)) (inverse (of_ints (Imap 2 1 1 1 7 (-3)))) = Some (of_int 1).
Proof. split; [now left|]. split; [unfold small; cbn; lia|vm_compute; reflexivity]. Qed.

(** A transform with whole entries that flattens the plane is refused, for any picture *)
Theorem affine_flat_refused hi m inp w h : small 1024 65536 m -> ia m * id m - ib m * ic m = 0 -> affine_image hi (of_ints m) inp w h = Err EOther.
Proof.
  intros S D. destruct (of_ints_rep m _ _ S ltac:(lia) ltac:(lia)) as (R1 & R2 & R3 & R4 & _). destruct S as (A1 & A2 & A3 & A4 & _).
  assert (Z0 : rep (fsub (fmul (ta (of_ints m)) (td (of_ints m))) (fmul (tb (of_ints m)) (tc (of_ints m)))) 0).
  { rewrite <- D. pose proof (abs_mul_le _ _ _ _ A1 A4). pose proof (abs_mul_le _ _ _ _ A2 A3).
    apply fsub_rep; [apply fmul_rep; [easy|easy|lia]|apply fmul_rep; [easy|easy|lia]|lia]. }
  unfold affine_image, inverse. cbv zeta. destruct (fsub _ _) as [s|s| |s p e]; destruct Z0 as [F V]; try easy.
  exfalso. destruct (bounded_inv 24 128 ltac:(lia) _ _ F) as (He & _ & _). change (SpecFloat.emin 24 128) with (-149) in *. cbn [sval] in V.
  change (SpecFloat.emin 24 128) with (-149) in V. assert (0 < Zpos p * 2 ^ (e - -149)) by (apply Z.mul_pos_pos; [easy|apply Z.pow_pos_nonneg; lia]).
  destruct s; cbn [cond_Zopp] in V; lia.
Qed.
Print Assumptions affine_flat_refused.
Example affine_flat_case : small 1024 65536 (Imap 2 4 3 6 0 0) /\ 2 * 6 - 4 * 3 = 0 /\ affine_image 255 (of_ints (Imap 2 4 3 6 0 0)) [1; 2; 3; 4] 2 2 = Err EOther.
Proof. split; [unfold small; cbn; lia|]. split; [reflexivity|vm_compute; reflexivity]. Qed.
