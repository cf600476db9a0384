(** Arithmetic behind the dimensions of rotated pictures. *)
From Verif Require Import Base BaseProof Loops Slices BmpModel BmpProof GeomModel GeomSpec GeomProof F32 F32Round OrientModel.
From Coq Require Import SpecFloat.
Local Open Scope Z_scope.

Lemma absorb h x L : 0 <= L <= 23 -> 2 ^ L <= h < 2 ^ (L + 1) -> 0 <= x < 2 ^ (L + 125) -> frnd 0 (x + h * 2 ^ 149) = h * 2 ^ 149.
Proof.
  intros HL Hh Hx. set (m := x + h * 2 ^ 149). assert (P1 : 2 ^ L * 2 ^ 149 = 2 ^ (L + 149)) by (rewrite <- Z.pow_add_r by lia; reflexivity).
  assert (P2 : 2 ^ (L + 150) = 2 ^ (L + 1) * 2 ^ 149) by (rewrite <- Z.pow_add_r by lia; f_equal; lia).
  assert (P3 : 2 ^ (L + 125) <= 2 ^ 148) by (apply Z.pow_le_mono_r; lia). assert (P0 : 0 < 2 ^ L) by (apply Z.pow_pos_nonneg; lia).
  change (2 ^ 148) with 356811923176489970264571492362373784095686656 in P3.
  change (2 ^ 149) with 713623846352979940529142984724747568191373312 in *.
  assert (Lm : Z.log2 m = L + 149) by (apply Z.log2_unique; [lia|]; replace (Z.succ (L + 149)) with (L + 150) by lia; split; [rewrite <- P1|rewrite P2]; unfold m; nia).
  assert (Pm : 0 < m) by (unfold m; nia).
  unfold rnds. rewrite Z.sgn_pos, Z.abs_eq by lia. rewrite Z.mul_1_l. unfold rnd. rewrite Lm. replace (Z.max 0 (L + 149 + 1 - 24)) with (L + 126) by lia.
  rewrite Z.sub_0_r.
  assert (E : m = h * 2 ^ (23 - L) * 2 ^ (L + 126) + x).
  { unfold m. rewrite <- Z.mul_assoc, <- Z.pow_add_r by lia. replace (23 - L + (L + 126)) with 149 by lia. change (2 ^ 149) with 713623846352979940529142984724747568191373312. lia. }
  assert (Px : 2 * x < 2 ^ (L + 126)) by (replace (L + 126) with (1 + (L + 125)) by lia; rewrite Z.pow_add_r by lia; lia).
  unfold rne. replace (m / 2 ^ (L + 126)) with (h * 2 ^ (23 - L)) by (apply (Z.div_unique _ _ _ x); lia).
  replace (m mod 2 ^ (L + 126)) with x by (apply (Z.mod_unique _ _ (h * 2 ^ (23 - L))); lia).
  replace (2 * x <? 2 ^ (L + 126)) with true by lia. rewrite <- Z.mul_assoc, <- Z.pow_add_r by lia. replace (23 - L + (L + 126)) with 149 by lia.
  reflexivity.
Qed.

Lemma ceil_ok x : ffin x -> 0 <= fval x -> ceil_usize x = Z.min (2 ^ 64 - 1) (- (- fval x / 2 ^ 149)).
Proof.
  intros F P. destruct x as [s|s| |s m e]; try easy.
  destruct (bounded_inv 24 128 ltac:(lia) _ _ F) as (He & _ & _). cbn [sval ceil_usize] in *. change (SpecFloat.emin 24 128) with (-149) in *.
  replace (e - -149) with (e + 149) in * by lia. destruct s; cbn [cond_Zopp] in *.
  - exfalso. assert (0 < 2 ^ (e + 149)) by (apply Z.pow_pos_nonneg; lia). nia.
  - f_equal. destruct (0 <=? e) eqn:E.
    + replace (e + 149) with (e + 149) by lia. rewrite Z.pow_add_r by lia. rewrite Z.mul_assoc, <- Z.mul_opp_l, Z.div_mul by lia. lia.
    + f_equal. replace (2 ^ 149) with (2 ^ (e + 149) * 2 ^ (- e)) by (rewrite <- Z.pow_add_r by lia; f_equal; lia).
      rewrite <- Z.mul_opp_l. rewrite (Z.mul_comm _ (2 ^ (e + 149))). rewrite Z.div_mul_cancel_l; [reflexivity| |];
        apply Z.pow_nonzero; lia.
Qed.
Lemma ceil_rep x a : rep x a -> 0 <= a < 2 ^ 64 -> ceil_usize x = a.
Proof. intros [F V] H. rewrite ceil_ok, V by (try easy; rewrite V; lia). rewrite <- Z.mul_opp_l, Z.div_mul by lia. lia. Qed.

(** One side of the picture: the product with the cosine is too small to matter. *)
Lemma side_ok a b c s : 0 <= a < 2 ^ 24 -> 0 < b < 2 ^ 24 -> rep s 1 -> ffin c -> 0 <= fval c ->
  a * fval c * 2 ^ 48 <= 2 ^ Z.log2 b * 2 ^ 149 * (2 ^ 24 - 1) ->
  ceil_usize (fadd (fmul (of_int a) c) (fmul (of_int b) s)) = b /\ ceil_usize (fadd (fmul (of_int b) s) (fmul (of_int a) c)) = b.
Proof.
  intros Ha Hb Hs Fc Pc H. set (L := Z.log2 b) in *.
  assert (HL : 2 ^ L <= b < 2 ^ (L + 1)) by (apply Z.log2_spec; lia).
  assert (L0 : 0 <= L <= 23) by (split; [apply Z.log2_nonneg|]; assert (L < 24); [apply Z.log2_lt_pow2; lia|lia]).
  destruct (of_int_rep a ltac:(lia)) as [Fa Va]. pose proof (of_int_rep b ltac:(lia)) as Rb.
  pose proof (fmul_rep _ _ _ _ Rb Hs ltac:(lia)) as Rm. rewrite Z.mul_1_r in Rm.
  set (bs := fmul (of_int b) s) in *. clearbody bs.
  pose proof (mul_ok 24 128 ltac:(lia) ltac:(lia) (of_int a) c Fa Fc) as M. rewrite Va in M.
  replace (a * 2 ^ 149 * fval c) with (a * fval c * 2 ^ 149) in M by ring. change (- SpecFloat.emin 24 128) with (0 + 149) in M.
  rewrite rnds_scale in M by lia.
  assert (B : 0 <= frnd 0 (a * fval c) <= (2 ^ 24 - 1) * 2 ^ (L + 101)).
  { assert (E0 : frnd 0 0 = 0) by reflexivity.
    assert (P : 2 ^ L * 2 ^ 149 = 2 ^ (L + 101) * 2 ^ 48) by (rewrite <- !Z.pow_add_r by lia; f_equal; lia). rewrite P in H.
    assert (H' : a * fval c <= (2 ^ 24 - 1) * 2 ^ (L + 101)) by (apply (Z.mul_le_mono_pos_r _ _ (2 ^ 48)); [lia|]; lia).
    assert (Q : 0 <= a * fval c) by nia.
    rewrite <- E0 at 1. rewrite <- (rnds_id 24 ltac:(lia) (2 ^ 24 - 1) (L + 101)) by (try lia; reflexivity).
    split; apply rnds_mono; lia. }
  assert (B2 : 0 <= frnd 0 (a * fval c) < 2 ^ (L + 125)).
  { replace (L + 125) with (24 + (L + 101)) by lia. rewrite Z.pow_add_r by lia. assert (0 < 2 ^ (L + 101)) by (apply Z.pow_pos_nonneg; lia). lia. }
  destruct M as [Fm Vm].
  { unfold fits. change (128 - SpecFloat.emin 24 128) with 277. assert (2 ^ (L + 125) < 2 ^ 277) by (apply Z.pow_lt_mono_r; lia). lia. }
  fold (fmul (of_int a) c) in Fm, Vm. set (ac := fmul (of_int a) c) in *. clearbody ac. destruct Rm as [Fb Vb].
  assert (AB := absorb b (fval ac) L L0 HL ltac:(rewrite Vm; exact B2)).
  split; apply (ceil_rep _ b); try lia.
  - pose proof (add_ok 24 128 ltac:(lia) ltac:(lia) ac bs Fm Fb) as A. rewrite Vb, AB in A. apply A, fits_int. lia.
  - pose proof (add_ok 24 128 ltac:(lia) ltac:(lia) bs ac Fb Fm) as A. rewrite Vb, Z.add_comm, AB in A. apply A, fits_int. lia.
Qed.

(** ** Whole pictures *)
From Verif Require Import OrientSpec.

Lemma mapM_rel {A B} (f : A -> res B) (R : A -> B -> Prop) l :
  Forall (fun c => exists d, f c = Ok d /\ R c d) l -> exists ds, mapM f l = Ok ds /\ Forall2 R l ds.
Proof.
  induction 1 as [|c l (d & E & Hd) _ (ds & E' & F)]; [now exists []|]. exists (d :: ds). cbn [mapM]. rewrite E. cbn [bind]. rewrite E'. now split; [|constructor].
Qed.

Lemma confirm_ok p : Forall (fun c => length c = (p_w p * p_h p)%nat) (p_chans p) -> confirm p = Ok tt.
Proof.
  intros H. unfold confirm. replace (forallb _ _) with true; [easy|]. symmetry. apply forallb_forall. intros c Hc. rewrite Forall_forall in H.
  rewrite (H c Hc). apply Nat.eqb_eq. lia.
Qed.
Lemma confirm_inv p : confirm p = Ok tt -> (0 < p_size p)%nat -> Forall (fun c => length c = (p_w p * p_h p)%nat) (p_chans p).
Proof.
  unfold confirm. destruct (forallb _ _) eqn:E; [|easy]. intros _ H0. rewrite forallb_forall in E. apply Forall_forall. intros c Hc. specialize (E c Hc).
  apply Nat.eqb_eq in E. nia.
Qed.
Lemma oriented_lengths b p q : oriented b p q -> Forall (fun c => length c = (p_w q * p_h q)%nat) (p_chans q).
Proof. intros (_ & _ & _ & F). induction F as [|c d l l' H _ IH]; constructor; [apply H|exact IH]. Qed.
Lemma oriented_valid b p q : valid p -> oriented b p q -> valid q.
Proof.
  intros (W & H & S & _) O. pose proof (oriented_lengths b p q O) as L. destruct O as (Ew & Eh & Es & _). unfold valid. rewrite Es. repeat split; try assumption.
  - rewrite Ew. now destruct (sideways b).
  - rewrite Eh. now destruct (sideways b).
Qed.
Lemma execute_ok impl b p q : valid p -> impl p = Ok q -> oriented b p q -> execute impl p = Ok q.
Proof.
  intros V E O. unfold execute. rewrite confirm_ok by apply V. cbn [bind]. rewrite E. cbn [bind].
  rewrite confirm_ok by (eapply oriented_lengths; exact O). reflexivity.
Qed.

Lemma on_channels_ok f p q w h g : Forall (fun c => length c = (p_w p * p_h p)%nat) (p_chans p) ->
  (forall c, length c = (p_w p * p_h p)%nat -> exists d, f c = Ok d /\ is_image w h d (g c)) ->
  q = Pic (p_w p) (p_h p) (p_size p) -> exists cs, on_channels f p = Ok (q cs) /\ Forall2 (fun c d => is_image w h d (g c)) (p_chans p) cs.
Proof.
  intros L F ->. unfold on_channels. destruct (mapM_rel f (fun c d => is_image w h d (g c)) (p_chans p)) as (ds & -> & H).
  - eapply Forall_impl; [|exact L]. exact F.
  - exists ds. now split.
Qed.

Lemma flip_h_ok p : valid p -> exists q, flip_h_impl p = Ok q /\ oriented 2 p q.
Proof.
  intros (W & H & S & L). destruct (on_channels_ok (flop (p_w p)) p _ (p_w p) (p_h p) (fun c x y => px (p_w p) c (p_w p - 1 - x) y) L (fun c Lc => flop_spec _ _ c W Lc) eq_refl) as (cs & E & F).
  exists (Pic (p_w p) (p_h p) (p_size p) cs). split; [exact E|]. repeat split; try reflexivity. exact F.
Qed.
Lemma flip_v_ok p : valid p -> exists q, flip_v_impl p = Ok q /\ oriented 4 p q.
Proof.
  intros (W & H & S & L). destruct (on_channels_ok (vertical_flip (p_w p)) p _ (p_w p) (p_h p) (fun c x y => px (p_w p) c x (p_h p - 1 - y)) L (fun c Lc => vflip_spec _ _ c W Lc) eq_refl) as (cs & E & F).
  exists (Pic (p_w p) (p_h p) (p_size p) cs). split; [exact E|]. repeat split; try reflexivity. exact F.
Qed.
Lemma transpose_ok checked p : valid p -> (8 <= p_w p)%nat -> (8 <= p_h p)%nat -> exists q, transpose_impl checked p = Ok q /\ oriented 5 p q.
Proof.
  intros (W & H & S & L) W8 H8.
  assert (D1 : forall c, length c = (p_w p * p_h p)%nat -> exists d, transpose checked (p_w p) (p_h p) c (repeat 0 (p_w p * p_h p)) = Ok d /\ is_image (p_h p) (p_w p) d (fun x y => px (p_w p) c y x)).
  { intros c Lc. apply transpose_spec; try assumption. now rewrite repeat_length. }
  destruct (on_channels_ok _ p _ (p_h p) (p_w p) _ L D1 eq_refl) as (cs & E & F).
  exists (Pic (p_h p) (p_w p) (p_size p) cs). unfold transpose_impl. rewrite E. split; [reflexivity|]. repeat split; try reflexivity. exact F.
Qed.

(** The dimensions after a quarter turn. *)
Lemma dims_ok trig t w h : good_trig (trig t) -> (0 < w)%nat -> (0 < h)%nat -> close_sides w h -> change_dims trig t w h = (h, w).
Proof.
  intros (Hs & Fc & Bc) W H (Lw & Lh & S1 & S2). unfold change_dims. destruct (trig t) as [c s]. cbn [fst snd] in *.
  assert (Pc : 0 <= fval (fabs c)).
  { destruct c as [n|n| |n m e]; cbn [fabs sval]; try lia. cbn [cond_Zopp]. apply Z.mul_nonneg_nonneg; [easy|apply Z.pow_nonneg; lia]. }
  set (C := fval (fabs c)) in *.
  assert (K : forall a b, 0 <= a -> 3 * a <= 4 * 2 ^ Z.log2 b -> a * C * 2 ^ 48 <= 2 ^ Z.log2 b * 2 ^ 149 * (2 ^ 24 - 1)).
  { clear - Pc Bc. intros a b Ha Hab. set (L := 2 ^ Z.log2 b) in *. clearbody L C. change (2 ^ 149) with (2 ^ 101 * 2 ^ 48). set (P := 2 ^ 101) in *.
    assert (HP : 0 < P) by (unfold P; lia). clearbody P.
    assert (a * C <= L * P * (2 ^ 24 - 1)); [|nia].
    transitivity (a * (12303662 * P)); [nia|]. assert (a * 12303662 <= L * (2 ^ 24 - 1)) by lia. nia. }
  destruct (side_ok (Z.of_nat w) (Z.of_nat h) (fabs c) (fabs s)) as [E1 _]; [lia|lia|exact Hs|exact Fc|exact Pc|apply K; lia|].
  destruct (side_ok (Z.of_nat h) (Z.of_nat w) (fabs c) (fabs s)) as [_ E2]; [lia|lia|exact Hs|exact Fc|exact Pc|apply K; lia|].
  rewrite E1, E2, !Nat2Z.id. reflexivity.
Qed.

Lemma rotate_quarter_ok trig t b p : (t = T90 /\ b = 6 \/ t = T270 /\ b = 8) -> valid p -> p_size p = 1%nat ->
  change_dims trig t (p_w p) (p_h p) = (p_h p, p_w p) -> exists q, rotate_impl trig t p = Ok q /\ oriented b p q.
Proof.
  intros T (W & H & S & L) S1 D.
  assert (D1 : forall c, length c = (p_w p * p_h p)%nat -> exists d, rotate_channel t p c = Ok d /\ is_image (p_h p) (p_w p) d (fun x y => let '(u, v) := source b (p_w p) (p_h p) x y in px (p_w p) c u v)).
  { intros c Lc. unfold rotate_channel. rewrite S1, Nat.mod_1_r, Nat.div_1_r. cbn [Nat.eqb negb].
    destruct T as [[-> ->]|[-> ->]]; cbn [source]; [apply rotate_90_spec|apply rotate_270_spec]; try assumption; now rewrite repeat_length. }
  destruct (on_channels_ok (rotate_channel t p) p _ (p_h p) (p_w p) _ L D1 eq_refl) as (cs & E & F).
  exists (Pic (p_h p) (p_w p) (p_size p) cs). unfold rotate_impl. rewrite E. cbn [bind p_chans]. rewrite D.
  destruct T as [[-> ->]|[-> ->]]; (split; [reflexivity|]); repeat split; try reflexivity; exact F.
Qed.
Lemma rotate_half_ok trig p : valid p -> p_size p = 1%nat -> p_w p = 1%nat -> exists q, rotate_impl trig T180 p = Ok q /\ oriented 3 p q.
Proof.
  intros (W & H & S & L) S1 W1.
  assert (D1 : forall c, length c = (p_w p * p_h p)%nat -> exists d, rotate_channel T180 p c = Ok d /\ is_image (p_w p) (p_h p) d (fun x y => px (p_w p) c (p_w p - 1 - x) (p_h p - 1 - y))).
  { intros c Lc. unfold rotate_channel. rewrite S1, Nat.mod_1_r, Nat.div_1_r, repeat_length, Lc, !Nat.eqb_refl. cbn [negb Nat.eqb]. rewrite W1 in *. now apply rotate_180_narrow. }
  destruct (on_channels_ok (rotate_channel T180 p) p _ (p_w p) (p_h p) _ L D1 eq_refl) as (cs & E & F).
  exists (Pic (p_w p) (p_h p) (p_size p) cs). unfold rotate_impl. rewrite E. split; [reflexivity|]. repeat split; try reflexivity. exact F.
Qed.

Lemma Forall2_compose {A B C} (R : A -> B -> Prop) (S : B -> C -> Prop) (T : A -> C -> Prop) l m n :
  (forall a b c, R a b -> S b c -> T a c) -> Forall2 R l m -> Forall2 S m n -> Forall2 T l n.
Proof. intros H F. revert n. induction F; intros n G; inversion_clear G; constructor; eauto. Qed.

Lemma compose_7 p q r : oriented 8 p q -> oriented 2 q r -> oriented 7 p r.
Proof.
  intros (W & H & S & F) (W' & H' & S' & F'). change (sideways 8) with true in *. change (sideways 2) with false in *. cbv iota in *.
  unfold oriented. change (sideways 7) with true. cbv iota. rewrite W', H', S', W, H, S. repeat split; try reflexivity.
  eapply Forall2_compose; [|exact F|exact F']. cbv beta. cbn [source]. rewrite W', H', W, H. intros a b c [La Pa] [Lb Pb]. split; [exact Lb|].
  intros x y Hx Hy. rewrite Pb by assumption. rewrite Pa by lia. f_equal.
Qed.

(** The outputs keep their lengths. *)
Lemma range_length {B : Type} (f : nat -> list B -> res (list B)) lo hi o o' :
  (forall k o o', f k o = Ok o' -> length o' = length o) -> for_range lo hi f o = Ok o' -> length o' = length o.
Proof.
  intros H. unfold for_range. generalize (hi - lo)%nat. intros n. revert lo o. induction n as [|n IH]; intros lo o; cbn [for_loop].
  - intros E. now inversion E.
  - destruct (f lo o) as [o1| | |] eqn:E1; cbn [bind]; try easy. intros E. rewrite (IH _ _ E). eapply H, E1.
Qed.
Lemma rotate_channel_length t p c d : t <> T180 -> rotate_channel t p c = Ok d -> length d = (p_w p * p_h p / p_size p)%nat.
Proof.
  intros T. unfold rotate_channel. destruct (negb _); [easy|].
  destruct t; [|easy|]; unfold rotate_90, rotate_270; (destruct (_ =? 0)%nat; [easy|]); intros E; apply range_length in E; rewrite ?repeat_length in E; try exact E.
  - intros k o o'. destruct (_ <? _)%nat; [easy|]. apply range_length. intros x q q'. destruct (get_at c _); cbn [bind]; try easy. intros F. inversion_clear F. apply upd_length.
  - intros k o o'. apply range_length. intros x q q'. destruct (get_at c _); cbn [bind]; try easy. intros F. inversion_clear F. apply upd_length.
Qed.
Lemma mapM_cons_inv {A B} (f : A -> res B) c l ds : mapM f (c :: l) = Ok ds -> exists d ds', f c = Ok d /\ mapM f l = Ok ds' /\ ds = d :: ds'.
Proof.
  cbn [mapM]. destruct (f c) as [d| | |]; cbn [bind]; try easy. destruct (mapM f l) as [ds'| | |]; cbn [bind]; try easy. intros E. inversion_clear E. now exists d, ds'.
Qed.

(** A picture whose channels after a quarter turn do not have the length for the new dimensions. *)
Lemma quarter_fails trig t p : t <> T180 -> valid p -> p_chans p <> [] ->
  (let '(w, h) := change_dims trig t (p_w p) (p_h p) in w * h <> p_w p * p_h p / p_size p)%nat -> forall q, execute (rotate_impl trig t) p <> Ok q.
Proof.
  intros T (W & H & S & L) N D q E. unfold execute in E. rewrite confirm_ok in E by exact L. cbn [bind] in E. unfold rotate_impl, on_channels in E.
  destruct (p_chans p) as [|c l] eqn:Ep; [easy|]. destruct (mapM (rotate_channel t p) (c :: l)) as [ds| | |] eqn:Em; cbn [bind] in E; try easy.
  apply mapM_cons_inv in Em. destruct Em as (d & ds' & Ec & _ & ->). apply rotate_channel_length in Ec; [|exact T].
  cbn [p_chans] in E. destruct (change_dims trig t (p_w p) (p_h p)) as [w h].
  assert (E' : (do q0 <- Ok (Pic w h (p_size p) (d :: ds')) ; do _ <- confirm q0 ; Ok q0) = Ok q) by (destruct t; [exact E|easy|exact E]). clear E. cbn [bind] in E'.
  destruct (confirm _) as [[]| | |] eqn:C; try easy. apply confirm_inv in C; cbn [p_size p_chans p_w p_h] in *; [|lia]. inversion_clear C. lia.
Qed.
Lemma half_fails trig p : valid p -> (1 < p_size p)%nat -> p_chans p <> [] -> forall q, execute (rotate_impl trig T180) p <> Ok q.
Proof.
  intros (W & H & S & L) S1 N q E. unfold execute in E. rewrite confirm_ok in E by exact L. cbn [bind] in E. unfold rotate_impl, on_channels in E.
  destruct (p_chans p) as [|c l] eqn:Ep; [easy|]. inversion_clear L as [|? ? Lc _].
  destruct (mapM (rotate_channel T180 p) (c :: l)) as [ds| | |] eqn:Em; cbn [bind] in E; try easy.
  apply mapM_cons_inv in Em. destruct Em as (d & ds' & Ec & _ & ->). unfold rotate_channel in Ec. destruct (negb _); [easy|]. rewrite repeat_length in Ec.
  replace (p_w p * p_h p / p_size p =? length c)%nat with false in Ec; [easy|]. symmetry. apply Nat.eqb_neq.
  assert (p_w p * p_h p / p_size p < p_w p * p_h p)%nat by (apply Nat.div_lt; nia). lia.
Qed.
