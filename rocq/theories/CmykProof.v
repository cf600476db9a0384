(** The 8-bit CMYK conversions undo each other: checked for every pair of a sample and the largest sample of its pixel. *)
From Verif Require Import Base BaseProof F32 DepthModel DepthSpec DepthProof ChannelModel DeintModel ColorModel ColorSpec.

Definition bytes256 : list Z := map Z.of_nat (seq 0 256).
Lemma in_bytes256 z : is_byte z -> In z bytes256.
Proof. unfold is_byte. intros H. apply in_map_iff. exists (Z.to_nat z). split; [lia|]. apply in_seq. lia. Qed.

Definition is_nan (x : f32) : bool := match x with S754_nan => true | _ => false end.
Lemma inks_ordered : let t := map (fun z => (z, ink8 z)) bytes256 in
  forallb (fun ax => forallb (fun by_ => negb (is_nan (snd ax)) && Bool.eqb (SFltb (snd by_) (snd ax)) (fst ax <? fst by_)) t) t = true.
Proof. vm_compute. reflexivity. Qed.
Lemma fmin_ink a b : is_byte a -> is_byte b -> fmin (ink8 a) (ink8 b) = ink8 (Z.max a b).
Proof.
  intros Ha Hb. pose proof inks_ordered as H. cbv zeta in H. rewrite forallb_forall in H.
  assert (P : forall x y, is_byte x -> is_byte y -> is_nan (ink8 x) = false /\ SFltb (ink8 y) (ink8 x) = (x <? y)).
  { intros x y Hx Hy. specialize (H (x, ink8 x) (in_map (fun z => (z, ink8 z)) _ _ (in_bytes256 x Hx))). rewrite forallb_forall in H.
    specialize (H (y, ink8 y) (in_map (fun z => (z, ink8 z)) _ _ (in_bytes256 y Hy))). cbn [fst snd] in H.
    apply andb_true_iff in H as [H1 H2]. apply negb_true_iff in H1. apply Bool.eqb_prop in H2. easy. }
  destruct (P a b Ha Hb) as [Na E], (P b a Hb Ha) as [Nb _].
  assert (X : fmin (ink8 a) (ink8 b) = if SFltb (ink8 b) (ink8 a) then ink8 b else ink8 a).
  { destruct (ink8 a), (ink8 b); try discriminate Na; try discriminate Nb; reflexivity. }
  rewrite X, E. destruct (a <? b) eqn:L; f_equal; lia.
Qed.
Lemma cmyk_pairs : forallb (fun mx => let k := ink8 mx in let inv := fdiv f1 (fsub f1 k) in let k8 := out8 k in
  forallb (fun v => (mx <? v) || (blinn (out8 (fmul (fsub (ink8 v) k) inv)) k8 =? v)) bytes256) bytes256 = true.
Proof. vm_compute. reflexivity. Qed.

Lemma cmyk8_roundtrip r g b : is_byte r -> is_byte g -> is_byte b ->
  let '(c, m, y, k) := rgb_cmyk8 r g b in cmyk_rgb8 c m y k = (r, g, b).
Proof.
  intros Hr Hg Hb. unfold rgb_cmyk8. cbv zeta. rewrite (fmin_ink r g) by easy.
  assert (Hm : is_byte (Z.max r g)) by (unfold is_byte in *; lia). rewrite (fmin_ink (Z.max r g) b) by easy.
  set (mx := Z.max (Z.max r g) b). assert (Hmx : is_byte mx) by (unfold is_byte, mx in *; lia).
  pose proof cmyk_pairs as H. rewrite forallb_forall in H. specialize (H mx (in_bytes256 mx Hmx)). cbv zeta in H. rewrite forallb_forall in H.
  assert (P : forall v, is_byte v -> v <= mx -> blinn (out8 (fmul (fsub (ink8 v) (ink8 mx)) (fdiv f1 (fsub f1 (ink8 mx))))) (out8 (ink8 mx)) = v).
  { intros v Hv Hle. specialize (H v (in_bytes256 v Hv)). apply orb_true_iff in H as [H|H]; lia. }
  unfold cmyk_rgb8. rewrite !P; auto; unfold mx; lia.
Qed.
