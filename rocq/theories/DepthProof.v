(** Proofs about bit depth conversion: the conversions act sample by sample, and the samples are finite in number. *)
From Verif Require Import Base BaseProof F32 DepthModel DepthSpec.

Lemma zip_write_map {A B} (f : A -> B) from to : length to = length from -> zip_write f from to = map f from.
Proof. intros H. unfold zip_write. rewrite H, firstn_all, skipn_all2 by lia. apply app_nil_r. Qed.

(** Every value below [n] *)
Fixpoint all_from (p : Z -> bool) (n : nat) (z : Z) : bool := match n with O => true | S n' => p z && all_from p n' (z + 1) end.
Lemma all_from_ok p n : forall a, all_from p n a = true -> forall z, a <= z < a + Z.of_nat n -> p z = true.
Proof.
  induction n as [|n IH]; cbn [all_from]; intros a H z Hz; [lia|]. apply andb_true_iff in H as [H1 H2].
  destruct (Z.eq_dec z a) as [->|N]; [easy|]. apply (IH (a + 1)); [easy|lia].
Qed.
Definition all_below (p : Z -> bool) (n : nat) : bool := all_from p n 0.
Lemma all_below_ok p n : all_below p n = true -> forall z, 0 <= z < Z.of_nat n -> p z = true.
Proof. intros H z Hz. apply (all_from_ok p n 0); [easy|lia]. Qed.

Lemma u8_to_u16_exact x : is_byte x -> u8_to_u16 65535 x = 257 * x.
Proof.
  intros H. apply Z.eqb_eq. apply (all_below_ok (fun x => u8_to_u16 65535 x =? 257 * x) (Z.to_nat 256)); [vm_compute; reflexivity|].
  unfold is_byte in H. lia.
Qed.
Lemma u16_to_u8_exact x : is_u16 x -> u16_to_u8 65535 x = x / 257.
Proof. unfold is_u16. intros H. unfold u16_to_u8. rewrite Z.eqb_refl. apply Z.mod_small. lia. Qed.
Lemma u8_float_u8 x : is_byte x -> float_to 255 (int_to_float 255 x) = x.
Proof.
  intros H. apply Z.eqb_eq. apply (all_below_ok (fun x => float_to 255 (int_to_float 255 x) =? x) (Z.to_nat 256)); [vm_compute; reflexivity|].
  unfold is_byte in H. lia.
Qed.
Lemma to_uint_range hi x : 0 <= hi -> 0 <= to_uint hi x <= hi.
Proof.
  intros H. destruct x as [s|s| |s m e]; cbn [to_uint]; try lia; destruct s; try lia.
  destruct (0 <=? e) eqn:E.
  - assert (0 <= Z.pos m * 2 ^ e) by (apply Z.mul_nonneg_nonneg; [lia|apply Z.pow_nonneg; lia]). lia.
  - assert (0 <= Z.pos m / 2 ^ (- e)) by (apply Z.div_pos; [lia|apply Z.pow_pos_nonneg; lia]). lia.
Qed.
(** All 65536 values in turn *)
Lemma recip16 : fdiv (of_int 1) (of_int 65535) = S754_finite false 8388736 (-39).
Proof. vm_compute. reflexivity. Qed.
Lemma u16_float_u16_all : all_below (fun x =>
  let y := to_uint 65535 (fclamp (fmul (of_int 65535) (fmul (of_int x) (S754_finite false 8388736 (-39)))) (of_int 0) (of_int 65535)) in
  (x - 1 <=? y) && (y <=? x)) (Z.to_nat 65536) = true.
Proof. vm_compute. reflexivity. Qed.
Lemma u16_float_u16 x : is_u16 x -> x - 1 <= float_to 65535 (int_to_float 65535 x) <= x.
Proof.
  unfold is_u16. intros H. pose proof (all_below_ok _ _ u16_float_u16_all x ltac:(lia)) as X. cbn beta zeta in X.
  unfold float_to, int_to_float. rewrite recip16. lia.
Qed.
