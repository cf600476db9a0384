(** Bit-level lemmas relating [Z.land]/[Z.lor]/[Z.lxor]/shifts to arithmetic. *)
From Verif Require Import Base.

Lemma testbit_small a k i : 0 <= a < 2 ^ k -> k <= i -> Z.testbit a i = false.
Proof.
  intros Ha Hi. destruct (Z.eq_dec a 0) as [->|Hz]; [apply Z.testbit_0_l|].
  apply Z.bits_above_log2; [lia|].
  assert (Z.log2 a < k); [|lia]. apply Z.log2_lt_pow2; lia.
Qed.

Lemma testbit_split a b k i : 0 <= k -> 0 <= a < 2 ^ k -> 0 <= i ->
  Z.testbit (a + 2 ^ k * b) i = if i <? k then Z.testbit a i else Z.testbit b (i - k).
Proof.
  intros Hk Ha Hi. destruct (Z.ltb_spec i k) as [H|H].
  - rewrite <- (Z.mod_pow2_bits_low (a + 2 ^ k * b) k i) by lia.
    replace ((a + 2 ^ k * b) mod 2 ^ k) with a; [reflexivity|].
    rewrite Z.mul_comm, Z.mod_add by lia. symmetry. apply Z.mod_small; lia.
  - replace i with (i - k + k) at 1 by lia.
    rewrite <- Z.div_pow2_bits by lia. f_equal.
    rewrite Z.mul_comm, Z.div_add by lia. rewrite Z.div_small; lia.
Qed.

Section split2.
  Variable op : Z -> Z -> Z.
  Variable opb : bool -> bool -> bool.
  Hypothesis spec : forall a b i, Z.testbit (op a b) i = opb (Z.testbit a i) (Z.testbit b i).
  Hypothesis ff : opb false false = false.

  Lemma op_bound k a c : 0 <= k -> 0 <= a < 2 ^ k -> 0 <= c < 2 ^ k -> 0 <= op a c < 2 ^ k.
  Proof.
    intros Hk Ha Hc.
    assert (E : op a c = (op a c) mod 2 ^ k).
    { apply Z.bits_inj'. intros i Hi. rewrite Z.testbit_mod_pow2 by lia.
      destruct (Z.ltb_spec i k); [reflexivity|].
      rewrite spec, !testbit_small with (k := k) by lia. rewrite ff. reflexivity. }
    rewrite E. apply Z.mod_pos_bound. lia.
  Qed.

  Lemma op_split k a b c d : 0 <= k -> 0 <= a < 2 ^ k -> 0 <= c < 2 ^ k ->
    op (a + 2 ^ k * b) (c + 2 ^ k * d) = op a c + 2 ^ k * op b d.
  Proof.
    intros Hk Ha Hc. apply Z.bits_inj'. intros i Hi.
    rewrite spec, !testbit_split by (auto; now apply op_bound).
    destruct (i <? k); now rewrite spec.
  Qed.
End split2.

Lemma land_bound k a c : 0 <= k -> 0 <= a < 2 ^ k -> 0 <= c < 2 ^ k -> 0 <= Z.land a c < 2 ^ k.
Proof. exact (op_bound Z.land andb Z.land_spec eq_refl k a c). Qed.
Lemma lor_bound k a c : 0 <= k -> 0 <= a < 2 ^ k -> 0 <= c < 2 ^ k -> 0 <= Z.lor a c < 2 ^ k.
Proof. exact (op_bound Z.lor orb Z.lor_spec eq_refl k a c). Qed.
Lemma lxor_bound k a c : 0 <= k -> 0 <= a < 2 ^ k -> 0 <= c < 2 ^ k -> 0 <= Z.lxor a c < 2 ^ k.
Proof. exact (op_bound Z.lxor xorb Z.lxor_spec eq_refl k a c). Qed.

Lemma land_split k a b c d : 0 <= k -> 0 <= a < 2 ^ k -> 0 <= c < 2 ^ k ->
  Z.land (a + 2 ^ k * b) (c + 2 ^ k * d) = Z.land a c + 2 ^ k * Z.land b d.
Proof. exact (op_split Z.land andb Z.land_spec eq_refl k a b c d). Qed.
Lemma lor_split k a b c d : 0 <= k -> 0 <= a < 2 ^ k -> 0 <= c < 2 ^ k ->
  Z.lor (a + 2 ^ k * b) (c + 2 ^ k * d) = Z.lor a c + 2 ^ k * Z.lor b d.
Proof. exact (op_split Z.lor orb Z.lor_spec eq_refl k a b c d). Qed.
Lemma lxor_split k a b c d : 0 <= k -> 0 <= a < 2 ^ k -> 0 <= c < 2 ^ k ->
  Z.lxor (a + 2 ^ k * b) (c + 2 ^ k * d) = Z.lxor a c + 2 ^ k * Z.lxor b d.
Proof. exact (op_split Z.lxor xorb Z.lxor_spec eq_refl k a b c d). Qed.

Lemma lor_add k a b : 0 <= k -> 0 <= a < 2 ^ k -> Z.lor a (2 ^ k * b) = a + 2 ^ k * b.
Proof.
  intros Hk Ha. replace a with (a + 2 ^ k * 0) at 1 by lia. replace (2 ^ k * b) with (0 + 2 ^ k * b) at 1 by lia.
  rewrite lor_split by lia. rewrite Z.lor_0_r, Z.lor_0_l. reflexivity.
Qed.

Lemma lor_shiftl_add k a b : 0 <= k -> 0 <= a < 2 ^ k -> Z.lor (Z.shiftl b k) a = a + 2 ^ k * b.
Proof. intros Hk Ha. rewrite Z.shiftl_mul_pow2, Z.lor_comm, Z.mul_comm by lia. now apply lor_add. Qed.

Lemma land_low k a : 0 <= k -> Z.land a (2 ^ k - 1) = a mod 2 ^ k.
Proof. intros Hk. replace (2 ^ k - 1) with (Z.ones k) by (rewrite Z.ones_equiv; lia). now apply Z.land_ones. Qed.

(** Finite sweeps over [0 .. n-1]. *)
Definition zrange (n : nat) : list Z := map Z.of_nat (seq 0 n).
Lemma zrange_in n x : 0 <= x < Z.of_nat n -> In x (zrange n).
Proof.
  intros H. unfold zrange. apply in_map_iff. exists (Z.to_nat x). split; [lia|]. apply in_seq. lia.
Qed.
Lemma sweep (P : Z -> bool) n : forallb P (zrange n) = true -> forall x, 0 <= x < Z.of_nat n -> P x = true.
Proof. intros H x Hx. rewrite forallb_forall in H. apply H, zrange_in, Hx. Qed.
Lemma sweep2 (P : Z -> Z -> bool) n m :
  forallb (fun x => forallb (P x) (zrange m)) (zrange n) = true ->
  forall x y, 0 <= x < Z.of_nat n -> 0 <= y < Z.of_nat m -> P x y = true.
Proof. intros H x y Hx Hy. apply (sweep _ _ (sweep _ _ H x Hx)). exact Hy. Qed.
