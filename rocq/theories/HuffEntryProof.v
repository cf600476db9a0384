(** What the fields of decode-table entries are. *)
From Verif Require Import Base BaseProof Loops Slices Bits BitReaderSpec BitReaderModel BitReaderProof InflateModel HuffModel HuffSpec HuffCode HuffTableProof.

Definition upto (p : nat -> bool) (n : nat) : bool := forallb p (seq 0 n).
Lemma upto_ok p n : upto p n = true -> forall i, (i < n)%nat -> p i = true.
Proof. intros H i Hi. unfold upto in H. rewrite forallb_forall in H. apply H, in_seq. lia. Qed.

Definition lit_check (s k : nat) : bool :=
  let e := entry litlen_results s k in
  flag e huff_literal && negb (flag e huff_exceptional) && negb (flag e huff_pointer) && (u8 e =? Z.of_nat k) && (u8 (Z.shiftr e 16) =? Z.of_nat s).
Lemma lit_entry s k : (s < 256)%nat -> (k < 16)%nat -> let e := entry litlen_results s k in
  flag e huff_literal = true /\ flag e huff_exceptional = false /\ flag e huff_pointer = false /\ u8 e = Z.of_nat k /\ u8 (Z.shiftr e 16) = Z.of_nat s.
Proof.
  intros Hs Hk. assert (C : upto (fun s => upto (lit_check s) 16) 256 = true) by (vm_compute; reflexivity).
  pose proof (upto_ok _ _ (upto_ok _ _ C s Hs) k Hk) as H. unfold lit_check in H. cbn zeta in *.
  rewrite !andb_true_iff, !negb_true_iff, !Z.eqb_eq in H. tauto.
Qed.

Definition end_check (k : nat) : bool :=
  let e := entry litlen_results 256 k in
  negb (flag e huff_literal) && flag e huff_exceptional && negb (flag e huff_pointer) && flag e huff_end && (u8 e =? Z.of_nat k).
Lemma end_entry k : (k < 16)%nat -> let e := entry litlen_results 256 k in
  flag e huff_literal = false /\ flag e huff_exceptional = true /\ flag e huff_pointer = false /\ flag e huff_end = true /\ u8 e = Z.of_nat k.
Proof.
  intros Hk. assert (C : upto end_check 16 = true) by (vm_compute; reflexivity).
  pose proof (upto_ok _ _ C k Hk) as H. unfold end_check in H. cbn zeta in *.
  rewrite !andb_true_iff, !negb_true_iff, !Z.eqb_eq in H. tauto.
Qed.

(** The fields of an entry with a base and extra bits. *)
Record value_entry (e : Z) (k : nat) (base ex : Z) : Prop := {
  ve_literal : flag e huff_literal = false;
  ve_exceptional : flag e huff_exceptional = false;
  ve_pointer : flag e huff_pointer = false;
  ve_end : flag e huff_end = false;
  ve_bits : u8 e = Z.of_nat k + ex;
  ve_len : u8 (Z.shiftr e 8) = Z.of_nat k;
  ve_base : Z.shiftr e 16 = base
}.
Definition value_check (e : Z) (k : nat) (be : Z * Z) : bool :=
  negb (flag e huff_literal) && negb (flag e huff_exceptional) && negb (flag e huff_pointer) && negb (flag e huff_end)
  && (u8 e =? Z.of_nat k + snd be) && (u8 (Z.shiftr e 8) =? Z.of_nat k) && (Z.shiftr e 16 =? fst be).
Lemma value_check_ok e k b x : value_check e k (b, x) = true -> value_entry e k b x.
Proof.
  unfold value_check. cbn [fst snd]. rewrite !andb_true_iff, !negb_true_iff, !Z.eqb_eq. intros (((((( ? & ?) & ?) & ?) & ?) & ?) & ?). constructor; auto.
Qed.
Definition length_ok (be : Z * Z) : bool := (3 <=? fst be) && (0 <=? snd be) && (snd be <=? 5) && (fst be + 2 ^ snd be - 1 <=? 258).
Definition dist_ok (be : Z * Z) : bool := (1 <=? fst be) && (0 <=? snd be) && (snd be <=? 13).

Lemma len_entry s k base ex : (257 <= s)%nat -> nth_error rfc_lengths (s - 257) = Some (base, ex) -> (k < 16)%nat ->
  value_entry (entry litlen_results s k) k base ex /\ 3 <= base /\ 0 <= ex <= 5 /\ base + 2 ^ ex - 1 <= 258.
Proof.
  intros Hs E Hk.
  assert (C : upto (fun j => upto (fun k => match nth_error rfc_lengths j with
      | Some be => value_check (entry litlen_results (257 + j) k) k be && length_ok be | None => true end) 16) 29 = true) by (vm_compute; reflexivity).
  assert (Hj : (s - 257 < 29)%nat) by (apply (proj1 (nth_error_Some rfc_lengths (s - 257))); rewrite E; discriminate).
  pose proof (upto_ok _ _ (upto_ok _ _ C _ Hj) k Hk) as H. cbn beta in H. rewrite E in H.
  replace (257 + (s - 257))%nat with s in H by lia. apply andb_true_iff in H as [H1 H2]. split; [now apply value_check_ok|].
  unfold length_ok in H2. cbn [fst snd] in H2. rewrite !andb_true_iff, !Z.leb_le in H2. tauto.
Qed.
Lemma off_entry t k base ex : nth_error rfc_distances t = Some (base, ex) -> (k < 16)%nat ->
  value_entry (entry offset_results t k) k base ex /\ 1 <= base /\ 0 <= ex <= 13.
Proof.
  intros E Hk.
  assert (C : upto (fun j => upto (fun k => match nth_error rfc_distances j with
      | Some be => value_check (entry offset_results j k) k be && dist_ok be | None => true end) 16) 30 = true) by (vm_compute; reflexivity).
  assert (Hj : (t < 30)%nat) by (apply (proj1 (nth_error_Some rfc_distances t)); rewrite E; discriminate).
  pose proof (upto_ok _ _ (upto_ok _ _ C _ Hj) k Hk) as H. cbn beta in H. rewrite E in H.
  apply andb_true_iff in H as [H1 H2]. split; [now apply value_check_ok|].
  unfold dist_ok in H2. cbn [fst snd] in H2. rewrite !andb_true_iff, !Z.leb_le in H2. tauto.
Qed.
Lemma pre_entry s k : (s < 19)%nat -> (k < 16)%nat -> u8 (entry precode_results s k) = Z.of_nat k /\ Z.shiftr (entry precode_results s k) 16 = Z.of_nat s.
Proof.
  intros Hs Hk.
  assert (C : upto (fun s => upto (fun k => (u8 (entry precode_results s k) =? Z.of_nat k) && (Z.shiftr (entry precode_results s k) 16 =? Z.of_nat s)) 16) 19 = true) by (vm_compute; reflexivity).
  pose proof (upto_ok _ _ (upto_ok _ _ C s Hs) k Hk) as H. rewrite andb_true_iff, !Z.eqb_eq in H. exact H.
Qed.

(** Pointers to sub-tables. *)
Record is_pointer (e : Z) (tb st b : nat) : Prop := {
  ip_literal : flag e huff_literal = false;
  ip_exceptional : flag e huff_exceptional = true;
  ip_pointer : flag e huff_pointer = true;
  ip_end : flag e huff_end = false;
  ip_bits : u8 e = Z.of_nat tb;
  ip_sub : Z.land (Z.shiftr e 8) 63 = Z.of_nat b;
  ip_start : Z.shiftr e 16 = Z.of_nat st
}.
(** The low 16 bits do not depend on the start of the table. *)
Definition ptr_low (tb b : nat) : Z := Z.lor (Z.lor (Z.lor huff_exceptional huff_pointer) (Z.shiftl (Z.of_nat b) 8)) (Z.of_nat tb).
Definition low_check (tb b : nat) : bool :=
  let e := ptr_low tb b in
  negb (flag e huff_literal) && flag e huff_exceptional && flag e huff_pointer && negb (flag e huff_end) && (Z.land e 255 =? Z.of_nat tb)
  && (Z.land (Z.shiftr e 8) 63 =? Z.of_nat b) && (Z.shiftr e 16 =? 0).
Lemma shl_land n k m : 0 <= n -> 0 <= k -> (forall i, k <= i -> Z.testbit n (i - k) = true -> Z.testbit m i = false) -> Z.land (Z.shiftl n k) m = 0.
Proof.
  intros Hn Hk H. apply Z.bits_inj'. intros i Hi. rewrite Z.land_spec, Z.bits_0, Z.shiftl_spec by easy. destruct (Z.le_gt_cases k i) as [L|L].
  - destruct (Z.testbit n (i - k)) eqn:E; [now rewrite (H i L E)|reflexivity].
  - rewrite Z.testbit_neg_r by lia. reflexivity.
Qed.
Lemma small_bit m k i : 0 <= m < 2 ^ k -> 0 <= k <= i -> Z.testbit m i = false.
Proof.
  intros Hm Hk. destruct (Z.eq_dec m 0) as [->|N]; [apply Z.bits_0|]. apply Z.bits_above_log2; [lia|]. apply Z.log2_lt_pow2; [lia|].
  eapply Z.lt_le_trans; [apply Hm|]. apply Z.pow_le_mono_r; lia.
Qed.
Lemma ptr_entry tb st b : tb = 11%nat \/ tb = 8%nat -> (Z.of_nat st < 2342) -> (b < 16)%nat -> is_pointer (pointer_entry tb st b) tb st b.
Proof.
  intros Ht Hs Hb.
  assert (C : forall tb, tb = 11%nat \/ tb = 8%nat -> upto (low_check tb) 16 = true) by (intros x [-> | ->]; vm_compute; reflexivity).
  pose proof (upto_ok _ _ (C tb Ht) b Hb) as H. unfold low_check in H. cbn zeta in H.
  rewrite !andb_true_iff, !negb_true_iff, !Z.eqb_eq in H. destruct H as ((((((H1 & H2) & H3) & H4) & H5) & H6) & H7).
  assert (E : pointer_entry tb st b = Z.lor (Z.shiftl (Z.of_nat st) 16) (ptr_low tb b)).
  { unfold pointer_entry, ptr_low, u32. rewrite Z.mod_small by (rewrite Z.shiftl_mul_pow2 by lia; lia). now rewrite !Z.lor_assoc. }
  set (n := Z.of_nat st) in *. assert (Hn : 0 <= n < 2 ^ 15) by lia. clear C.
  assert (M : forall m, 0 <= m < 2 ^ 16 -> Z.land (Z.shiftl n 16) m = 0) by (intros m Hm; apply shl_land; [lia|lia|intros i Hi _; apply (small_bit m 16); lia]).
  assert (ML : Z.land (Z.shiftl n 16) huff_literal = 0).
  { apply shl_land; [lia|lia|]. intros i Hi T. change huff_literal with (2 ^ 31). rewrite Z.pow2_bits_eqb by lia. destruct (Z.eqb_spec 31 i) as [<-|]; [|reflexivity].
    rewrite (small_bit n 15) in T by lia. discriminate. }
  assert (FL : forall f, Z.land (Z.shiftl n 16) f = 0 -> flag (pointer_entry tb st b) f = flag (ptr_low tb b) f).
  { intros f Z0. unfold flag. rewrite E, Z.land_lor_distr_l, Z0, Z.lor_0_l. reflexivity. }
  constructor.
  - now rewrite FL.
  - rewrite FL; [easy|apply M; vm_compute; easy].
  - rewrite FL; [easy|apply M; vm_compute; easy].
  - rewrite FL; [easy|apply M; vm_compute; easy].
  - unfold u8. change 256 with (2 ^ 8). rewrite <- Z.land_ones by lia. change (Z.ones 8) with 255. rewrite E, Z.land_lor_distr_l, M, Z.lor_0_l by lia. exact H5.
  - rewrite E, Z.shiftr_lor, Z.shiftr_shiftl_l by lia. rewrite Z.land_lor_distr_l, H6. replace (16 - 8) with 8 by lia.
    rewrite (shl_land n 8 63); [apply Z.lor_0_l|lia|lia|]. intros i Hi _. apply (small_bit 63 6); lia.
  - rewrite E, Z.shiftr_lor, H7, Z.lor_0_r, Z.shiftr_shiftl_l by lia. rewrite Z.sub_diag, Z.shiftl_0_r. reflexivity.
Qed.

Lemma shiftr_bits src n a b : Z.shiftr (bits_from src n (a + b)) (Z.of_nat a) = bits_from src (n + Z.of_nat a) b.
Proof. rewrite Z.shiftr_div_pow2 by lia. apply bits_suffix. Qed.

(** The value of an entry: base plus the extra bits after the code. *)
Lemma entry_value_ok e k base ex r n : value_entry e k base ex -> 0 <= ex -> 0 <= base -> rd r n -> Z.of_nat k + ex <= r_left r ->
  Z.of_nat (entry_value e (r_buf r)) = base + bits_from (r_src r) (n + Z.of_nat k) (Z.to_nat ex).
Proof.
  intros [] Hex Hb R Hl. unfold entry_value. rewrite ve_base0, ve_bits0, ve_len0.
  rewrite (peek_val r n (Z.of_nat k + ex) R) by lia. rewrite Z2Nat.inj_add, Nat2Z.id by lia. rewrite shiftr_bits.
  pose proof (bits_from_bound (r_src r) (Z.to_nat ex) (n + Z.of_nat k)). lia.
Qed.
