(** The table driven CRC equals the bitwise one. *)
From Verif Require Import Base BaseProof Bits Loops CrcTables CrcModel CrcSpec.
From Verif Require Import PngFilterProof.

Lemma half_lxor x y : Z.lxor x y / 2 = Z.lxor (x / 2) (y / 2).
Proof. rewrite <- !Z.div2_div, !Z.div2_spec. apply Z.shiftr_lxor. Qed.
Lemma odd_lxor x y : Z.odd (Z.lxor x y) = xorb (Z.odd x) (Z.odd y).
Proof. rewrite <- !Z.bit0_odd. apply Z.lxor_spec. Qed.

Lemma crc_bit_lxor x y : crc_bit (Z.lxor x y) = Z.lxor (crc_bit x) (crc_bit y).
Proof.
  unfold crc_bit. rewrite odd_lxor, half_lxor. destruct (Z.odd x), (Z.odd y); cbn [xorb];
   apply Z.bits_inj'; intros i _; rewrite ?Z.lxor_spec;
   destruct (Z.testbit (x / 2) i), (Z.testbit (y / 2) i), (Z.testbit poly i); reflexivity.
Qed.
Lemma iter_lxor n x y : shift_out n (Z.lxor x y) = Z.lxor (shift_out n x) (shift_out n y).
Proof. induction n as [|n IH]; cbn [shift_out]; [reflexivity|]. now rewrite IH, crc_bit_lxor. Qed.

Lemma iter_add n m (x : Z) : shift_out (n + m) x = shift_out n (shift_out m x).
Proof. induction n as [|n IH]; cbn [shift_out Nat.add]; [reflexivity|]. now rewrite IH. Qed.

Lemma crc_bit_even x : crc_bit (2 * x) = x.
Proof. unfold crc_bit. rewrite Z.odd_mul. cbn [Z.odd andb]. lia. Qed.
Lemma iter_shift n x : shift_out n (x * 2 ^ Z.of_nat n) = x.
Proof.
  induction n as [|n IH]; cbn [shift_out]; [lia|].
  replace (x * 2 ^ Z.of_nat (S n)) with ((2 * x) * 2 ^ Z.of_nat n).
  2:{ rewrite Nat2Z.inj_succ, Z.pow_succ_r by lia. lia. }
  clear IH. revert x. induction n as [|n IH]; intros x.
  - cbn [shift_out]. replace (2 * x * 2 ^ Z.of_nat 0) with (2 * x) by (cbn; lia). apply crc_bit_even.
  - cbn [shift_out]. 
    replace (2 * x * 2 ^ Z.of_nat (S n)) with (2 * (2 * x) * 2 ^ Z.of_nat n).
    2:{ rewrite Nat2Z.inj_succ, Z.pow_succ_r by lia. lia. }
    rewrite IH. apply crc_bit_even.
Qed.

(** A byte position of a word. *)
Definition byte_at (x : Z) (k : Z) : Z := Z.land (Z.shiftr x k) 255.
Lemma byte_at_byte x k : is_byte (byte_at x k).
Proof. unfold byte_at. change 255 with (2 ^ 8 - 1). rewrite land_low by lia. unfold is_byte. lia. Qed.

(** Table contents: entry [256 * k + i] is [i] shifted out by [8 * (k + 1)] steps. *)
Lemma slice1_table_ok i : is_byte i -> tab crc32_slice1_table i = Ok (shift_out 8 i).
Proof.
  intros H. unfold is_byte in H.
  assert (S : forallb (fun i => match tab crc32_slice1_table i with Ok v => v =? shift_out 8 i | _ => false end)
                (zrange 256) = true) by (vm_compute; reflexivity).
  pose proof (sweep _ _ S i ltac:(lia)) as E. cbv beta in E.
  destruct (tab crc32_slice1_table i); [|discriminate E..]. apply Z.eqb_eq in E. f_equal. exact E.
Qed.
Definition slice8_entry_ok (k i : Z) : bool :=
  match tab crc32_slice8_table (256 * k + i) with
  | Ok v => v =? shift_out (8 * Z.to_nat (k + 1)) i | _ => false end.
Lemma slice8_table_sweep : forallb (fun k => forallb (slice8_entry_ok k) (zrange 256)) (zrange 8) = true.
Proof. vm_compute. reflexivity. Qed.
Lemma slice8_table_ok k i : 0 <= k < 8 -> is_byte i ->
  tab crc32_slice8_table (256 * k + i) = Ok (shift_out (8 * Z.to_nat (k + 1)) i).
Proof.
  intros Hk Hi. pose proof (sweep2 _ _ _ slice8_table_sweep k i ltac:(lia) ltac:(unfold is_byte in Hi; lia)) as E.
  unfold slice8_entry_ok in E. destruct (tab crc32_slice8_table (256 * k + i)); [|discriminate E..].
  apply Z.eqb_eq in E. f_equal. exact E.
Qed.

(** Splitting a word at byte boundaries is an exclusive-or of shifted parts. *)
Lemma lxor_split_add k lo hi : 0 <= k -> 0 <= lo < 2 ^ k -> lo + 2 ^ k * hi = Z.lxor lo (hi * 2 ^ k).
Proof.
  intros Hk Hl. replace lo with (lo + 2 ^ k * 0) at 2 by lia. replace (hi * 2 ^ k) with (0 + 2 ^ k * hi) by lia.
  rewrite lxor_split by lia. rewrite Z.lxor_0_l, Z.lxor_0_r. reflexivity.
Qed.

Lemma slice1_step_ok b s : is_byte b -> 0 <= s -> slice1_step b s = Ok (crc_byte s b).
Proof.
  intros Hb Hs. unfold slice1_step.
  assert (Hx : is_byte (Z.lxor (Z.land s 255) b)).
  { unfold is_byte in *. change 256 with (2 ^ 8). apply lxor_bound; try lia.
    change 255 with (2 ^ 8 - 1). rewrite land_low by lia. lia. }
  rewrite slice1_table_ok by exact Hx. cbn [bind]. f_equal. unfold crc_byte.
  assert (E : Z.lxor s b = Z.lxor (Z.lxor (Z.land s 255) b) (Z.shiftr s 8 * 2 ^ Z.of_nat 8)).
  { change 255 with (2 ^ 8 - 1). rewrite land_low by lia. rewrite Z.shiftr_div_pow2 by lia.
    change (2 ^ Z.of_nat 8) with (2 ^ 8).
    replace s with (s mod 2 ^ 8 + 2 ^ 8 * (s / 2 ^ 8)) at 1 by lia.
    rewrite lxor_split_add by lia. rewrite !Z.lxor_assoc. f_equal. apply Z.lxor_comm. }
  rewrite E, (iter_lxor 8 (Z.lxor (Z.land s 255) b)), iter_shift. apply Z.lxor_comm.
Qed.

(** Feeding bytes one at a time is feeding the whole little-endian word at once. *)
Lemma crc_run_word l : forall s, bytes l ->
  crc_run l s = shift_out (8 * length l) (Z.lxor s (le_val l)).
Proof.
  induction l as [|b l IH] using rev_ind; intros s Hb; [cbn; now rewrite Z.lxor_0_r|].
  apply bytes_app in Hb as [Hl Hb]. unfold crc_run in *. rewrite fold_left_app. cbn [fold_left].
  rewrite IH by exact Hl. unfold crc_byte. rewrite app_length. cbn [length].
  replace (8 * (length l + 1))%nat with (8 + 8 * length l)%nat by lia. rewrite iter_add. f_equal.
  assert (Ev : le_val (l ++ [b]) = Z.lxor (le_val l) (b * 2 ^ Z.of_nat (8 * length l))).
  { assert (Ep : 256 ^ Z.of_nat (length l) = 2 ^ Z.of_nat (8 * length l)).
    { rewrite Nat2Z.inj_mul. change (Z.of_nat 8) with 8. rewrite Z.pow_mul_r by lia. reflexivity. }
    rewrite <- lxor_split_add; [|lia|].
    - rewrite <- Ep. clear. induction l as [|x l IH]; cbn [app le_val length].
      + change (256 ^ Z.of_nat 0) with 1. lia.
      + rewrite IH, pow256_S. lia.
    - rewrite <- Ep. apply le_val_bound, Hl. }
  rewrite Ev, <- Z.lxor_assoc, (iter_lxor _ (Z.lxor s (le_val l))), iter_shift. reflexivity.
Qed.

Lemma byte_at_lxor x y k : byte_at (Z.lxor x y) k = Z.lxor (byte_at x k) (byte_at y k).
Proof.
  unfold byte_at. rewrite Z.shiftr_lxor. apply Z.bits_inj'. intros i _.
  rewrite !Z.land_spec, !Z.lxor_spec, !Z.land_spec. destruct (Z.testbit 255 i); rewrite ?andb_true_r, ?andb_false_r; reflexivity.
Qed.

(** A 64-bit word is the exclusive-or of its bytes in place. *)
Fixpoint bytes_of (n : nat) (x : Z) : Z :=
  match n with O => 0 | S n' => Z.lxor (byte_at x 0) (bytes_of n' (Z.shiftr x 8) * 2 ^ 8) end.

Lemma word_bytes n x : 0 <= x < 256 ^ Z.of_nat n -> bytes_of n x = x.
Proof.
  revert x. induction n as [|n IH]; intros x Hx; cbn [bytes_of].
  - change (256 ^ Z.of_nat 0) with 1 in Hx. lia.
  - rewrite pow256_S in Hx. rewrite IH.
    + unfold byte_at. change 255 with (2 ^ 8 - 1). rewrite land_low by lia.
      rewrite !Z.shiftr_div_pow2 by lia. rewrite <- lxor_split_add by lia. change (2 ^ 0) with 1. lia.
    + rewrite Z.shiftr_div_pow2 by lia. change (2 ^ 8) with 256. lia.
Qed.

Lemma iter_place n m b : (m <= n)%nat -> shift_out n (b * 2 ^ Z.of_nat m) = shift_out (n - m) b.
Proof. intros Hn. replace n with ((n - m) + m)%nat at 1 by lia. rewrite iter_add, iter_shift. reflexivity. Qed.

Lemma lxor_mul_pow2 x y k : 0 <= k -> Z.lxor x y * 2 ^ k = Z.lxor (x * 2 ^ k) (y * 2 ^ k).
Proof. intros. rewrite <- !Z.shiftl_mul_pow2 by lia. apply Z.shiftl_lxor. Qed.

Lemma word8_split x : 0 <= x < 2 ^ 64 ->
  x = Z.lxor (byte_at x 0) (Z.lxor (byte_at x 8 * 2 ^ 8) (Z.lxor (byte_at x 16 * 2 ^ 16) (Z.lxor (byte_at x 24 * 2 ^ 24)
     (Z.lxor (byte_at x 32 * 2 ^ 32) (Z.lxor (byte_at x 40 * 2 ^ 40) (Z.lxor (byte_at x 48 * 2 ^ 48) (byte_at x 56 * 2 ^ 56))))))).
Proof.
  intros Hx. rewrite <- (word_bytes 8 x) at 1 by exact Hx. cbn [bytes_of].
  unfold byte_at. rewrite !Z.shiftr_shiftr by lia. rewrite Z.mul_0_l, Z.lxor_0_r.
  rewrite !lxor_mul_pow2 by lia. rewrite <- !Z.mul_assoc, <- !Z.pow_add_r by lia. reflexivity.
Qed.

Lemma crc_bit_bound s : 0 <= s < 2 ^ 32 -> 0 <= crc_bit s < 2 ^ 32.
Proof.
  intros H. unfold crc_bit. destruct (Z.odd s); [|lia]. apply lxor_bound; unfold poly; lia.
Qed.
Lemma iter_bound n s : 0 <= s < 2 ^ 32 -> 0 <= shift_out n s < 2 ^ 32.
Proof. intros H. induction n as [|n IH]; cbn [shift_out]; [exact H|]. now apply crc_bit_bound. Qed.
Lemma crc_byte_bound s b : 0 <= s < 2 ^ 32 -> is_byte b -> 0 <= crc_byte s b < 2 ^ 32.
Proof. intros H Hb. unfold is_byte in Hb. apply iter_bound, lxor_bound; lia. Qed.
Lemma crc_run_bound l : forall s, 0 <= s < 2 ^ 32 -> bytes l -> 0 <= crc_run l s < 2 ^ 32.
Proof.
  induction l as [|b l IH]; intros s Hs Hb; cbn [crc_run fold_left]; [exact Hs|].
  inversion Hb; subst. apply IH; [|assumption]. now apply crc_byte_bound.
Qed.

Lemma byte_at_shift x k j : 0 <= k -> 0 <= j -> byte_at (Z.shiftr x k) j = byte_at x (k + j).
Proof. intros. unfold byte_at. now rewrite Z.shiftr_shiftr by lia. Qed.
Lemma byte_at_low x k : 0 <= k <= 24 -> byte_at (Z.land x (2 ^ 32 - 1)) k = byte_at x k.
Proof.
  intros Hk. unfold byte_at. rewrite Z.shiftr_land. rewrite <- Z.land_assoc. f_equal.
  replace (Z.shiftr (2 ^ 32 - 1) k) with (Z.ones (32 - k)).
  - change 255 with (Z.ones 8). 
    apply Z.bits_inj'. intros i Hi. rewrite Z.land_spec, !Z.testbit_ones by lia.
    destruct (Z.ltb_spec i 8), (Z.ltb_spec i (32 - k)), (Z.leb_spec 0 i); cbn [andb]; lia.
  - change (2 ^ 32 - 1) with (Z.ones 32). apply Z.bits_inj'. intros i Hi. rewrite Z.shiftr_spec, !Z.testbit_ones by lia.
    destruct (Z.ltb_spec i (32 - k)), (Z.ltb_spec (i + k) 32), (Z.leb_spec 0 i), (Z.leb_spec 0 (i + k)); cbn [andb]; lia.
Qed.
Lemma byte_at_high x k : 0 <= x < 2 ^ 32 -> 32 <= k -> byte_at x k = 0.
Proof.
  intros Hx Hk. unfold byte_at. rewrite Z.shiftr_div_pow2 by lia.
  rewrite Z.div_small; [reflexivity|]. split; [lia|]. apply Z.lt_le_trans with (2 ^ 32); [lia|].
  apply Z.pow_le_mono_r; lia.
Qed.

Lemma slice8_step_ok chunk s : length chunk = 8%nat -> bytes chunk -> 0 <= s < 2 ^ 32 ->
  slice8_step chunk s = Ok (crc_run chunk s).
Proof.
  intros L Hb Hs. rewrite crc_run_word by exact Hb. rewrite L.
  pose proof (le_val_bound chunk Hb) as Bv. rewrite L in Bv. change (256 ^ Z.of_nat 8) with (2 ^ 64) in Bv.
  unfold slice8_step. set (v := le_val chunk) in *.
  fold (byte_at (Z.lxor s (Z.land v (2 ^ 32 - 1))) 0) (byte_at (Z.lxor s (Z.land v (2 ^ 32 - 1))) 8)
       (byte_at (Z.lxor s (Z.land v (2 ^ 32 - 1))) 16) (byte_at (Z.lxor s (Z.land v (2 ^ 32 - 1))) 24)
       (byte_at (Z.shiftr v 32) 0) (byte_at (Z.shiftr v 32) 8) (byte_at (Z.shiftr v 32) 16) (byte_at (Z.shiftr v 32) 24).
  change 1792 with (256 * 7). change 1536 with (256 * 6). change 1280 with (256 * 5). change 1024 with (256 * 4).
  change 768 with (256 * 3). change 512 with (256 * 2).
  replace (256 + byte_at (Z.shiftr v 32) 16) with (256 * 1 + byte_at (Z.shiftr v 32) 16) by lia.
  replace (0 + byte_at (Z.shiftr v 32) 24) with (256 * 0 + byte_at (Z.shiftr v 32) 24) by lia.
  rewrite !slice8_table_ok by (try lia; apply byte_at_byte). cbn [bind]. f_equal.
  assert (Bx : 0 <= Z.lxor s v < 2 ^ 64) by (apply lxor_bound; lia).
  rewrite (word8_split (Z.lxor s v) Bx).
  rewrite !iter_lxor.
  change (2 ^ 8) with (2 ^ Z.of_nat 8). change (2 ^ 16) with (2 ^ Z.of_nat 16). change (2 ^ 24) with (2 ^ Z.of_nat 24).
  change (2 ^ 40) with (2 ^ Z.of_nat 40). change (2 ^ 48) with (2 ^ Z.of_nat 48). change (2 ^ 56) with (2 ^ Z.of_nat 56).
  replace (byte_at (Z.lxor s v) 32 * 2 ^ 32) with (byte_at (Z.lxor s v) 32 * 2 ^ Z.of_nat 32) by reflexivity.
  rewrite !iter_place by lia.
  rewrite !byte_at_lxor, !byte_at_low, !byte_at_shift by lia.
  rewrite (byte_at_high s 32), (byte_at_high s 40), (byte_at_high s 48), (byte_at_high s 56) by lia. rewrite !Z.lxor_0_l.
  rewrite !Z.lxor_assoc. reflexivity.
Qed.

Lemma fold_res_app {A S} (f : A -> S -> res S) l1 l2 s :
  fold_res f (l1 ++ l2) s = bind (fold_res f l1 s) (fold_res f l2).
Proof.
  revert s. induction l1 as [|x l IH]; intros s; cbn [fold_res app]; [reflexivity|].
  destruct (f x s); cbn [bind]; auto.
Qed.

Lemma slice1_run l : forall s, bytes l -> 0 <= s < 2 ^ 32 -> fold_res slice1_step l s = Ok (crc_run l s).
Proof.
  induction l as [|b l IH]; intros s Hb Hs; cbn [fold_res]; [reflexivity|].
  inversion Hb; subst. rewrite slice1_step_ok by (try assumption; lia). cbn [bind].
  rewrite IH; [reflexivity|assumption|]. now apply crc_byte_bound.
Qed.

Lemma slice8_run ls : forall s, Forall (fun c => length c = 8%nat) ls -> Forall bytes ls -> 0 <= s < 2 ^ 32 ->
  fold_res slice8_step ls s = Ok (crc_run (concat ls) s).
Proof.
  induction ls as [|c ls IH]; intros s Hl Hb Hs; cbn [fold_res concat]; [reflexivity|].
  inversion Hl; subst. inversion Hb; subst. rewrite slice8_step_ok by assumption. cbn [bind].
  rewrite IH; try assumption.
  - f_equal. unfold crc_run. now rewrite fold_left_app.
  - now apply crc_run_bound.
Qed.

Lemma crc32_slice8_ok data s : bytes data -> 0 <= s < 2 ^ 32 -> crc32_slice8 data s = Ok (crc_run data s).
Proof.
  intros Hb Hs. unfold crc32_slice8.
  rewrite <- (firstn_skipn (length data / 8 * 8) data) in Hb. apply bytes_app in Hb as [H1 H2].
  rewrite slice8_run; auto.
  - cbn [bind]. rewrite concat_chunks_firstn by lia. rewrite slice1_run.
    + f_equal. unfold crc_run. rewrite <- fold_left_app. now rewrite firstn_skipn.
    + exact H2.
    + now apply crc_run_bound.
  - apply chunks_exact_lengths.
  - apply Forall_chunks_bytes. rewrite <- (firstn_skipn (length data / 8 * 8) data). apply bytes_app. auto.
Qed.

Lemma compl32 x : 0 <= x < 2 ^ 32 -> 2 ^ 32 - 1 - x = Z.lxor x (2 ^ 32 - 1).
Proof.
  intros H. assert (E : Z.lxor x (2 ^ 32 - 1) + Z.land x (2 ^ 32 - 1) = 2 ^ 32 - 1).
  { apply nocarry; [apply Z.bits_inj'|]; intros i; intros; rewrite ?Z.land_spec, ?Z.lxor_spec, ?Z.land_spec, ?Z.testbit_0_l.
    - now destruct (Z.testbit x i), (Z.testbit (2 ^ 32 - 1) i).
    - destruct (Z.ltb_spec i 0); [now rewrite !Z.testbit_neg_r by lia|].
      change (2 ^ 32 - 1) with (Z.ones 32). rewrite Z.testbit_ones by lia.
      destruct (Z.leb_spec 0 i); [|lia]. destruct (Z.ltb_spec i 32); cbn [andb].
      + now destruct (Z.testbit x i).
      + rewrite (testbit_small x 32) by lia. reflexivity. }
  rewrite land_low in E by lia. rewrite Z.mod_small in E by lia. lia.
Qed.

(** The register update loses no information. *)
Lemma crc_bit_zero z : 0 <= z < 2 ^ 32 -> crc_bit z = 0 -> z = 0.
Proof.
  intros Hz. unfold crc_bit. destruct (Z.odd z) eqn:O.
  - intros H. apply Z.lxor_eq in H. unfold poly in H. lia.
  - intros H. assert (Z.even z = true) by (rewrite <- Z.negb_odd, O; reflexivity).
    apply Z.even_spec in H0 as [k Hk]. lia.
Qed.
Lemma shift_out_zero n z : 0 <= z < 2 ^ 32 -> shift_out n z = 0 -> z = 0.
Proof.
  revert z. induction n as [|n IH]; intros z Hz H; cbn [shift_out] in H; [exact H|].
  apply IH; [exact Hz|]. apply crc_bit_zero; [|exact H]. now apply iter_bound.
Qed.
Lemma shift_out_inj n x y : 0 <= x < 2 ^ 32 -> 0 <= y < 2 ^ 32 -> shift_out n x = shift_out n y -> x = y.
Proof.
  intros Hx Hy H. apply Z.lxor_eq. apply (shift_out_zero n); [apply lxor_bound; lia|].
  rewrite iter_lxor, H. apply Z.lxor_nilpotent.
Qed.
Lemma crc_run_inj l : forall s t, bytes l -> 0 <= s < 2 ^ 32 -> 0 <= t < 2 ^ 32 -> crc_run l s = crc_run l t -> s = t.
Proof.
  induction l as [|b l IH]; intros s t Hb Hs Ht H; [exact H|].
  inversion Hb; subst. cbn [crc_run fold_left] in H. apply IH in H; auto using crc_byte_bound.
  unfold crc_byte in H. unfold is_byte in *.
  apply shift_out_inj in H; [|apply lxor_bound; lia..].
  apply Z.lxor_eq. apply (f_equal (Z.lxor b)) in H. rewrite (Z.lxor_comm s), (Z.lxor_comm t), <- !Z.lxor_assoc, Z.lxor_nilpotent, !Z.lxor_0_l in H.
  subst. apply Z.lxor_nilpotent.
Qed.
Lemma lxor_inj_l a x y : Z.lxor a x = Z.lxor a y -> x = y.
Proof.
  intros H. apply (f_equal (Z.lxor a)) in H. rewrite <- !Z.lxor_assoc, Z.lxor_nilpotent, !Z.lxor_0_l in H. exact H.
Qed.

Lemma crc_run_burst a l1 l2 b s :
  bytes a -> bytes l1 -> bytes l2 -> bytes b -> 0 <= s < 2 ^ 32 ->
  length l1 = length l2 -> (length l1 <= 4)%nat ->
  crc_run (a ++ l1 ++ b) s = crc_run (a ++ l2 ++ b) s -> l1 = l2.
Proof.
  intros Ha H1 H2 Hb Hs L L4 H. unfold crc_run in H. rewrite !fold_left_app in H.
  change (fold_left crc_byte) with crc_run in H.
  pose proof (crc_run_bound a s Hs Ha) as Bs. set (s' := crc_run a s) in *.
  apply crc_run_inj in H; auto using crc_run_bound.
  rewrite !crc_run_word in H by assumption. rewrite <- L in H.
  assert (P : 256 ^ Z.of_nat (length l1) <= 2 ^ 32).
  { change (2 ^ 32) with (256 ^ 4). apply Z.pow_le_mono_r; lia. }
  pose proof (le_val_bound l1 H1). pose proof (le_val_bound l2 H2). rewrite <- L in *.
  apply shift_out_inj in H; [|apply lxor_bound; lia..].
  apply lxor_inj_l in H. rewrite <- (le_bytes_le_val l1), <- (le_bytes_le_val l2) by assumption. now rewrite H, L.
Qed.
