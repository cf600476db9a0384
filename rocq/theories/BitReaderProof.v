(** The bit reader presents the bit stream faithfully. *)
From Verif Require Import Base BaseProof Bits BitReaderModel BitReaderSpec PngFilterProof.

Lemma le_val_testbit src : bytes src -> forall i, 0 <= i -> Z.testbit (le_val src) i = bit_at src i.
Proof.
  induction src as [|b src IH]; intros Hb i Hi; unfold bit_at.
  - cbn [le_val]. rewrite Z.testbit_0_l. destruct (Z.to_nat (i / 8)); now rewrite Z.testbit_0_l.
  - inversion Hb; subst. cbn [le_val]. change 256 with (2 ^ 8).
    rewrite testbit_split by (unfold is_byte in *; lia).
    destruct (Z.ltb_spec i 8).
    + replace (i / 8) with 0 by lia. replace (i mod 8) with i by lia. reflexivity.
    + rewrite IH by (auto; lia). unfold bit_at.
      replace (Z.to_nat (i / 8)) with (S (Z.to_nat ((i - 8) / 8))) by lia.
      replace (i mod 8) with ((i - 8) mod 8) by lia. reflexivity.
Qed.

Lemma bits_from_val src : bytes src -> forall k n, 0 <= n ->
  bits_from src n k = (le_val src / 2 ^ n) mod 2 ^ Z.of_nat k.
Proof.
  intros Hb k. induction k as [|k IH]; intros n Hn; cbn [bits_from].
  - change (2 ^ Z.of_nat 0) with 1. now rewrite Z.mod_1_r.
  - rewrite IH by lia. rewrite <- (le_val_testbit src Hb) by lia.
    rewrite Z.testbit_spec' by lia. rewrite Nat2Z.inj_succ, !Z.pow_succ_r by lia.
    replace (2 ^ (n + 1)) with (2 ^ n * 2) by (rewrite Z.pow_add_r; lia).
    rewrite <- Z.div_div by lia. set (x := le_val src / 2 ^ n).
    rewrite Z.rem_mul_r by lia. lia.
Qed.

(** Representation: [r] has consumed exactly [n] bits of [r_src r]. *)
Record rd (r : reader) (n : Z) : Prop := {
  rd_bytes : bytes (r_src r);
  rd_n : 0 <= n;
  rd_left : 0 <= r_left r <= 63;
  rd_buf : 0 <= r_buf r < 2 ^ 64;
  rd_pos : (r_pos r <= length (r_src r))%nat;
  rd_sum : n + r_left r = 8 * Z.of_nat (r_pos r + r_over r);
  rd_over : (0 < r_over r)%nat -> r_pos r = length (r_src r);
  rd_low : forall i, 0 <= i < r_left r -> Z.testbit (r_buf r) i = bit_at (r_src r) (n + i);
  rd_high : forall i, r_left r <= i -> Z.testbit (r_buf r) i = true -> bit_at (r_src r) (n + i) = true
}.

Lemma rd_new src : bytes src -> rd (new_reader src) 0.
Proof.
  intros H. constructor; cbn [new_reader r_src r_pos r_left r_buf r_over]; auto; try lia.
  intros i _. rewrite Z.testbit_0_l. discriminate.
Qed.

Lemma bit_at_past src i : 8 * Z.of_nat (length src) <= i -> bit_at src i = false.
Proof. intros H. unfold bit_at. rewrite nth_overflow by lia. apply Z.testbit_0_l. Qed.

Lemma bit_at_skip src p i : 0 <= i -> bit_at (skipn p src) i = bit_at src (8 * Z.of_nat p + i).
Proof.
  intros H. unfold bit_at. rewrite nth_skipn.
  replace (Z.to_nat ((8 * Z.of_nat p + i) / 8)) with (p + Z.to_nat (i / 8))%nat by lia.
  replace ((8 * Z.of_nat p + i) mod 8) with (i mod 8) by lia. reflexivity.
Qed.

Lemma bytes_skipn' n l : bytes l -> bytes (skipn n l).
Proof. intros H. rewrite <- (firstn_skipn n l) in H. now apply bytes_app in H. Qed.
Lemma bytes_firstn' n l : bytes l -> bytes (firstn n l).
Proof. intros H. rewrite <- (firstn_skipn n l) in H. now apply bytes_app in H. Qed.

Lemma testbit_u64 x i : 0 <= i -> Z.testbit (u64 x) i = (i <? 64) && Z.testbit x i.
Proof.
  intros H. unfold u64. destruct (Z.ltb_spec i 64).
  - now rewrite Z.mod_pow2_bits_low by lia.
  - now rewrite Z.mod_pow2_bits_high by lia.
Qed.

Definition sat56 (l : Z) : Z := l + 8 * ((63 - l) / 8).
Lemma lor56 l : 0 <= l <= 63 -> Z.lor l 56 = sat56 l /\ Z.shiftr (Z.lxor 63 l) 3 = (63 - l) / 8.
Proof.
  intros H.
  pose proof (sweep (fun l => (Z.lor l 56 =? sat56 l) && (Z.shiftr (Z.lxor 63 l) 3 =? (63 - l) / 8)) 64 eq_refl l ltac:(lia)) as S.
  apply andb_true_iff in S as [S1 S2]. apply Z.eqb_eq in S1, S2. auto.
Qed.

Lemma rd_refill_fast r n b : rd r n -> get8 r = Some b ->
  rd (refill_fast r b) n /\ 56 <= r_left (refill_fast r b) /\ r_over (refill_fast r b) = r_over r
  /\ r_src (refill_fast r b) = r_src r.
Proof.
  intros H G. destruct H. unfold get8 in G.
  destruct (Nat.leb_spec (r_pos r + 8) (length (r_src r))) as [Hl|]; [|discriminate]. injection G as <-.
  assert (O0 : r_over r = 0%nat) by (destruct (r_over r); [reflexivity|]; lia).
  destruct (lor56 (r_left r) rd_left0) as [E1 E2].
  assert (Hb8 : bytes (firstn 8 (skipn (r_pos r) (r_src r)))) by now apply bytes_firstn', bytes_skipn'.
  assert (L8 : length (firstn 8 (skipn (r_pos r) (r_src r))) = 8%nat) by (rewrite firstn_length, skipn_length; lia).
  assert (Bv : 0 <= le_val (firstn 8 (skipn (r_pos r) (r_src r))) < 2 ^ 64).
  { pose proof (le_val_bound _ Hb8) as B. rewrite L8 in B. exact B. }
  assert (Bit : forall i, 0 <= i < 64 -> Z.testbit (le_val (firstn 8 (skipn (r_pos r) (r_src r)))) i
            = bit_at (r_src r) (8 * Z.of_nat (r_pos r) + i)).
  { intros i Hi. rewrite le_val_testbit by (auto; lia). rewrite <- bit_at_skip by lia. unfold bit_at.
    rewrite nth_firstn by lia. reflexivity. }
  assert (E3 : Z.land (r_left r) 63 = r_left r).
  { change 63 with (2 ^ 6 - 1). rewrite land_low by lia. apply Z.mod_small. change (2 ^ 6) with 64. lia. }
  unfold refill_fast. rewrite E3. cbn [r_src r_pos r_left r_buf r_over].
  assert (TB : forall i, 0 <= i -> Z.testbit (u64 (Z.shiftl (le_val (firstn 8 (skipn (r_pos r) (r_src r)))) (r_left r))) i
       = (i <? 64) && (r_left r <=? i) && bit_at (r_src r) (n + i)).
  { intros i Hi. rewrite testbit_u64 by lia. rewrite Z.shiftl_spec by lia.
    destruct (Z.ltb_spec i 64); [|reflexivity]. destruct (Z.leb_spec (r_left r) i); cbn [andb].
    - rewrite Bit by lia. f_equal. lia.
    - now rewrite Z.testbit_neg_r by lia. }
  rewrite E1, E2. unfold sat56.
  split; [|split; [lia|split; reflexivity]].
  constructor; cbn [r_src r_pos r_left r_buf r_over]; auto; try lia.
  - apply lor_bound; try lia. unfold u64. lia.
  - intros i Hi. rewrite Z.lor_spec, TB by lia. replace (i <? 64) with true by lia.
    destruct (Z.leb_spec (r_left r) i); cbn [andb].
    + destruct (Z.testbit (r_buf r) i) eqn:T; cbn [orb]; [|reflexivity].
      symmetry. apply rd_high0; auto; lia.
    + rewrite rd_low0 by lia. apply orb_false_r.
  - intros i Hi. rewrite Z.lor_spec, TB by lia. intros T. apply orb_true_iff in T as [T|T].
    + apply rd_high0; auto; lia.
    + apply andb_true_iff in T as [_ T]. exact T.
Qed.

Lemma rd_add_byte r n b : rd r n -> r_over r = 0%nat -> r_left r < 56 -> (r_pos r < length (r_src r))%nat ->
  nth (r_pos r) (r_src r) 0 = b ->
  rd (mkReader (r_src r) (r_pos r + 1) (r_left r + 8) (Z.lor (r_buf r) (u64 (Z.shiftl b (r_left r)))) (r_over r)) n.
Proof.
  intros [] O0 L56 Hp Hb.
  assert (B : is_byte b) by (subst b; now apply bytes_nth). unfold is_byte in B.
  assert (TB : forall i, 0 <= i -> Z.testbit (u64 (Z.shiftl b (r_left r))) i
       = (r_left r <=? i) && (i <? r_left r + 8) && bit_at (r_src r) (n + i)).
  { intros i Hi. rewrite testbit_u64 by lia. rewrite Z.shiftl_spec by lia.
    destruct (Z.leb_spec (r_left r) i); cbn [andb].
    - destruct (Z.ltb_spec i (r_left r + 8)); cbn [andb].
      + replace (i <? 64) with true by lia. cbn [andb]. unfold bit_at.
        replace (Z.to_nat ((n + i) / 8)) with (r_pos r) by lia. rewrite Hb. f_equal. lia.
      + rewrite (testbit_small b 8) by lia. apply andb_false_r.
    - rewrite Z.testbit_neg_r by lia. apply andb_false_r. }
  constructor; cbn [r_src r_pos r_left r_buf r_over]; auto; try lia.
  - apply lor_bound; try lia. unfold u64. lia.
  - intros i Hi. rewrite Z.lor_spec, TB by lia.
    replace (i <? r_left r + 8) with true by lia.
    destruct (Z.leb_spec (r_left r) i); cbn [andb].
    + destruct (Z.testbit (r_buf r) i) eqn:T; cbn [orb]; [|reflexivity].
      symmetry. apply rd_high0; auto; lia.
    + rewrite rd_low0 by lia. apply orb_false_r.
  - intros i Hi. rewrite Z.lor_spec, TB by lia. intros T. apply orb_true_iff in T as [T|T].
    + apply rd_high0; auto; lia.
    + apply andb_true_iff in T as [T _]. lia.
Qed.

Lemma rd_refill_bytes l : forall r n, rd r n -> r_over r = 0%nat -> l = skipn (r_pos r) (r_src r) ->
  let r' := refill_bytes l r in
  rd r' n /\ r_over r' = 0%nat /\ r_src r' = r_src r /\
  (56 <= r_left r' \/ r_pos r' = length (r_src r)).
Proof.
  induction l as [|b l IH]; intros r n H O E; cbn [refill_bytes].
  - split; [exact H|]. split; [exact O|]. split; [reflexivity|]. right.
    pose proof (f_equal (@length Z) E) as EL. rewrite skipn_length in EL. cbn [length] in EL.
    destruct H. lia.
  - destruct (Z.leb_spec 56 (r_left r)) as [H56|H56].
    + split; [exact H|]. auto.
    + assert (Hp : (r_pos r < length (r_src r))%nat).
      { pose proof (f_equal (@length Z) E) as EL. rewrite skipn_length in EL. cbn [length] in EL. lia. }
      assert (Hb : nth (r_pos r) (r_src r) 0 = b).
      { replace (r_pos r) with (r_pos r + 0)%nat by lia. rewrite <- nth_skipn, <- E. reflexivity. }
      edestruct (IH _ n (rd_add_byte r n b H O H56 Hp Hb)) as (A & B & C & D).
      * exact O.
      * cbn [r_pos r_src]. rewrite <- skipn_skipn', <- E. reflexivity.
      * cbn zeta in *. cbn [r_src] in *. auto.
Qed.

Lemma rd_refill_zeros f : forall r n, rd r n -> (r_left r < 56 -> r_pos r = length (r_src r)) ->
  56 <= r_left r + 8 * Z.of_nat f ->
  exists r', refill_zeros f r = Ok r' /\ rd r' n /\ 56 <= r_left r' /\ r_src r' = r_src r.
Proof.
  induction f as [|f IH]; intros r n H Hp Hf; cbn [refill_zeros].
  - replace (r_left r <? 56) with false by lia. exists r. split; [reflexivity|]. split; [exact H|]. split; [lia|reflexivity].
  - destruct (Z.ltb_spec (r_left r) 56) as [H56|H56].
    + destruct (IH (mkReader (r_src r) (r_pos r) (r_left r + 8) (r_buf r) (r_over r + 1)) n) as (r' & E & R & L & S).
      * destruct H. constructor; cbn [r_src r_pos r_left r_buf r_over]; auto; try lia.
        -- intros i Hi. destruct (Z.ltb_spec i (r_left r)); [now apply rd_low0; lia|].
           rewrite (bit_at_past (r_src r)) by (specialize (Hp H56); lia).
           destruct (Z.testbit (r_buf r) i) eqn:T; [|reflexivity].
           apply rd_high0 in T; [|lia]. rewrite bit_at_past in T by (specialize (Hp H56); lia). discriminate.
        -- intros i Hi. apply rd_high0; lia.
      * cbn [r_left r_pos r_src]. auto.
      * cbn [r_left]. lia.
      * exists r'. cbn [r_src] in S. auto.
    + exists r. split; [reflexivity|]. split; [exact H|]. split; [lia|reflexivity].
Qed.

Lemma rd_refill r n : rd r n -> exists r', refill r = Ok r' /\ rd r' n /\ 56 <= r_left r' /\ r_src r' = r_src r.
Proof.
  intros H. unfold refill. destruct (get8 r) as [b|] eqn:G.
  - destruct (rd_refill_fast r n b H G) as (A & B & C & D). eexists. split; [reflexivity|]. auto.
  - unfold refill_slow. pose proof (rd_pos _ _ H). replace (length (r_src r) <? r_pos r)%nat with false by lia.
    destruct (Nat.eq_dec (r_over r) 0) as [O|O].
    + destruct (rd_refill_bytes _ r n H O eq_refl) as (A & B & C & D).
      destruct (rd_refill_zeros 7 (refill_bytes (skipn (r_pos r) (r_src r)) r) n) as (r' & E & R & L & S); auto.
      * intros. rewrite C. lia.
      * pose proof (rd_left _ _ A). lia.
      * exists r'. rewrite S, C. auto.
    + assert (E : refill_bytes (skipn (r_pos r) (r_src r)) r = r).
      { rewrite (rd_over _ _ H) by lia. now rewrite skipn_all. }
      rewrite E. destruct (rd_refill_zeros 7 r n) as (r' & E' & R & L & S); auto.
      * intros _. apply (rd_over _ _ H). lia.
      * pose proof (rd_left _ _ H). lia.
      * exists r'. auto.
Qed.

Lemma refill_zeros_full f r : 56 <= r_left r -> refill_zeros f r = Ok r.
Proof. intros H. destruct f; cbn [refill_zeros]; now replace (r_left r <? 56) with false by lia. Qed.

(** With eight more bytes of input the refill invents nothing. *)
Lemma refill_no_over r n r' : rd r n -> refill r = Ok r' -> rd r' n -> r_over r = 0%nat ->
  n + 64 <= 8 * Z.of_nat (length (r_src r)) -> r_over r' = 0%nat.
Proof.
  intros H E R' O Hn. unfold refill in E. destruct (get8 r) as [b|] eqn:G.
  - destruct (rd_refill_fast r n b H G) as (A & B & C & D). injection E as <-. lia.
  - unfold refill_slow in E. pose proof (rd_pos _ _ H).
    replace (length (r_src r) <? r_pos r)%nat with false in E by lia.
    destruct (rd_refill_bytes _ r n H O eq_refl) as (A & B & C & D).
    destruct D as [D|D].
    + rewrite refill_zeros_full in E by exact D. injection E as <-. exact B.
    + destruct A as [_ _ A1 _ _ A2 _ _ _]. lia.
Qed.

Lemma rd_inner r n : rd r n -> rd (refill_inner_loop r) n /\ r_src (refill_inner_loop r) = r_src r.
Proof.
  intros H. unfold refill_inner_loop. destruct (get8 r) as [b|] eqn:G; [|auto].
  destruct (rd_refill_fast r n b H G) as (A & B & C & D). auto.
Qed.

Lemma peek_val r n k : rd r n -> 0 <= k <= r_left r ->
  Z.land (r_buf r) (Z.shiftl 1 k - 1) = bits_from (r_src r) n (Z.to_nat k).
Proof.
  intros [] Hk. rewrite bits_from_val by auto. rewrite Z2Nat.id by lia.
  rewrite Z.shiftl_mul_pow2, Z.mul_1_l by lia. rewrite land_low by lia.
  apply Z.bits_inj'. intros i Hi. destruct (Z.ltb_spec i k).
  - rewrite !Z.mod_pow2_bits_low by lia. rewrite Z.div_pow2_bits by lia.
    rewrite le_val_testbit by (auto; lia). rewrite rd_low0 by lia. f_equal. lia.
  - rewrite !Z.mod_pow2_bits_high by lia. reflexivity.
Qed.

Lemma rd_drop r n k : rd r n -> 0 <= k <= r_left r ->
  rd (mkReader (r_src r) (r_pos r) (r_left r - k) (Z.shiftr (r_buf r) k) (r_over r)) (n + k).
Proof.
  intros [] Hk. constructor; cbn [r_src r_pos r_left r_buf r_over]; auto; try lia.
  - rewrite Z.shiftr_div_pow2 by lia. split; [apply Z.div_pos; lia|].
    apply Z.le_lt_trans with (r_buf r); [|lia]. apply Z.div_le_upper_bound; [lia|]. nia.
  - intros i Hi. rewrite Z.shiftr_spec by lia. rewrite rd_low0 by lia. f_equal. lia.
  - intros i Hi. rewrite Z.shiftr_spec by lia. intros T. apply rd_high0 in T; [|lia]. rewrite <- T. f_equal. lia.
Qed.

Lemma get_bits_ok r n k : rd r n -> 0 <= k <= r_left r ->
  exists r', get_bits k r = Ok (bits_from (r_src r) n (Z.to_nat k), r') /\ rd r' (n + k) /\
    r_src r' = r_src r /\ r_left r' = r_left r - k /\ r_over r' = r_over r.
Proof.
  intros H Hk. unfold get_bits. replace (r_left r <? k) with false by lia.
  rewrite (peek_val r n k H Hk). eexists. split; [reflexivity|]. split; [now apply rd_drop|]. auto.
Qed.
Lemma peek_bits_ok r n k : rd r n -> 0 <= k <= r_left r -> peek_bits k r = Ok (bits_from (r_src r) n (Z.to_nat k)).
Proof. intros H Hk. unfold peek_bits. replace (r_left r <? k) with false by lia. now rewrite (peek_val r n k H Hk). Qed.
Lemma drop_bits_ok r n k : rd r n -> 0 <= k <= r_left r ->
  exists r', drop_bits k r = Ok r' /\ rd r' (n + k) /\ r_src r' = r_src r /\ r_left r' = r_left r - k /\ r_over r' = r_over r.
Proof.
  intros H Hk. unfold drop_bits. replace (r_left r <? k) with false by lia.
  eexists. split; [reflexivity|]. split; [now apply rd_drop|]. auto.
Qed.
