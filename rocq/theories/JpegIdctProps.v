(** Properties of the inverse DCT of zune-jpeg *)
From Verif Require Import Base BaseProof Loops Slices JpegSimd JpegIdctModel JpegIdctSpec JpegIdctProof F32.

(** [f2f(1.175875602)] is 4816 — scalar.rs:143, 179-181, in single precision: the nearest [f32] is
    9863767 / 2 ^ 23. *)
Definition c1175 : f32 := S754_finite false 9863767 (-23).
Example f2f_4816 : to_uint (2 ^ 31 - 1) (fadd (fmul c1175 (of_int 4096)) (fdiv (of_int 1) (of_int 2))) = 4816.
Proof. vm_compute. reflexivity. Qed.

(** * Which routine is used does not matter *)

(** The only case in which the routines can differ is a block with nothing but a DC coefficient outside this range. *)
Definition dc_in_range (b : list Z) : Prop :=
  (forall i, (0 < i)%nat -> nth i b 0 = 0) -> - 2 ^ 16 <= nth 0 b 0 < 2 ^ 16.

Lemma zero_from_all b len : length b = 64%nat -> (len <= 1)%nat -> zero_from len b -> forall i, (0 < i)%nat -> nth i b 0 = 0.
Proof.
  intros L Hl Z0 i Hi. destruct (Nat.lt_ge_cases i 64) as [H|H]; [|apply nth_overflow; lia].
  assert (A : forallb (fun i => existsb (fun k => (nth k zigzag 0 =? i)%nat) (seq 1 63)) (seq 1 63) = true) by (vm_compute; reflexivity).
  rewrite forallb_forall in A. specialize (A i). rewrite in_seq in A. specialize (A ltac:(lia)).
  apply existsb_exists in A. destruct A as (k & Hk & E). apply in_seq in Hk. apply Nat.eqb_eq in E.
  rewrite <- E. apply Z0. lia.
Qed.
Lemma zero_from_corner b len : (len <= 10)%nat -> zero_from len b -> corner b.
Proof.
  intros Hl Z0 r c Hr Hc H.
  assert (A : forallb (fun i => (i mod 8 <? 4) && (i / 8 <? 4) || existsb (fun k => nth k zigzag 0 =? i) (seq 10 54))%nat (seq 0 64) = true)
    by (vm_compute; reflexivity).
  rewrite forallb_forall in A. specialize (A (8 * r + c)%nat). rewrite in_seq in A. specialize (A ltac:(lia)).
  apply orb_true_iff in A. destruct A as [A|A].
  - exfalso. apply andb_prop in A. destruct A as [A1 A2]. apply Nat.ltb_lt in A1, A2.
    rewrite Nat.add_comm, Nat.mul_comm, Nat.mod_add, Nat.mod_small in A1 by lia.
    rewrite Nat.add_comm, Nat.mul_comm, Nat.div_add, Nat.div_small in A2 by lia. lia.
  - apply existsb_exists in A. destruct A as (k & Hk & E). apply in_seq in Hk. apply Nat.eqb_eq in E.
    rewrite <- E. apply Z0. lia.
Qed.
Lemma idct_block_rows debug avx len b out stride :
  length b = 64%nat -> zero_from len b -> dc_in_range b ->
  samples (idct_block debug avx len b out stride) = store_rows (full_row b) stride out.
Proof.
  intros L Z0 D. unfold idct_block.
  destruct (Nat.leb_spec len 1) as [H1|H1].
  - pose proof (zero_from_all b len L H1 Z0) as A. rewrite idct_1x1_rows. apply store_rows_ext. intros i Hi.
    symmetry. apply dc_full_row; auto. exact (D A).
  - destruct (Nat.leb_spec len 10) as [H2|H2].
    + pose proof (zero_from_corner b len H2 Z0) as C.
      destruct avx; [now apply idct_avx2_4x4_rows|now apply idct_4x4_rows].
    + assert (E : samples (idct_int b out stride) = store_rows (full_row b) stride out).
      { rewrite idct_int_rows by exact L. destruct (forallb (Z.eqb 0) (skipn 1 b)) eqn:F; [|reflexivity].
        pose proof (dc_only_nth b F) as A. apply store_rows_ext. intros i Hi. symmetry. apply dc_full_row; auto. exact (D A). }
      destruct avx; [|exact E].
      destruct (forallb (Z.eqb 0) (skipn 1 b)) eqn:F.
      * rewrite idct_avx2_rows; [exact E|exact L|]. pose proof (D (dc_only_nth b F)). lia.
      * rewrite <- E. unfold idct_avx2. cbv zeta. rewrite bitmap_test, F by exact L.
        pose proof (idct_avx2_rows false b out stride L ltac:(discriminate)) as G.
        unfold idct_avx2 in G. cbv zeta in G. rewrite bitmap_test, F in G by exact L. exact G.
Qed.
(** The samples of a block are the same whether the full routine, the one for a 4x4 corner or the one for a DC value is
    chosen, with AVX2 or without, in debug or release builds. *)
Theorem idct_same_samples_partial debug debug' avx avx' len len' b out stride :
  length b = 64%nat -> zero_from len b -> zero_from len' b -> dc_in_range b ->
  samples (idct_block debug avx len b out stride) = samples (idct_block debug' avx' len' b out stride).
Proof. intros L Z1 Z2 D. now rewrite !idct_block_rows. Qed.
Print Assumptions idct_same_samples_partial.

(** The AVX2 routine for whole blocks gives the same samples as the portable one for all coefficients whatever, as its
    documentation says ("bit identical results"): avx2.rs:27-29. *)
Theorem idct_avx2_same_samples_partial b out stride : length b = 64%nat ->
  samples (idct_avx2 false b out stride) = samples (idct_int b out stride).
Proof. intros L. now apply idct_avx2_rows. Qed.
Print Assumptions idct_avx2_same_samples_partial.

(** Outside the range of [dc_in_range] the claim is false: the shortcut and the transform overflow differently. *)
Theorem idct_same_samples_refuted : exists b out, length b = 64%nat /\ zero_from 1 b /\ Forall is_i32 b /\
  samples (idct_block false false 1 b out 8) <> samples (idct_block false false 10 b out 8).
Proof.
  exists (2 ^ 19 :: repeat 0 63), (repeat 0 64). split; [reflexivity|]. split.
  - intros k Hk. assert (A : forallb (fun k => nth (nth k zigzag 0%nat) (2 ^ 19 :: repeat 0 63) 0 =? 0) (seq 1 63) = true) by (vm_compute; reflexivity).
    rewrite forallb_forall in A. apply Z.eqb_eq. apply A. apply in_seq. lia.
  - split; [constructor; [split; [discriminate|reflexivity]|apply Forall_forall; intros x Hx; apply repeat_spec in Hx; subst; split; [discriminate|reflexivity]]|].
    vm_compute. discriminate.
Qed.
Print Assumptions idct_same_samples_refuted.

(** A block with three coefficients, written with all routines *)
Definition demo_block : list Z := [800; -120; 0; 0; 0; 0; 0; 0; 333] ++ repeat 0 55.
Example demo_block_zero : zero_from 3 demo_block /\ dc_in_range demo_block.
Proof.
  split.
  - intros k Hk. assert (A : forallb (fun k => nth (nth k zigzag 0%nat) demo_block 0 =? 0) (seq 3 61) = true) by (vm_compute; reflexivity).
    rewrite forallb_forall in A. apply Z.eqb_eq. apply A. apply in_seq. lia.
  - intros A. specialize (A 1%nat ltac:(lia)). vm_compute in A. discriminate.
Qed.
Example demo_block_samples :
  samples (idct_block true true 3 demo_block (repeat 0 64) 8) = samples (idct_block false false 64 demo_block (repeat 0 64) 8)
  /\ exists out, samples (idct_block true true 3 demo_block (repeat 0 64) 8) = Ok out /\ firstn 8 out = [255; 255; 255; 255; 255; 255; 255; 255]
     /\ skipn 56 out = [149; 153; 158; 166; 174; 182; 188; 191].
Proof. vm_compute. split; [reflexivity|]. eexists. repeat split. Qed.

(** * What is written *)
Lemma store_rows_spec rows stride out :
  (forall i, (i < 8)%nat -> length (rows i) = 8%nat) -> (8 <= stride)%nat -> (7 * stride + 8 <= length out)%nat ->
  exists out', store_rows rows stride out = Ok out' /\ length out' = length out /\
    (forall i, (i < 8)%nat -> slice out' (i * stride) 8 = rows i) /\
    (forall j, (forall i, (i < 8)%nat -> (j < i * stride \/ i * stride + 8 <= j)%nat) -> nth j out' 0 = nth j out 0).
Proof.
  intros R S L. unfold store_rows.
  destruct (for_range_inv (fun k o => length o = length out /\
      (forall i, (i < k)%nat -> slice o (i * stride) 8 = rows i) /\
      (forall j, (forall i, (i < k)%nat -> (j < i * stride \/ i * stride + 8 <= j)%nat) -> nth j o 0 = nth j out 0))
      0 8 (fun i out => put_slice out (i * stride) (rows i)) out) as (o & E & A1 & A2 & A3).
  - lia.
  - split; [reflexivity|]. split; [intros; lia|auto].
  - intros k o Hk (A1 & A2 & A3).
    assert (B : (k * stride + 8 <= length o)%nat) by nia.
    exists (put o (k * stride) (rows k)). rewrite put_slice_ok by (rewrite R by lia; exact B).
    assert (BL : (k * stride + length (rows k) <= length o)%nat) by (rewrite R by lia; exact B).
    split; [reflexivity|]. split; [rewrite put_length by exact BL; exact A1|]. split.
    + intros i Hi. apply (list_eq_nth 0).
      { rewrite slice_length by (rewrite put_length by exact BL; nia). now rewrite R by lia. }
      rewrite slice_length by (rewrite put_length by exact BL; nia). intros j Hj. rewrite slice_nth by exact Hj.
      rewrite put_nth by exact BL. rewrite (R k) by lia.
      destruct (Nat.eq_dec i k) as [->|Hn].
      * replace ((k * stride <=? k * stride + j) && (k * stride + j <? k * stride + 8))%nat with true by lia.
        f_equal. lia.
      * replace ((k * stride <=? i * stride + j) && (i * stride + j <? k * stride + 8))%nat with false by nia.
        rewrite <- A2 by lia. now rewrite slice_nth by exact Hj.
    + intros j Hj. rewrite put_nth by exact BL. rewrite R by lia.
      destruct (Hj k ltac:(lia)).
      * replace (k * stride <=? j)%nat with false by lia. cbn [andb]. apply A3. intros i Hi. apply Hj. lia.
      * replace (j <? k * stride + 8)%nat with false by lia. rewrite andb_false_r. apply A3. intros i Hi. apply Hj. lia.
  - exists o. auto.
Qed.
Lemma clamp_byte x : is_byte (clamp x).
Proof. unfold is_byte, clamp, clampz. lia. Qed.
Lemma full_row_bytes b i : length (full_row b i) = 8%nat /\ bytes (full_row b i).
Proof.
  split; [reflexivity|]. unfold full_row. apply Forall_forall. intros x Hx. apply in_map_iff in Hx.
  destruct Hx as (y & <- & _). apply clamp_byte.
Qed.
(** Whatever the coefficients, the samples are between 0 and 255, fill the 8x8 square and leave everything else alone;
    there is no panic. *)
Theorem idct_writes_square debug avx len b out stride :
  length b = 64%nat -> zero_from len b -> dc_in_range b -> (8 <= stride)%nat -> (7 * stride + 8 <= length out)%nat ->
  exists out', samples (idct_block debug avx len b out stride) = Ok out' /\ length out' = length out /\
    (forall i, (i < 8)%nat -> bytes (slice out' (i * stride) 8)) /\
    (forall j, (forall i, (i < 8)%nat -> (j < i * stride \/ i * stride + 8 <= j)%nat) -> nth j out' 0 = nth j out 0).
Proof.
  intros L Z0 D S B. rewrite idct_block_rows by assumption.
  destruct (store_rows_spec (full_row b) stride out) as (o & E & A1 & A2 & A3); [|exact S|exact B|].
  { intros i _. apply full_row_bytes. }
  exists o. repeat split; auto. intros i Hi. rewrite A2 by exact Hi. apply full_row_bytes.
Qed.
Print Assumptions idct_writes_square.
Example demo_writes : (8 <= 8)%nat /\ (7 * 8 + 8 <= length (repeat 7 100))%nat /\
  match samples (idct_block true true 3 demo_block (repeat 7 100) 8) with Ok o => skipn 62 o = [188; 191] ++ repeat 7 36 | _ => False end.
Proof. vm_compute. repeat split; repeat constructor. Qed.

(** * Blocks do not disturb each other *)

(** What the scratch block looks like between two turns *)
Definition scratch_ok (st : list Z * bool) : Prop :=
  length (fst st) = 64%nat /\ (snd st = false -> forall j, (32 <= j)%nat -> nth j (fst st) 0 = 0).

Lemma clear_scratch st : scratch_ok st -> clear_block (snd st) (fst st) = repeat 0 64.
Proof.
  destruct st as [tmp more]. intros [L H]. cbn [fst snd] in *. unfold clear_block.
  apply (list_eq_nth 0).
  { rewrite app_length, skipn_length, !repeat_length. destruct more; lia. }
  rewrite app_length, skipn_length, repeat_length. intros j Hj. rewrite (nth_repeat 0 64).
  destruct more.
  - rewrite app_nth1 by (rewrite repeat_length; lia). apply nth_repeat.
  - destruct (Nat.lt_ge_cases j 32).
    + rewrite app_nth1 by (rewrite repeat_length; lia). apply nth_repeat.
    + rewrite app_nth2; rewrite repeat_length; [|lia]. rewrite nth_skipn. apply H; [reflexivity|lia].
Qed.
(** The places of a list of coefficients: the first [len] of the zigzag order *)
Definition within (len : nat) (ws : list (nat * Z)) : Prop :=
  Forall (fun w => exists k, (k < len)%nat /\ (k < 64)%nat /\ fst w = nth k zigzag 0%nat) ws.
Lemma write_length ws : forall t, length (write_coeffs ws t) = length t.
Proof. induction ws as [|w ws IH]; intros t; [reflexivity|]. unfold write_coeffs in *. cbn [fold_left]. rewrite IH. apply upd_length. Qed.
Lemma zigzag_inj j k : (j < 64)%nat -> (k < 64)%nat -> nth j zigzag 0%nat = nth k zigzag 0%nat -> j = k.
Proof.
  intros Hj Hk E. apply (NoDup_nth zigzag 0%nat); [|assumption|assumption|exact E].
  assert (A : forall l, (fix nd (l : list nat) := match l with [] => true | x :: r => negb (existsb (Nat.eqb x) r) && nd r end) l = true -> NoDup l).
  { induction l as [|x r IH]; [constructor|]. intros A. apply andb_prop in A. destruct A as [A1 A2]. constructor; [|now apply IH].
    intros I. apply negb_true_iff in A1. rewrite <- not_true_iff_false in A1. apply A1. apply existsb_exists. exists x. split; [exact I|apply Nat.eqb_refl]. }
  apply A. vm_compute. reflexivity.
Qed.
Lemma write_zero_from len ws : within len ws -> forall t, zero_from len t -> zero_from len (write_coeffs ws t).
Proof.
  induction 1 as [|w ws (k & K1 & K2 & Ek) Hws IH]; intros t Z0; [exact Z0|]. unfold write_coeffs in *. cbn [fold_left].
  apply IH. intros j Hj. rewrite Ek. rewrite upd_nth_other; [now apply Z0|].
  intros C. apply zigzag_inj in C; lia.
Qed.
Lemma zero_from_half len b : length b = 64%nat -> (len <= 10)%nat -> zero_from len b -> forall j, (32 <= j)%nat -> nth j b 0 = 0.
Proof.
  intros L Hl Z0 j Hj. destruct (Nat.lt_ge_cases j 64) as [H|H]; [|apply nth_overflow; lia].
  pose proof (zero_from_corner b len Hl Z0 (j / 8) (j mod 8))%nat as C.
  rewrite <- Nat.div_mod_eq in C. apply C.
  - apply Nat.div_lt_upper_bound; lia.
  - apply Nat.mod_upper_bound. lia.
  - left. apply (Nat.div_le_mono 32 j 8) in Hj; [|lia]. change (32 / 8)%nat with 4%nat in Hj. lia.
Qed.

Lemma left_tail f (g : nat -> Z) :
  skipn 32 (fold_left (fun b r => put b (8 * r) [0; 0; 0; 0]) (seq 4 4) (vertical f 4 (map g (seq 0 64)))) =
  concat (map (fun r => [0; 0; 0; 0; g (8 * r + 4)%nat; g (8 * r + 5)%nat; g (8 * r + 6)%nat; g (8 * r + 7)%nat]) (seq 4 4)).
Proof. reflexivity. Qed.
Lemma left_length f (g : nat -> Z) n :
  length (fold_left (fun b r => put b (8 * r) [0; 0; 0; 0]) (seq 4 4) (vertical f 4 (map g (seq 0 64)))) = 64%nat /\
  ((n <= 8)%nat -> length (vertical f n (map g (seq 0 64))) = 64%nat).
Proof. split; [reflexivity|]. intros H. do 9 (destruct n as [|n]; [reflexivity|]). lia. Qed.
Lemma bind_left (r : res (list Z)) (x o t : list Z) : (do o' <- r ; Ok (o', x)) = Ok (o, t) -> t = x.
Proof. intros H. destruct r; inversion H. reflexivity. Qed.
Lemma left_1x1 b out stride o t : idct_1x1 b out stride = Ok (o, t) -> t = b.
Proof. unfold idct_1x1. apply bind_left. Qed.
Lemma left_avx2_4x4 b out stride o t : idct_avx2_4x4 b out stride = Ok (o, t) -> t = b.
Proof. unfold idct_avx2_4x4. cbv zeta. apply bind_left. Qed.
Lemma left_avx2 debug b out stride o t : idct_avx2 debug b out stride = Ok (o, t) -> t = b.
Proof. unfold idct_avx2. cbv zeta. destruct (testz _); [destruct (debug && _); [discriminate|]|]; apply bind_left. Qed.
Lemma left_int b out stride o t : idct_int b out stride = Ok (o, t) -> t = b \/ t = vertical (pass 512 10) 8 b.
Proof. unfold idct_int. cbv zeta. destruct (forallb _ _); intros E; [left; now apply left_1x1 in E|right; now apply bind_left in E]. Qed.
Lemma left_4x4 b out stride o t : idct_4x4 b out stride = Ok (o, t) ->
  t = fold_left (fun b r => put b (8 * r) [0; 0; 0; 0]) (seq 4 4) (vertical (pass4 512 10) 4 b).
Proof. unfold idct_4x4. cbv zeta. apply bind_left. Qed.
Lemma left_tail_zero f b : length b = 64%nat -> (forall j, (32 <= j)%nat -> nth j b 0 = 0) ->
  forall j, (32 <= j)%nat ->
  nth j (fold_left (fun b r => put b (8 * r) [0; 0; 0; 0]) (seq 4 4) (vertical f 4 b)) 0 = 0.
Proof.
  intros L Hz j Hj. replace j with (32 + (j - 32))%nat by lia. rewrite <- nth_skipn. rewrite (list64 b L), left_tail.
  set (k := (j - 32)%nat). clearbody k.
  destruct (nth_in_or_default k (concat (map (fun r => [0; 0; 0; 0; nth (8 * r + 4) b 0; nth (8 * r + 5) b 0; nth (8 * r + 6) b 0; nth (8 * r + 7) b 0]) (seq 4 4))) 0) as [I|E]; [|exact E].
  apply in_concat in I. destruct I as (l & I1 & I2). apply in_map_iff in I1. destruct I1 as (r & <- & I1). apply in_seq in I1.
  cbn [In] in I2. rewrite !Hz in I2 by lia. intuition.
Qed.
Lemma idct_left debug avx len b out stride o t :
  length b = 64%nat -> zero_from len b -> idct_block debug avx len b out stride = Ok (o, t) ->
  scratch_ok (t, (10 <? len)%nat).
Proof.
  intros L Z0 E.
  assert (K : t = b \/ t = fold_left (fun b r => put b (8 * r) [0; 0; 0; 0]) (seq 4 4) (vertical (pass4 512 10) 4 b)
              \/ t = vertical (pass 512 10) 8 b /\ (10 < len)%nat).
  { unfold idct_block in E. destruct (len <=? 1)%nat eqn:E1; [left; exact (left_1x1 _ _ _ _ _ E)|].
    destruct (Nat.leb_spec len 10) as [E2|E2].
    - destruct avx; [left; exact (left_avx2_4x4 _ _ _ _ _ E)|right; left; exact (left_4x4 _ _ _ _ _ E)].
    - destruct avx; [left; exact (left_avx2 _ _ _ _ _ _ E)|]. destruct (left_int _ _ _ _ _ E); auto. }
  clear E. pose proof (zero_from_half len b L) as Hz.
  split; cbn [fst snd].
  - destruct K as [->|[->|[-> _]]]; [exact L| |].
    + rewrite (list64 b L). apply (proj1 (left_length (pass4 512 10) (fun i => nth i b 0) 0)).
    + rewrite (list64 b L). exact (proj2 (left_length (pass 512 10) (fun i => nth i b 0) 8) (le_n 8)).
  - intros Hn j Hj. apply Nat.ltb_ge in Hn. specialize (Hz Hn Z0).
    destruct K as [->|[->|[_ K]]]; [now apply Hz|now apply left_tail_zero|lia].
Qed.
(** However many blocks have been decoded before, and with however many coefficients, the samples of each block are
    those computed from its own coefficients alone. *)
Theorem blocks_independent debug avx bs : forall st outs stride,
  scratch_ok st -> Forall (fun w => within (snd w) (fst w)) bs ->
  blocks debug avx st bs outs stride =
  (fix each bs outs := match bs, outs with
     | (ws, len) :: bs', out :: outs' =>
         do o <- samples (idct_block debug avx len (write_coeffs ws (repeat 0 64)) out stride) ;
         do os <- each bs' outs' ; Ok (o :: os)
     | _, _ => Ok [] end) bs outs.
Proof.
  induction bs as [|[ws len] bs IH]; intros st outs stride S W; [reflexivity|]. destruct outs as [|out outs]; [reflexivity|].
  inversion W as [|x l W1 W2]; subst x l. cbn [fst snd] in W1. cbn [blocks]. unfold next_block.
  pose proof (clear_scratch st S) as C. destruct st as [tmp more]. cbn [fst snd] in C. rewrite C.
  set (b := write_coeffs ws (repeat 0 64)).
  assert (Lb : length b = 64%nat) by (unfold b; now rewrite write_length).
  assert (Zb : zero_from len b) by (apply write_zero_from; [exact W1|intros k Hk; apply nth_repeat]).
  destruct (idct_block debug avx len b out stride) as [[o t]| | |] eqn:E; try reflexivity.
  cbn [samples bind]. rewrite IH; [reflexivity| |exact W2]. eapply idct_left; eassumption.
Qed.
Print Assumptions blocks_independent.

(** The routines that only look at a part of the block are chosen rightly: with the same coefficients, all choices of
    routines give the same image. *)
Theorem blocks_same debug debug' avx avx' bs : forall st st' outs stride,
  scratch_ok st -> scratch_ok st' -> Forall (fun w => within (snd w) (fst w)) bs ->
  Forall (fun w => dc_in_range (write_coeffs (fst w) (repeat 0 64))) bs ->
  blocks debug avx st bs outs stride = blocks debug' avx' st' (map (fun w => (fst w, 64%nat)) bs) outs stride.
Proof.
  intros st st' outs stride S S' W D. rewrite blocks_independent by assumption. rewrite blocks_independent; [|exact S'|].
  - clear st st' S S'. revert outs W D. induction bs as [|[ws len] bs IH]; intros outs W D; [reflexivity|].
    destruct outs as [|out outs]; [reflexivity|]. cbn [map fst snd].
    inversion W as [|x l W1 W2]; subst x l. inversion D as [|x l D1 D2]; subst x l. cbn [fst snd] in *.
    rewrite (idct_same_samples_partial debug debug' avx avx' len 64).
    + destruct (samples _); [|reflexivity..]. cbn [bind]. rewrite IH by assumption. reflexivity.
    + now rewrite write_length.
    + apply write_zero_from; [exact W1|intros k Hk; apply nth_repeat].
    + intros k Hk. lia.
    + exact D1.
  - rewrite Forall_map. revert W. apply Forall_impl. intros [ws len]. cbn [fst snd]. apply Forall_impl.
    intros w (k & K1 & K2 & K3). exists k. auto.
Qed.
Print Assumptions blocks_same.

Definition demo_blocks : list (list (nat * Z) * nat) :=
  [([(0%nat, 500); (1%nat, -77); (63%nat, 40)], 64%nat); ([(0%nat, 300)], 1%nat); ([(0%nat, -200); (8%nat, 90)], 3%nat)].
Example demo_blocks_ok : scratch_ok (repeat 9 64, true) /\ Forall (fun w => within (snd w) (fst w)) demo_blocks /\
  Forall (fun w => dc_in_range (write_coeffs (fst w) (repeat 0 64))) demo_blocks /\
  (exists os, blocks true true (repeat 9 64, true) demo_blocks (repeat (repeat 0 64) 3) 8 = Ok os /\
              map (fun o => nth 9 o 0) os = [182; 166; 116]).
Proof.
  split; [split; [reflexivity|discriminate]|]. split; [|split].
  - unfold demo_blocks, within. repeat (first [apply Forall_nil|apply Forall_cons]; cbn [fst snd]).
    1,4,5: exists 0%nat; repeat split; repeat constructor.
    1: exists 1%nat; repeat split; repeat constructor.
    1: exists 63%nat; repeat split; repeat constructor.
    exists 2%nat; repeat split; repeat constructor.
  - unfold demo_blocks. repeat (first [apply Forall_nil|apply Forall_cons]); intros _; vm_compute; split; congruence.
  - eexists. split; vm_compute; reflexivity.
Qed.
