(** The scan loop of zune-jpeg on any bytes whatever: no panic in release builds *)
From Verif Require Import Base BaseProof Loops Slices Bits JpegSimd JpegIdctModel JpegIdctSpec JpegIdctProof JpegIdctProps
  JpegHuffModel JpegHuffSpec JpegHuffTable JpegHuffBits JpegHuffBlock JpegHuffRun JpegHuffProps JpegScanModel.

(** A result or an error, but no panic *)
Definition fine {A} (P : A -> Prop) (r : res A) : Prop := match r with Ok x => P x | Err _ => True | _ => False end.
Lemma fine_bind {A B} (P : A -> Prop) (Q : B -> Prop) r (f : A -> res B) : fine P r -> (forall x, P x -> fine Q (f x)) -> fine Q (bind r f).
Proof. destruct r; cbn; auto. Qed.
Lemma fine_weaken {A} (P Q : A -> Prop) r : (forall x, P x -> Q x) -> fine P r -> fine Q r.
Proof. destruct r; cbn; auto. Qed.

(** * The bit reader *)
Definition sane (s : bits) : Prop := 0 <= aligned s < 2 ^ 64 /\ 0 <= left s.
Lemma u64_range x : 0 <= u64 x < 2 ^ 64.
Proof. apply Z.mod_pos_bound. lia. Qed.
Lemma refill_byte_any s : sane s -> fine (fun r => sane (fst r)) (refill_byte s).
Proof.
  intros (A & L). unfold refill_byte. destruct (next_byte (rd s)) as [b r1]. cbv zeta. destruct (b =? 255).
  - destruct (after_ff r1) as [n r2]. destruct (n =? 0); [split; cbn [fst aligned left]; [exact A|lia]|].
    destruct (negb (known_marker n)); [exact I|]. destruct (n =? 217); split; cbn [fst aligned left]; try lia; try apply u64_range.
    destruct (left s =? 0); [exact A|apply u64_range].
  - split; cbn [fst aligned left]; [exact A|lia].
Qed.
Lemma refill_bytes_any n : forall s, sane s -> fine sane (refill_bytes n s).
Proof.
  induction n as [|n IH]; intros s S; cbn [refill_bytes].
  - split; cbn [aligned left]; [apply u64_range|apply S].
  - apply (fine_bind (fun r => sane (fst r))); [now apply refill_byte_any|]. intros [s' go] S'. cbn [fst] in S'. destruct go; [now apply IH|exact S'].
Qed.
Lemma refill_any s : sane s -> fine sane (refill s).
Proof.
  intros S. unfold refill. destruct (32 <=? left s); [exact S|]. cbv zeta.
  assert (G : forall v r, fine sane (Ok (Bits (u64 (Z.lor (u64 (Z.shiftl (buffer s) 32)) v)) (u64 (Z.shiftl (u64 (Z.lor (u64 (Z.shiftl (buffer s) 32)) v)) (64 - (left s + 32))))
    (left s + 32) (marker s) (over s) (eoi s) r))).
  { intros v r. split; cbn [aligned left]; [apply u64_range|destruct S; lia]. }
  destruct (_ || _ || _); [apply G|]. destruct (rd s) as [|a [|b [|c [|d r]]]]; try (now apply refill_bytes_any).
  destruct (has_ff _); [now apply refill_bytes_any|apply G].
Qed.
Lemma drop_sane n s : 0 <= n -> sane s -> sane (drop_bits n s).
Proof. intros Hn S. split; cbn [drop_bits aligned left]; [apply u64_range|lia]. Qed.
Lemma get_sane n s : 0 <= n <= 15 -> sane s -> sane (snd (get_bits n s)).
Proof.
  intros Hn (A & L). unfold get_bits. split; cbn [snd aligned left].
  - apply lor_bound; [lia|apply u64_range|]. rewrite Z.shiftr_div_pow2 by lia. assert (0 < 2 ^ (64 - n)) by (apply Z.pow_pos_nonneg; lia).
    split; [apply Z.div_pos; lia|]. apply Z.le_lt_trans with (aligned s); [|lia]. apply Z.div_le_upper_bound; nia.
  - apply Z.mod_pos_bound. lia.
Qed.

(** * Symbols *)
Lemma window_found (S : list Z) w : 0 <= w < start S (length S) -> Forall (fun s => 1 <= s <= 16) S ->
  exists p, (p < length S)%nat /\ start S p <= w < start S (p + 1).
Proof.
  intros H F. assert (G : forall n, (n <= length S)%nat -> w < start S n -> exists p, (p < n)%nat /\ start S p <= w < start S (p + 1)).
  { induction n as [|n IH]; intros Hn Hw; [change (start S 0) with 0 in Hw; lia|].
    destruct (Z.lt_ge_cases w (start S n)) as [C|C]; [destruct (IH ltac:(lia) C) as (p & Hp & X); exists p; split; [lia|exact X]|].
    exists n. split; [lia|]. replace (n + 1)%nat with (Datatypes.S n) by lia. lia. }
  destruct (G (length S) (le_n _) (proj2 H)) as (p & Hp & X). now exists p.
Qed.
Lemma decode_any counts values t s : dc_table counts values t -> sane s ->
  fine (fun e => fine (fun '(sym, s') => sane s' /\ exists p, (p < length (sizes_from 1 counts))%nat /\ sym = nth p values 0) (decode_huff t e s))
    (get_at (lookup t) (Z.to_nat (peek 9 s))).
Proof.
  intros (TO & _ & F) S. destruct (decode_window counts values TO t F s (proj1 S)) as (_ & Bw & _ & E & D1 & D2). rewrite E. cbn [fine].
  set (w := peek 16 s) in *. set (e := nth _ (lookup t) 0) in *. clearbody e w.
  destruct (Z.lt_ge_cases w (start (sizes_from 1 counts) (length (sizes_from 1 counts)))) as [C|C]; [|rewrite D2 by exact C; exact I].
  destruct (window_found (sizes_from 1 counts) w) as (p & Hp & Hw); [lia| |].
  - apply Forall_forall. intros x Hx. destruct (In_nth _ _ 0 Hx) as (i & Hi & <-). now apply (size_range counts values TO).
  - rewrite (D1 p Hp Hw). pose proof (size_range counts values TO p Hp) as Hs. destruct (left s <? _); [exact I|]. cbn beta iota delta [fine].
    split; [apply drop_sane; [clear -Hs; lia|exact S]|]. exists p. split; [exact Hp|reflexivity].
Qed.
Lemma sym_byte counts values p : table_ok counts values -> 0 <= nth p values 0 < 256.
Proof. intros TO. now apply (nth_byte counts). Qed.

Section Table.
  Variables (dcn dcv acn acv : list Z) (dct act : table) (fast : list Z).
  Hypothesis TD : dc_table dcn dcv dct.
  Hypothesis D15 : dc_ok dcn dcv.
  Hypothesis TA : ac_table acn acv act fast.

  Lemma dc_sym p : (p < length (sizes_from 1 dcn))%nat -> 0 <= nth p dcv 0 <= 15.
  Proof.
    intros Hp. pose proof TD as (TO & _). pose proof (sym_byte dcn dcv p TO) as B. split; [lia|].
    unfold dc_ok in D15. rewrite Forall_forall in D15. apply D15.
    pose proof TO as (_ & _ & L & Lv & _). rewrite (codes_len _ _ TO) in L.
    rewrite <- (nth_firstn (length (sizes_from 1 dcn)) p dcv 0) by exact Hp. apply nth_In. rewrite firstn_length. lia.
  Qed.
  Lemma decode_dc_any pred s : sane s -> fine (fun r => sane (snd r)) (decode_dc dct pred s) /\ fine sane (discard_dc dct s).
  Proof.
    intros S. unfold decode_dc, discard_dc. pose proof (refill_any s S) as R. destruct (refill s) as [s1| | |]; try contradiction R; [|split; exact I].
    cbn [fine bind] in *. pose proof (decode_any _ _ _ _ TD R) as D. destruct (get_at _ _) as [e| | |]; try contradiction D; [|split; exact I].
    cbn [fine bind] in *. destruct (decode_huff dct e s1) as [[sym s2]| | |]; try contradiction D; [|split; exact I].
    cbn [fine bind] in *. destruct D as (S2 & p & Hp & ->). pose proof (dc_sym p Hp) as B.
    destruct (nth p dcv 0 =? 0); [split; exact S2|]. pose proof (get_sane _ _ B S2) as G. destruct (get_bits _ _) as [x s3]. split; exact G.
  Qed.

  (** * Blocks *)
  Variable qt : list Z.
  Hypothesis Q : length qt = 64%nat.
  Lemma zz_get k : (k < 64)%nat -> exists z, get_at UN_ZIGZAG k = Ok z /\ z = nth k zigzag 0%nat /\ (z < 64)%nat.
  Proof. intros H. destruct (zz_at k H) as (E & B). exists (nth k zigzag 0%nat). now split. Qed.
  Definition block_fine (r : nat * list Z * bits) : Prop := let '(pos, b, s) := r in (pos <= 64)%nat /\ length b = 64%nat /\ zero_from pos b /\ sane s.
  Lemma sane_table_index s : sane s -> (Z.to_nat (peek 9 s) < 512)%nat.
  Proof.
    intros (A & _). unfold peek. rewrite Z.shiftr_div_pow2 by lia. change (2 ^ (64 - 9)) with 36028797018963968.
    assert (aligned s / 36028797018963968 < 512); [|lia]. apply Z.div_lt_upper_bound; [lia|]. exact (proj2 A).
  Qed.
  Lemma zero_set pos z b x p' : zero_from pos b -> length b = 64%nat -> (pos <= p')%nat ->
    ((64 <= p')%nat \/ exists k, (k < p')%nat /\ (k < 64)%nat /\ z = nth k zigzag 0%nat) -> zero_from p' (upd b z x).
  Proof.
    intros Z0 L Hp [H|(k & Hk & Hk64 & ->)] j Hj; [lia|]. rewrite upd_nth_other; [apply Z0; lia|]. intros E. apply zz_inj in E; lia.
  Qed.
  Lemma ac_loop_any fuel : forall pos b s, (1 <= fuel)%nat -> ((pos < 64)%nat -> (65 <= pos + fuel)%nat) -> length b = 64%nat -> zero_from pos b -> sane s ->
    fine block_fine (ac_loop false fuel act fast qt pos b s) /\ fine (fun r => sane (snd r)) (discard_loop fuel act fast pos s).
  Proof.
    induction fuel as [|f IH]; intros pos b s F0 F1 L Z0 S; [lia|]. cbn [ac_loop discard_loop].
    destruct (Nat.leb_spec 64 pos) as [H|H].
    { split; [|exact S]. split; [lia|]. split; [exact L|]. split; [intros k Hk; lia|exact S]. }
    pose proof TA as (TB & _ & FL & _).
    pose proof (refill_any s S) as R. destruct (refill s) as [s1| | |]; try contradiction R; [|split; exact I]. cbn [fine bind] in *. cbv zeta.
    pose proof (sane_table_index s1 R) as I9. rewrite (get_at_ok fast _ 0) by lia. cbn [bind].
    pose proof (decode_any _ _ _ _ TB R) as D. destruct (get_at (lookup act) _) as [e| | |]; try contradiction D; [|split; exact I].
    cbn [fine bind] in *. set (fa := nth _ fast 0).
    assert (Mul : forall a c, exists v, mul_i32 false a c = Ok v).
    { intros a c. unfold mul_i32. destruct (_ && _); eexists; reflexivity. }
    destruct (fa =? 0) eqn:Efa; cbn [negb].
    - destruct (decode_huff act e s1) as [[sym s2]| | |]; try contradiction D; [|split; exact I]. cbn [fine bind] in *. destruct D as (S2 & p & Hp & Es).
      pose proof TB as (TO & _). pose proof (sym_byte acn acv p TO) as B. rewrite <- Es in B.
      assert (B15 : 0 <= Z.land sym 15 <= 15).
      { change 15 with (2 ^ 4 - 1) at 1 2. rewrite land_low by lia. pose proof (Z.mod_pos_bound sym (2 ^ 4) ltac:(lia)). change (2 ^ 4) with 16 in *. lia. }
      destruct (Z.land sym 15 =? 0) eqn:E0; cbn [negb].
      + destruct (negb (Z.shiftr sym 4 =? 15)).
        * split; [|exact S2]. split; [lia|]. split; [exact L|]. split; [exact Z0|exact S2].
        * apply IH; try lia; try assumption. intros k Hk. apply Z0. lia.
      + pose proof (get_sane _ _ B15 S2) as G. set (r := Z.to_nat (Z.shiftr sym 4)) in *. clearbody r.
        destruct (get_bits (Z.land sym 15) s2) as [x s3]. cbn [snd] in *.
        destruct (zz_get ((pos + r) mod 64)) as (z & Ez & Ezz & Bz); [apply Nat.mod_upper_bound; discriminate|]. rewrite Ez. cbn [bind].
        rewrite (get_at_ok qt z 0) by lia. cbn [bind]. destruct (Mul (huff_extend x (Z.land sym 15)) (nth z qt 0)) as (v & ->). cbn [bind].
        rewrite set_at_ok by lia. cbn [bind]. apply IH; try lia; try assumption.
        * now rewrite upd_length.
        * apply (zero_set pos); try assumption; [lia|]. destruct (Nat.lt_ge_cases (pos + r) 64) as [C|C]; [right|left; lia].
          exists (pos + r)%nat. rewrite Nat.mod_small in Ezz by exact C. split; [lia|]. now split.
    - set (r := Z.to_nat (Z.land (Z.shiftr fa 4) 15)). clearbody r.
      assert (B15 : 0 <= Z.land fa 15).
      { apply Z.land_nonneg. right. lia. }
      pose proof (drop_sane _ _ B15 R) as G.
      destruct (zz_get (Nat.min (pos + r) 63)) as (z & Ez & Ezz & Bz); [lia|]. rewrite Ez. cbn [bind].
      rewrite (get_at_ok qt z 0) by lia. cbn [bind]. destruct (Mul (Z.shiftr fa 8) (nth z qt 0)) as (v & ->). cbn [bind].
      rewrite set_at_ok by lia. cbn [bind]. apply IH; try lia; try assumption.
      + now rewrite upd_length.
      + apply (zero_set pos); try assumption; [lia|]. destruct (Nat.lt_ge_cases (pos + r) 64) as [C|C]; [right|left; lia].
        exists (pos + r)%nat. rewrite Nat.min_l in Ezz by lia. split; [lia|]. now split.
  Qed.
  Lemma block_any pred s : sane s ->
    fine (fun '(_, pos, b, s') => block_fine (pos, b, s')) (decode_block false dct act qt (repeat 0 64) pred s) /\
    fine (fun r => sane (snd r)) (discard_block dct act s).
  Proof.
    intros S. unfold decode_block, discard_block. pose proof TA as (_ & Ea & _). rewrite Ea.
    destruct (decode_dc_any pred s S) as (A & B). split.
    - destruct (_ && _); [exact I|]. apply (fine_bind _ _ _ _ A). intros [p s1] S1. cbn [snd] in S1.
      rewrite (get_at_ok qt 0 0) by lia. cbn [bind]. unfold mul_i32.
      assert (E : exists v, (if (- 2 ^ 31 <=? p * nth 0 qt 0) && (p * nth 0 qt 0 <? 2 ^ 31) then Ok (p * nth 0 qt 0) else if false then Panic else Ok (i32 (p * nth 0 qt 0))) = Ok v)
        by (destruct (_ && _); eexists; reflexivity).
      destruct E as (v & ->). cbn [bind]. rewrite set_at_ok by (rewrite repeat_length; lia). cbn [bind].
      destruct (ac_loop_any 65 1 (upd (repeat 0 64) 0 v) s1) as (C & _); try lia; try assumption.
      + now rewrite upd_length, repeat_length.
      + intros k Hk. assert (Hz : nth k zigzag 0%nat <> 0%nat).
        { change 0%nat with (nth 0 zigzag 0%nat) at 2. intros E. apply zz_inj in E; lia. }
        rewrite upd_nth_other by congruence. apply nth_repeat.
      + apply (fine_bind _ _ _ _ C). intros [[pos b] s2] X. exact X.
    - apply (fine_bind _ _ _ _ B). intros s1 S1. apply (ac_loop_any 65 1 (repeat 0 64) s1); try lia; try assumption; [apply repeat_length|].
      intros k _. apply nth_repeat.
  Qed.
End Table.

Lemma Forall_firstn' {A} (P : A -> Prop) n l : Forall P l -> Forall P (firstn n l).
Proof. intros F. rewrite Forall_forall in *. intros x Hx. apply F. rewrite <- (firstn_skipn n l). apply in_or_app. now left. Qed.
Lemma map_upd_same {A B} (f : A -> B) l k (x c : A) : nth_error l k = Some c -> f x = f c -> map f (upd l k x) = map f l.
Proof. revert k. induction l as [|y l IH]; intros [|k] E F; cbn in *; try discriminate; [injection E as ->; now rewrite F|]. f_equal. now apply IH. Qed.
Lemma upd_nth_err {A} (l : list A) k x i y : nth_error (upd l k x) i = Some y -> (i = k /\ y = x) \/ (i <> k /\ nth_error l i = Some y).
Proof.
  revert k i. induction l as [|z l IH]; intros [|k] [|i]; cbn; intros H; try discriminate H; auto.
  - left. split; congruence.
  - destruct (IH k i H) as [(-> & ->)|(N & E)]; [now left|right; split; [lia|exact E]].
Qed.

(** * The inverse DCT, whatever the coefficients *)
Lemma idct_any avx len b ch pos w : length b = 64%nat -> zero_from len b -> (8 <= w)%nat -> (pos + 7 * w + 8 <= length ch)%nat -> bytes ch ->
  exists out t, idct_block false avx len b (skipn pos ch) w = Ok (out, t) /\ scratch_ok (t, (10 <? len)%nat) /\
    length (firstn pos ch ++ out) = length ch /\ bytes (firstn pos ch ++ out).
Proof.
  intros L Z0 Hw Hl Bc.
  assert (Dc : forall i, (i < 8)%nat -> length (dc_row b) = 8%nat /\ bytes (dc_row b)).
  { intros i _. split; [apply repeat_length|]. apply Forall_forall. intros x Hx. apply repeat_spec in Hx. subst x. apply clamp_byte. }
  assert (R : exists rows, samples (idct_block false avx len b (skipn pos ch) w) = store_rows rows w (skipn pos ch) /\
    forall i, (i < 8)%nat -> length (rows i) = 8%nat /\ bytes (rows i)).
  { unfold idct_block. destruct (Nat.leb_spec len 1) as [H1|H1]; [exists (fun _ => dc_row b); split; [apply idct_1x1_rows|exact Dc]|].
    destruct (Nat.leb_spec len 10) as [H2|H2].
    - exists (full_row b). split; [|intros; apply full_row_bytes]. pose proof (zero_from_corner b len H2 Z0) as C.
      destruct avx; [now apply idct_avx2_4x4_rows|now apply idct_4x4_rows].
    - assert (E : samples ((if avx then idct_avx2 false else idct_int) b (skipn pos ch) w) = samples (idct_int b (skipn pos ch) w)).
      { destruct avx; [apply idct_avx2_rows; [exact L|discriminate]|reflexivity]. }
      rewrite E, idct_int_rows by exact L. destruct (forallb _ _); [exists (fun _ => dc_row b); split; [reflexivity|exact Dc]|].
      exists (full_row b). split; [reflexivity|intros; apply full_row_bytes]. }
  destruct R as (rows & S & Rb). destruct (store_rows_spec rows w (skipn pos ch)) as (o & E & A1 & A2 & A3); [intros i Hi; now apply Rb|exact Hw|rewrite skipn_length; lia|].
  rewrite E in S. destruct (idct_block false avx len b (skipn pos ch) w) as [[out t]| | |] eqn:Ib; cbn [samples bind fst] in S; try discriminate S.
  assert (out = o) as -> by congruence. rewrite skipn_length in A1. exists o, t. split; [reflexivity|]. split; [exact (idct_left _ _ _ _ _ _ _ _ L Z0 Ib)|].
  split; [rewrite app_length, firstn_length; lia|]. apply bytes_app. split; [now apply Forall_firstn'|].
  apply Forall_forall. intros x Hx. destruct (In_nth _ _ 0 Hx) as (i & Hi & <-).
  destruct (Nat.lt_ge_cases (i mod w) 8) as [C|C].
  - destruct (Nat.lt_ge_cases (i / w) 8) as [D|D].
    + assert (Ei : nth i o 0 = nth (i mod w) (rows (i / w)%nat) 0).
      { rewrite <- (A2 _ D). rewrite slice_nth by exact C. f_equal. pose proof (Nat.div_mod i w ltac:(lia)). lia. }
      rewrite Ei. destruct (Rb _ D) as (Lr & Br). unfold bytes in Br. rewrite Forall_forall in Br. apply Br. apply nth_In. lia.
    + rewrite A3; [rewrite nth_skipn; unfold bytes in Bc; rewrite Forall_forall in Bc; apply Bc, nth_In; lia|].
      intros k Hk. right. pose proof (Nat.div_mod i w ltac:(lia)). nia.
  - rewrite A3; [rewrite nth_skipn; unfold bytes in Bc; rewrite Forall_forall in Bc; apply Bc, nth_In; lia|].
    intros k Hk. pose proof (Nat.div_mod i w ltac:(lia)). pose proof (Nat.mod_upper_bound i w ltac:(lia)).
    destruct (Nat.lt_trichotomy k (i / w)) as [X|[X|X]]; [right; nia|right; subst k; lia|left; nia].
Qed.

Section Scan.
  Variable avx prog strict sampled : bool.
  Variable order : list nat.
  Variable N W H : nat.
  Hypothesis order_ok : forall k, In k order -> (k < N)%nat.

  Definition comp_any (c : comp) (ch : list Z) : Prop :=
    (exists dcn dcv acn acv fast, dc_table dcn dcv (dct c) /\ dc_ok dcn dcv /\ ac_table acn acv (act c) fast) /\ length (qt c) = 64%nat /\
    (0 < hs c)%nat /\ (0 < vs c)%nat /\ (8 * (W * hs c) <= stride c)%nat /\ ((if prog then H else 1) * (stride c * 8 * vs c) <= length ch)%nat /\ bytes ch.
  Definition scan_any (s : scan) : Prop :=
    sane (str s) /\ length (comps s) = N /\ length (chans s) = N /\
    (forall k c ch, nth_error (comps s) k = Some c -> nth_error (chans s) k = Some ch -> comp_any c ch) /\ scratch_ok (tmp s, more s).
  Definition rows_any (s s' : scan) : Prop := map (@length Z) (chans s') = map (@length Z) (chans s).

  Lemma pred_any c p ch : comp_any c ch -> comp_any (with_pred c p) ch.
  Proof. intros X. exact X. Qed.
  Lemma one_block_any row j k v h s : (row < H)%nat -> (j < W)%nat -> In k order ->
    (forall c, nth_error (comps s) k = Some c -> (v < vs c)%nat /\ (h < hs c)%nat) -> scan_any s ->
    fine (fun s' => scan_any s' /\ map hs (comps s') = map hs (comps s) /\ map vs (comps s') = map vs (comps s)) (one_block false avx prog row j k v h s).
  Proof.
    intros Hr Hj Hk Hc (S & Lc & Lch & C & Sc). unfold one_block. specialize (order_ok k Hk).
    destruct (nth_error (comps s) k) as [c|] eqn:Ec; [|apply nth_error_None in Ec; lia].
    destruct (nth_error (chans s) k) as [ch|] eqn:Ech; [|apply nth_error_None in Ech; lia].
    unfold get_at at 1. rewrite Ec. cbn [bind]. destruct (Hc c eq_refl) as (Hv & Hh).
    pose proof (C k c ch Ec Ech) as ((dcn & dcv & acn & acv & fast & TD & D15 & TA) & Q & H0 & V0 & St & Rm & Bc).
    destruct (block_any _ _ _ _ _ _ _ TD D15 TA (qt c) Q (pred c) (str s) S) as (B1 & B2).
    destruct (needed c).
    - pose proof (clear_scratch (tmp s, more s) Sc) as Cl. cbn [fst snd] in Cl. rewrite Cl. clear Cl. apply (fine_bind _ _ _ _ B1). intros [[[p len] t] b] (Hlen & Lt & Zt & Sb).
      unfold get_at. rewrite Ech. cbn [bind]. cbv zeta. set (off := if prog then (row * stride c * 8 * vs c)%nat else 0%nat).
      assert (X : (8 * (j * hs c + h) + 8 <= stride c)%nat) by (assert (j * hs c + h < W * hs c)%nat by nia; lia).
      assert (Pl : (off + (stride c * (v * 8) + (j * hs c + h) * 8) + 7 * stride c + 8 <= length ch)%nat).
      { assert (Y : (stride c * (v * 8) + stride c * 8 <= stride c * 8 * vs c)%nat) by nia. set (u := (stride c * 8 * vs c)%nat) in *.
        assert (Z0 : (off + u <= length ch)%nat).
        { unfold off. destruct prog; [|lia]. replace (row * stride c * 8 * vs c)%nat with (row * u)%nat by (unfold u; ring). nia. }
        lia. }
      replace (length ch <? off + (stride c * (v * 8) + (j * hs c + h) * 8))%nat with false by (symmetry; apply Nat.ltb_ge; lia).
      destruct (idct_any avx len t ch (off + (stride c * (v * 8) + (j * hs c + h) * 8)) (stride c) Lt Zt ltac:(lia) Pl Bc) as (out & t' & -> & Sc' & Lo & Bo).
      cbn [bind fine]. split; [|cbn [comps]; split; apply map_upd_same with (c := c); auto].
      split; [exact Sb|]. cbn [comps chans tmp more]. rewrite !upd_length. split; [exact Lc|]. split; [exact Lch|]. split; [|exact Sc'].
      intros k' c' ch' E1 E2. apply upd_nth_err in E1. apply upd_nth_err in E2. destruct E1 as [(-> & ->)|(N1 & E1)], E2 as [(E2 & ->)|(N2 & E2)]; try congruence.
      + pose proof (C k c ch Ec Ech) as Y. unfold comp_any in *. cbn [with_pred dct act qt hs vs stride]. rewrite Lo. intuition.
      + exact (C k' c' ch' E1 E2).
    - apply (fine_bind _ _ _ _ B2). intros [len b] Sb. cbn [snd] in Sb. cbn [fine comps]. split; [|auto].
      split; [exact Sb|]. cbn [comps chans tmp more]. auto.
  Qed.

  Definition shape (s : scan) : list nat * list nat := (map hs (comps s), map vs (comps s)).
  Definition slot_in (sh : list nat * list nat) (x : nat * nat * nat) : Prop :=
    let '(k, v, h) := x in In k order /\ (v < nth k (snd sh) 0)%nat /\ (h < nth k (fst sh) 0)%nat.
  Lemma run_slots_any row j : (row < H)%nat -> (j < W)%nat -> forall l s, Forall (slot_in (shape s)) l -> scan_any s ->
    fine (fun r => scan_any (fst r) /\ shape (fst r) = shape s) (run_slots false avx prog row j l s).
  Proof.
    intros Hr Hj. induction l as [|[[k v] h] l IH]; intros s F S; cbn [run_slots]; [now split|].
    inversion F as [|x y Fx Fl]; subst x y. destruct Fx as (F1 & F2 & F3). cbn [shape fst snd] in F2, F3.
    assert (O : fine (fun s' => scan_any s' /\ map hs (comps s') = map hs (comps s) /\ map vs (comps s') = map vs (comps s)) (one_block false avx prog row j k v h s)).
    { apply one_block_any; try assumption. intros c Ec.
      rewrite (nth_error_nth _ _ 0%nat (map_nth_error vs k (comps s) Ec)) in F2. rewrite (nth_error_nth _ _ 0%nat (map_nth_error hs k (comps s) Ec)) in F3. now split. }
    destruct (one_block false avx prog row j k v h s) as [s'|e| |]; try contradiction O.
    - destruct O as (S' & E1 & E2). assert (Es : shape s' = shape s) by (unfold shape; congruence).
      eapply fine_weaken; [|apply (IH s'); [rewrite Es; exact Fl|exact S']]. intros [s2 o] (A & B). split; [exact A|congruence].
    - now split.
  Qed.
  Lemma slots_in s : scan_any s -> Forall (slot_in (shape s)) (slots sampled order (comps s)).
  Proof.
    intros (_ & Lc & Lch & C & _). apply Forall_forall. intros [[k v] h] Hx. unfold slots in Hx. apply in_flat_map in Hx. destruct Hx as (k' & Hk & Hx).
    destruct (nth_error (comps s) k') as [c|] eqn:Ec; [|destruct Hx]. apply in_flat_map in Hx. destruct Hx as (v' & Hv & Hx).
    apply in_map_iff in Hx. destruct Hx as (h' & E & Hh). injection E as -> -> ->. apply in_seq in Hv. apply in_seq in Hh.
    destruct (nth_error (chans s) k) as [ch|] eqn:Ech; [|apply nth_error_None in Ech; specialize (order_ok k Hk); lia].
    destruct (C k c ch Ec Ech) as (_ & _ & H0 & V0 & _).
    cbn [slot_in shape fst snd]. split; [exact Hk|].
    rewrite (nth_error_nth _ _ 0%nat (map_nth_error vs k (comps s) Ec)), (nth_error_nth _ _ 0%nat (map_nth_error hs k (comps s) Ec)).
    destruct sampled; split; lia.
  Qed.

  (** * Restart markers *)
  Lemma with_str_any s b : sane b -> scan_any s -> scan_any (with_str s b).
  Proof. intros Sb (_ & X). split; [exact Sb|exact X]. Qed.
  Lemma sane_reset b : sane (reset b).
  Proof. split; cbn [reset aligned left]; lia. Qed.
  Lemma handle_rst_any s : scan_any s -> fine scan_any (handle_rst s).
  Proof.
    intros S. unfold handle_rst. pose proof S as (Sa & Lc & Lch & C & Sc). destruct (marker (str s)) as [m|]; [|exact S].
    destruct (is_rst m).
    - split; [apply sane_reset|]. cbn [comps chans tmp more]. rewrite map_length. split; [exact Lc|]. split; [exact Lch|]. split; [|exact Sc].
      intros k c ch Ec Ech. rewrite nth_error_map in Ec. destruct (nth_error (comps s) k) as [c0|] eqn:E0; [|discriminate Ec]. injection Ec as <-.
      apply pred_any. exact (C k c0 ch E0 Ech).
    - destruct (m =? 217); [exact S|exact I].
  Qed.
  Lemma rst_main_any s : scan_any s -> fine scan_any (rst_main s).
  Proof.
    intros S. unfold rst_main. pose proof S as (Sa & _). apply (fine_bind _ _ _ _ (refill_any _ Sa)). intros b Sb. cbv zeta.
    apply handle_rst_any, with_str_any; [|exact S]. destruct (_ && _ && _); [|exact Sb]. destruct (get_marker _ _) as [m r]. exact Sb.
  Qed.
  (** * Rows *)
  Lemma run_mcus_any row : (row < H)%nat -> forall js s, Forall (fun j => j < W)%nat js -> scan_any s ->
    fine (fun r => scan_any (fst r)) (run_mcus false avx prog strict sampled order row js s).
  Proof.
    intros Hr. induction js as [|j js IH]; intros s F S; cbn [run_mcus]; [exact S|]. inversion F as [|x y F1 F2]; subst x y.
    apply (fine_bind _ _ _ _ (run_slots_any row j Hr F1 _ _ (slots_in s S) S)). intros [s1 e] (S1 & _). cbn [fst] in S1.
    destruct e as [e|]; [destruct strict; [exact I|exact S1]|]. cbv zeta.
    assert (S2 : scan_any (with_todo s1 ((todo s1 - 1) mod 2 ^ 64))) by exact S1. revert S2. generalize (with_todo s1 ((todo s1 - 1) mod 2 ^ 64)) as s2. intros s2 S2.
    destruct (todo s2 =? 0); [apply (fine_bind _ _ _ _ (rst_main_any _ S2)); intros s3 S3; now apply IH|].
    destruct (_ && _); [exact S2|now apply IH].
  Qed.
  Lemma after_row_any s : scan_any s -> fine (fun r => scan_any (fst r)) (after_row strict s).
  Proof.
    intros S. unfold after_row. cbv zeta. pose proof S as (Sa & _). destruct (marker (str s)) as [m|]; [|exact S].
    assert (G : forall e, sane (Bits (buffer (str s)) (aligned (str s)) (left (str s)) None (over (str s)) e (rd (str s)))) by (intros e; exact Sa).
    destruct (m =? 217); [apply with_str_any; [apply G|exact S]|]. destruct (is_rst m).
    - destruct (todo s =? 0); [|exact S]. apply (fine_bind _ _ _ _ (handle_rst_any _ S)). intros s' S'. exact S'.
    - destruct (m =? 218); [apply with_str_any; [apply sane_reset|exact S]|]. destruct (existsb _ _); [apply with_str_any; [apply G|exact S]|].
      destruct strict; [exact I|]. apply with_str_any; [apply sane_reset|exact S].
  Qed.
  Lemma decode_row_any row s : (row < H)%nat -> scan_any s -> fine (fun r => scan_any (fst r)) (decode_row false avx prog strict sampled order W row s).
  Proof.
    intros Hr S. unfold decode_row. cbv zeta.
    assert (S0 : scan_any (Scan (str s) (comps s) (chans s) (todo s) (interval s) (tmp s) true)).
    { destruct S as (A & B & C & D & (E & _)). split; [exact A|]. split; [exact B|]. split; [exact C|]. split; [exact D|]. split; [exact E|discriminate]. }
    eapply fine_bind; [apply run_mcus_any; [exact Hr|apply Forall_forall; intros j Hj; apply in_seq in Hj; lia|exact S0]|].
    intros [s1 t] S1. cbn [fst] in S1. destruct t; [exact S1|now apply after_row_any].
  Qed.
  Definition picture_any (chs : list (list Z)) : Prop := length chs = N /\ Forall bytes chs.
  Lemma any_picture s : scan_any s -> picture_any (chans s).
  Proof.
    intros (_ & Lc & Lch & C & _). split; [exact Lch|]. apply Forall_forall. intros ch Hch. apply In_nth_error in Hch. destruct Hch as (k & Ek).
    destruct (nth_error (comps s) k) as [c|] eqn:Ec; [now apply (C k c ch)|]. apply nth_error_None in Ec.
    assert (nth_error (chans s) k <> None) by congruence. apply nth_error_Some in H0. lia.
  Qed.
  Lemma run_rows_any : forall rows s, Forall (fun r => r < H)%nat rows -> scan_any s ->
    fine (fun '(_, out, s') => Forall picture_any out /\ scan_any s') (run_rows false avx prog strict sampled order W rows s).
  Proof.
    induction rows as [|row rows IH]; intros s F S; cbn [run_rows]; [split; [constructor|exact S]|].
    destruct (0 <? over (str s)); [destruct strict; [exact I|split; [constructor|exact S]]|].
    inversion F as [|x y F1 F2]; subst x y.
    apply (fine_bind _ _ _ _ (decode_row_any row s F1 S)). intros [s1 c] S1. cbn [fst] in S1.
    destruct c; try (split; [constructor; [now apply any_picture|constructor]|exact S1]).
    apply (fine_bind _ _ _ _ (IH s1 F2 S1)). intros [[e out] s'] (A & B). split; [|exact B]. constructor; [now apply any_picture|exact A].
  Qed.
End Scan.
