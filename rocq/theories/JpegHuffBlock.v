(** Blocks decoded by zune-jpeg from coded bits *)
From Verif Require Import Base BaseProof Loops Slices Bits JpegSimd JpegHuffModel JpegIdctSpec JpegHuffSpec JpegHuffTable JpegHuffBits.

(** * One symbol *)
Section Symbol.
  Variable counts values : list Z.
  Hypothesis TO : table_ok counts values.
  Let Sz := sizes_from 1 counts.
  Let N := length Sz.
  Let st := start Sz.
  Lemma to_N : (N <= 256)%nat.
  Proof.
    destruct TO as (L & P & HN & _). unfold codes in HN.
    destruct (assign_codes (sizes_from 1 counts) 0 0 0) as (E & _); [lia| |reflexivity|rewrite E in HN; exact HN].
    pose proof (sizes_sorted counts 1 ltac:(lia) ltac:(lia)) as S. destruct (sizes_from 1 counts); [exact I|]. destruct S. split; [lia|assumption].
  Qed.
  Lemma codes_nth p s c : nth_error (codes counts) p = Some (s, c) -> (p < N)%nat /\ s = nth p Sz 0 /\ c * wt s = st p.
  Proof.
    destruct TO as (L & P & HN & _). unfold codes.
    destruct (assign_codes (sizes_from 1 counts) 0 0 0) as (E & G); [lia| |reflexivity|].
    { pose proof (sizes_sorted counts 1 ltac:(lia) ltac:(lia)) as S. destruct (sizes_from 1 counts); [exact I|]. destruct S. split; [lia|assumption]. }
    intros H. split; [unfold N, Sz; rewrite <- E; apply nth_error_Some; congruence|]. apply G in H. exact H.
  Qed.
  Lemma codes_len : length (codes counts) = N.
  Proof.
    destruct TO as (L & P & HN & _). unfold codes. apply (assign_codes (sizes_from 1 counts) 0 0 0); [lia| |reflexivity].
    pose proof (sizes_sorted counts 1 ltac:(lia) ltac:(lia)) as S. destruct (sizes_from 1 counts); [exact I|]. destruct S. split; [lia|assumption].
  Qed.
  Variable t : table.
  Hypothesis F : facts counts values t.

  Lemma LC : length counts = 16%nat.
  Proof. apply TO. Qed.
  Lemma PC : Forall (fun n => 0 <= n) counts.
  Proof. apply TO. Qed.
  Lemma LV : length values = 256%nat.
  Proof. apply TO. Qed.
  Lemma size_range p : (p < N)%nat -> 1 <= nth p Sz 0 <= 16.
  Proof. exact (Sz_nth counts values LC to_N LV p). Qed.
  Lemma starts_mono p q : (p <= q)%nat -> st p <= st q.
  Proof. exact (st_mono counts values LC to_N LV p q). Qed.
  Lemma start_next p : (p < N)%nat -> st (p + 1) = st p + wt (nth p Sz 0).
  Proof. apply st_S. Qed.

  Lemma size_iff p l : (p < N)%nat -> nth p Sz 0 <= Z.of_nat l <-> (p < cum counts l)%nat.
  Proof. exact (size_cum counts p l). Qed.

  (** the starts of codes of at most [l] bits are multiples of 2^(16-l) *)
  Lemma start_multiple l : (l <= 16)%nat -> forall q, (q <= cum counts l)%nat -> exists m, st q = m * 2 ^ (16 - Z.of_nat l).
  Proof.
    intros Hl q. induction q as [|q IH]; intros Hq; [exists 0; reflexivity|].
    destruct IH as (m & E); [lia|]. pose proof (cum_le counts l) as CL. fold Sz N in CL.
    replace (S q) with (q + 1)%nat by lia. rewrite start_next by lia. rewrite E.
    pose proof (proj2 (size_iff q l ltac:(lia)) ltac:(lia)) as Hs. pose proof (size_range q ltac:(lia)).
    exists (m + 2 ^ (Z.of_nat l - nth q Sz 0)). rewrite Z.mul_add_distr_r, <- Z.pow_add_r by lia. unfold wt. f_equal. f_equal. lia.
  Qed.
  Lemma find_length_ok fuel : forall l w, (1 <= l <= 17)%nat -> (17 - l < fuel)%nat -> 0 <= w -> st (cum counts (l - 1)) <= w ->
    (forall p, (p < N)%nat -> st p <= w < st (p + 1) -> find_length fuel t w (Z.of_nat l) = Ok (nth p Sz 0)) /\
    (st N <= w -> find_length fuel t w (Z.of_nat l) = Ok 17).
  Proof.
    induction fuel as [|f IH]; intros l w Hl Hf H0 Hw; [lia|]. cbn [find_length].
    destruct (Z.ltb_spec (Z.of_nat l) 17) as [C|C].
    - rewrite (get_at_ok _ _ 0) by (rewrite (f_maxlen _ _ _ F); lia). cbn [bind]. rewrite Nat2Z.id.
      assert (Go : (nth l (maxcode t) 0 = -1 \/ nth l (maxcode t) 0 = st (cum counts l) /\ nth (l - 1) counts 0 <> 0) /\ (nth l (maxcode t) 0 = -1 -> cum counts l = cum counts (l - 1))).
      { destruct (Z.eq_dec (nth (l - 1) counts 0) 0) as [E|E].
        - rewrite (f_maxnone _ _ _ F) by (exact E || lia). split; [now left|]. intros _. rewrite (cum_step counts values LC to_N LV l) by lia. rewrite E. cbn. lia.
        - pose proof (f_max _ _ _ F l ltac:(lia) E) as M. fold Sz st in M. rewrite M. split; [right; now split|].
          pose proof (starts_mono 0 (cum counts l) ltac:(lia)) as X. change (st 0) with 0 in X. lia. }
      destruct Go as (Go & Same).
      assert (Next : nth l (maxcode t) 0 <= w -> st (cum counts (l + 1 - 1)) <= w).
      { replace (l + 1 - 1)%nat with l by lia. destruct Go as [E|(E & _)]; [rewrite (Same E); auto|rewrite E; auto]. }
      destruct (Z.ltb_spec w (nth l (maxcode t) 0)) as [D|D].
      + destruct Go as [E|(E & Ec)]; [lia|]. rewrite E in D. pose proof (cum_le counts l) as CL. fold Sz N in CL. split.
        * intros p Hp Hr. f_equal.
          assert (Lo : (cum counts (l - 1) <= p)%nat).
          { destruct (Nat.le_gt_cases (cum counts (l - 1)) p) as [|X]; [assumption|]. pose proof (starts_mono (p + 1) (cum counts (l - 1)) ltac:(lia)). lia. }
          assert (Hi : (p < cum counts l)%nat).
          { destruct (Nat.lt_ge_cases p (cum counts l)) as [|X]; [assumption|]. pose proof (starts_mono (cum counts l) p ltac:(lia)). lia. }
          pose proof (size_iff p l ltac:(lia)). pose proof (size_iff p (l - 1) ltac:(lia)). lia.
        * intros X. pose proof (starts_mono (cum counts l) N ltac:(lia)). lia.
      + replace (Z.of_nat l + 1) with (Z.of_nat (l + 1)) by lia. apply IH; [lia|lia|lia|]. apply Next. exact D.
    - assert (l = 17%nat) by lia. subst l. change (17 - 1)%nat with 16%nat in Hw. rewrite (cum_all counts 16) in Hw by (rewrite LC; lia). fold Sz N in Hw. split.
      + intros p Hp Hr. pose proof (starts_mono (p + 1) N ltac:(lia)). lia.
      + reflexivity.
  Qed.
  Lemma nth_byte p : 0 <= nth p values 0 < 256.
  Proof.
    destruct (Nat.lt_ge_cases p (length values)) as [H|H]; [|rewrite nth_overflow by exact H; lia].
    destruct TO as (_ & _ & _ & _ & B). unfold bytes in B. rewrite Forall_forall in B. apply B, nth_In, H.
  Qed.
  Lemma entry_parts p : (p < N)%nat -> Z.shiftr (entry counts values p) 9 = nth p Sz 0 /\ Z.land (entry counts values p) 511 = nth p values 0.
  Proof.
    intros Hp. unfold entry. fold Sz. pose proof (size_range p Hp). pose proof (nth_byte p). rewrite lor_shiftl_add by lia.
    split.
    - rewrite Z.shiftr_div_pow2 by lia. change (2 ^ 9) with 512. lia.
    - change 511 with (2 ^ 9 - 1). rewrite land_low by lia. change (2 ^ 9) with 512. lia.
  Qed.
  Lemma decode_window s : 0 <= aligned s < 2 ^ 64 ->
    let w := peek 16 s in let e := nth (Z.to_nat (peek 9 s)) (lookup t) 0 in
    0 <= peek 9 s < 512 /\ 0 <= w < 65536 /\ peek 9 s = w / 128 /\ get_at (lookup t) (Z.to_nat (peek 9 s)) = Ok e /\
    (forall p, (p < N)%nat -> st p <= w < st (p + 1) ->
       decode_huff t e s = if left s <? nth p Sz 0 then Err EOther else Ok (nth p values 0, drop_bits (nth p Sz 0) s)) /\
    (st N <= w -> decode_huff t e s = Err EOther).
  Proof.
    intros Al w e.
    assert (E9 : peek 9 s = w / 128).
    { unfold w, peek. rewrite !Z.shiftr_div_pow2 by lia. rewrite Z.div_div by lia. reflexivity. }
    assert (Bw : 0 <= w < 65536).
    { unfold w, peek. rewrite Z.shiftr_div_pow2 by lia. split; [apply Z.div_pos; lia|]. apply Z.div_lt_upper_bound; [lia|]. exact (proj2 Al). }
    assert (B9 : 0 <= peek 9 s < 512) by lia.
    split; [exact B9|]. split; [exact Bw|]. split; [exact E9|].
    destruct (f_lookup _ _ _ F) as (Ll & W). split; [apply get_at_ok; lia|].
    destruct (W (Z.to_nat (peek 9 s)) ltac:(lia)) as (W1 & W2). fold e in W1, W2. fold Sz st in W1, W2. rewrite Z2Nat.id in W1, W2 by lia.
    pose proof (cum_le counts 9) as CL. fold Sz N in CL.
    destruct (start_multiple 9 ltac:(lia) (cum counts 9) ltac:(lia)) as (m9 & E9'). change (2 ^ (16 - Z.of_nat 9)) with 128 in E9'.
    assert (Long : st (cum counts 9) <= w -> e = Z.shiftl 10 9 /\ 9 <? Z.shiftr e 9 = true).
    { intros X. assert (e = Z.shiftl 10 9) by (apply W2; lia). split; [assumption|]. rewrite H. reflexivity. }
    split.
    - intros p Hp Hr. pose proof (size_range p Hp) as Hs. pose proof (size_iff p 9 ltac:(lia)) as SC.
      destruct (Nat.lt_ge_cases p (cum counts 9)) as [C|C].
      + destruct (start_multiple 9 ltac:(lia) p ltac:(lia)) as (m1 & E1). destruct (start_multiple 9 ltac:(lia) (p + 1) ltac:(lia)) as (m2 & E2).
        change (2 ^ (16 - Z.of_nat 9)) with 128 in E1, E2.
        rewrite (W1 p C) by lia. unfold decode_huff. destruct (entry_parts p Hp) as (P1 & P2). rewrite P1, P2.
        replace (9 <? nth p Sz 0) with false by lia. cbn [bind]. reflexivity.
      + pose proof (starts_mono (cum counts 9) p C) as X. destruct (Long ltac:(lia)) as (Ee & E10). unfold decode_huff. fold w. rewrite E10.
        rewrite Ee. change (Z.shiftr (Z.shiftl 10 9) 9) with (Z.of_nat 10).
        destruct (find_length_ok 20 10 w ltac:(lia) ltac:(lia) ltac:(lia)) as (FL & _); [change (10 - 1)%nat with 9%nat; lia|].
        rewrite (FL p Hp Hr). cbn [bind]. replace (nth p Sz 0 =? 17) with false by lia. set (l := nth p Sz 0) in *.
        rewrite (get_at_ok _ _ 0) by (rewrite (f_offlen _ _ _ F); lia). cbn [bind].
        assert (Cl : (cum counts (Z.to_nat l - 1) <= p < cum counts (Z.to_nat l))%nat).
        { pose proof (size_iff p (Z.to_nat l) ltac:(lia)). pose proof (size_iff p (Z.to_nat l - 1) ltac:(lia)). lia. }
        assert (Cn : nth (Z.to_nat l - 1) counts 0 <> 0) by (apply (cum_lt_count counts values LC PC to_N LV (Z.to_nat l)); lia).
        destruct (f_off _ _ _ F (Z.to_nat l) ltac:(lia) Cn) as (c0 & O1 & O2). rewrite O1. rewrite Z2Nat.id in O2 by lia.
        fold Sz st in O2. set (q := cum counts (Z.to_nat l - 1)) in *.
        assert (Ep : forall d, (q + d <= p)%nat -> st (q + d) = (c0 + Z.of_nat d) * wt l).
        { induction d as [|d IHd]; intros Hd; [rewrite Nat.add_0_r; lia|]. replace (q + S d)%nat with (q + d + 1)%nat by lia. rewrite start_next by lia. rewrite IHd by lia.
          replace (nth (q + d) Sz 0) with l; [lia|]. pose proof (size_iff (q + d) (Z.to_nat l) ltac:(lia)).
          pose proof (size_iff (q + d) (Z.to_nat l - 1) ltac:(lia)).  lia. }
        specialize (Ep (p - q)%nat ltac:(lia)). replace (q + (p - q))%nat with p in Ep by lia. rewrite start_next in Hr by exact Hp. fold l in Hr.
        pose proof (wt_pos l ltac:(lia)) as Wl.
        assert (Idx : Z.shiftr w (16 - l) + (Z.of_nat q - c0) = Z.of_nat p).
        { rewrite Z.shiftr_div_pow2 by lia. fold (wt l). assert (w / wt l = c0 + Z.of_nat (p - q)); [|lia].
          symmetry. apply (Z.div_unique w (wt l) _ (w - st p)); [left; lia|]. rewrite Ep. lia. }
        rewrite Idx. pose proof to_N. change 255 with (2 ^ 8 - 1). rewrite land_low by lia. rewrite Z.mod_small by lia. rewrite Nat2Z.id.
        rewrite (f_values _ _ _ F). rewrite (get_at_ok _ _ 0) by (rewrite LV; lia). cbn [bind]. reflexivity.
    - intros X. pose proof (starts_mono (cum counts 9) N CL). destruct (Long ltac:(lia)) as (Ee & E10). unfold decode_huff. fold w. rewrite E10.
      rewrite Ee. change (Z.shiftr (Z.shiftl 10 9) 9) with (Z.of_nat 10).
      destruct (find_length_ok 20 10 w ltac:(lia) ltac:(lia) ltac:(lia)) as (_ & FL); [change (10 - 1)%nat with 9%nat; lia|].
      rewrite (FL X). cbn [bind]. reflexivity.
  Qed.
  (** the window of a code *)
  Lemma window_of p s c b u : nth_error (codes counts) p = Some (s, c) -> held b (msb (Z.to_nat s) c ++ u) -> c < 2 ^ s ->
    st p <= peek 16 b < st (p + 1).
  Proof.
    intros H Hh Hc. destruct (codes_nth p s c H) as (Hp & Es & Ec). pose proof (size_range p Hp) as Hs. rewrite <- Es in Hs.
    pose proof (peek_top 16 b _ _ Hh) as P. rewrite msb_length, val_msb, Z2Nat.id in P by lia. specialize (P ltac:(lia)).
    fold (wt s) in P. pose proof (wt_pos s ltac:(lia)) as Wp. rewrite start_next, <- Es, <- Ec by exact Hp.
    assert (C0 : 0 <= c) by (pose proof (starts_mono 0 p ltac:(lia)) as X; change (st 0) with 0 in X; nia).
    rewrite Z.mod_small in P by lia. pose proof (Z.div_mod (peek 16 b) (wt s) ltac:(lia)) as D. pose proof (Z.mod_pos_bound (peek 16 b) (wt s) Wp).
    rewrite P in D. lia.
  Qed.
End Symbol.
