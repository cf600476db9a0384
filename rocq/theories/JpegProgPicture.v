(** From the coefficients of a progressive JPEG file to rows of samples *)
From Verif Require Import Base BaseProof Loops Slices Bits JpegSimd JpegIdctModel JpegIdctSpec JpegIdctProof JpegIdctProps JpegHuffModel JpegHuffSpec JpegHuffTable JpegHuffBlock JpegScanModel JpegScanSpec JpegScanProof JpegScanProps
  JpegProgModel JpegProgSpec JpegProgBits JpegProgBlock JpegProgScan JpegProgFile.

(** the DC coefficient and the others *)
Definition split_block (l : list Z) : Z * list Z := (nth 0 l 0, skipn 1 l).
Lemma product_deq q block l : length block = 64%nat -> length q = 64%nat -> length l = 64%nat -> view block = l -> map (fun '(x, y) => x * y) (combine block q) = deq q (split_block l).
Proof.
  intros L1 L2 L3 V. apply (list_eq_nth 0); [rewrite deq_length, map_length, combine_length; lia|]. rewrite map_length, combine_length, L1, L2. intros i Hi. cbn in Hi.
  rewrite (map_nth_in _ _ _ (0, 0)) by (rewrite combine_length; lia). rewrite combine_nth by congruence. unfold deq. rewrite (map_nth_in _ _ _ 0%nat) by (rewrite seq_length; exact Hi). rewrite seq_nth by exact Hi.
  cbn [Nat.add]. f_equal. destruct (unz_ok i Hi) as (U1 & U2). unfold split_block. cbn [fst snd].
  replace (nth 0 l 0 :: skipn 1 l) with l by (destruct l; [discriminate L3|reflexivity]). rewrite <- V. unfold view. rewrite (map_nth_in _ _ _ 0%nat) by (rewrite zz_length; exact U1). now rewrite U2.
Qed.
Lemma prog_block_ok debug avx q coefs stride pos ch l : length coefs = 64%nat -> length q = 64%nat -> length l = 64%nat -> view coefs = l -> dc_in_range (deq q (split_block l)) -> (8 <= stride)%nat -> (pos + 7 * stride + 8 <= length ch)%nat ->
  exists ch', prog_block debug avx q coefs stride pos ch = Ok ch' /\ length ch' = length ch /\
    (forall a, (a < 8)%nat -> slice ch' (pos + a * stride) 8 = full_row (deq q (split_block l)) a) /\
    (forall i, (forall a, (a < 8)%nat -> (i < pos + a * stride \/ pos + a * stride + 8 <= i)%nat) -> nth i ch' 0 = nth i ch 0).
Proof.
  intros L1 L2 L3 V D Hs Hl. destruct (idct_at debug avx 64 (deq q (split_block l)) ch pos stride (deq_length _ _) ltac:(intros k Hk; lia) D Hs Hl) as (out & t & E & _ & Lo & Ro & Oo).
  exists (firstn pos ch ++ out). unfold prog_block. replace (length ch <? pos)%nat with false by (symmetry; apply Nat.ltb_ge; lia). rewrite (product_deq q coefs l L1 L2 L3 V).
  change (idct_block debug avx 64 (deq q (split_block l)) (skipn pos ch) stride) with ((if avx then idct_avx2 debug else idct_int) (deq q (split_block l)) (skipn pos ch) stride) in E. rewrite E. cbn [bind].
  split; [reflexivity|]. split; [exact Lo|]. split; [exact Ro|exact Oo].
Qed.

Section Channel.
  Variables (debug avx : bool) (g : geo) (n : nat) (data : list Z) (val : nat -> nat -> list Z).
  Hypothesis g1 : (gstride g = 8 * n)%nat.
  Hypothesis n0 : (0 < n)%nat.
  Hypothesis q64 : length (gqt g) = 64%nat.
  Hypothesis len : length data = (64 * (n * gvs g))%nat.
  Hypothesis vals : forall v j, (v < gvs g)%nat -> (j < n)%nat -> length (val v j) = 64%nat /\ view (slice data (64 * (v * n + j)) 64) = val v j /\ dc_in_range (deq (gqt g) (split_block (val v j))).
  Definition drawn (ch : list Z) (v j : nat) : Prop := forall a, (a < 8)%nat -> slice ch ((8 * v + a) * gstride g + 8 * j) 8 = full_row (deq (gqt g) (split_block (val v j))) a.
  Lemma channel_ok ch : length ch = (gstride g * gvs g * 8)%nat -> exists ch', prog_channel debug avx g data ch = Ok ch' /\ length ch' = length ch /\
    forall v j, (v < gvs g)%nat -> (j < n)%nat -> drawn ch' v j.
  Proof.
    intros L. unfold prog_channel. replace (gstride g / 8)%nat with n by (rewrite g1, Nat.mul_comm, Nat.div_mul; [reflexivity|discriminate]).
    assert (Hs : (8 <= gstride g)%nat) by lia.
    destruct (for_range_inv (fun v ch' => length ch' = length ch /\ forall v' j, (v' < v)%nat -> (j < n)%nat -> drawn ch' v' j) 0 (gvs g)
      (fun v ch => for_range 0 n (fun j ch => let start := (j * 64 + v * 8 * gstride g)%nat in if (length data <? start + 64)%nat then Err EOther else
        prog_block debug avx (gqt g) (slice data start 64) (gstride g) (v * 8 * gstride g + j * 8) ch) ch) ch) as (ch' & E & L' & D'); [lia|split; [reflexivity|lia]| |exists ch'; split; [exact E|split; [exact L'|exact D']]].
    intros v c Hv (Lc & Dc). cbn [plus] in Hv.
    destruct (for_range_inv (fun j ch' => length ch' = length ch /\ (forall v' j', (v' < v)%nat -> (j' < n)%nat -> drawn ch' v' j') /\ (forall j', (j' < j)%nat -> drawn ch' v j')) 0 n
      (fun j ch => let start := (j * 64 + v * 8 * gstride g)%nat in if (length data <? start + 64)%nat then Err EOther else
        prog_block debug avx (gqt g) (slice data start 64) (gstride g) (v * 8 * gstride g + j * 8) ch) c) as (c' & E & L' & D1 & D2); [lia|split; [exact Lc|split; [exact Dc|lia]]| |].
    - intros j c1 Hj (Lc1 & Da & Db). cbv beta zeta. replace (j * 64 + v * 8 * gstride g)%nat with (64 * (v * n + j))%nat by lia.
      assert (In64 : (64 * (v * n + j) + 64 <= length data)%nat) by (rewrite len; nia). replace (length data <? 64 * (v * n + j) + 64)%nat with false by (symmetry; apply Nat.ltb_ge; exact In64).
      destruct (vals v j ltac:(lia) ltac:(lia)) as (V1 & V2 & V3).
      destruct (prog_block_ok debug avx (gqt g) (slice data (64 * (v * n + j)) 64) (gstride g) (v * 8 * gstride g + j * 8) c1 (val v j)) as (c2 & E2 & L2 & R2 & O2); [apply slice_length; exact In64|exact q64|exact V1|exact V2|exact V3|exact Hs| |].
      { rewrite Lc1, L. set (S := gstride g) in *. assert (8 * j + 8 <= S)%nat by lia. assert (v * 8 * S + 8 * S <= S * gvs g * 8)%nat by nia. lia. }
      exists c2. split; [exact E2|]. split; [congruence|].
      assert (Keep : forall v' j', (v' < v)%nat /\ (j' < n)%nat \/ v' = v /\ (j' < j)%nat -> drawn c1 v' j' -> drawn c2 v' j').
      { intros v' j' Ho Dr a Ha. rewrite <- (Dr a Ha). set (S := gstride g) in *.
        assert (B : ((8 * v' + a) * S + 8 * j' + 8 <= length c1)%nat).
        { rewrite Lc1, L. assert (8 * j' + 8 <= S)%nat by lia. assert ((8 * v' + a) * S + S <= S * gvs g * 8)%nat by nia. lia. }
        apply (list_eq_nth 0); [rewrite !slice_length by lia; reflexivity|]. rewrite slice_length by lia. intros i Hi. rewrite !slice_nth by exact Hi. apply O2. intros a' Ha'.
        destruct Ho as [(Ho & Hj')|(-> & Ho)].
        - left. assert ((8 * v' + a) * S + S <= v * 8 * S)%nat by nia. assert (8 * j' + 8 <= S)%nat by lia. nia.
        - destruct (Nat.lt_trichotomy a a') as [C|[-> |C]].
          + left. assert (8 * j' + 8 <= S)%nat by lia. nia.
          + left. nia.
          + right. assert (8 * j + 8 <= S)%nat by lia. nia. }
      split.
      + intros v' j' Hv' Hj'. apply Keep; [now left|now apply Da].
      + intros j' Hj'. destruct (Nat.eq_dec j' j) as [->|N].
        * intros a Ha. rewrite <- (R2 a Ha). f_equal. lia.
        * apply Keep; [right; lia|]. apply Db. lia.
    - exists c'. split; [exact E|]. split; [exact L'|]. intros v' j' Hv' Hj'. destruct (Nat.eq_dec v' v) as [->|N]; [now apply D2|]. apply D1; lia.
  Qed.
End Channel.

Section Finish.
  Variables (debug avx : bool) (coef : nat -> nat -> list Z) (f : pframe) (fr : frame) (parts : nat -> part) (p : knowledge) (bufs : list (list Z)).
  Hypothesis fok : frame_ok f.
  Hypothesis ffor : frame_for fr f.
  Let n := length (f_samp f).
  Hypothesis good : bufs_ok coef n (nblocks f) p bufs.
  Hypothesis quant : forall k g, nth_error (geos fr) k = Some g -> gqt g = p_qt (parts k) /\ length (gqt g) = 64%nat /\ p_hs (parts k) = hs_of f k /\ p_vs (parts k) = vs_of f k.
  (** the block at row [v] and column [h] of component [k] in MCU [m] *)
  Definition block_at (m k v h : nat) : Z * list Z :=
    split_block (shown coef p k ((m / mcus_x f * vs_of f k + v) * across f k + (m mod mcus_x f * hs_of f k + h))).
  Hypothesis range : forall k b, (k < n)%nat -> (b < nblocks f k)%nat -> dc_in_range (deq (p_qt (parts k)) (split_block (shown coef p k b))).
  Let rows := if inter fr then my fr else bh fr.
  Lemma rows_mcus : rows = mcus_y f.
  Proof.
    destruct ffor as (Ew & Eh & Ei & Em & _). unfold rows. destruct (inter fr) eqn:C; [now apply Em; left|]. symmetry in Ei. apply orb_false_iff in Ei. destruct Ei as (_ & C2). apply negb_false_iff, Nat.eqb_eq in C2.
    unfold mcus_y. now rewrite C2.
  Qed.
  Definition chan_ok (i k : nat) (ch : list Z) : Prop := length ch = (8 * across f k * (8 * vs_of f k))%nat /\
    forall v x, (v < vs_of f k)%nat -> (x < across f k)%nat -> forall a, (a < 8)%nat ->
      slice ch ((8 * v + a) * (8 * across f k) + 8 * x) 8 = full_row (deq (p_qt (parts k)) (split_block (shown coef p k ((i * vs_of f k + v) * across f k + x)))) a.
  Lemma shown_length k b : length (shown coef p k b) = 64%nat.
  Proof. unfold shown. now rewrite map_length, seq_length. Qed.
  Lemma channels_ok i : (i < mcus_y f)%nat -> forall gs bs chs k0, (forall j g, nth_error gs j = Some g -> nth_error (geos fr) (k0 + j) = Some g) -> (forall j b, nth_error bs j = Some b -> nth_error bufs (k0 + j) = Some b) ->
    length gs = length bs -> length gs = length chs -> (forall j ch, nth_error chs j = Some ch -> length ch = (8 * across f (k0 + j) * (8 * vs_of f (k0 + j)))%nat) ->
    exists chs', prog_channels debug avx rows i gs bs chs = Ok chs' /\ length chs' = length chs /\ forall j ch, nth_error chs' j = Some ch -> chan_ok i (k0 + j) ch.
  Proof.
    intros Hi. destruct ffor as (_ & _ & _ & _ & Lg & Eg). induction gs as [|g gs IH]; intros [|b bs] [|ch chs] k0 G B L1 L2 Lc; try discriminate L1; try discriminate L2.
    - exists []. split; [reflexivity|]. split; [reflexivity|]. intros [|j] ch H; discriminate H.
    - cbn [prog_channels]. pose proof (G 0%nat g eq_refl) as Gk. pose proof (B 0%nat b eq_refl) as Bk. rewrite Nat.add_0_r in Gk, Bk. destruct (Eg k0 g Gk) as (E1 & E2 & E3).
      destruct (quant k0 g Gk) as (Q1 & Q2 & Q3 & Q4). destruct good as (Lb & Gd). destruct (Gd k0 b Bk) as (Lbk & Sl). assert (Hk : (k0 < n)%nat) by (rewrite <- Lb; apply nth_error_Some; congruence).
      rewrite rows_mcus. pose proof (mcus_pos f fok) as (_ & M0). pose proof (mcus_pos f fok) as (M1 & _). destruct (samp_pos f fok k0) as (P1 & P2).
      assert (St : (length b / mcus_y f = 64 * (across f k0 * vs_of f k0))%nat).
      { rewrite Lbk. unfold nblocks, down. replace (64 * (across f k0 * (mcus_y f * vs_of f k0)))%nat with (64 * (across f k0 * vs_of f k0) * mcus_y f)%nat by lia. apply Nat.div_mul. lia. }
      rewrite St. set (step := (64 * (across f k0 * vs_of f k0))%nat).
      assert (Ls : (i * step + step <= length b)%nat) by (rewrite Lbk; unfold nblocks, down, step; nia). replace (length b <? i * step + step)%nat with false by (symmetry; apply Nat.ltb_ge; exact Ls).
      destruct (channel_ok debug avx g (across f k0) (slice b (i * step) step) (fun v x => shown coef p k0 ((i * vs_of f k0 + v) * across f k0 + x)) E3) with (ch := ch) as (ch' & X1 & X2 & X3).
      + unfold across. nia.
      + exact Q2.
      + rewrite slice_length by exact Ls. now rewrite E2.
      + intros v j Hv Hj. rewrite E2 in Hv. assert (Bd : ((i * vs_of f k0 + v) * across f k0 + j < nblocks f k0)%nat) by (unfold nblocks; assert (i * vs_of f k0 + v < down f k0)%nat by (unfold down; nia); nia).
        split; [apply shown_length|]. split; [|rewrite Q1; apply range; [exact Hk|exact Bd]]. rewrite <- (Sl _ Bd). f_equal.
        apply (list_eq_nth 0).
        * rewrite !slice_length; [reflexivity|rewrite Lbk; lia|rewrite slice_length by exact Ls; unfold step; nia].
        * rewrite slice_length by (rewrite slice_length by exact Ls; unfold step; nia). intros t Ht. rewrite !slice_nth; [f_equal; unfold step; nia|exact Ht|unfold step; nia|exact Ht].
      + rewrite (Lc 0%nat ch eq_refl), Nat.add_0_r, E2, E3. lia.
      + rewrite X1. cbn [bind]. destruct (IH bs chs (S k0)) as (chs' & Y1 & Y2 & Y3).
        * intros j g' H. rewrite Nat.add_succ_comm. now apply G.
        * intros j b' H. rewrite Nat.add_succ_comm. now apply B.
        * now injection L1.
        * now injection L2.
        * intros j c H. rewrite Nat.add_succ_comm. now apply Lc.
        * rewrite rows_mcus in Y1. rewrite Y1. cbn [bind]. exists (ch' :: chs'). split; [reflexivity|]. split; [cbn [length]; congruence|].
          intros [|j] c H; cbn [nth_error] in H.
          -- injection H as <-. rewrite Nat.add_0_r. split; [rewrite X2, (Lc 0%nat ch eq_refl), Nat.add_0_r; reflexivity|]. intros v x Hv Hx a Ha. rewrite <- E3, <- Q1. apply (X3 v x); [rewrite E2; exact Hv|exact Hx|exact Ha].
          -- rewrite <- Nat.add_succ_comm. now apply Y3.
  Qed.
  Lemma finish_rows : forall l chs, Forall (fun i => (i < mcus_y f)%nat) l -> length chs = n -> (forall k ch, nth_error chs k = Some ch -> length ch = (8 * across f k * (8 * vs_of f k))%nat) ->
    exists out, prog_rows debug avx rows l (geos fr) bufs chs = Ok out /\ length out = length l /\ forall r i chs, nth_error l r = Some i -> nth_error out r = Some chs -> length chs = n /\ forall k ch, nth_error chs k = Some ch -> chan_ok i k ch.
  Proof.
    destruct ffor as (_ & _ & _ & _ & Lg & _). pose proof (proj1 good) as Lb.
    induction l as [|i l IH]; intros chs F L Lc.
    - exists []. split; [reflexivity|]. split; [reflexivity|]. intros [|r] i c H; discriminate H.
    - inversion F as [|x y F1 F2]. subst x y. cbn [prog_rows]. destruct (channels_ok i F1 (geos fr) bufs chs 0%nat) as (chs' & E1 & E2 & E3); [auto|auto|fold n in Lg; congruence|fold n in Lg; congruence|exact Lc|].
      rewrite E1. cbn [bind]. destruct (IH chs' F2) as (out & E4 & E5 & E6); [congruence|intros k ch H; apply (E3 k ch H)|]. rewrite E4. cbn [bind]. exists (chs' :: out). split; [reflexivity|]. split; [cbn [length]; congruence|].
      intros [|r] j c H1 H2; cbn [nth_error] in H1, H2; [|now apply (E6 r)]. injection H1 as <-. injection H2 as <-. split; [congruence|exact E3].
  Qed.
  Theorem finish_ok : exists out, finish debug avx fr bufs = Ok out /\ rows_right parts (seq 0 n) block_at (fun _ => true) (fun k => (8 * across f k)%nat) n (mcus_x f) (mcus_y f) out.
  Proof.
    unfold finish. destruct ffor as (_ & _ & _ & _ & Lg & Eg). fold rows.
    destruct (finish_rows (seq 0 rows) (map (fun g => repeat 0 (gstride g * gvs g * 8)%nat) (geos fr))) as (out & E & L & R).
    - apply Forall_forall. intros i Hi. apply in_seq in Hi. rewrite rows_mcus in Hi. lia.
    - now rewrite map_length.
    - intros k ch H. rewrite nth_error_map in H. destruct (nth_error (geos fr) k) as [g|] eqn:G; [|discriminate H]. injection H as <-. destruct (Eg k g G) as (_ & -> & ->). rewrite repeat_length. lia.
    - exists out. split; [exact E|]. rewrite seq_length, rows_mcus in L. split; [exact L|]. intros r chs Hr. assert (Hrl : (r < mcus_y f)%nat) by (rewrite <- L; apply nth_error_Some; congruence).
      destruct (R r r chs) as (R1 & R2); [rewrite rows_mcus; rewrite (nth_error_nth' _ 0%nat) by (rewrite seq_length; exact Hrl); now rewrite seq_nth by exact Hrl|exact Hr|].
      split; [exact R1|]. intros k ch Hk _ Ek. apply in_seq in Hk. assert (Hg : exists g, nth_error (geos fr) k = Some g) by (destruct (nth_error (geos fr) k) as [g|] eqn:G; [now exists g|apply nth_error_None in G; fold n in Lg; lia]). destruct Hg as (g & G).
      destruct (quant k g G) as (Q1 & Q2 & Q3 & Q4). destruct (R2 k ch Ek) as (C1 & C2). split; [rewrite Q4; exact C1|]. rewrite Q3, Q4. intros j v h Hj Hv Hh.
      pose proof (mcus_pos f fok) as (M0 & _). unfold block_at.
      assert (Dv : ((r * mcus_x f + j) / mcus_x f = r /\ (r * mcus_x f + j) mod mcus_x f = j)%nat).
      { split; [rewrite Nat.div_add_l by lia; rewrite Nat.div_small by exact Hj; lia|]. rewrite Nat.add_comm, Nat.mod_add by lia. now apply Nat.mod_small. }
      destruct Dv as (-> & ->). set (x := (j * hs_of f k + h)%nat). assert (Hx : (x < across f k)%nat) by (unfold x, across; nia).
      assert (Bd : ((r * vs_of f k + v) * across f k + x < nblocks f k)%nat) by (unfold nblocks; assert (r * vs_of f k + v < down f k)%nat by (unfold down; nia); nia).
      destruct (alone_rows (p_qt (parts k)) (split_block (shown coef p k ((r * vs_of f k + v) * across f k + x))) (range k _ ltac:(lia) Bd)) as (sq & A1 & A2 & A3). exists sq. split; [exact A1|].
      intros a b Ha Hb. specialize (C2 v x Hv Hx a Ha). rewrite <- A3 in C2 by exact Ha. apply (f_equal (fun l => nth b l 0)) in C2. rewrite !slice_nth in C2 by exact Hb. rewrite C2. f_equal. lia.
  Qed.
End Finish.
