(** Scans of baseline JPEG images: property theorems. *)
From Verif Require Import Base BaseProof Loops Slices JpegIdctModel JpegIdctSpec JpegIdctProof JpegIdctProps
  JpegHuffModel JpegHuffSpec JpegHuffTable JpegHuffRun JpegHuffProps JpegScanModel JpegScanSpec JpegScanProof JpegAny.

(** The samples of a block by itself: its coefficients through the portable inverse DCT (see JpegIdctProps.v) *)
Definition alone (q : list Z) (x : Z * list Z) (sq : list Z) : Prop :=
  exists b, dequantised q (fst x) (snd x) b /\ samples (idct_int b (repeat 0 64) 8) = Ok sq.
(** Values of DC coefficients: 16 bits, and the range in which the routines of the inverse DCT agree *)
Definition moderate (q : list Z) (x : Z * list Z) : Prop :=
  - 2 ^ 15 <= fst x < 2 ^ 15 /\ forall b, dequantised q (fst x) (snd x) b -> dc_in_range b.
(** A component as the headers leave it: tables, quantiser, sampling factors; [w] samples in a row *)
Definition part_ok (p : part) : Prop :=
  table_ok (p_dcn p) (p_dcv p) /\ table_ok (p_acn p) (p_acv p) /\ quantiser (p_qt p) /\ (0 < p_hs p)%nat /\ (0 < p_vs p)%nat.
Definition made_comp (p : part) (need : bool) (w : nat) (c : comp) : Prop :=
  exists d a, new_table true (p_dcn p) (p_dcv p) = Ok d /\ new_table false (p_acn p) (p_acv p) = Ok a /\
    c = Comp need d a (p_qt p) (p_hs p) (p_vs p) w 0.

Lemma deq_is q dc cs : dequantised q dc cs (deq q (dc, cs)).
Proof.
  split; [apply deq_length|]. intros k Hk. unfold deq.
  assert (B : (nth k zigzag 0 < 64)%nat) by (apply zz_at; exact Hk).
  rewrite (map_nth_in _ _ _ 0%nat) by (rewrite seq_length; exact B). rewrite seq_nth by exact B. cbn [Nat.add fst snd].
  destruct (unz_ok _ B) as (U1 & U2). apply zz_inj in U2; [|exact U1|exact Hk]. now rewrite U2.
Qed.
Lemma alone_rows q x : dc_in_range (deq q x) -> exists sq, alone q x sq /\ length sq = 64%nat /\ forall a, (a < 8)%nat -> slice sq (a * 8) 8 = full_row (deq q x) a.
Proof.
  intros D. destruct x as [dc cs].
  pose proof (idct_block_rows false false 64 (deq q (dc, cs)) (repeat 0 64) 8 (deq_length _ _) ltac:(intros k Hk; lia) D) as R.
  destruct (store_rows_spec (full_row (deq q (dc, cs))) 8 (repeat 0 64)) as (o & E & A1 & A2 & _); [intros; apply full_row_bytes|lia|rewrite repeat_length; lia|].
  exists o. split; [|split; [rewrite A1; apply repeat_length|exact A2]]. exists (deq q (dc, cs)). split; [apply deq_is|].
  unfold idct_block in R. cbn [Nat.leb] in R. congruence.
Qed.

Section Scan.
  Variables (debug avx strict sampled : bool) (parts : nat -> part) (order : list nat) (blk : nat -> nat -> nat -> nat -> Z * list Z)
    (need : nat -> bool) (strd : nat -> nat) (N W H R : nat).
  Definition scan_headers : Prop :=
    (forall k, In k order -> (k < N)%nat /\ part_ok (parts k) /\ (sampled = false -> p_hs (parts k) = 1%nat /\ p_vs (parts k) = 1%nat) /\
       (need k = true -> (8 * (W * p_hs (parts k)) <= strd k)%nat)) /\ order <> [] /\ (0 < W)%nat /\ (0 < H)%nat /\ Z.of_nat (W * H) < 2 ^ 31.
  Definition made_scan (cs : list comp) (chs : list (list Z)) : Prop :=
    length cs = N /\ length chs = N /\
    (forall k c, In k order -> nth_error cs k = Some c -> made_comp (parts k) (need k) (strd k) c) /\
    (forall k ch, In k order -> need k = true -> nth_error chs k = Some ch -> length ch = (strd k * (8 * p_vs (parts k)))%nat).
  (** Every MCU row: each component has the samples of its blocks, in their places. *)
  Definition rows_right (out : list (list (list Z))) : Prop :=
    length out = H /\ forall r chs, nth_error out r = Some chs -> length chs = N /\
      forall k ch, In k order -> need k = true -> nth_error chs k = Some ch -> length ch = (strd k * (8 * p_vs (parts k)))%nat /\
      forall j v h, (j < W)%nat -> (v < p_vs (parts k))%nat -> (h < p_hs (parts k))%nat ->
        exists sq, alone (p_qt (parts k)) (blk (r * W + j) k v h) sq /\ square (strd k) v (j * p_hs (parts k) + h) ch sq.
End Scan.

(** A valid scan that holds all of its components, with or without restart markers, is decoded completely: all blocks arrive
    in their places with the samples each has by itself. It makes no difference whether the build is for debugging, the processor
    has AVX2, the decoder is strict, or some components are skipped for a grayscale picture. *)
Theorem scan_decoded_partial debug avx strict sampled parts order blk need strd N W H R file cs chs dri :
  scan_headers sampled parts order need strd N W H -> made_scan parts order need strd N cs chs ->
  (forall n k v h, In k order -> (v < p_vs (parts k))%nat -> (h < p_hs (parts k))%nat -> moderate (p_qt (parts k)) (blk n k v h)) ->
  bytes file -> Z.of_nat R < 2 ^ 16 -> scan_bytes parts order blk R 0 0 (W * H) file -> match dri with None => R = 0%nat | Some d => d = Z.of_nat R end ->
  exists out s, run_scan debug avx false strict sampled order W H (start_scan file cs chs dri) = Ok (AllRows, out, s) /\
    rows_right parts order blk need strd N W H out.
Proof.
  intros (Hd & On & W0 & H0 & Tot) (Lc & Lch & Mc & Mch) Mod B R16 Sb Ed.
  assert (Db : forall n k v h, In k order -> (v < p_vs (parts k))%nat -> (h < p_hs (parts k))%nat -> dc_in_range (deq (p_qt (parts k)) (blk n k v h))).
  { intros n k v h Hk Hv Hh. destruct (Mod n k v h Hk Hv Hh) as (_ & M). destruct (blk n k v h) as [dc c]. apply M. apply deq_is. }
  destruct (scan_ok debug avx strict sampled parts order blk need strd N W H R) with (file := file) (cs := cs) (chs := chs) (dri := dri) as (out & s & E & Lo & O).
  - intros k Hk. now apply Hd.
  - exact On.
  - intros k Hk. destruct (Hd k Hk) as (_ & (_ & _ & _ & A1 & A2) & A3 & _). now split.
  - intros k Hk Nk. destruct (Hd k Hk) as (_ & _ & _ & A). now apply A.
  - intros n k v h Hk Hv Hh. split; [apply (Mod n k v h Hk Hv Hh)|now apply Db].
  - exact W0.
  - exact R16.
  - exact Sb.
  - exact B.
  - exact H0.
  - split; [exact Lc|]. intros k c Ec Hk. destruct (Mc k c Hk Ec) as (d & a & Ed' & Ea & ->). destruct (Hd k Hk) as (_ & (TD & TA & Q & _) & _).
    cbn [dct act qt hs vs stride pred needed]. split; [|reflexivity]. split; [now apply dc_made|]. split; [now apply ac_made|]. repeat (split; [first [reflexivity|exact Q]|]). reflexivity.
  - split; [exact Lch|]. intros k ch Ek Hk Nk. split; [now apply Mch|]. intros j v h _ _ _ [].
  - exact Ed.
  - exact Tot.
  - exists out, s. split; [exact E|]. split; [exact Lo|]. intros r chs' Er. destruct (O r chs' Er) as (L & C). split; [exact L|].
    intros k ch Hk Nk Ek. destruct (C k ch Ek Hk Nk) as (Lk & Sq). split; [exact Lk|]. intros j v h Hj Hv Hh.
    destruct (alone_rows (p_qt (parts k)) (blk (r * W + j)%nat k v h)) as (sq & A & Ls & Rs); [now apply Db|].
    exists sq. split; [exact A|]. intros a b Ha Hb. specialize (Sq j v h Hj Hv Hh I a Ha). rewrite <- (Rs a Ha) in Sq.
    apply (f_equal (fun l => nth b l 0)) in Sq. rewrite !slice_nth in Sq by exact Hb. rewrite (Nat.mul_comm 8 a). exact Sq.
Qed.
Print Assumptions scan_decoded_partial.

(** Whatever the bytes of the file, decoding a scan in a release build ends with rows of samples between 0 and 255 or with an error: no
    panic. [prog]: components in several scans. *)
Theorem scan_any_bytes_partial avx (prog : bool) strict sampled parts order need strd N W H file cs chs dri :
  (forall k, In k order -> (k < N)%nat) -> length cs = N -> length chs = N ->
  (forall k c ch, nth_error cs k = Some c -> nth_error chs k = Some ch ->
     part_ok (parts k) /\ made_comp (parts k) (need k) (strd k) c /\ (8 * (W * p_hs (parts k)) <= strd k)%nat /\
     ((if prog then H else 1) * (strd k * 8 * p_vs (parts k)) <= length ch)%nat /\ bytes ch) ->
  match run_scan false avx prog strict sampled order W H (start_scan file cs chs dri) with
  | Ok (_, out, _) => Forall (fun chs' : list (list Z) => length chs' = N /\ Forall bytes chs') out
  | Err _ => True
  | _ => False
  end.
Proof.
  intros On Lc Lch C.
  assert (S : scan_any prog N W H (start_scan file cs chs dri)).
  { split; [split; cbn [start_scan str aligned left]; lia|]. cbn [start_scan comps chans tmp more]. split; [exact Lc|]. split; [exact Lch|]. split; [|split; [reflexivity|discriminate]].
    intros k c ch Ec Ech. destruct (C k c ch Ec Ech) as ((TD & TA & (Q & _) & H0 & V0) & (d & a & Ed & Ea & ->) & St & Rm & Bc).
    split; [|cbn [qt hs vs stride]; repeat (split; [assumption|]); assumption]. cbn [dct act].
    destruct (ac_made _ _ _ TA Ea) as (fast & TA'). exists (p_dcn (parts k)), (p_dcv (parts k)), (p_acn (parts k)), (p_acv (parts k)), fast.
    split; [now apply dc_made|]. split; [|exact TA']. apply (dc_ok_iff _ _ TD).
    destruct (tables_accepted true _ _ TD) as (_ & Rf). intros p sc sym E1 E2. destruct (Z_le_dec sym 15) as [L|L]; [exact L|]. exfalso.
    rewrite Rf in Ed; [discriminate Ed|]. intros (_ & X). apply L. exact (X eq_refl p sc sym E1 E2). }
  pose proof (run_rows_any avx prog strict sampled order N W H On (seq 0 H) _ ltac:(apply Forall_forall; intros r Hr; apply in_seq in Hr; lia) S) as X.
  unfold run_scan. destruct (run_rows _ _ _ _ _ _ _ _ _) as [[[e out] s']| | |]; cbn [fine] in X; auto. apply X.
Qed.
Print Assumptions scan_any_bytes_partial.

(** ** A scan with a restart marker *)

(** 8 x 24 samples of one component, restart interval 2: blocks with DC values 5, -2 and (after the restart marker) 5; codes as in
    JpegHuffProps.v *)
Definition demo_part (hs vs : nat) : part := Part hs vs demo_counts demo_dcv demo_counts demo_acv demo_qt.
Definition demo_blk (dcs : list Z) (n k v h : nat) : Z * list Z := (nth n dcs 0, repeat 0 63).
Definition demo_comp (hs vs w : nat) : comp := Comp true demo_dct demo_act demo_qt hs vs w 0.
Lemma demo_part_ok hs vs : (0 < hs)%nat -> (0 < vs)%nat -> part_ok (demo_part hs vs).
Proof.
  intros A B. destruct blocks_demo as (T1 & T2 & _ & _ & _ & Q & _). split; [exact T1|]. split; [exact T2|]. split; [exact Q|]. now split.
Qed.
Lemma demo_made hs vs w : made_comp (demo_part hs vs) true w (demo_comp hs vs w).
Proof. destruct blocks_demo as (_ & _ & _ & E1 & E2 & _). exists demo_dct, demo_act. split; [exact E1|]. split; [exact E2|reflexivity]. Qed.
Lemma demo_moderate x : - 2 ^ 13 <= x < 2 ^ 13 -> moderate demo_qt (x, repeat 0 63).
Proof.
  intros H. split; cbn [fst snd]; [lia|]. intros b D. apply deq_ok in D. subst b. intros _.
  change (nth 0 (deq demo_qt (x, repeat 0 63)) 0) with (x * 2). lia.
Qed.
(** A block with nothing but a DC value: the difference is 0, or of three bits *)
Lemma demo_zero : block_coded demo_counts demo_dcv demo_counts demo_acv 0 (repeat 0 63) (msb 2 0 ++ msb 2 0).
Proof.
  exists (msb 2 0), (msb 2 0). split; [|split; [|reflexivity]].
  - exists 0, (msb 2 0). split; [lia|]. split; [reflexivity|]. split; [now apply demo_code|reflexivity].
  - apply (ac_end _ _ 63); [lia|now apply demo_code].
Qed.
Lemma demo_three x : 4 <= Z.abs x < 8 -> block_coded demo_counts demo_dcv demo_counts demo_acv x (repeat 0 63) (msb 2 1 ++ extra_bits 3 x ++ msb 2 0).
Proof.
  intros H. exists (msb 2 1 ++ extra_bits 3 x), (msb 2 0). split; [|split; [|now rewrite app_assoc]].
  - exists 3, (msb 2 1). split; [lia|]. split; [split; [lia|exact H]|]. split; [now apply demo_code|reflexivity].
  - apply (ac_end _ _ 63); [lia|now apply demo_code].
Qed.
(** 01 101 00, 01 000 00 and two ones; RST0; 01 101 00 and a one; EOI *)
Definition rst_file : list Z := [104; 131; 255; 208; 105; 255; 217].
Example scan_demo :
  let parts := fun _ => demo_part 1 1 in let blk := demo_blk [5; -2; 5] in
  scan_headers false parts [0%nat] (fun _ => true) (fun _ => 8%nat) 1 1 3 /\
  made_scan parts [0%nat] (fun _ => true) (fun _ => 8%nat) 1 [demo_comp 1 1 8] [repeat 0 64] /\
  (forall n k v h, moderate (p_qt (parts k)) (blk n k v h)) /\
  bytes rst_file /\ scan_bytes parts [0%nat] blk 2 0 0 (1 * 3) rst_file /\
  (do (e, out, s) <- run_scan true true false true false [0%nat] 1 3 (start_scan rst_file [demo_comp 1 1 8] [repeat 0 64] (Some 2)) ; Ok (map (map (firstn 2)) out))
  = Ok [[[129; 129]]; [[128; 128]]; [[129; 129]]].
Proof.
  intros parts blk. split; [|split; [|split; [|split; [|split]]]].
  - split; [|split; [discriminate|split; [lia|split; [lia|reflexivity]]]]. intros k [<-|[]].
    split; [lia|]. split; [apply demo_part_ok; lia|]. split; [now split|]. intros _. cbn. lia.
  - split; [reflexivity|]. split; [reflexivity|]. split.
    + intros k c [<-|[]] E. injection E as <-. apply demo_made.
    + intros k ch [<-|[]] _ E. injection E as <-. reflexivity.
  - intros n k v h. apply demo_moderate. do 3 (destruct n as [|n]; [cbn [nth]; lia|]). destruct n; cbn [nth]; lia.
  - repeat constructor; lia.
  - change (1 * 3)%nat with (2 + 1)%nat. apply (next_segment _ _ _ 2 0 0 1 [104; 131] 0 [105; 255; 217]); [lia|lia| |].
    + exists (msb 2 1 ++ extra_bits 3 5 ++ msb 2 0 ++ msb 2 1 ++ extra_bits 3 (-7) ++ msb 2 0), [true; true].
      split; [repeat constructor; lia|]. split; [reflexivity|]. split; [cbn; lia|].
      exists (msb 2 1 ++ extra_bits 3 5 ++ msb 2 0), (msb 2 1 ++ extra_bits 3 (-7) ++ msb 2 0). split; [reflexivity|]. split; [apply (demo_three 5); lia|].
      exists (msb 2 1 ++ extra_bits 3 (-7) ++ msb 2 0), []. split; [now rewrite app_nil_r|]. split; [apply (demo_three (-7)); lia|reflexivity].
    + apply (last_segment _ _ _ 2 1 2 1 [105] 0 []); [lia|]. exists (msb 2 1 ++ extra_bits 3 5 ++ msb 2 0), [true].
      split; [repeat constructor; lia|]. split; [reflexivity|]. split; [cbn; lia|].
      exists (msb 2 1 ++ extra_bits 3 5 ++ msb 2 0), []. split; [now rewrite app_nil_r|]. split; [apply (demo_three 5); lia|reflexivity].
  - vm_compute. reflexivity.
Qed.

(** A scan of junk: bits that are no code words, then the end of the file; an error. Another one, cut off after a few bits, gives samples. *)
Example scan_any_demo :
  (forall k c ch, nth_error [demo_comp 1 1 8] k = Some c -> nth_error [repeat 7 64] k = Some ch ->
     part_ok (demo_part 1 1) /\ made_comp (demo_part 1 1) true 8 c /\ (8 * (1 * 1) <= 8)%nat /\ (1 * (8 * 8 * 1) <= length ch)%nat /\ bytes ch) /\
  run_scan false true false true false [0%nat] 1 1 (start_scan [255; 0; 254; 17; 255; 3; 1] [demo_comp 1 1 8] [repeat 7 64] None) = Err EOther /\
  (do (e, out, s) <- run_scan false true false false false [0%nat] 1 1 (start_scan [104] [demo_comp 1 1 8] [repeat 7 64] None) ; Ok (map (map (firstn 2)) out)) = Ok [[[129; 129]]].
Proof.
  split; [|split; vm_compute; reflexivity]. intros k c ch E1 E2. destruct k as [|[|k]]; cbn in E1, E2; try discriminate. injection E1 as <-. injection E2 as <-.
  split; [apply demo_part_ok; lia|]. split; [apply demo_made|]. split; [lia|]. split; [cbn; lia|]. repeat constructor; lia.
Qed.

(** ** Components in separate scans *)

(** The claim of [scan_decoded_partial] for a scan that is followed by another one (SOS) is false: rows whose bits are already in the bit
    buffer when the marker is met are never decoded (mcu.rs:578-637). Here an image of 8 x 64 samples, of whose eight blocks
    (35 bits) only one is decoded; the rest of the buffer is left as it was. *)
Theorem separate_scans_rows_refuted : exists parts blk data rest,
  segment parts [0%nat] blk 0 8 data /\ (forall n k v h, moderate (p_qt (parts k)) (blk n k v h)) /\
  scan_headers false parts [0%nat] (fun _ => true) (fun _ => 8%nat) 1 1 8 /\
  exists cs, made_scan parts [0%nat] (fun _ => true) (fun _ => 8%nat) 1 cs [repeat 0 64] /\
  exists ch s, run_scan false false true false false [0%nat] 1 8 (start_scan (stuff data ++ [255; 218] ++ rest) cs [repeat 0 512] None) = Ok (Left CSos, [[ch]], s) /\
    exists sq, alone (p_qt (parts 0%nat)) (blk 7%nat 0%nat 0%nat 0%nat) sq /\ ~ square 8 7 0 ch sq.
Proof.
  exists (fun _ => demo_part 1 1), (demo_blk (repeat 5 8)), [104; 0; 0; 0; 31], [0; 0]. split; [|split; [|split]].
  - exists (msb 2 1 ++ extra_bits 3 5 ++ msb 2 0 ++ concat (repeat (msb 2 0 ++ msb 2 0) 7)), (repeat true 5).
    split; [repeat constructor; lia|]. split; [reflexivity|]. split; [cbn; lia|].
    exists (msb 2 1 ++ extra_bits 3 5 ++ msb 2 0), (concat (repeat (msb 2 0 ++ msb 2 0) 7)). split; [reflexivity|]. split; [apply (demo_three 5); lia|].
    assert (G : forall n m last bs, last 0%nat = 5 -> (n + m <= 8)%nat -> bs = concat (repeat (msb 2 0 ++ msb 2 0) m) ->
      coded (fun _ => demo_part 1 1) last (flat_map (mcu_blocks (fun _ => demo_part 1 1) [0%nat] (demo_blk (repeat 5 8))) (seq n m)) bs).
    { intros n m. revert n. induction m as [|m IH]; intros n last bs L Hn ->; [reflexivity|].
      assert (E : demo_blk (repeat 5 8) n 0 0 0 = (5, repeat 0 63)) by (do 8 (destruct n as [|n]; [reflexivity|]); lia).
      change (flat_map ?f (seq n (S m))) with ((0%nat, demo_blk (repeat 5 8) n 0 0 0) :: flat_map f (seq (S n) m)). rewrite E.
      change (concat (repeat ?b (S m))) with (b ++ concat (repeat b m)). cbn [coded].
      exists (msb 2 0 ++ msb 2 0), (concat (repeat (msb 2 0 ++ msb 2 0) m)). split; [reflexivity|]. split; [rewrite L; exact demo_zero|]. apply IH; [reflexivity|lia|reflexivity]. }
    apply (G 1%nat 7%nat); [reflexivity|lia|reflexivity].
  - intros n k v h. apply demo_moderate. assert (nth n (repeat 5 8) 0 = 5 \/ nth n (repeat 5 8) 0 = 0) as [-> | ->]; try lia.
    do 8 (destruct n as [|n]; [now left|]). right. destruct n; reflexivity.
  - split; [|split; [discriminate|split; [lia|split; [lia|reflexivity]]]]. intros k [<-|[]].
    split; [lia|]. split; [apply demo_part_ok; lia|]. split; [now split|]. intros _. cbn. lia.
  - exists [demo_comp 1 1 8]. split.
    + split; [reflexivity|]. split; [reflexivity|]. split.
      * intros k c [<-|[]] E. injection E as <-. apply demo_made.
      * intros k ch [<-|[]] _ E. injection E as <-. reflexivity.
    + eexists. eexists. split; [vm_compute; reflexivity|]. exists (repeat 129 64). split.
      * exists (deq demo_qt (5, repeat 0 63)). split; [apply deq_is|vm_compute; reflexivity].
      * intros Sq. specialize (Sq 0%nat 0%nat ltac:(lia) ltac:(lia)). cbv in Sq. discriminate Sq.
Qed.
Print Assumptions separate_scans_rows_refuted.
(** With a restart interval the last MCU of a scan before another one may be taken for the end of an interval: an error, even if not
    strict (mcu.rs:718-747). No restart marker is due there (T.81 E.1.4). *)
Theorem separate_scans_restart_refuted : exists parts blk data rest,
  segment parts [0%nat] blk 0 2 data /\ (forall n k v h, moderate (p_qt (parts k)) (blk n k v h)) /\
  scan_headers false parts [0%nat] (fun _ => true) (fun _ => 16%nat) 1 2 1 /\
  exists cs, made_scan parts [0%nat] (fun _ => true) (fun _ => 16%nat) 1 cs [repeat 0 128] /\
  run_scan false false true false false [0%nat] 2 1 (start_scan (stuff data ++ [255; 218] ++ rest) cs [repeat 0 128] (Some 2)) = Err EOther.
Proof.
  exists (fun _ => demo_part 1 1), (demo_blk [5; -2]), [104; 131], [0; 0; 0; 0]. split; [|split; [|split]].
  - exists (msb 2 1 ++ extra_bits 3 5 ++ msb 2 0 ++ msb 2 1 ++ extra_bits 3 (-7) ++ msb 2 0), [true; true].
    split; [repeat constructor; lia|]. split; [reflexivity|]. split; [cbn; lia|].
    exists (msb 2 1 ++ extra_bits 3 5 ++ msb 2 0), (msb 2 1 ++ extra_bits 3 (-7) ++ msb 2 0). split; [reflexivity|]. split; [apply (demo_three 5); lia|].
    exists (msb 2 1 ++ extra_bits 3 (-7) ++ msb 2 0), []. split; [now rewrite app_nil_r|]. split; [apply (demo_three (-7)); lia|reflexivity].
  - intros n k v h. apply demo_moderate. do 2 (destruct n as [|n]; [cbn [nth]; lia|]). destruct n; cbn [nth]; lia.
  - split; [|split; [discriminate|split; [lia|split; [lia|reflexivity]]]]. intros k [<-|[]].
    split; [lia|]. split; [apply demo_part_ok; lia|]. split; [now split|]. intros _. cbn. lia.
  - exists [demo_comp 1 1 16]. split.
    + split; [reflexivity|]. split; [reflexivity|]. split.
      * intros k c [<-|[]] E. injection E as <-. apply demo_made.
      * intros k ch [<-|[]] _ E. injection E as <-. reflexivity.
    + vm_compute. reflexivity.
Qed.
Print Assumptions separate_scans_restart_refuted.
(** The blocks of a scan with a single component come row by row (T.81 A.2.2), also if the component has sampling factors 2 x 2;
    the decoder takes them in the order of MCUs (headers.rs:357). Here 32 x 16 samples, of which only the third block is not
    zero; its samples end up at the left of the second row. *)
Theorem separate_scans_order_refuted : exists part l bs data file,
  part_ok part /\ p_hs part = 2%nat /\ p_vs part = 2%nat /\ length l = 8%nat /\ Forall (moderate (p_qt part)) l /\
  coded (fun _ => part) (fun _ => 0) (map (fun b => (0%nat, b)) l) bs /\ data_bits data = bs ++ repeat true 2 /\ file = stuff data ++ [255; 217] /\
  exists c, made_comp part true 32 c /\
  exists ch s, run_scan false false true false true [0%nat] 2 1 (start_scan file [c] [repeat 0 512] None) = Ok (AllRows, [[ch]], s) /\
  exists sq, alone (p_qt part) (nth 2 l (0, [])) sq /\ ~ square 32 0 2 ch sq /\ square 32 1 0 ch sq.
Proof.
  exists (demo_part 2 2), (map (fun d => (d, repeat 0 63)) [0; 0; 5; 0; 0; 0; 0; 0]),
    (msb 2 0 ++ msb 2 0 ++ msb 2 0 ++ msb 2 0 ++ msb 2 1 ++ extra_bits 3 5 ++ msb 2 0 ++ msb 2 1 ++ extra_bits 3 (-5) ++ msb 2 0 ++ concat (repeat (msb 2 0 ++ msb 2 0) 4)),
    [0; 104; 160; 0; 3], [0; 104; 160; 0; 3; 255; 217].
  split; [apply demo_part_ok; lia|]. split; [reflexivity|]. split; [reflexivity|]. split; [reflexivity|].
  split; [repeat (apply Forall_cons; [apply demo_moderate; lia|]); apply Forall_nil|]. split; [|split; [|split]].
  - assert (Z4 : forall m last, last 0%nat = 0 -> coded (fun _ => demo_part 2 2) last (map (fun b => (0%nat, b)) (map (fun d => (d, repeat 0 63)) (repeat 0 m))) (concat (repeat (msb 2 0 ++ msb 2 0) m))).
    { induction m as [|m IH]; intros last L; [reflexivity|]. cbn [repeat map concat coded]. exists (msb 2 0 ++ msb 2 0), (concat (repeat (msb 2 0 ++ msb 2 0) m)).
      split; [reflexivity|]. split; [rewrite L; exact demo_zero|]. now apply IH. }
    exists (msb 2 0 ++ msb 2 0). eexists. split; [reflexivity|]. split; [exact demo_zero|].
    exists (msb 2 0 ++ msb 2 0). eexists. split; [reflexivity|]. split; [exact demo_zero|].
    exists (msb 2 1 ++ extra_bits 3 5 ++ msb 2 0). eexists. split; [reflexivity|]. split; [apply (demo_three 5); lia|].
    exists (msb 2 1 ++ extra_bits 3 (-5) ++ msb 2 0). eexists. split; [reflexivity|]. split; [apply (demo_three (-5)); lia|].
    apply (Z4 4%nat). reflexivity.
  - vm_compute. reflexivity.
  - reflexivity.
  - exists (demo_comp 2 2 32). split; [apply demo_made|]. eexists. eexists. split; [vm_compute; reflexivity|]. exists (repeat 129 64). split; [|split].
    + exists (deq demo_qt (5, repeat 0 63)). split; [apply deq_is|vm_compute; reflexivity].
    + intros Sq. specialize (Sq 0%nat 0%nat ltac:(lia) ltac:(lia)). cbv in Sq. discriminate Sq.
    + intros a b Ha Hb. do 8 (destruct a as [|a]; [do 8 (destruct b as [|b]; [reflexivity|]); lia|]). lia.
Qed.
Print Assumptions separate_scans_order_refuted.
