(** From the blocks of a whole file to pixels *)
From Verif Require Import Base BaseProof Loops Slices Bits DeintModel JpegColorModel JpegColorSpec JpegColorProof JpegColorProps JpegIdctSpec JpegIdctModel JpegIdctProof JpegIdctProps
  JpegUpsampleModel JpegUpsampleSpec JpegUpsampleRows JpegUpsampleImage JpegUpsampleProps JpegHuffModel JpegHuffSpec JpegHuffTable JpegHuffBlock JpegHuffRun JpegHuffProps JpegScanModel JpegScanSpec JpegScanProof JpegAny JpegScanProps JpegPictureProps
  JpegProgModel JpegProgSpec JpegProgBits JpegProgBlock JpegProgScan JpegProgFile JpegProgPicture JpegHeadModel JpegHeadSpec JpegHeadProof JpegFileModel JpegFileSpec JpegFileProof.

(** Three components, of which the first may be sampled more often than the others: 4:4:4, 4:2:2, 4:4:0, 4:2:0 *)
Definition three (h : fhead) (yh yv : nat) : Prop :=
  In (yh, yv) layouts /\ exists i0 i1 i2 q0 q1 q2, h_parts h = [FPart i0 yh yv q0; FPart i1 1 1 q1; FPart i2 1 1 q2].
(** The plane of component [k]: every block in its place with the samples it has by itself *)
Definition shows (f : pframe) (qs : nat -> list Z) (block : nat -> nat -> list Z) (k : nat) (d : desc) : Prop :=
  JpegUpsampleRows.d_w d = (8 * across f k)%nat /\ forall y x, (y < down f k)%nat -> (x < across f k)%nat ->
    exists sq, alone (qs k) (split_block (block k (y * across f k + x)%nat)) sq /\ square (8 * across f k) y x (d_all d) sq.
(** The picture: every pixel has the colour of the three planes, brought to full size, at its place. *)
Definition picture (h : fhead) (qs : nat -> list Z) (block : nat -> nat -> list Z) (c : colorspace) (out : list Z) : Prop :=
  exists dy db dr, length out = (Z.to_nat (h_y h) * (Z.to_nat (h_x h) * num_components c))%nat /\
    pixels_right c dy db dr (Z.to_nat (h_x h)) (Z.to_nat (h_y h)) out /\
    d_ratio dy = RNone /\ d_ratio db = chroma (hmax (frame_of h)) (vmax (frame_of h)) /\ d_ratio dr = chroma (hmax (frame_of h)) (vmax (frame_of h)) /\
    shows (frame_of h) qs block 0 dy /\ shows (frame_of h) qs block 1 db /\ shows (frame_of h) qs block 2 dr.

Lemma frame_three h yh yv : fhead_ok h -> three h yh yv -> let f := frame_of h in
  f_samp f = [(yh, yv); (1, 1); (1, 1)]%nat /\ hmax f = yh /\ vmax f = yv /\ (1 <= yh <= 2)%nat /\ (1 <= yv <= 2)%nat /\ length (h_parts h) = 3%nat /\ plain h.
Proof.
  intros Fo (Ly & i0 & i1 & i2 & q0 & q1 & q2 & E). cbv zeta. assert (S : f_samp (frame_of h) = [(yh, yv); (1, 1); (1, 1)]%nat) by (unfold frame_of; rewrite E; reflexivity).
  assert (B : (1 <= yh <= 2 /\ 1 <= yv <= 2)%nat) by (destruct Ly as [X|[X|[X|[X|[]]]]]; injection X as <- <-; lia).
  assert (H : hmax (frame_of h) = yh) by (unfold hmax; rewrite S; cbn [map fst fold_right]; lia). assert (V : vmax (frame_of h) = yv) by (unfold vmax; rewrite S; cbn [map snd fold_right]; lia).
  split; [exact S|]. split; [exact H|]. split; [exact V|]. split; [apply B|]. split; [apply B|]. split; [rewrite E; reflexivity|]. unfold plain. rewrite E. cbn [i_hs i_vs]. rewrite H, V. split; [reflexivity|].
  unfold plain_layout. rewrite S, H, V. constructor; [now right|]. constructor; [now left|]. constructor; [now left|constructor].
Qed.
Definition qparts (f : pframe) (qs : nat -> list Z) (k : nat) : part := Part (hs_of f k) (vs_of f k) [] [] [] [] (qs k).
Lemma padded_ok width yh yv : In (yh, yv) layouts -> padded_width width (ratio_of yh yv) = (8 * (ceil_div width (8 * yh) * yh))%nat.
Proof.
  intros [X|[X|[X|[X|[]]]]]; injection X as <- <-; cbn [ratio_of padded_width]; unfold ceil_div; change (8 * 1)%nat with 8%nat; change (8 * 2)%nat with 16%nat;
    [replace (width + 8 - 1)%nat with (width + 7)%nat by lia|replace (width + 16 - 1)%nat with (width + 15)%nat by lia|replace (width + 8 - 1)%nat with (width + 7)%nat by lia|replace (width + 16 - 1)%nat with (width + 15)%nat by lia].
  all: match goal with |- (?a * _)%nat = _ => set (n := a); clearbody n end; lia.
Qed.
Lemma rows_pixels avx c h yh yv qs block fr rows : fhead_ok h -> three h yh yv -> frame_for fr (frame_of h) -> In c [RGB; RGBA; BGR; BGRA] ->
  rows_right (qparts (frame_of h) qs) [0; 1; 2]%nat (mcu_block (frame_of h) block) (fun _ => true) (fun k => (8 * across (frame_of h) k)%nat) 3 (mcus_x (frame_of h)) (mcus_y (frame_of h)) rows ->
  exists out, to_pixels avx c (Z.to_nat (h_x h)) (Z.to_nat (h_y h)) fr rows = Ok out /\ picture h qs block c out.
Proof.
  intros Fo T Ff Hc RR. destruct (frame_three h yh yv Fo T) as (Sa & Eh & Ev & Bh & Bv & _). destruct (frame_of_ok h Fo) as (Fk & Fx & Fy & _). destruct Fo as (X & Y & _).
  set (f := frame_of h) in *. set (W := mcus_x f) in *. set (M := mcus_y f) in *. destruct (mcus_pos f Fk) as (W0 & M0). fold W in W0. fold M in M0.
  set (width := Z.to_nat (h_x h)) in *. set (height := Z.to_nat (h_y h)) in *.
  assert (Ex : f_x f = width) by reflexivity. assert (Ey : f_y f = height) by reflexivity.
  assert (Hs : hs_of f 0 = yh /\ vs_of f 0 = yv /\ hs_of f 1 = 1%nat /\ vs_of f 1 = 1%nat /\ hs_of f 2 = 1%nat /\ vs_of f 2 = 1%nat) by (unfold hs_of, vs_of; rewrite Sa; cbn [nth fst snd]; repeat split). destruct Hs as (H0 & V0 & H1 & V1 & H2 & V2).
  assert (WW : W = ceil_div width (8 * yh)) by (unfold W, mcus_x; now rewrite Eh). assert (MM : M = ceil_div height (8 * yv)) by (unfold M, mcus_y; now rewrite Ev).
  assert (Wl : (width <= 8 * (W * yh))%nat).
  { rewrite WW. unfold ceil_div. pose proof (Nat.div_mod (width + 8 * yh - 1) (8 * yh) ltac:(lia)). pose proof (Nat.mod_upper_bound (width + 8 * yh - 1) (8 * yh) ltac:(lia)). set (qq := ((width + 8 * yh - 1) / (8 * yh))%nat) in *. clearbody qq. nia. }
  assert (Ml : (height <= 8 * yv * M)%nat).
  { rewrite MM. unfold ceil_div. pose proof (Nat.div_mod (height + 8 * yv - 1) (8 * yv) ltac:(lia)). pose proof (Nat.mod_upper_bound (height + 8 * yv - 1) (8 * yv) ltac:(lia)). set (qq := ((height + 8 * yv - 1) / (8 * yv))%nat) in *. clearbody qq. nia. }
  destruct (picture_rows avx (qparts f qs) (mcu_block f block) yh yv W M rows c width height 1 1 1 (repeat 0 (height * (width * num_components c))%nat)) as (dy & db & dr & out & E & L & P & R1 & R2 & R3 & D1 & D2 & D3 & S1 & S2 & S3).
  - apply T.
  - now split.
  - intros k [->| ->]; cbn [qparts p_hs p_vs]; now split.
  - exact W0.
  - exact M0.
  - destruct RR as (RL & RR). split; [exact RL|]. intros r chs Hr. destruct (RR r chs Hr) as (Lc & RC). split; [exact Lc|exact RC].
  - exact Hc.
  - lia.
  - exact Ml.
  - lia.
  - lia.
  - lia.
  - apply repeat_length.
  - exists out. split.
    + destruct Ff as (Ew & Ehh & Ei & Em & Lg & Eg). rewrite Sa in Lg, Em. destruct Em as (Mx & My); [right; cbn [length]; lia|]. fold W in Mx. fold M in My. unfold to_pixels.
      destruct (geos fr) as [|g0 [|g1 [|g2 [|g3 gs]]]] eqn:Egs; cbn [length] in Lg; try lia.
      destruct (Eg 0%nat g0 eq_refl) as (A1 & A2 & A3). destruct (Eg 1%nat g1 eq_refl) as (B1 & B2 & B3). destruct (Eg 2%nat g2 eq_refl) as (C1 & C2 & C3).
      assert (Hm : fold_right Nat.max 1%nat (map ghs [g0; g1; g2]) = yh) by (cbn [map fold_right]; rewrite A1, B1, C1, H0, H1, H2; lia).
      assert (Vm : fold_right Nat.max 1%nat (map gvs [g0; g1; g2]) = yv) by (cbn [map fold_right]; rewrite A2, B2, C2, V0, V1, V2; lia).
      rewrite Hm, Vm, (padded_ok width yh yv (proj1 T)), <- WW. unfold across in A3, B3, C3. fold W in A3, B3, C3. rewrite H0 in A3. rewrite H1, Nat.mul_1_r in B3. rewrite H2, Nat.mul_1_r in C3.
      assert (Mm : (if inter fr then my fr else bh fr) = M).
      { destruct (inter fr) eqn:I; [exact My|]. symmetry in Ei. apply orb_false_iff in Ei. destruct Ei as (_ & I2). apply negb_false_iff, Nat.eqb_eq in I2. rewrite Ehh, MM, Ey. rewrite <- Ev, I2. reflexivity. }
      rewrite Mm, A3. rewrite <- E. unfold decode. f_equal. unfold up_comps. cbn [length seq combine map]. rewrite A1, A2, A3, B1, B2, B3, C1, C2, C3, H0, V0, H1, V1, H2, V2, !Nat.div_same, !Nat.div_1_r by lia.
      cbn [Nat.eqb negb andb orb]. rewrite ?andb_false_r. cbn [andb]. destruct (proj1 T) as [Q|[Q|[Q|[Q|[]]]]]; injection Q as <- <-; reflexivity.
    + exists dy, db, dr. split; [rewrite L; apply repeat_length|]. split; [exact P|]. split; [exact R1|]. fold f. rewrite Eh, Ev. split; [exact R2|]. split; [exact R3|].
      assert (Pl : forall k d, (k < 3)%nat -> JpegUpsampleRows.d_w d = (8 * (W * hs_of f k))%nat -> plane_holds W M (qparts f qs k) (fun m v h => mcu_block f block m k v h) (8 * (W * hs_of f k)) (d_all d) -> shows f qs block k d).
      { intros k d Hk Dw Ph. split; [exact Dw|]. intros y x Hy Hx. unfold down in Hy. fold M in Hy. unfold across in Hx. fold W in Hx. destruct (samp_pos f Fk k) as (Ph0 & Pv0).
        pose proof (Nat.div_mod y (vs_of f k) ltac:(lia)) as Dy. pose proof (Nat.mod_upper_bound y (vs_of f k) ltac:(lia)) as My. pose proof (Nat.div_mod x (hs_of f k) ltac:(lia)) as Dx. pose proof (Nat.mod_upper_bound x (hs_of f k) ltac:(lia)) as Mx.
        set (i := (y / vs_of f k)%nat) in *. set (v := (y mod vs_of f k)%nat) in *. set (j := (x / hs_of f k)%nat) in *. set (hh := (x mod hs_of f k)%nat) in *.
        assert (Hi : (i < M)%nat) by (apply Nat.div_lt_upper_bound; lia). assert (Hj : (j < W)%nat) by (apply Nat.div_lt_upper_bound; lia).
        destruct (Ph i j v hh Hi Hj My Mx) as (sq & Q1 & Q2). exists sq. cbn [qparts p_qt p_hs p_vs] in Q1, Q2. unfold mcu_block in Q1. fold W in Q1.
        rewrite Nat.div_add_l, (Nat.div_small j W), Nat.add_0_r in Q1 by lia. rewrite (Nat.add_comm (i * W) j), Nat.mod_add, (Nat.mod_small j W) in Q1 by lia.
        unfold across at 2. fold W. replace y with (i * vs_of f k + v)%nat by lia. replace x with (j * hs_of f k + hh)%nat by lia. split; [exact Q1|exact Q2]. }
      split; [|split]; apply Pl; try lia.
      all: rewrite ?H0, ?H1, ?H2, ?Nat.mul_1_r; assumption.
Qed.
