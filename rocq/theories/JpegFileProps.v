(** Properties of the decoder for whole JPEG files, from bytes to pixels *)
From Verif Require Import Base BaseProof Loops Slices Bits DeintModel JpegColorModel JpegColorSpec JpegColorProof JpegColorProps JpegIdctSpec JpegIdctModel JpegIdctProof JpegIdctProps
  JpegUpsampleModel JpegUpsampleSpec JpegUpsampleRows JpegUpsampleImage JpegUpsampleProps JpegHuffModel JpegHuffSpec JpegHuffTable JpegHuffBlock JpegHuffRun JpegHuffProps JpegScanModel JpegScanSpec JpegScanProof JpegAny JpegScanProps JpegPictureProps
  JpegProgModel JpegProgSpec JpegProgBits JpegProgBlock JpegProgScan JpegProgFile JpegProgPicture JpegHeadModel JpegHeadSpec JpegHeadProof JpegHeadProps JpegFileModel JpegFileSpec JpegFileProof JpegFilePixels JpegFileDemo.

(** * Setting out *)

(** The blocks are within the range in which the standard's transform is exact enough, for the quantisers of the file. *)
Definition blocks_moderate (h : fhead) (qs : nat -> list Z) (block : nat -> nat -> list Z) : Prop :=
  forall k b, (k < length (h_parts h))%nat -> (b < across (frame_of h) k * down (frame_of h) k)%nat -> length (block k b) = 64%nat /\ moderate (qs k) (split_block (block k b)).
(** Coefficients of 16 bits *)
Definition blocks_small (h : fhead) (coef : nat -> nat -> list Z) : Prop :=
  forall k b, (k < length (h_parts h))%nat -> (b < across (frame_of h) k * down (frame_of h) k)%nat -> length (coef k b) = 64%nat /\ Forall (fun c => Z.abs c < 2 ^ 15) (coef k b).

Lemma ycc_color o h e file data t d : file_start true h e file data t -> h_x h <= max_w o -> h_y h <= max_h o -> colours_of h (t_adobe t) = Some Ycc -> decode_headers o file = Ok (d, data) ->
  setup_color o d = Ok (Some CYCbCr).
Proof. intros F W H C E. destruct (colours_decoded_partial o true h e file data t Ycc F W H (or_introl eq_refl) C) as (d' & E' & S). rewrite E' in E. injection E as ->. exact S. Qed.

(** Only the blocks of the picture matter for the bytes of a scan. *)
Lemma mcu_blocks_ext parts order b1 b2 n : (forall k v h, b1 n k v h = b2 n k v h) -> mcu_blocks parts order b1 n = mcu_blocks parts order b2 n.
Proof. intros E. unfold mcu_blocks. apply flat_map_ext. intros k. apply flat_map_ext. intros v. apply map_ext. intros hh. now rewrite E. Qed.
Lemma scan_bytes_ext parts order b1 b2 N R i n c l : (forall m k v h, (m < N)%nat -> b1 m k v h = b2 m k v h) -> (n + c <= N)%nat ->
  JpegScanSpec.scan_bytes parts order b1 R i n c l -> JpegScanSpec.scan_bytes parts order b2 R i n c l.
Proof.
  intros E. assert (Sg : forall n c data, (n + c <= N)%nat -> JpegScanSpec.segment parts order b1 n c data -> JpegScanSpec.segment parts order b2 n c data).
  { intros n' c' data Hn (bs & pad' & S1 & S2 & S3 & S4). exists bs, pad'. split; [exact S1|]. split; [exact S2|]. split; [exact S3|].
    replace (flat_map (mcu_blocks parts order b2) (seq n' c')) with (flat_map (mcu_blocks parts order b1) (seq n' c')); [exact S4|].
    rewrite !flat_map_concat_map. f_equal. apply map_ext_in. intros m Hm. apply in_seq in Hm. apply mcu_blocks_ext. intros k v hh. apply E. lia. }
  intros Hn Sb. revert Hn. induction Sb as [i n c data fill rest Hc Sc|i n c data fill file R0 C0 Sc Sb IH]; intros Hn.
  - apply JpegScanSpec.last_segment; [exact Hc|]. now apply Sg.
  - apply JpegScanSpec.next_segment; [exact R0|exact C0|apply Sg; [lia|exact Sc]|apply IH; lia].
Qed.
Lemma mcu_place f k n v hh : (n < mcus_x f * mcus_y f)%nat -> (v < vs_of f k)%nat -> (hh < hs_of f k)%nat ->
  ((n / mcus_x f * vs_of f k + v) * across f k + (n mod mcus_x f * hs_of f k + hh) < across f k * down f k)%nat.
Proof.
  intros Hn Hv Hh. unfold across, down. assert (W0 : mcus_x f <> 0%nat) by (intros C; rewrite C in Hn; cbn in Hn; lia). pose proof (Nat.mod_upper_bound n _ W0) as A. pose proof (Nat.div_lt_upper_bound n _ _ W0 Hn) as B.
  set (a := (n mod mcus_x f)%nat) in *. set (b := (n / mcus_x f)%nat) in *. set (w := mcus_x f) in *. set (y := mcus_y f) in *. set (vs := vs_of f k) in *. set (hs := hs_of f k) in *. clearbody a b w y vs hs. clear - A B Hv Hh.
  assert (C : (a * hs + hh < w * hs)%nat) by nia. assert (D : (b * vs + v < y * vs)%nat) by nia. set (u := (w * hs)%nat) in *. set (u' := (a * hs + hh)%nat) in *. set (z := (y * vs)%nat) in *. set (z' := (b * vs + v)%nat) in *. clearbody u u' z z'. nia.
Qed.

Section Whole.
  Variables (debug avx : bool) (o : hopts) (max_scans : nat) (col : colorspace) (h : fhead) (yh yv : nat) (qs : nat -> list Z).
  Hypothesis size : h_x h <= max_w o /\ h_y h <= max_h o.
  Hypothesis T : three h yh yv.
  Let f := frame_of h.
  Definition rows_are (block : nat -> nat -> list Z) (rows : list (list (list Z))) : Prop :=
    rows_right (qparts f qs) [0; 1; 2]%nat (mcu_block f block) (fun _ => true) (fun k => (8 * across f k)%nat) 3 (mcus_x f) (mcus_y f) rows.
  Definition decoded_rows (file : list Z) (block : nat -> nat -> list Z) : Prop :=
    exists rows fr, frame_for fr f /\ (forall k g, nth_error (geos fr) k = Some g -> gqt g = qs k) /\ rows_are block rows /\ decode_jpeg debug avx o max_scans col file = to_pixels avx col (Z.to_nat (h_x h)) (Z.to_nat (h_y h)) fr rows.

  Lemma prog_rows coef c file t p : bytes file -> progressive_file first_limit (each_limit h) h coef c file t p -> quantisers_of h t qs -> colours_of h (t_adobe t) = Some Ycc ->
    blocks_small h coef -> blocks_moderate h qs (known_block coef p) -> (1 + c <= max_scans)%nat -> decoded_rows file (known_block coef p).
  Proof.
    intros B Pf Qs Cl Co Mo Mx. pose proof Pf as (Pr & e & s & data & m & rest & p1 & Fs & _). destruct (start_rest _ _ _ _ _ _ Fs B) as (Bd & So & Fo).
    destruct (frame_three h yh yv Fo T) as (Sa & Eh & Ev & _ & _ & L3 & Pl). destruct (start_ok o true h e file data t Fs (proj1 size) (proj2 size)) as (d & E & At & Af & As & _).
    destruct (setup_ok d t h qs Fo Pl At Af Qs) as (fr & Ef & Ff & Fp & Gq). destruct (frame_of_ok h Fo) as (Fk & Fx & Fy & Lf).
    destruct (prog_file_ok debug o max_scans h coef c file t p d data Fo Pl B Co Mx fr Ff Fp Pf (proj1 size) (proj2 size) E) as (bufs & Eb & Bk).
    destruct (finish_ok debug avx coef f fr (qparts f qs) p bufs Fk Ff Bk) as (rows & Er & Rr).
    - intros k g Eg. destruct (Gq k g Eg) as (G1 & G2). cbn [qparts p_qt p_hs p_vs]. split; [exact G1|]. split; [exact G2|]. now split.
    - intros k b Hk Hb. fold f in Lf. rewrite Lf in Hk. destruct (Mo k b Hk Hb) as (_ & _ & D). apply D. apply deq_is.
    - exists rows, fr. split; [exact Ff|]. split; [intros k g Eg'; apply (Gq k g Eg')|]. split.
      + unfold rows_are. fold f in Sa. rewrite Sa in Rr. exact Rr.
      + unfold decode_jpeg. rewrite E. cbn [bind]. rewrite Ef. cbn [bind]. rewrite (ycc_color o h e file data t d Fs (proj1 size) (proj2 size) Cl E). cbn [bind].
        destruct Af as (_ & Ep & Ew & Ehh & Ec). assert (Lc : length (d_comps d) = 3%nat) by (rewrite <- L3, <- Ec; now rewrite map_length). rewrite Lc. cbn [Nat.eqb negb]. rewrite Ep, Pr, Eb. cbn [bind]. rewrite Er. cbn [bind]. rewrite Ew, Ehh. reflexivity.
  Qed.

  Lemma table_there dc x y cn sy : table_as dc x y -> y = Some (cn, sy) -> exists tb, x = Some tb /\ new_table dc cn (pad sy) = Ok tb /\ table_ok cn (pad sy).
  Proof. intros T' ->. destruct T' as (Ho & tb & -> & Nt). exists tb. split; [reflexivity|]. split; [exact Nt|]. now apply (ht_table dc). Qed.
  Lemma scan_comps_ok d t parts : as_told d t -> forall cs gs k0, length gs = length cs ->
    (forall k c g, nth_error cs k = Some c -> nth_error gs k = Some g -> (c_dc c < 4)%nat /\ (c_ac c < 4)%nat /\ ghs g = p_hs (parts (k0 + k)%nat) /\ gvs g = p_vs (parts (k0 + k)%nat) /\ gqt g = p_qt (parts (k0 + k)%nat) /\
      (exists syms, t_dc t (c_dc c) = Some (p_dcn (parts (k0 + k)%nat), syms) /\ p_dcv (parts (k0 + k)%nat) = pad syms) /\
      exists syms, t_ac t (c_ac c) = Some (p_acn (parts (k0 + k)%nat), syms) /\ p_acv (parts (k0 + k)%nat) = pad syms) ->
    exists out, scan_comps d cs gs = Ok out /\ length out = length cs /\ forall k c, nth_error out k = Some c -> exists g, nth_error gs k = Some g /\ made_comp (parts (k0 + k)%nat) true (gstride g) c /\
      table_ok (p_dcn (parts (k0 + k)%nat)) (p_dcv (parts (k0 + k)%nat)) /\ table_ok (p_acn (parts (k0 + k)%nat)) (p_acv (parts (k0 + k)%nat)).
  Proof.
    intros (_ & _ & _ & Tb & _). induction cs as [|c cs IH]; intros [|g gs] k0 L A; try discriminate L.
    - exists []. split; [reflexivity|]. split; [reflexivity|]. intros [|k] c E; discriminate E.
    - cbn [scan_comps]. destruct (A 0%nat c g eq_refl eq_refl) as (C1 & C2 & G1 & G2 & G3 & (sd & D1 & D2) & (sa & A1 & A2)).
      destruct (table_there true _ _ _ _ (proj1 (proj2 (Tb _ C1))) D1) as (td & -> & N1 & O1). destruct (table_there false _ _ _ _ (proj2 (proj2 (Tb _ C2))) A1) as (ta & -> & N2 & O2).
      destruct (IH gs (S k0)) as (out & E & Lo & Ho); [now injection L|intros k c' g' E1 E2; rewrite Nat.add_succ_comm; now apply (A (S k))|]. rewrite E. cbn [bind]. eexists. split; [reflexivity|]. split; [cbn [length]; now rewrite Lo|].
      intros [|k] c' E'.
      + injection E' as <-. exists g. split; [reflexivity|]. rewrite <- D2 in N1, O1. rewrite <- A2 in N2, O2. split; [|now split]. exists td, ta. split; [exact N1|]. split; [exact N2|]. now rewrite G1, G2, G3.
      + rewrite <- Nat.add_succ_comm. now apply Ho.
  Qed.
  Lemma base_rows_ok coef file t : bytes file -> baseline_file h qs coef file t -> quantisers_of h t qs -> colours_of h (t_adobe t) = Some Ycc ->
    blocks_moderate h qs coef -> (yh = 1%nat /\ yv = 1%nat -> h_x h <= 65528 /\ h_y h <= 65528) -> decoded_rows file coef.
  Proof.
    intros B (Pr & e & data & parts & Fs & Eo & Tp & Sb) Qs Cl Mo Lim. destruct (start_rest _ _ _ _ _ _ Fs B) as (Bd & So & Fo).
    destruct (frame_three h yh yv Fo T) as (Sa & Eh & Ev & Bh & Bv & L3 & Pl). destruct (start_ok o true h e file data t Fs (proj1 size) (proj2 size)) as (d & E & At & Af & As & _).
    destruct (setup_ok d t h qs Fo Pl At Af Qs) as (fr & Ef & Ff & Fp & Gq). destruct (frame_of_ok h Fo) as (Fk & Fx & Fy & Lf). fold f in Sa, Eh, Ev, Ff, Fp, Fk, Fx, Fy, Lf.
    pose proof Ff as (Ew & Ehh & Ei & Em & Lg & Eg). rewrite Lf, L3 in Em, Lg. destruct Em as (Mx & My); [right; lia|]. rewrite L3 in Eo, Sb. cbn [seq] in Eo, Sb. fold f in Tp, Sb.
    pose proof Af as (_ & Ep & Ewd & Eht & Ec). assert (Lc : length (d_comps d) = 3%nat) by (rewrite <- L3, <- Ec; now rewrite map_length).
    assert (Or : forall k, (k < 3)%nat -> exists td ta, In (k, td, ta) (e_order e)).
    { intros k Hk. assert (I : In k (map (fun x => fst (fst x)) (e_order e))) by (rewrite Eo; cbn; lia). apply in_map_iff in I. destruct I as (((k', td), ta) & <- & I). now exists td, ta. }
    assert (Pk : forall k, (k < 3)%nat -> p_hs (parts k) = hs_of f k /\ p_vs (parts k) = vs_of f k /\ p_qt (parts k) = qs k).
    { intros k Hk. destruct (Or k Hk) as (td & ta & I). destruct (Tp k td ta I) as (P1 & P2 & P3 & _). now split. }
    assert (Qq : forall k, (k < 3)%nat -> quantiser (qs k)).
    { intros k Hk. destruct (nth_error (h_parts h) k) as [pt|] eqn:En; [|apply nth_error_None in En; lia]. destruct (Qs k pt En) as (q & Q1 & Q2). split; [apply Q2|].
      destruct Fo as (_ & _ & _ & _ & Fpt). rewrite Forall_forall in Fpt. destruct (Fpt pt (nth_error_In _ _ En)) as (_ & _ & _ & Tq). destruct At as (_ & _ & _ & Tb & _). destruct (Tb _ Tq) as (T1 & _). rewrite Q1 in T1. destruct T1 as (n & _ & Nq & Fq).
      destruct Q2 as (Ln & Q2). apply Forall_forall. intros x Hx. apply (In_nth _ _ 0) in Hx. destruct Hx as (i & Hi & <-). rewrite Ln in Hi. destruct (unz_ok i Hi) as (U1 & U2). rewrite <- U2, Q2 by exact U1. rewrite Forall_forall in Fq. apply Fq. apply nth_In. destruct Nq as (-> & _). exact U1. }
    destruct (scan_comps_ok d t parts At (d_comps d) (geos fr) 0%nat) as (cs & Es & Ls & Hc); [congruence| |].
    { intros k c g E1 E2. assert (Hk : (k < 3)%nat) by (rewrite <- Lc; apply nth_error_Some; congruence). destruct (Or k Hk) as (td & ta & I). destruct As as (_ & As). rewrite Forall_forall in As. destruct (As _ I) as (c' & C1 & C2 & C3). rewrite E1 in C1. injection C1 as <-.
      destruct So as (_ & _ & So & _). rewrite Forall_forall in So. destruct (So _ I) as (_ & S1 & S2). destruct (Tp k td ta I) as (P1 & P2 & P3 & P4 & P5). destruct (Eg k g E2) as (G1 & G2 & _). destruct (Gq k g E2) as (G3 & _). cbn [Nat.add].
      rewrite C2, C3, P1, P2, P3. split; [exact S1|]. split; [exact S2|]. split; [exact G1|]. split; [exact G2|]. split; [exact G3|]. now split. }
    destruct (mcus_pos f Fk) as (W0 & M0).
    set (sampled := existsb (fun k => match nth_error (geos fr) k with Some g => negb (ghs g =? 1)%nat || negb (gvs g =? 1)%nat | None => false end) (o_order (d_sos d))).
    destruct (scan_decoded_partial debug avx (h_strict o) sampled parts [0; 1; 2]%nat (fun n => mcu_block f coef (n mod (mcus_x f * mcus_y f))) (fun _ => true) (fun k => (8 * across f k)%nat) 3 (mcus_x f) (mcus_y f) (Z.to_nat (t_dri t)) data cs
      (map (fun g => repeat 0 (gstride g * gvs g * 8)%nat) (geos fr)) (if d_dri d =? 0 then None else Some (d_dri d))) as (rows & s & Er & Rr).
    - split; [|split; [discriminate|split; [exact W0|split; [exact M0|]]]].
      + intros k Hk. assert (Hk3 : (k < 3)%nat) by (cbn in Hk; lia). destruct (Pk k Hk3) as (P1 & P2 & P3). split; [exact Hk3|]. destruct (samp_pos f Fk k) as (S1 & S2). split; [|split].
        * destruct (nth_error cs k) as [cc|] eqn:Ecs; [|apply nth_error_None in Ecs; lia]. destruct (Hc k cc Ecs) as (g & _ & _ & O1 & O2). cbn [Nat.add] in O1, O2. rewrite <- P1 in S1. rewrite <- P2 in S2. split; [exact O1|]. split; [exact O2|]. split; [rewrite P3; now apply Qq|]. now split.
        * intros Sf. destruct (nth_error (geos fr) k) as [g|] eqn:En; [|apply nth_error_None in En; lia]. destruct (Eg k g En) as (G1 & G2 & _). rewrite P1, P2, <- G1, <- G2.
          assert (N : (negb (ghs g =? 1) || negb (gvs g =? 1))%nat = false).
          { apply not_true_is_false. intros C. assert (sampled = true); [|congruence]. unfold sampled. apply existsb_exists. exists k. destruct As as (As & _). rewrite As. cbn [o_order]. rewrite Eo. split; [exact Hk|]. rewrite En. exact C. }
          apply orb_false_iff in N. destruct N as (N1 & N2). apply negb_false_iff, Nat.eqb_eq in N1, N2. now split.
        * intros _. rewrite P1. unfold across. lia.
      + unfold mcus_x, mcus_y. change (2 ^ 31) with 2147483648. change (2 ^ 16) with 65536 in *. pose proof (hmax_pos f). pose proof (vmax_pos f).
        assert (ceil_div (f_x f) (8 * hmax f) <= f_x f /\ ceil_div (f_y f) (8 * vmax f) <= f_y f)%nat as (A1 & A2) by (destruct Fk as (X0 & Y0 & _); split; unfold ceil_div; apply Nat.div_le_upper_bound; nia).
        assert (A3 : (8 * ceil_div (f_x f) (8 * hmax f) <= f_x f + 8)%nat). { unfold ceil_div. pose proof (Nat.div_mod (f_x f + 8 * hmax f - 1) (8 * hmax f) ltac:(lia)). set (q := ((f_x f + 8 * hmax f - 1) / (8 * hmax f))%nat) in *. clearbody q. nia. }
        set (a := ceil_div (f_x f) (8 * hmax f)) in *. set (b := ceil_div (f_y f) (8 * vmax f)) in *. clearbody a b. nia.
    - split; [congruence|]. split; [now rewrite map_length|]. split.
      + intros k c Hk Ek. destruct (Hc k c Ek) as (g & G1 & G2 & _). destruct (Eg k g G1) as (_ & _ & G3). rewrite <- G3. exact G2.
      + intros k ch Hk _ Ek. rewrite nth_error_map in Ek. destruct (nth_error (geos fr) k) as [g|] eqn:En; [|discriminate Ek]. injection Ek as <-. destruct (Eg k g En) as (_ & G2 & G3). assert (Hk3 : (k < 3)%nat) by (cbn in Hk; lia). destruct (Pk k Hk3) as (_ & -> & _). rewrite repeat_length, G2, G3. lia.
    - intros n k v hh Hk Hv Hh. assert (Hk3 : (k < 3)%nat) by (cbn in Hk; lia). destruct (Pk k Hk3) as (P1 & P2 & P3). rewrite P1 in Hh. rewrite P2 in Hv. rewrite P3. rewrite <- L3 in Hk3.
      apply (Mo k _ Hk3). apply mcu_place; [|exact Hv|exact Hh]. apply Nat.mod_upper_bound. clear - W0 M0. intros C. apply Nat.eq_mul_0 in C. destruct C as [C|C]; [exact (Nat.lt_neq _ _ W0 (eq_sym C))|exact (Nat.lt_neq _ _ M0 (eq_sym C))].
    - exact Bd.
    - destruct At as (_ & _ & _ & _ & _ & D16 & _). change (2 ^ 16) with 65536. lia.
    - refine (scan_bytes_ext _ _ _ _ (mcus_x f * mcus_y f) _ _ _ _ _ _ _ Sb); [|lia]. intros m k v hh Hm. now rewrite Nat.mod_small.
    - destruct At as (_ & _ & _ & _ & D1 & D16 & _). rewrite D1. destruct (t_dri t =? 0) eqn:D0; [apply Z.eqb_eq in D0; now rewrite D0|]. now rewrite Z2Nat.id by lia.
    - exists rows, fr. split; [exact Ff|]. split; [intros k g Eg'; apply (Gq k g Eg')|]. split.
      + destruct Rr as (R1 & R2). split; [exact R1|]. intros r chs Hr. destruct (R2 r chs Hr) as (R3 & R4). split; [exact R3|]. intros k ch Hk N Ek. assert (Hk3 : (k < 3)%nat) by (cbn in Hk; lia). specialize (R4 k ch Hk N Ek). destruct (Pk k Hk3) as (P1 & P2 & P3). rewrite P1, P2, P3 in R4. destruct R4 as (R4 & R5). split; [exact R4|]. intros j v hh Hj Hv Hh. specialize (R5 j v hh Hj Hv Hh). rewrite Nat.mod_small in R5; [exact R5|].
        assert (Hr' : (r < mcus_y f)%nat) by (rewrite <- R1; apply nth_error_Some; congruence). clear - Hr' Hj. nia.
      + unfold decode_jpeg. rewrite E. cbn [bind]. rewrite Ef. cbn [bind]. rewrite (ycc_color o h e file data t d Fs (proj1 size) (proj2 size) Cl E). cbn [bind]. rewrite Lc. cbn [Nat.eqb negb]. rewrite Ep, Pr. unfold base_rows. rewrite Es. cbn [bind].
        assert (Wh : (if inter fr then Ok (mx fr, my fr) else do w <- blocks_u16 debug (d_w d) ; do h <- blocks_u16 debug (d_h d) ; Ok (w, h)) = Ok (mcus_x f, mcus_y f)).
        { destruct (inter fr) eqn:I; [now rewrite Mx, My|]. symmetry in Ei. apply orb_false_iff in Ei. destruct Ei as (I1 & I2). apply negb_false_iff, Nat.eqb_eq in I1, I2. destruct Lim as (Lx & Ly); [split; congruence|].
          destruct Fo as (X & Y & _). unfold blocks_u16. rewrite Ewd, Eht. replace (65536 <=? h_x h + 7) with false by (symmetry; apply Z.leb_gt; lia). replace (65536 <=? h_y h + 7) with false by (symmetry; apply Z.leb_gt; lia). cbn [andb bind].
          rewrite !Z.mod_small by lia. unfold mcus_x, mcus_y, ceil_div. rewrite I1, I2. cbn [f_x f_y f frame_of]. change (8 * 1)%nat with 8%nat. do 2 f_equal; apply Nat2Z.inj; rewrite Z2Nat.id, Nat2Z.inj_div by (apply Z.div_pos; lia); f_equal; lia. }
        rewrite Wh. cbn [bind]. destruct As as (As & _). assert (Oo : o_order (d_sos d) = [0; 1; 2]%nat) by (rewrite As; cbn [o_order]; exact Eo). fold sampled. rewrite Oo, Lc. cbn [length Nat.eqb negb]. rewrite Er. cbn [bind]. rewrite Ewd, Eht. reflexivity.
  Qed.
End Whole.

(** * The pixels of a file *)
(** A valid progressive file is decoded to the picture that its scans give: every block has the coefficients known after the last scan. *)
Theorem progressive_picture_partial debug avx o max_scans col h yh yv qs coef c file t p :
  h_x h <= max_w o /\ h_y h <= max_h o -> three h yh yv -> In col [RGB; RGBA; BGR; BGRA] -> bytes file ->
  progressive_file first_limit (each_limit h) h coef c file t p -> quantisers_of h t qs -> colours_of h (t_adobe t) = Some Ycc ->
  blocks_small h coef -> blocks_moderate h qs (known_block coef p) -> (1 + c <= max_scans)%nat ->
  exists out, decode_jpeg debug avx o max_scans col file = Ok out /\ picture h qs (known_block coef p) col out.
Proof.
  intros Sz T Hc B Pf Qs Cl Sm Mo Mx. destruct (prog_rows debug avx o max_scans col h yh yv qs Sz T coef c file t p B Pf Qs Cl Sm Mo Mx) as (rows & fr & Ff & _ & Rr & E).
  destruct Pf as (_ & e & s & data & m & rest & p1 & Fs & _). destruct (start_rest _ _ _ _ _ _ Fs B) as (_ & _ & Fo). rewrite E. now apply (rows_pixels avx col h yh yv qs (known_block coef p) fr rows).
Qed.
Theorem baseline_picture_partial debug avx o max_scans col h yh yv qs coef file t :
  h_x h <= max_w o /\ h_y h <= max_h o -> three h yh yv -> In col [RGB; RGBA; BGR; BGRA] -> bytes file ->
  baseline_file h qs coef file t -> quantisers_of h t qs -> colours_of h (t_adobe t) = Some Ycc ->
  blocks_moderate h qs coef -> (yh = 1%nat /\ yv = 1%nat -> h_x h <= 65528 /\ h_y h <= 65528) ->
  exists out, decode_jpeg debug avx o max_scans col file = Ok out /\ picture h qs coef col out.
Proof.
  intros Sz T Hc B Pf Qs Cl Mo Li. destruct (base_rows_ok debug avx o max_scans col h yh yv qs Sz T coef file t B Pf Qs Cl Mo Li) as (rows & fr & Ff & _ & Rr & E).
  destruct Pf as (_ & e & data & parts & Fs & _). destruct (start_rest _ _ _ _ _ _ Fs B) as (_ & _ & Fo). rewrite E. now apply (rows_pixels avx col h yh yv qs coef fr rows).
Qed.

Lemma nth_error_eq {A} : forall l l' : list A, (forall i, nth_error l i = nth_error l' i) -> l = l'.
Proof.
  induction l as [|x l IH]; intros [|y l'] E; [reflexivity|discriminate (E 0%nat)|discriminate (E 0%nat)|]. pose proof (E 0%nat) as E0. injection E0 as ->. f_equal. apply IH. intros i. apply (E (S i)).
Qed.
Lemma alone_unique q x s1 s2 : alone q x s1 -> alone q x s2 -> s1 = s2.
Proof. intros (b1 & D1 & E1) (b2 & D2 & E2). apply deq_ok in D1, D2. subst b1 b2. rewrite E1 in E2. now injection E2. Qed.
Lemma rows_same h yh yv qs block block' rows rows' : fhead_ok h -> three h yh yv -> (forall k b, (k < 3)%nat -> (b < across (frame_of h) k * down (frame_of h) k)%nat -> block k b = block' k b) ->
  rows_are h qs block rows -> rows_are h qs block' rows' -> rows = rows'.
Proof.
  intros Fo T Eb (L1 & R1) (L2 & R2). set (f := frame_of h) in *. destruct (frame_of_ok h Fo) as (Fk & _). fold f in Fk.
  apply nth_error_eq. intros r. destruct (nth_error rows r) as [a|] eqn:Ea; destruct (nth_error rows' r) as [b|] eqn:Eb'; [|apply nth_error_None in Eb'; assert (r < length rows)%nat by (apply nth_error_Some; congruence); lia|apply nth_error_None in Ea; assert (r < length rows')%nat by (apply nth_error_Some; congruence); lia|reflexivity].
  assert (Hr : (r < mcus_y f)%nat) by (rewrite <- L1; apply nth_error_Some; congruence). f_equal. destruct (R1 r a Ea) as (A1 & A2). destruct (R2 r b Eb') as (B1 & B2).
  apply nth_error_eq. intros k. destruct (nth_error a k) as [u|] eqn:Eu; destruct (nth_error b k) as [w|] eqn:Ew; [|apply nth_error_None in Ew; assert (k < length a)%nat by (apply nth_error_Some; congruence); lia|apply nth_error_None in Eu; assert (k < length b)%nat by (apply nth_error_Some; congruence); lia|reflexivity].
  assert (Hk : (k < 3)%nat) by (rewrite <- A1; apply nth_error_Some; congruence). assert (I : In k [0; 1; 2]%nat) by (cbn; lia). f_equal.
  destruct (A2 k u I eq_refl Eu) as (A3 & A4). destruct (B2 k w I eq_refl Ew) as (B3 & B4). apply (list_eq_nth 0); [congruence|]. rewrite A3. cbn [qparts p_vs p_hs p_qt] in *. destruct (samp_pos f Fk k) as (S1 & S2).
  intros i Hi. set (w' := across f k) in *. assert (W0 : (0 < w')%nat) by (destruct w'; [cbn in Hi; lia|lia]).
  pose proof (Nat.div_mod i (8 * w') ltac:(lia)) as D1. pose proof (Nat.mod_upper_bound i (8 * w') ltac:(lia)) as M1. set (y := (i / (8 * w'))%nat) in *. set (x := (i mod (8 * w'))%nat) in *. clearbody x y.
  pose proof (Nat.div_mod y 8 ltac:(lia)) as D2. pose proof (Nat.mod_upper_bound y 8 ltac:(lia)) as M2. set (v := (y / 8)%nat) in *. set (a8 := (y mod 8)%nat) in *. clearbody v a8.
  pose proof (Nat.div_mod x 8 ltac:(lia)) as D3. pose proof (Nat.mod_upper_bound x 8 ltac:(lia)) as M3. set (xb := (x / 8)%nat) in *. set (b8 := (x mod 8)%nat) in *. clearbody xb b8.
  assert (Hv : (v < vs_of f k)%nat). { clear - Hi D1 D2 M1 W0. assert (Y : (y < 8 * vs_of f k)%nat) by nia. lia. }
  assert (Hx : (xb < mcus_x f * hs_of f k)%nat) by (fold (across f k); fold w'; lia).
  pose proof (Nat.div_mod xb (hs_of f k) ltac:(lia)) as D4. pose proof (Nat.mod_upper_bound xb (hs_of f k) ltac:(lia)) as M4. assert (Hj : (xb / hs_of f k < mcus_x f)%nat) by (apply Nat.div_lt_upper_bound; lia).
  set (j := (xb / hs_of f k)%nat) in *. set (hh := (xb mod hs_of f k)%nat) in *. clearbody j hh.
  destruct (A4 j v hh Hj Hv M4) as (s1 & Q1 & Sq1). destruct (B4 j v hh Hj Hv M4) as (s2 & Q2 & Sq2).
  assert (Es : s1 = s2). { apply (alone_unique _ _ _ _ Q1). unfold mcu_block in *. rewrite Eb; [exact Q2|exact Hk|]. apply mcu_place; [|exact Hv|exact M4]. clear - Hj Hr. nia. }
  subst s2. specialize (Sq1 a8 b8 M2 M3). specialize (Sq2 a8 b8 M2 M3).
  replace i with ((8 * v + a8) * (8 * w') + 8 * (j * hs_of f k + hh) + b8)%nat by (rewrite (Nat.mul_comm j); lia). now rewrite Sq1, Sq2.
Qed.
Lemma frame_same h h' yh yv : three h yh yv -> three h' yh yv -> h_x h = h_x h' -> h_y h = h_y h' -> frame_of h = frame_of h'.
Proof. intros (_ & ? & ? & ? & ? & ? & ? & E) (_ & ? & ? & ? & ? & ? & ? & E') X Y. unfold frame_of. now rewrite E, E', X, Y. Qed.
Lemma frames_equal fr fr' f qs : (1 < length (f_samp f))%nat -> frame_for fr f -> frame_for fr' f -> (forall k g, nth_error (geos fr) k = Some g -> gqt g = qs k) -> (forall k g, nth_error (geos fr') k = Some g -> gqt g = qs k) -> fr = fr'.
Proof.
  intros L (A1 & A2 & A3 & A4 & A5 & A6) (B1 & B2 & B3 & B4 & B5 & B6) Q Q'. destruct (A4 (or_intror L)) as (A7 & A8). destruct (B4 (or_intror L)) as (B7 & B8).
  destruct fr as [i x y w hh gs], fr' as [i' x' y' w' h' gs']. cbn in *. subst. f_equal. apply nth_error_eq. intros k.
  destruct (nth_error gs k) as [g|] eqn:E; destruct (nth_error gs' k) as [g'|] eqn:E'; [|apply nth_error_None in E'; assert (k < length gs)%nat by (apply nth_error_Some; congruence); lia|apply nth_error_None in E; assert (k < length gs')%nat by (apply nth_error_Some; congruence); lia|reflexivity].
  destruct (A6 k g E) as (C1 & C2 & C3). destruct (B6 k g' E') as (C1' & C2' & C3'). pose proof (Q k g E). pose proof (Q' k g' E'). destruct g, g'. cbn in *. congruence.
Qed.
Lemma known_all h coef p k b : complete h p -> (k < length (h_parts h))%nat -> (b < across (frame_of h) k * down (frame_of h) k)%nat -> length (coef k b) = 64%nat -> known_block coef p k b = coef k b.
Proof.
  intros C Hk Hb L. unfold known_block. apply (list_eq_nth 0); [now rewrite map_length, seq_length|]. rewrite map_length, seq_length. intros i Hi. rewrite (map_nth_in _ _ _ 0%nat) by (rewrite seq_length; exact Hi). rewrite seq_nth by exact Hi. cbn [Nat.add].
  rewrite (C k b i Hk Hb Hi). unfold known, known_dc, known_ac. change (2 ^ Z.of_nat 0) with 1. rewrite Z.div_1_r, Z.quot_1_r, Z.mul_1_r. now destruct (i =? 0)%nat.
Qed.
(** The way in which the coefficients are sent makes no difference: a progressive file whose scans send all bits, and a baseline file with the same coefficients, quantisers, size and sampling give the same pixels. *)
Theorem same_picture_partial debug debug' avx o o' max_scans max_scans' col h h' yh yv qs coef c file file' t t' p :
  h_x h <= max_w o /\ h_y h <= max_h o -> h_x h <= max_w o' /\ h_y h <= max_h o' -> three h yh yv -> three h' yh yv -> h_x h = h_x h' -> h_y h = h_y h' -> In col [RGB; RGBA; BGR; BGRA] -> bytes file -> bytes file' ->
  progressive_file first_limit (each_limit h) h coef c file t p -> complete h p -> baseline_file h' qs coef file' t' -> quantisers_of h t qs -> quantisers_of h' t' qs ->
  colours_of h (t_adobe t) = Some Ycc -> colours_of h' (t_adobe t') = Some Ycc -> blocks_small h coef -> blocks_moderate h qs coef -> (1 + c <= max_scans)%nat ->
  (yh = 1%nat /\ yv = 1%nat -> h_x h <= 65528 /\ h_y h <= 65528) ->
  exists out, decode_jpeg debug avx o max_scans col file = Ok out /\ decode_jpeg debug' avx o' max_scans' col file' = Ok out /\ picture h qs coef col out.
Proof.
  intros Sz Sz' T T' Ex Ey Hc B B' Pf Cp Bf Qs Qs' Cl Cl' Sm Mo Mx Li. pose proof (frame_same h h' yh yv T T' Ex Ey) as Fe.
  pose proof Pf as (_ & e & s & data & m & rest & p1 & Fs & _). destruct (start_rest _ _ _ _ _ _ Fs B) as (_ & _ & Fo). destruct (frame_three h yh yv Fo T) as (Sa & Eh & Ev & _ & _ & L3 & Pl).
  assert (L3' : length (h_parts h') = 3%nat) by (destruct T' as (_ & ? & ? & ? & ? & ? & ? & E'); now rewrite E').
  assert (Kb : forall k b, (k < 3)%nat -> (b < across (frame_of h) k * down (frame_of h) k)%nat -> known_block coef p k b = coef k b).
  { intros k b Hk Hb. rewrite <- L3 in Hk. apply (known_all h); [exact Cp|exact Hk|exact Hb|apply (Mo k b Hk Hb)]. }
  destruct (prog_rows debug avx o max_scans col h yh yv qs Sz T coef c file t p B Pf Qs Cl Sm) as (rows & fr & Ff & Fq & Rr & E); [|exact Mx|].
  { intros k b Hk Hb. rewrite Kb; [now apply Mo|now rewrite <- L3|exact Hb]. }
  rewrite Ex, Ey in Sz', Li. destruct (base_rows_ok debug' avx o' max_scans' col h' yh yv qs Sz' T' coef file' t' B' Bf Qs' Cl') as (rows' & fr' & Ff' & Fq' & Rr' & E'); [|exact Li|].
  { intros k b Hk Hb. rewrite L3', <- L3 in Hk. rewrite <- Fe in Hb. now apply Mo. }
  unfold rows_are in Rr'. rewrite <- Fe in Ff', Rr'. assert (Ef : fr = fr') by (apply (frames_equal fr fr' (frame_of h) qs); [rewrite Sa; cbn; lia|exact Ff|exact Ff'|exact Fq|exact Fq']). subst fr'.
  assert (Er : rows = rows') by exact (rows_same h yh yv qs _ _ rows rows' Fo T Kb Rr Rr'). subst rows'. rewrite E, E', <- Ex, <- Ey.
  destruct (rows_pixels avx col h yh yv qs coef fr rows Fo T Ff Hc Rr') as (out & Eo & P). exists out. split; [exact Eo|]. split; [exact Eo|exact P].
Qed.

(** The two files of JpegFileDemo.v meet the conditions. *)
Lemma coef_cases h : h_parts h = three_parts -> h_x h = 12 -> h_y h = 10 -> forall P : nat -> list Z -> Prop, (forall k x ac, In (x, ac) [(3, [-3]); (2, [2; 1]); (0, []); (-2, []); (1, []); (-1, [1])] -> P k (block x ac)) ->
  forall k b, (k < length (h_parts h))%nat -> (b < across (frame_of h) k * down (frame_of h) k)%nat -> P k (coef k b).
Proof.
  intros E X Y P A k b Hk _. rewrite E in Hk. cbn in Hk. assert (D : coef k b = block 0 [] \/ exists x ac, In (x, ac) [(3, [-3]); (2, [2; 1]); (0, []); (-2, []); (1, []); (-1, [1])] /\ coef k b = block x ac).
  { destruct k as [|[|[|k]]]; [|destruct b as [|b]| destruct b as [|b]|lia]; [do 4 (destruct b as [|b]; [right; eexists; eexists; split; [|reflexivity]; cbn; tauto|]); now left|right; eexists; eexists; split; [|reflexivity]; cbn; tauto|now left|right; eexists; eexists; split; [|reflexivity]; cbn; tauto|now left]. }
  destruct D as [->|(x & ac & I & ->)]; apply A; [cbn; tauto|exact I].
Qed.
Example files_demo :
  three (head true) 2 2 /\ three (head false) 2 2 /\ bytes (prog_bytes [] 0) /\ bytes base_bytes /\
  progressive_file first_limit (each_limit (head true)) (head true) coef 5 (prog_bytes [] 0) (told_here 0) (knows 6) /\ complete (head true) (knows 6) /\
  baseline_file (head false) (fun _ => quant_rows) coef base_bytes (told_here 0) /\ quantisers_of (head true) (told_here 0) (fun _ => quant_rows) /\
  colours_of (head true) (t_adobe (told_here 0)) = Some Ycc /\ blocks_small (head true) coef /\ blocks_moderate (head true) (fun _ => quant_rows) coef.
Proof.
  split; [split; [cbn; tauto|now exists 1, 2, 3, 0%nat, 0%nat, 0%nat]|]. split; [split; [cbn; tauto|now exists 1, 2, 3, 0%nat, 0%nat, 0%nat]|].
  split; [apply Forall_forall; intros x Hx; assert (A : forallb (fun x => (0 <=? x) && (x <? 256)) (prog_bytes [] 0) = true) by (vm_compute; reflexivity); rewrite forallb_forall in A; specialize (A x Hx); unfold is_byte; lia|].
  split; [apply Forall_forall; intros x Hx; assert (A : forallb (fun x => (0 <=? x) && (x <? 256)) base_bytes = true) by (vm_compute; reflexivity); rewrite forallb_forall in A; specialize (A x Hx); unfold is_byte; lia|].
  split; [|split; [exact complete_demo|split; [exact base_demo|split; [apply quantisers_demo|split; [reflexivity|split]]]]].
  - apply prog_demo; [now left|lia| |].
    + split; [reflexivity|]. intros k sym0 code _ (pp & sz & c & E1 & E2 & ->). cbn [sc s_dcn s_dcv] in E1, E2. destruct pp as [|[|[|pp]]]; [| | |destruct pp; discriminate E1]; injection E1 as <- <-; injection E2 as <-; vm_compute; discriminate.
    + intros i m Hi. split; [|now left]. intros _ k td ta I. assert (td = 0%nat) as ->; [|discriminate]. do 6 (destruct i as [|i]; [cbn in I; repeat (destruct I as [I|I]; [injection I as <- <- <-; reflexivity|]); destruct I|]). lia.
  - intros k b Hk Hb. revert k b Hk Hb. apply (coef_cases (head true) eq_refl eq_refl eq_refl (fun _ l => length l = 64%nat /\ Forall (fun c => Z.abs c < 2 ^ 15) l)). intros k x ac I.
    repeat (destruct I as [I|I]; [injection I as <- <-; split; [reflexivity|repeat constructor]|]). destruct I.
  - intros k b Hk Hb. revert k b Hk Hb. apply (coef_cases (head true) eq_refl eq_refl eq_refl (fun k l => length l = 64%nat /\ moderate quant_rows (split_block l))). intros k x ac I.
    repeat (destruct I as [I|I]; [injection I as <- <-; split; [reflexivity|]; split; [cbn; lia|]; intros b D; apply deq_ok in D; subst b; intros _; vm_compute; split; [discriminate|reflexivity]|]). destruct I.
Qed.
(** Their pixels: the same, in both builds *)
Definition first_pixels (r : res (list Z)) : res (nat * list Z) := do l <- r ; Ok (length l, firstn 12 l).
Example pixels_demo :
  first_pixels (decode_jpeg true false (any_size true) 10 RGB (prog_bytes [] 0)) = Ok (360%nat, [124; 118; 130; 127; 121; 133; 131; 128; 139; 140; 137; 148]) /\
  decode_jpeg true false (any_size true) 10 RGB (prog_bytes [] 0) = decode_jpeg false false (any_size false) 10 RGB base_bytes.
Proof. split; vm_compute; reflexivity. Qed.

(** * What is not decoded right *)

Definition no_limit (t : told) (e : shead) (s : pscan) (m : Z) : Prop := True.
(** A complete progressive file and a baseline file with the same picture, which differ when decoded *)
Definition decoded_otherwise (file file' : list Z) (h h' : fhead) (coef : nat -> nat -> list Z) (qs : nat -> list Z) : Prop :=
  (exists c t p, progressive_file no_limit no_limit h coef c file t p /\ complete h p /\ quantisers_of h t qs /\ colours_of h (t_adobe t) = Some Ycc) /\
  (exists t', baseline_file h' qs coef file' t' /\ quantisers_of h' t' qs /\ colours_of h' (t_adobe t') = Some Ycc) /\ h_x h = h_x h' /\ h_y h = h_y h' /\ h_parts h = h_parts h' /\
  exists out, decode_jpeg false false (any_size false) 100 RGB file' = Ok out /\
    decode_jpeg false false (any_size true) 100 RGB file = Err EOther /\ decode_jpeg false false (any_size false) 100 RGB file <> Ok out.
Lemma demo_otherwise n dri r : n = 0 /\ dri = [] \/ 4 <= n < 65536 /\ dri = repeat 255 1 ++ 221 :: JpegHeadSpec.segment (be16 n) -> (r < 4)%nat ->
  decode_jpeg false false (any_size true) 100 RGB (prog_bytes dri r) = Err EOther -> first_pixels (decode_jpeg false false (any_size false) 100 RGB (prog_bytes dri r)) <> Ok (360%nat, [124; 118; 130; 127; 121; 133; 131; 128; 139; 140; 137; 148]) ->
  decoded_otherwise (prog_bytes dri r) base_bytes (head true) (head false) coef (fun _ => quant_rows).
Proof.
  intros D R E1 E2. split.
  { exists 5%nat, (told_here n), (knows 6). split; [now apply prog_demo|]. split; [exact complete_demo|]. split; [apply quantisers_demo|reflexivity]. }
  split; [exists (told_here 0); split; [exact base_demo|split; [apply quantisers_demo|reflexivity]]|]. do 3 (split; [reflexivity|]).
  destruct (decode_jpeg false false (any_size false) 100 RGB base_bytes) as [out| | |] eqn:E; try (exfalso; assert (X : match decode_jpeg false false (any_size false) 100 RGB base_bytes with Ok _ => true | _ => false end = true) by (vm_compute; reflexivity); rewrite E in X; discriminate X).
  exists out. split; [reflexivity|]. split; [exact E1|]. intros C. apply E2. rewrite C, <- E. vm_compute. reflexivity.
Qed.
(** A restart interval that divides the number of MCUs of a scan (here 4, and a scan of 4) when another scan follows: the decoder takes the marker after the scan for a restart marker (mcu_prog.rs:442-482). Strict: an error;
    otherwise the scans that follow are lost. *)
Theorem restart_interval_refuted : exists file file' h h' coef qs, bytes file /\ decoded_otherwise file file' h h' coef qs.
Proof.
  exists (prog_bytes (repeat 255 1 ++ 221 :: JpegHeadSpec.segment (be16 4)) 0), base_bytes, (head true), (head false), coef, (fun _ => quant_rows). split.
  - apply Forall_forall; intros x Hx; assert (A : forallb (fun x => (0 <=? x) && (x <? 256)) (prog_bytes (repeat 255 1 ++ 221 :: JpegHeadSpec.segment (be16 4)) 0) = true) by (vm_compute; reflexivity); rewrite forallb_forall in A; specialize (A x Hx); unfold is_byte; lia.
  - apply (demo_otherwise 4); [right; split; [lia|reflexivity]|lia|vm_compute; reflexivity|vm_compute; discriminate].
Qed.
Print Assumptions restart_interval_refuted.
(** A refinement of DC coefficients whose header names a Huffman table that the file does not have; such scans have no Huffman codes (T.81 G.1.2.1). The same happens. *)
Theorem refinement_table_refuted : exists file file' h h' coef qs, bytes file /\ decoded_otherwise file file' h h' coef qs.
Proof.
  exists (prog_bytes [] 1), base_bytes, (head true), (head false), coef, (fun _ => quant_rows). split.
  - apply Forall_forall; intros x Hx; assert (A : forallb (fun x => (0 <=? x) && (x <? 256)) (prog_bytes [] 1) = true) by (vm_compute; reflexivity); rewrite forallb_forall in A; specialize (A x Hx); unfold is_byte; lia.
  - apply (demo_otherwise 0); [now left|lia|vm_compute; reflexivity|vm_compute; discriminate].
Qed.
Print Assumptions refinement_table_refuted.
(** If the last symbol of the first scan takes more than 24 bits with its additional bits, the marker behind the scan is not yet read when the scan is done, and the file is refused even if not strict (mcu_prog.rs:123-127). *)
Theorem long_symbol_refuted : exists h coef qs file t p, bytes file /\ progressive_file no_limit no_limit h coef 0 file t p /\ quantisers_of h t qs /\ colours_of h (t_adobe t) = Some Ycc /\
  blocks_small h coef /\ blocks_moderate h qs (known_block coef p) /\ forall strict, decode_jpeg false false (any_size strict) 100 RGB file = Err EOther.
Proof.
  exists head_long, coef_long, (fun _ => quant_rows), long_bytes, told_long, (after (frame_of head_long) sc_long unseen). split.
  { apply Forall_forall; intros x Hx; assert (A : forallb (fun x => (0 <=? x) && (x <? 256)) long_bytes = true) by (vm_compute; reflexivity); rewrite forallb_forall in A; specialize (A x Hx); unfold is_byte; lia. }
  split; [now apply long_demo|]. split.
  { intros k p E. exists quant. split; [|exact quant_by_rows]. do 3 (destruct k as [|k]; [injection E as <-; reflexivity|]). destruct k; discriminate E. }
  split; [reflexivity|]. split; [|split].
  - intros k b _ _. unfold coef_long. destruct (k =? 2)%nat; (split; [reflexivity|repeat constructor]).
  - intros k b Hk Hb. assert (Eb : b = 0%nat) by (do 3 (destruct k as [|k]; [vm_compute in Hb; lia|]); cbn in Hk; lia). subst b. do 3 (destruct k as [|k]; [split; [reflexivity|]; split; [vm_compute; split; [discriminate|reflexivity]|]; intros b D; apply deq_ok in D; subst b; intros _; vm_compute; split; [discriminate|reflexivity]|]). cbn in Hk. lia.
  - intros [|]; vm_compute; reflexivity.
Qed.
Print Assumptions long_symbol_refuted.
(** Without sampling the number of MCUs is computed with 16 bits (mcu.rs:107-108): pictures wider (or higher) than 65528 pixels are not decoded. In a debug build the decoder panics; otherwise all files with such a
    frame and the same quantisers look the same, whatever is in them. *)
Lemma empty_rows avx strict sm order : forall hh a s, over (str s) = 0 -> marker (str s) = None -> exists s', run_rows false avx false strict sm order 0 (seq a hh) s = Ok (AllRows, map (fun _ => chans s) (seq a hh), s').
Proof.
  induction hh as [|n IH]; intros a s S0 S1; [now exists s|]. cbn [seq run_rows map]. rewrite S0. cbn [Z.ltb Z.compare]. unfold decode_row. cbn [run_mcus seq bind]. unfold after_row. cbn [str]. rewrite S1. cbn [bind].
  destruct (IH (S a) (Scan (str s) (comps s) (chans s) (todo s) (interval s) (tmp s) true) S0 S1) as (s' & E). rewrite E. cbn [bind chans]. now exists s'.
Qed.
Lemma wide_setup o h qs coef file t : bytes file -> three h 1 1 -> h_x h <= max_w o /\ h_y h <= max_h o -> baseline_file h qs coef file t -> quantisers_of h t qs -> colours_of h (t_adobe t) = Some Ycc -> 65528 < h_x h ->
  exists fr, inter fr = false /\ frame_for fr (frame_of h) /\ (forall k g, nth_error (geos fr) k = Some g -> gqt g = qs k) /\ forall debug avx max_scans col, decode_jpeg debug avx o max_scans col file =
    if debug then Panic else do hh <- blocks_u16 false (h_y h) ; to_pixels avx col (Z.to_nat (h_x h)) (Z.to_nat (h_y h)) fr (map (fun _ => map (fun g => repeat 0 (gstride g * gvs g * 8)%nat) (geos fr)) (seq 0 hh)).
Proof.
  intros B T Sz (Pr & e & data & parts & Fs & Eo & Tp & Sb) Qs Cl Wd. destruct (start_rest _ _ _ _ _ _ Fs B) as (Bd & So & Fo).
  destruct (frame_three h 1 1 Fo T) as (Sa & Eh & Ev & Bh & Bv & L3 & Pl). destruct (start_ok o true h e file data t Fs (proj1 Sz) (proj2 Sz)) as (d & E & At & Af & As & _).
  destruct (setup_ok d t h qs Fo Pl At Af Qs) as (fr & Ef & Ff & Fp & Gq). destruct (frame_of_ok h Fo) as (Fk & Fx & Fy & Lf). set (f := frame_of h) in *.
  pose proof Ff as (Ew & Ehh & Ei & Em & Lg & Eg). rewrite Lf, L3 in Lg. rewrite L3 in Eo, Sb. cbn [seq] in Eo, Sb.
  pose proof Af as (_ & Ep & Ewd & Eht & Ec). assert (Lc : length (d_comps d) = 3%nat) by (rewrite <- L3, <- Ec; now rewrite map_length).
  assert (Or : forall k, (k < 3)%nat -> exists td ta, In (k, td, ta) (e_order e)).
  { intros k Hk. assert (I : In k (map (fun x => fst (fst x)) (e_order e))) by (rewrite Eo; cbn; lia). apply in_map_iff in I. destruct I as (((k', td), ta) & <- & I). now exists td, ta. }
  destruct (scan_comps_ok d t parts At (d_comps d) (geos fr) 0%nat) as (cs & Es & _); [congruence| |].
  { intros k c g E1 E2. assert (Hk : (k < 3)%nat) by (rewrite <- Lc; apply nth_error_Some; congruence). destruct (Or k Hk) as (td & ta & I). destruct As as (_ & As). rewrite Forall_forall in As. destruct (As _ I) as (c' & C1 & C2 & C3). rewrite E1 in C1. injection C1 as <-.
    destruct So as (_ & _ & So & _). rewrite Forall_forall in So. destruct (So _ I) as (_ & S1 & S2). destruct (Tp k td ta I) as (P1 & P2 & P3 & P4 & P5). destruct (Eg k g E2) as (G1 & G2 & _). destruct (Gq k g E2) as (G3 & _). cbn [Nat.add].
    rewrite C2, C3, P1, P2, P3. split; [exact S1|]. split; [exact S2|]. split; [exact G1|]. split; [exact G2|]. split; [exact G3|]. now split. }
  rewrite Eh, Ev in Ei. cbn in Ei. exists fr. split; [exact Ei|]. split; [exact Ff|]. split; [intros k g Eg'; apply (Gq k g Eg')|]. intros debug avx max_scans col.
  unfold decode_jpeg. rewrite E. cbn [bind]. rewrite Ef. cbn [bind]. rewrite (ycc_color o h e file data t d Fs (proj1 Sz) (proj2 Sz) Cl E). cbn [bind]. rewrite Lc. cbn [Nat.eqb negb]. rewrite Ep, Pr. unfold base_rows. rewrite Es. cbn [bind]. rewrite Ei, Ewd, Eht.
  destruct Fo as (X & Y & _). unfold blocks_u16 at 1. replace (65536 <=? h_x h + 7) with true by (symmetry; apply Z.leb_le; lia). cbn [andb]. destruct debug; [reflexivity|]. cbn [bind].
  replace (Z.to_nat ((h_x h + 7) mod 65536 / 8)) with 0%nat. 2: { replace ((h_x h + 7) mod 65536) with (h_x h + 7 - 65536) by (apply (Z.mod_unique _ _ 1); lia). rewrite Z.div_small by lia. reflexivity. }
  destruct (blocks_u16 false (h_y h)) as [hh| | |]; try reflexivity. cbn [bind]. destruct As as (As & _). assert (Oo : o_order (d_sos d) = [0; 1; 2]%nat) by (rewrite As; cbn [o_order]; exact Eo). rewrite Oo, Lc. cbn [length Nat.eqb negb].
  match goal with |- context [run_scan _ _ _ _ ?sm _ _ _ ?s] => destruct (empty_rows avx (h_strict o) sm [0; 1; 2]%nat hh 0 s eq_refl eq_refl) as (s' & R) end. unfold run_scan. rewrite R. reflexivity.
Qed.
Theorem wide_picture_refuted : exists h qs coef file t, three h 1 1 /\ bytes file /\ baseline_file h qs coef file t /\ quantisers_of h t qs /\ colours_of h (t_adobe t) = Some Ycc /\ blocks_moderate h qs coef /\
  forall avx strict max_scans col, decode_jpeg true avx (any_size strict) max_scans col file = Panic.
Proof.
  set (w := 65529). set (d := Z.to_nat 4096). exists (head_wide w), (fun _ => quant_rows), zeros_coef, (wide_start w (wide_data d ++ [255; 217])), (told_here 0).
  assert (T : three (head_wide w) 1 1) by (split; [cbn; tauto|now exists 1, 2, 3, 0%nat, 0%nat, 0%nat]). assert (By : bytes (wide_start w (wide_data d ++ [255; 217]))).
  { assert (E : wide_start w (wide_data d ++ [255; 217]) = wide_start w [] ++ (wide_data d ++ [255; 217])) by (unfold wide_start; now repeat (rewrite <- app_assoc || rewrite <- app_comm_cons); rewrite app_nil_l). rewrite E.
    apply Forall_app. split; [|apply Forall_app; split].
    - apply Forall_forall; intros x Hx; assert (A : forallb (fun x => (0 <=? x) && (x <? 256)) (wide_start w []) = true) by (vm_compute; reflexivity); rewrite forallb_forall in A; specialize (A x Hx); unfold is_byte; lia.
    - apply Forall_forall. intros x Hx. apply repeat_spec in Hx. subst x. unfold is_byte. lia.
    - repeat constructor; unfold is_byte; lia. }
  assert (Bf : baseline_file (head_wide w) (fun _ => quant_rows) zeros_coef (wide_start w (wide_data d ++ [255; 217])) (told_here 0)).
  { apply wide_demo; [unfold w; lia|]. unfold mcus_x, mcus_y, ceil_div. change (8 * hmax (frame_of (head_wide w)))%nat with 8%nat. change (8 * vmax (frame_of (head_wide w)))%nat with 8%nat. change (f_y (frame_of (head_wide w))) with 8%nat. change (f_x (frame_of (head_wide w))) with (Z.to_nat w).
    change ((8 + 8 - 1) / 8)%nat with 1%nat. rewrite Nat.mul_1_r. apply Nat2Z.inj. rewrite Nat2Z.inj_div, Nat2Z.inj_mul. replace (Z.of_nat (Z.to_nat w + 8 - 1)) with 65536 by (unfold w; lia). unfold d. rewrite Z2Nat.id by lia. reflexivity. }
  assert (Qo : quantisers_of (head_wide w) (told_here 0) (fun _ => quant_rows)).
  { intros k p E. exists quant. split; [|exact quant_by_rows]. do 3 (destruct k as [|k]; [injection E as <-; reflexivity|]). destruct k; discriminate E. }
  split; [exact T|]. split; [exact By|]. split; [exact Bf|]. split; [exact Qo|]. split; [reflexivity|]. split.
  - intros k b _ _. split; [reflexivity|]. split; [vm_compute; split; [discriminate|reflexivity]|]. intros l D. apply deq_ok in D. subst l. intros _. vm_compute. split; [discriminate|reflexivity].
  - intros avx strict max_scans col. destruct (wide_setup (any_size strict) (head_wide w) (fun _ => quant_rows) zeros_coef _ (told_here 0) By T) as (fr & _ & _ & _ & E); [cbn; unfold w; lia|exact Bf|exact Qo|reflexivity|cbn; unfold w; lia|]. apply (E true).
Qed.
(** In a release build such a file is decoded, but to the same pixels whatever its coefficients are. *)
Theorem wide_pictures_alike avx o o' max_scans col h qs coef coef' file file' t t' : bytes file -> bytes file' -> three h 1 1 -> h_x h <= max_w o /\ h_y h <= max_h o -> h_x h <= max_w o' /\ h_y h <= max_h o' ->
  baseline_file h qs coef file t -> baseline_file h qs coef' file' t' -> quantisers_of h t qs -> quantisers_of h t' qs -> colours_of h (t_adobe t) = Some Ycc -> colours_of h (t_adobe t') = Some Ycc -> 65528 < h_x h ->
  decode_jpeg false avx o max_scans col file = decode_jpeg false avx o' max_scans col file'.
Proof.
  intros B B' T Sz Sz' Bf Bf' Qs Qs' Cl Cl' Wd. destruct (wide_setup o h qs coef file t B T Sz Bf Qs Cl Wd) as (fr & _ & Ff & Gq & E). destruct (wide_setup o' h qs coef' file' t' B' T Sz' Bf' Qs' Cl' Wd) as (fr' & _ & Ff' & Gq' & E').
  rewrite (E false), (E' false). assert (fr = fr') as ->; [|reflexivity]. apply (frames_equal fr fr' (frame_of h) qs); try assumption. destruct T as (_ & ? & ? & ? & ? & ? & ? & P). unfold frame_of. rewrite P. cbn. lia.
Qed.
Print Assumptions wide_picture_refuted.
Print Assumptions wide_pictures_alike.
Print Assumptions progressive_picture_partial.
Print Assumptions baseline_picture_partial.
Print Assumptions same_picture_partial.
