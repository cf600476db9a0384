(** The scan loop of zune-jpeg on valid data *)
From Verif Require Import Base BaseProof Loops Slices Bits JpegSimd JpegIdctModel JpegIdctSpec JpegIdctProof JpegIdctProps
  JpegHuffModel JpegHuffSpec JpegHuffTable JpegHuffBits JpegHuffBlock JpegHuffRun JpegScanModel JpegScanSpec.

(** * The coefficients of a block as a function *)
Definition unz (p : nat) : nat := match find (fun k => (nth k zigzag 0 =? p)%nat) (seq 0 64) with Some k => k | None => 0%nat end.
Lemma unz_ok p : (p < 64)%nat -> (unz p < 64)%nat /\ nth (unz p) zigzag 0%nat = p.
Proof.
  intros H. assert (A : forallb (fun p => (unz p <? 64) && (nth (unz p) zigzag 0 =? p))%nat (seq 0 64) = true) by (vm_compute; reflexivity).
  rewrite forallb_forall in A. specialize (A p ltac:(apply in_seq; lia)). cbv beta in A. apply andb_prop in A. destruct A as (A1 & A2).
  apply Nat.ltb_lt in A1. apply Nat.eqb_eq in A2. now split.
Qed.
Definition deq (q : list Z) (c : Z * list Z) : list Z := map (fun p => nth (unz p) (fst c :: snd c) 0 * nth p q 0) (seq 0 64).
Lemma deq_ok q dc cs b : dequantised q dc cs b -> b = deq q (dc, cs).
Proof.
  intros (L & H). apply (list_eq_nth 0); [now rewrite L|]. rewrite L. intros i Hi. unfold deq.
  rewrite (map_nth_in _ _ _ 0%nat) by (rewrite seq_length; exact Hi). rewrite seq_nth by exact Hi. cbn [Nat.add fst snd].
  destruct (unz_ok i Hi) as (U1 & U2). rewrite <- U2 at 1. rewrite H by exact U1. now rewrite U2.
Qed.
Lemma deq_length q c : length (deq q c) = 64%nat.
Proof. unfold deq. now rewrite map_length, seq_length. Qed.

(** * Writing a square into a larger list *)
Lemma idct_at debug avx len b ch pos w : length b = 64%nat -> zero_from len b -> dc_in_range b -> (8 <= w)%nat -> (pos + 7 * w + 8 <= length ch)%nat ->
  exists out t, idct_block debug avx len b (skipn pos ch) w = Ok (out, t) /\ scratch_ok (t, (10 <? len)%nat) /\
    length (firstn pos ch ++ out) = length ch /\
    (forall a, (a < 8)%nat -> slice (firstn pos ch ++ out) (pos + a * w) 8 = full_row b a) /\
    (forall i, (forall a, (a < 8)%nat -> (i < pos + a * w \/ pos + a * w + 8 <= i)%nat) -> nth i (firstn pos ch ++ out) 0 = nth i ch 0).
Proof.
  intros L Z0 D Hw Hl. pose proof (idct_block_rows debug avx len b (skipn pos ch) w L Z0 D) as S.
  destruct (store_rows_spec (full_row b) w (skipn pos ch)) as (o & E & A1 & A2 & A3); [intros; apply full_row_bytes|exact Hw|rewrite skipn_length; lia|].
  rewrite E in S. destruct (idct_block debug avx len b (skipn pos ch) w) as [[out t]| | |] eqn:I; cbn [samples bind fst] in S; try discriminate S.
  assert (out = o) as -> by congruence. rewrite skipn_length in A1.
  exists o, t. split; [reflexivity|]. split; [exact (idct_left _ _ _ _ _ _ _ _ L Z0 I)|].
  assert (Lf : length (firstn pos ch) = pos) by (rewrite firstn_length; lia).
  split; [rewrite app_length, Lf; lia|]. split.
  - intros a Ha. unfold slice. rewrite skipn_app, Lf. replace (pos + a * w - pos)%nat with (a * w)%nat by lia.
    rewrite skipn_all2 by lia. cbn [app]. apply A2. exact Ha.
  - intros i Hi. destruct (Nat.lt_ge_cases i pos) as [C|C].
    + rewrite app_nth1 by lia. rewrite nth_firstn by lia. reflexivity.
    + rewrite app_nth2 by lia. rewrite Lf. rewrite A3; [rewrite nth_skipn; f_equal; lia|]. intros a Ha. specialize (Hi a Ha). lia.
Qed.
Lemma upd_nth_err {A} (l : list A) k x i y : nth_error (upd l k x) i = Some y -> (i = k /\ y = x) \/ (i <> k /\ nth_error l i = Some y).
Proof.
  revert k i. induction l as [|z l IH]; intros [|k] [|i]; cbn; intros H; try discriminate H; auto.
  - left. split; congruence.
  - destruct (IH k i H) as [(-> & ->)|(N & E)]; [now left|right; split; [lia|exact E]].
Qed.

Section Scan.
  Variable debug avx strict sampled : bool.
  Variable parts : nat -> part.
  Variable order : list nat.
  Variable blk : nat -> nat -> nat -> nat -> Z * list Z.
  Variable need : nat -> bool.
  Variable strd : nat -> nat.
  Variable N W H R : nat.   (* components, MCUs in a row, rows, restart interval *)
  Let total := (W * H)%nat.
  Hypothesis order_ok : forall k, In k order -> (k < N)%nat.
  Hypothesis order_some : order <> [].
  Hypothesis parts_ok : forall k, In k order -> (0 < p_hs (parts k))%nat /\ (0 < p_vs (parts k))%nat /\ (sampled = false -> p_hs (parts k) = 1%nat /\ p_vs (parts k) = 1%nat).
  Hypothesis strd_ok : forall k, In k order -> need k = true -> (8 * (W * p_hs (parts k)) <= strd k)%nat.
  (** The blocks: DC values of 16 bits, and the range in which the routines of the inverse DCT agree *)
  Hypothesis blk_ok : forall n k v h, In k order -> (v < p_vs (parts k))%nat -> (h < p_hs (parts k))%nat -> - 2 ^ 15 <= fst (blk n k v h) < 2 ^ 15 /\
    dc_in_range (deq (p_qt (parts k)) (blk n k v h)).
  Variable W0 : (0 < W)%nat.

  Definition comp_ok (k : nat) (c : comp) : Prop :=
    dc_table (p_dcn (parts k)) (p_dcv (parts k)) (dct c) /\ (exists a, ac_table (p_acn (parts k)) (p_acv (parts k)) (act c) a) /\
    qt c = p_qt (parts k) /\ quantiser (qt c) /\ hs c = p_hs (parts k) /\ vs c = p_vs (parts k) /\ stride c = strd k /\ needed c = need k.
  Definition comps_ok (last : nat -> Z) (cs : list comp) : Prop :=
    length cs = N /\ forall k c, nth_error cs k = Some c -> In k order -> comp_ok k c /\ (need k = true -> pred c = last k).
  (** The blocks of row [i] written so far *)
  Definition chan_ok (i k : nat) (dn : nat -> nat -> nat -> Prop) (ch : list Z) : Prop :=
    length ch = (strd k * (8 * p_vs (parts k)))%nat /\
    forall j v h, (j < W)%nat -> (v < p_vs (parts k))%nat -> (h < p_hs (parts k))%nat -> dn j v h -> forall a, (a < 8)%nat ->
      slice ch ((8 * v + a) * strd k + 8 * (j * p_hs (parts k) + h)) 8 = full_row (deq (p_qt (parts k)) (blk (i * W + j) k v h)) a.
  Definition chans_ok (i : nat) (dn : nat -> nat -> nat -> nat -> Prop) (chs : list (list Z)) : Prop :=
    length chs = N /\ forall k ch, nth_error chs k = Some ch -> In k order -> need k = true -> chan_ok i k (dn k) ch.

  Lemma place_in V w v a x : (v < V)%nat -> (a < 8)%nat -> (x + 8 <= w)%nat -> ((8 * v + a) * w + x + 8 <= w * (8 * V))%nat.
  Proof. intros. assert ((8 * v + a) * w + w <= w * (8 * V))%nat by nia. lia. Qed.
  Lemma block_in j hs' h w : (j < W)%nat -> (h < hs')%nat -> (8 * (W * hs') <= w)%nat -> (8 * (j * hs' + h) + 8 <= w)%nat.
  Proof. intros. assert (j * hs' + h < W * hs')%nat by nia. lia. Qed.
  (** Squares do not overlap. *)
  Lemma rows_apart w r1 x1 r2 x2 : (x1 + 8 <= w)%nat -> (x2 + 8 <= w)%nat -> (r1 <> r2 \/ x1 + 8 <= x2 \/ x2 + 8 <= x1)%nat ->
    (r1 * w + x1 + 8 <= r2 * w + x2 \/ r2 * w + x2 + 8 <= r1 * w + x1)%nat.
  Proof. intros A B [C|C]; [|destruct (Nat.lt_trichotomy r1 r2) as [D|[D|D]]; nia]. destruct (Nat.lt_ge_cases r1 r2); nia. Qed.
  Lemma cols_apart hs' j h j' h' : (h < hs')%nat -> (h' < hs')%nat -> (j, h) <> (j', h') -> (8 * (j * hs' + h) + 8 <= 8 * (j' * hs' + h') \/ 8 * (j' * hs' + h') + 8 <= 8 * (j * hs' + h))%nat.
  Proof.
    intros A B C. destruct (Nat.eq_dec j j') as [->|D]; [assert (h <> h') by congruence; lia|].
    destruct (Nat.lt_ge_cases j j'); [left|right]; nia.
  Qed.

  Lemma one_block_ok i j k v h s b1 rest fin last dn : In k order -> (j < W)%nat -> (v < p_vs (parts k))%nat -> (h < p_hs (parts k))%nat ->
    comps_ok last (comps s) -> chans_ok i dn (chans s) -> scratch_ok (tmp s, more s) ->
    let n := (i * W + j)%nat in let c := blk n k v h in
    block_coded (p_dcn (parts k)) (p_dcv (parts k)) (p_acn (parts k)) (p_acv (parts k)) (fst c - last k) (snd c) b1 ->
    ready (str s) (b1 ++ rest) fin ->
    exists s', one_block debug avx false i j k v h s = Ok s' /\ ready (str s') rest fin /\ todo s' = todo s /\ interval s' = interval s /\
      comps_ok (fun x => if Nat.eqb x k then fst c else last x) (comps s') /\
      chans_ok i (fun k' j' v' h' => dn k' j' v' h' \/ (k', j', v', h') = (k, j, v, h)) (chans s') /\ scratch_ok (tmp s', more s').
  Proof.
    intros Ik Hj Hv Hh (Lc & Cs) (Lch & Chs) Sc n c B Rd. unfold one_block.
    destruct (nth_error (comps s) k) as [cp|] eqn:Ec; [|apply nth_error_None in Ec; specialize (order_ok k Ik); lia].
    destruct (Cs k cp Ec Ik) as ((TD & (a & TA) & Eq & Q & Eh & Ev & Es & En) & Pr).
    unfold get_at at 1. rewrite Ec. cbn [bind]. rewrite En.
    destruct (blk_ok n k v h Ik Hv Hh) as (Dr & Dc). fold c in Dr, Dc.
    assert (Rg : - 2 ^ 15 <= last k + (fst c - last k) < 2 ^ 15) by lia.
    destruct (block_ok debug _ _ _ _ _ _ a (qt cp) _ _ _ _ _ _ (last k) TD TA Q B Rg Rd) as (len & b & st' & E1 & E2 & Rd' & Dq & Hlen & Z0).
    destruct (need k) eqn:Nk.
    - specialize (Pr eq_refl). rewrite (clear_scratch (tmp s, more s) Sc : clear_block (more s) (tmp s) = _). rewrite Pr, E1. cbn [bind].
      destruct (nth_error (chans s) k) as [ch|] eqn:Ech; [|apply nth_error_None in Ech; specialize (order_ok k Ik); lia].
      unfold get_at. rewrite Ech. cbn [bind]. destruct (Chs k ch Ech Ik Nk) as (Lk & Sq).
      cbv zeta. cbn [Nat.add]. rewrite Es, Eh.
      replace (last k + (fst c - last k)) with (fst c) in * by lia.
      apply deq_ok in Dq. rewrite Eq in Dq. assert (EC : (fst c, snd c) = c) by now destruct c. rewrite EC in Dq. subst b.
      pose proof (strd_ok k Ik Nk) as Sw.
      pose proof (block_in j _ h _ Hj Hh Sw) as Bi.
      set (pos := (strd k * (v * 8) + (j * p_hs (parts k) + h) * 8)%nat).
      assert (Epos : forall t, (pos + t * strd k = (8 * v + t) * strd k + 8 * (j * p_hs (parts k) + h))%nat) by (intros; unfold pos; ring).
      assert (Fit : (pos + 7 * strd k + 8 <= length ch)%nat) by (rewrite Epos, Lk; apply place_in; [exact Hv|lia|exact Bi]).
      replace (length ch <? pos)%nat with false by lia.
      destruct (idct_at debug avx len (deq (p_qt (parts k)) c) ch pos (strd k)) as (out & t & EI & Sc' & Lo & So & Oo); [apply deq_length|exact Z0|exact Dc|lia|exact Fit|].
      rewrite EI. cbn [bind]. eexists. split; [reflexivity|]. cbn [str todo interval comps chans tmp more].
      split; [exact Rd'|]. split; [reflexivity|]. split; [reflexivity|]. split; [|split; [|exact Sc']].
      + split; [now rewrite upd_length|]. intros k' c' E' Ik'. apply upd_nth_err in E'. destruct E' as [(-> & ->)|(Nk' & E')].
        * split; [unfold comp_ok; cbn [with_pred dct act qt hs vs stride needed]; split; [exact TD|]; split; [now exists a|]; split; [exact Eq|]; split; [exact Q|]; split; [exact Eh|]; split; [exact Ev|]; split; [exact Es|congruence]|]. intros _. cbn [with_pred pred]. now rewrite Nat.eqb_refl.
        * destruct (Cs k' c' E' Ik') as (X & Y). split; [exact X|]. rewrite (proj2 (Nat.eqb_neq k' k) Nk'). exact Y.
      + split; [now rewrite upd_length|]. intros k' ch' E' Ik' Nk'. apply upd_nth_err in E'. destruct E' as [(-> & ->)|(Nkk & E')].
        * split; [rewrite Lo; exact Lk|]. intros j' v' h' Hj' Hv' Hh' Dn a' Ha'.
          destruct (Nat.eq_dec j j') as [Ej|Nj]; [destruct (Nat.eq_dec v v') as [Evv|Nv]; [destruct (Nat.eq_dec h h') as [Ehh|Nh]|]|].
          { subst j' v' h'. rewrite <- Epos. apply So. exact Ha'. }
          all: (assert (Dn' : dn k j' v' h') by (destruct Dn as [Dn|Dn]; [exact Dn|congruence]));
            rewrite <- (Sq j' v' h' Hj' Hv' Hh' Dn' a' Ha');
            pose proof (block_in j' _ h' _ Hj' Hh' Sw) as Bi';
            pose proof (place_in _ _ v' a' _ Hv' Ha' Bi') as Pl'; rewrite <- Lk in Pl';
            (apply (list_eq_nth 0); [rewrite !slice_length by (rewrite ?Lo; exact Pl'); reflexivity|]);
            intros x Hx; rewrite slice_length in Hx by (rewrite Lo; exact Pl'); rewrite !slice_nth by exact Hx; apply Oo;
            intros a2 Ha2; rewrite Epos.
          all: assert (Ap : ((8 * v + a2) <> (8 * v' + a') \/ 8 * (j * p_hs (parts k) + h) + 8 <= 8 * (j' * p_hs (parts k) + h') \/ 8 * (j' * p_hs (parts k) + h') + 8 <= 8 * (j * p_hs (parts k) + h))%nat)
            by first [left; lia | right; apply cols_apart; [exact Hh|exact Hh'|congruence]].
          all: pose proof (rows_apart (strd k) _ _ _ _ Bi Bi' Ap) as Fin; lia.
        * destruct (Chs k' ch' E' Ik' Nk') as (X & Y). split; [exact X|]. intros j' v' h' Hj' Hv' Hh' [Dn|Dn]; [now apply Y|congruence].
    - rewrite E2. cbn [bind]. eexists. split; [reflexivity|]. cbn [str todo interval comps chans tmp more].
      split; [exact Rd'|]. split; [reflexivity|]. split; [reflexivity|]. split; [|split; [|exact Sc]].
      + split; [exact Lc|]. intros k' c' E' Ik'. destruct (Cs k' c' E' Ik') as (X & Y). split; [exact X|]. destruct (Nat.eqb_spec k' k) as [->|_]; [congruence|exact Y].
      + split; [exact Lch|]. intros k' ch' E' Ik' Nk'. destruct (Chs k' ch' E' Ik' Nk') as (X & Y). split; [exact X|].
        intros j' v' h' Hj' Hv' Hh' [Dn|Dn]; [now apply Y|congruence].
  Qed.

  (** * The blocks of an MCU *)
  Definition places : list (nat * nat * nat) :=
    flat_map (fun k => flat_map (fun v => map (fun h => (k, v, h)) (seq 0 (p_hs (parts k)))) (seq 0 (p_vs (parts k)))) order.
  Lemma places_in k v h : In (k, v, h) places <-> In k order /\ (v < p_vs (parts k))%nat /\ (h < p_hs (parts k))%nat.
  Proof.
    unfold places. rewrite in_flat_map. split.
    - intros (k' & Ik & I). apply in_flat_map in I. destruct I as (v' & Iv & I). apply in_map_iff in I. destruct I as (h' & E & Ih).
      apply in_seq in Iv, Ih. injection E as -> -> ->. split; [exact Ik|lia].
    - intros (Ik & Hv & Hh). exists k. split; [exact Ik|]. apply in_flat_map. exists v. split; [apply in_seq; lia|]. apply in_map_iff. exists h. split; [reflexivity|apply in_seq; lia].
  Qed.
  Lemma places_some : places <> [].
  Proof.
    destruct order as [|k o] eqn:E; [congruence|]. assert (Ik : In k order) by (rewrite E; now left). rewrite <- E in *.
    destruct (parts_ok k Ik) as (A & B & _). assert (I : In (k, 0%nat, 0%nat) places) by now apply places_in. intros C. rewrite C in I. destruct I.
  Qed.
  Lemma flat_map_ext_in' {A B} (f g : A -> list B) l : (forall x, In x l -> f x = g x) -> flat_map f l = flat_map g l.
  Proof. induction l as [|x l IH]; intros E; [reflexivity|]. cbn [flat_map]. rewrite E by now left. rewrite IH; [reflexivity|]. intros; apply E; now right. Qed.
  Lemma slots_places last cs : comps_ok last cs -> slots sampled order cs = places.
  Proof.
    intros (L & C). apply flat_map_ext_in'. intros k Ik. destruct (nth_error cs k) as [c|] eqn:E.
    - destruct (C k c E Ik) as ((_ & _ & _ & _ & Eh & Ev & _) & _). destruct (parts_ok k Ik) as (_ & _ & P). destruct sampled; [now rewrite Eh, Ev|].
      destruct (P eq_refl) as (P1 & P2). now rewrite P1, P2.
    - apply nth_error_None in E. specialize (order_ok k Ik). lia.
  Qed.
  Lemma blocks_places n : mcu_blocks parts order blk n = map (fun p => let '(k, v, h) := p in (k, blk n k v h)) places.
  Proof.
    unfold mcu_blocks, places. clear order_ok order_some parts_ok strd_ok blk_ok. induction order as [|k o IH]; [reflexivity|]. cbn [flat_map]. rewrite map_app. f_equal.
    - induction (seq 0 (p_vs (parts k))) as [|v l IHl]; [reflexivity|]. cbn [flat_map]. rewrite map_app. f_equal; [now rewrite map_map|exact IHl].
    - exact IH.
  Qed.
  Lemma coded_ext last last' : forall bl bs, (forall k, last k = last' k) -> coded parts last bl bs -> coded parts last' bl bs.
  Proof.
    intros bl. revert last last'. induction bl as [|[k [dc cs]] bl IH]; intros last last' bs E C; [exact C|]. cbn [coded] in *.
    destruct C as (b1 & b2 & -> & B & C). exists b1, b2. split; [reflexivity|]. rewrite <- E. split; [exact B|]. eapply IH; [|exact C]. intros i. cbv beta. now rewrite E.
  Qed.
  Lemma run_slots_ok i j (Hj : (j < W)%nat) : forall l last s dn bs pad bl fin, incl l places ->
    comps_ok last (comps s) -> chans_ok i dn (chans s) -> scratch_ok (tmp s, more s) ->
    coded parts last (map (fun p => let '(k, v, h) := p in (k, blk (i * W + j) k v h)) l ++ bl) bs -> ready (str s) (bs ++ pad) fin ->
    exists s' last' bs', run_slots debug avx false i j l s = Ok (s', None) /\ ready (str s') (bs' ++ pad) fin /\ coded parts last' bl bs' /\
      comps_ok last' (comps s') /\ chans_ok i (fun k' j' v' h' => dn k' j' v' h' \/ j' = j /\ In (k', v', h') l) (chans s') /\
      scratch_ok (tmp s', more s') /\ todo s' = todo s /\ interval s' = interval s.
  Proof.
    induction l as [|[[k v] h] l IH]; intros last s dn bs pad bl fin I C Ch Sc Co Rd; cbn [run_slots].
    - exists s, last, bs. split; [reflexivity|]. split; [exact Rd|]. split; [exact Co|]. split; [exact C|]. split; [|now split].
      destruct Ch as (L & Ch). split; [exact L|]. intros k ch E Ik Nk. destruct (Ch k ch E Ik Nk) as (X & Y). split; [exact X|].
      intros j' v' h' A1 A2 A3 [A|(_ & [])]. now apply Y.
    - cbn [map app coded] in Co. destruct (blk (i * W + j) k v h) as [dc cs] eqn:Eb. destruct Co as (b1 & b2 & -> & B & Co).
      assert (P : In (k, v, h) places) by (apply I; now left). apply places_in in P. destruct P as (Ik & Hv & Hh).
      rewrite <- app_assoc in Rd.
      destruct (one_block_ok i j k v h s b1 (b2 ++ pad) fin last dn Ik Hj Hv Hh C Ch Sc) as (s1 & E1 & R1 & T1 & I1 & C1 & Ch1 & S1); [rewrite Eb; exact B|exact Rd|].
      rewrite Eb in C1. cbn [fst] in C1. rewrite E1.
      destruct (IH _ s1 _ b2 pad bl fin (fun x Hx => I x (or_intror Hx)) C1 Ch1 S1 Co R1) as (s' & last' & bs' & E' & R' & Co' & C' & (L' & Ch') & S' & T' & I').
      exists s', last', bs'. split; [exact E'|]. split; [exact R'|]. split; [exact Co'|]. split; [exact C'|]. split; [|split; [exact S'|split; congruence]].
      split; [exact L'|]. intros k' ch E Ik' Nk'. destruct (Ch' k' ch E Ik' Nk') as (X & Y). split; [exact X|].
      intros j' v' h' A1 A2 A3 A. apply Y; try assumption. destruct A as [A|(-> & [A|A])]; [left; now left|left; right; congruence|right; now split].
  Qed.

  (** * The state before MCU [n] *)
  Definition Inv (n : nat) (s : scan) : Prop :=
    exists c last bs pad m rest,
      0 <= todo s < 2 ^ 64 /\ interval s = Z.of_nat R /\ scratch_ok (tmp s, more s) /\ comps_ok last (comps s) /\
      coded parts last (flat_map (mcu_blocks parts order blk) (seq n c)) bs /\ (length pad < 8)%nat /\ ready (str s) (bs ++ pad) (Some (m, rest)) /\
      (m = 217 /\ (n + c = total)%nat /\ Z.of_nat c <= 1 + (todo s - 1) mod 2 ^ 64 \/
       is_rst m = true /\ (0 < c)%nat /\ (0 < R)%nat /\ todo s = Z.of_nat c /\ exists i c', (0 < c')%nat /\ (n + c + c' = total)%nat /\ scan_bytes parts order blk R i (n + c) c' rest).
  Hypothesis R_small : Z.of_nat R < 2 ^ 16.
  Lemma rst_marker i : In (208 + Z.of_nat i mod 8) markers /\ is_rst (208 + Z.of_nat i mod 8) = true.
  Proof.
    pose proof (Z.mod_pos_bound (Z.of_nat i) 8 ltac:(lia)) as B. set (x := Z.of_nat i mod 8) in *. clearbody x.
    assert (A : forallb (fun x => existsb (Z.eqb (208 + x)) markers && is_rst (208 + x)) (zrange 8) = true) by (vm_compute; reflexivity).
    pose proof (sweep _ 8 A x ltac:(lia)) as S. cbv beta in S. apply andb_prop in S. destruct S as (S1 & S2). split; [|exact S2].
    apply existsb_exists in S1. destruct S1 as (y & Iy & E). apply Z.eqb_eq in E. now rewrite E.
  Qed.
  Lemma fresh_inv i n c file s : scan_bytes parts order blk R i n c file -> bytes file -> (0 < c)%nat -> (n + c = total)%nat ->
    str s = Bits 0 0 0 None 0 false file -> 0 <= todo s < 2 ^ 64 -> (0 < R -> todo s = Z.of_nat R)%nat -> (R = 0%nat -> Z.of_nat c <= 1 + (todo s - 1) mod 2 ^ 64) ->
    interval s = Z.of_nat R -> scratch_ok (tmp s, more s) -> comps_ok (fun _ => 0) (comps s) -> Inv n s.
  Proof.
    intros Sb B Hc Ht Es Ht0 HtR Ht00 Ei Sc C. destruct Sb as [i n c data fill rest Hd (bs & pad & Bd & Eb & Lp & Co)|i n c data fill file HR Hc' (bs & pad & Bd & Eb & Lp & Co) Sb].
    - exists c, (fun _ => 0), bs, pad, 217, rest. repeat (split; [first [assumption|exact Co]|]).
      split; [rewrite Es, <- Eb; apply (ready_start _ data (repeat 255 (S fill) ++ 217 :: rest)); [reflexivity|exists fill; split; [reflexivity|]|exact B|lia|lia]|].
      { cbn. tauto. }
      left. split; [reflexivity|]. split; [exact Ht|]. destruct Hd as [Hd|Hd]; [now apply Ht00|].
      destruct (Nat.eq_dec R 0) as [R0|R0]; [now apply Ht00|]. rewrite HtR by lia. rewrite Z.mod_small by lia. lia.
    - destruct (rst_marker i) as (M1 & M2).
      exists R, (fun _ => 0), bs, pad, (208 + Z.of_nat i mod 8), file. repeat (split; [first [assumption|exact Co]|]).
      split; [rewrite Es, <- Eb; apply (ready_start _ data (repeat 255 (S fill) ++ (208 + Z.of_nat i mod 8) :: file)); [reflexivity|exists fill; split; [reflexivity|exact M1]|exact B|lia|lia]|].
      right. split; [exact M2|]. split; [exact HR|]. split; [exact HR|]. split; [now apply HtR|]. exists (i + 1)%nat, c. split; [exact Hc'|]. split; [lia|exact Sb].
  Qed.

  Lemma chans_weaken i (dn dn' : nat -> nat -> nat -> nat -> Prop) chs : (forall k j v h, (j < W)%nat -> dn' k j v h -> dn k j v h) -> chans_ok i dn chs -> chans_ok i dn' chs.
  Proof.
    intros E (L & C). split; [exact L|]. intros k ch Ek Ik Nk. destruct (C k ch Ek Ik Nk) as (X & Y). split; [exact X|].
    intros j v h A1 A2 A3 A. apply Y; auto.
  Qed.
  Lemma coded_some last bl bs : bl <> [] -> (forall k c, In (k, c) bl -> exists cp, comp_ok k cp) -> coded parts last bl bs -> bs <> [].
  Proof.
    intros Hb Hk C. destruct bl as [|[k [dc cs]] bl]; [congruence|]. destruct C as (b1 & b2 & -> & (c1 & c2 & D & _ & ->) & _).
    destruct (Hk k (dc, cs) (or_introl eq_refl)) as (cp & ((TO & _ & _) & _)). destruct D as (sz & code & _ & _ & Co & ->). destruct Co as (p & s0 & c & Ec & Ev & ->).
    destruct (codes_nth _ _ TO _ _ _ Ec) as (Hp & Es & _). pose proof (size_range _ _ TO p Hp). intros E.
    apply (f_equal (@length bool)) in E. rewrite !app_length, msb_length in E. cbn [length] in E. lia.
  Qed.
  Lemma comps_reset last cs : comps_ok last cs -> comps_ok (fun _ => 0) (map (fun c => with_pred c 0) cs).
  Proof.
    intros (L & C). split; [now rewrite map_length|]. intros k c E Ik. rewrite nth_error_map in E. destruct (nth_error cs k) as [c0|] eqn:E0; [|discriminate E].
    injection E as <-. destruct (C k c0 E0 Ik) as (X & _). split; [|reflexivity]. exact X.
  Qed.
  (** * One MCU *)
  Lemma mcu_step i j js s dn : (j < W)%nat -> (i * W + j < total)%nat -> Inv (i * W + j) s -> chans_ok i dn (chans s) ->
    exists s', run_mcus debug avx false strict sampled order i (j :: js) s = (if (S (i * W + j) =? total)%nat then run_mcus debug avx false strict sampled order i (j :: js) s else run_mcus debug avx false strict sampled order i js s') /\
      ((S (i * W + j) = total)%nat -> js = [] -> run_mcus debug avx false strict sampled order i (j :: js) s = Ok (s', false)) /\
      Inv (S (i * W + j)) s' /\ chans_ok i (fun k' j' v' h' => dn k' j' v' h' \/ j' = j) (chans s').
  Proof.
    intros Hj Hn (c & last & bs & pad & m & rest & T0 & Ei & Sc & C & Co & Lp & Rd & Hm) Ch.
    set (n := (i * W + j)%nat) in *. destruct c as [|c]; [exfalso; destruct Hm as [(_ & E & _)|(_ & E & _)]; lia|].
    cbn [seq flat_map] in Co. rewrite blocks_places in Co.
    destruct (run_slots_ok i j Hj places last s dn bs pad _ _ (fun x Hx => Hx) C Ch Sc Co Rd) as (s1 & last1 & bs1 & E1 & R1 & Co1 & C1 & Ch1 & S1 & T1 & I1).
    assert (Ch2 : chans_ok i (fun k' j' v' h' => dn k' j' v' h' \/ j' = j) (chans s1)).
    { destruct Ch1 as (L & Ch1). split; [exact L|]. intros k ch Ek Ik Nk. destruct (Ch1 k ch Ek Ik Nk) as (X & Y). split; [exact X|].
      intros j' v' h' A1 A2 A3 A. apply Y; try assumption. destruct A as [A| ->]; [now left|right]. split; [reflexivity|]. now apply places_in. }
    cbn [run_mcus]. rewrite (slots_places last (comps s) C), E1. cbn [bind]. cbv zeta. cbn [todo with_todo str]. rewrite T1.
    set (t := (todo s - 1) mod 2 ^ 64) in *.
    assert (Ht : 0 <= t < 2 ^ 64) by (apply Z.mod_pos_bound; lia).
    destruct (Z.eqb_spec t 0) as [Et|Et].
    - (* the end of an interval, or of the scan *)
      assert (c = 0%nat) as ->.
      { destruct Hm as [(_ & _ & Hc)|(_ & _ & _ & Hc & _)]; [lia|]. unfold t in Et. rewrite Hc in Et. rewrite Z.mod_small in Et by lia. lia. }
      cbn [seq flat_map coded] in Co1. subst bs1. cbn [app] in R1.
      destruct R1 as (u & Hu & Su). destruct (refill_end _ _ _ _ _ Hu Su Lp) as (b & Rb & Erd & Eov & Eeo & Ee & Em).
      destruct (refill_ok _ _ _ _ Hu Su) as (b' & u' & Rb' & Hb & Sb & _). assert (b' = b) as -> by congruence.
      unfold rst_main. cbn [str with_todo]. rewrite Rb. cbn [bind]. cbn [interval with_todo].
      assert (Nm : negb (interval s1 =? 0) && match marker b with Some _ => false | None => true end && negb (eoi b) = false).
      { destruct Em as [Em|(Em1 & Em2)]; [rewrite Em; now rewrite andb_false_r|]. rewrite Eeo, Em1. apply andb_false_r. }
      rewrite Nm. cbv zeta. unfold handle_rst. cbn [str with_str interval with_todo comps chans tmp more].
      destruct Hm as [(-> & Hend & _)|(Hr & _ & HR & Htodo & i' & c' & Hc' & Hend & Sb')].
      + (* the last *)
        assert (H1 : (if is_rst 217 then true else false) = false) by reflexivity.
        set (s2 := Scan b (comps s1) (chans s1) (interval s1) (interval s1) (tmp s1) (more s1)).
        assert (Eh : match marker b with
          | Some m => if is_rst m then Ok (Scan (reset b) (map (fun c => with_pred c 0) (comps s1)) (chans s1) (interval s1) (interval s1) (tmp s1) (more s1))
                      else if m =? 217 then Ok s2 else Err EOther
          | None => Ok s2 end = Ok s2) by (destruct Em as [->|(_ & ->)]; reflexivity).
        exists s2. replace (S n =? total)%nat with true by (symmetry; apply Nat.eqb_eq; lia). split; [reflexivity|]. split; [intros _ ->; unfold s2 in *; rewrite Eh; reflexivity|].
        split; [|exact Ch2]. exists 0%nat, last1, [], pad, 217, rest. unfold s2. cbn [todo interval tmp more comps str seq flat_map coded app].
        rewrite I1, Ei. split; [lia|]. split; [reflexivity|]. split; [exact S1|]. split; [exact C1|]. split; [reflexivity|]. split; [exact Lp|].
        split; [exists u'; split; [exact Hb|exact Sb]|]. left. split; [reflexivity|]. split; [lia|]. pose proof (Z.mod_pos_bound (Z.of_nat R - 1) (2 ^ 64) ltac:(lia)). lia.
      + (* a restart *)
        assert (M217 : m <> 217) by (intros ->; discriminate Hr).
        assert (Mb : marker b = Some m) by (destruct Em as [E|(E & _)]; [exact E|exfalso; apply M217, Ee, E]).
        assert (Eob : eoi b = false) by (rewrite Eeo; destruct (eoi (str s1)); [exfalso; now apply M217, Ee|reflexivity]).
        rewrite Mb, Hr. eexists. replace (S n =? total)%nat with false by (symmetry; apply Nat.eqb_neq; lia).
        split; [cbn [bind]; reflexivity|]. split; [intros E; exfalso; clear -E Hc' Hend; lia|]. split; [|exact Ch2].
        destruct Sb as (_ & _ & Bb & _).
        apply (fresh_inv i' (S n) c' rest); cbn [str todo interval tmp more comps reset]; try assumption.
        * replace (S n) with (n + 1)%nat by lia. exact Sb'.
        * now rewrite <- Erd.
        * lia.
        * unfold reset. now rewrite Eov, Eob, Erd.
        * rewrite I1, Ei. lia.
        * intros _. congruence.
        * intros R0. lia.
        * congruence.
        * now apply (comps_reset last1).
    - assert (Hc : (0 < c)%nat \/ m = 217 /\ (S n = total)%nat).
      { destruct c as [|c]; [right|left; lia]. destruct Hm as [(E & Ht' & _)|(_ & _ & _ & E & _)]; [split; [exact E|lia]|].
        exfalso. apply Et. unfold t. rewrite E. reflexivity. }
      assert (Nx : Inv (S n) (with_todo s1 t)).
      { exists c, last1, bs1, pad, m, rest. cbn [with_todo todo interval tmp more comps str]. split; [exact Ht|]. split; [congruence|]. split; [exact S1|]. split; [exact C1|].
        split; [exact Co1|]. split; [exact Lp|]. split; [exact R1|].
        destruct Hm as [(E1' & E2 & E3)|(Hr & _ & HR & Htodo & i' & c' & Hc' & Hend & Sb')].
        - left. split; [exact E1'|]. split; [lia|].  rewrite (Z.mod_small (t - 1)) by lia. lia.
        - right. split; [exact Hr|]. destruct Hc as [Hc|(Hc & _)]; [|subst m; discriminate Hr]. split; [exact Hc|]. split; [exact HR|].
          split; [unfold t; rewrite Htodo, Z.mod_small by lia; lia|]. exists i', c'. split; [exact Hc'|]. split; [lia|]. replace (S n + c)%nat with (n + S c)%nat by lia. exact Sb'. }
      exists (with_todo s1 t). split; [|split; [|split; [exact Nx|exact Ch2]]].
      + destruct (Nat.eqb_spec (S n) total) as [Heq|Hne]; [reflexivity|].
        assert (Nb : match marker (str s1) with Some _ => true | None => false end && (left (str s1) =? 0) = false).
        { destruct (marker (str s1)) as [m'|] eqn:Mk; [|reflexivity]. destruct (Z.eqb_spec (left (str s1)) 0) as [L0|L0]; [exfalso|reflexivity].
          destruct R1 as (u & Hu & (_ & _ & _ & Su)). rewrite Mk in Su. destruct Su as (m0 & k & _ & _ & Eu & _). pose proof (h_left _ _ Hu) as Lu. rewrite L0 in Lu.
          destruct u; [|cbn [length] in Lu; lia]. symmetry in Eu. apply app_eq_nil in Eu. destruct Eu as (Eu & _). apply app_eq_nil in Eu. destruct Eu as (Eu & _).
          destruct Hc as [Hc|(_ & Hc)]; [|congruence].
          apply (coded_some last1 (flat_map (mcu_blocks parts order blk) (seq (S n) c)) bs1); [| |exact Co1|exact Eu].
          - destruct c as [|c]; [lia|]. cbn [seq flat_map]. rewrite blocks_places. intros E. apply app_eq_nil in E. destruct E as (E & _). apply map_eq_nil in E. now apply places_some.
          - intros k0 c0 I0. apply in_flat_map in I0. destruct I0 as (x & _ & I0). rewrite blocks_places in I0. apply in_map_iff in I0. destruct I0 as ([[k1 v1] h1] & E & I0).
            injection E as -> _. apply places_in in I0. destruct I0 as (I0 & _). destruct C1 as (Lc & C1).
            destruct (nth_error (comps s1) k0) as [cp|] eqn:Ec; [|apply nth_error_None in Ec; specialize (order_ok k0 I0); lia]. exists cp. now apply C1. }
        rewrite Nb. reflexivity.
      + intros _ ->. destruct (_ && _); reflexivity.
  Qed.

  (** * A row of MCUs *)
  Lemma run_mcus_ok i : (i < H)%nat -> forall c j s dn, (j + c = W)%nat -> Inv (i * W + j) s -> chans_ok i dn (chans s) ->
    exists s', run_mcus debug avx false strict sampled order i (seq j c) s = Ok (s', false) /\ Inv (S i * W) s' /\
      chans_ok i (fun k' j' v' h' => dn k' j' v' h' \/ (j <= j')%nat) (chans s').
  Proof.
    intros Hi. induction c as [|c IH]; intros j s dn Hj Iv Ch; cbn [seq].
    - exists s. split; [reflexivity|]. split; [replace (S i * W)%nat with (i * W + j)%nat by lia; exact Iv|].
      eapply chans_weaken; [|exact Ch]. intros k j' v h A [B|B]; [exact B|lia].
    - assert (Hm : (S i * W <= total)%nat) by (unfold total; rewrite (Nat.mul_comm W H); apply Nat.mul_le_mono_r; lia).
      assert (Ht : (i * W + j < total)%nat) by (clear -Hm Hj; lia).
      destruct (mcu_step i j (seq (S j) c) s dn ltac:(lia) Ht Iv Ch) as (s1 & E1 & E2 & Iv1 & Ch1).
      destruct (Nat.eqb_spec (S (i * W + j)) total) as [Hend|Hend].
      + assert (c = 0%nat) as -> by (clear -Hend Hm Hj; lia).
        exists s1. split; [now apply E2|]. split; [replace (S i * W)%nat with (S (i * W + j)) by lia; exact Iv1|].
        eapply chans_weaken; [|exact Ch1]. intros k j' v h A [B|B]; [now left|right; lia].
      + replace (S (i * W + j)) with (i * W + S j)%nat in Iv1 by lia.
        destruct (IH (S j) s1 _ ltac:(lia) Iv1 Ch1) as (s' & E' & Iv' & Ch'). exists s'. split; [now rewrite E1|]. split; [exact Iv'|].
        eapply chans_weaken; [|exact Ch']. intros k j' v h A [B|B]; [left; now left|]. destruct (Nat.eq_dec j' j); [left; now right|right; lia].
  Qed.
  Lemma after_row_ok n s : Inv n s -> exists s', after_row strict s = Ok (s', CGo) /\ Inv n s' /\ chans s' = chans s.
  Proof.
    intros (c & last & bs & pad & m & rest & T0 & Ei & Sc & C & Co & Lp & Rd & Hm). unfold after_row. cbv zeta.
    assert (Same : Inv n s) by (exists c, last, bs, pad, m, rest; repeat (split; [assumption|]); exact Hm).
    destruct (marker (str s)) as [m'|] eqn:Mk; [|exists s; split; [reflexivity|]; split; [exact Same|reflexivity]].
    pose proof Rd as (u & Hu & (O0 & Or & B & Su)). rewrite Mk in Su. destruct Su as (m0 & k & Ef & Im & Eu & Em & Ee). destruct Em as [Em|Em]; [discriminate Em|].
    injection Em as ->. injection Ef as <- Er. destruct (Z.eqb_spec m 217) as [->|M217].
    - eexists. split; [reflexivity|]. split; [|reflexivity]. exists c, last, bs, pad, 217, rest. cbn [with_str todo interval tmp more comps str].
      split; [exact T0|]. split; [exact Ei|]. split; [exact Sc|]. split; [exact C|]. split; [exact Co|]. split; [exact Lp|]. split; [|exact Hm].
      exists u. split; [destruct Hu; constructor; cbn [left aligned buffer]; assumption|].
      unfold source. cbn [over rd marker eoi]. split; [exact O0|]. split; [exact Or|]. split; [exact B|]. exists 217, k.
      split; [now rewrite Er|]. split; [exact Im|]. split; [exact Eu|]. split; [now left|reflexivity].
    - destruct Hm as [(E & _)|(Hr & Hc & _ & Ht & _)]; [congruence|]. rewrite Hr. replace (todo s =? 0) with false by lia.
      exists s. split; [reflexivity|]. split; [exact Same|reflexivity].
  Qed.
  Lemma decode_row_ok i s dn : (i < H)%nat -> Inv (i * W) s -> chans_ok i dn (chans s) ->
    exists s', decode_row debug avx false strict sampled order W i s = Ok (s', CGo) /\ Inv (S i * W) s' /\ chans_ok i (fun _ _ _ _ => True) (chans s').
  Proof.
    intros Hi Iv Ch. unfold decode_row. cbv zeta. set (s0 := Scan _ _ _ _ _ _ _).
    assert (I0 : Inv (i * W + 0) s0).
    { rewrite Nat.add_0_r. destruct Iv as (c & last & bs & pad & m & rest & T0 & Ei & (S1 & _) & X). exists c, last, bs, pad, m, rest.
      cbn [s0 todo interval tmp more comps str]. split; [exact T0|]. split; [exact Ei|]. split; [split; [exact S1|discriminate]|]. exact X. }
    destruct (run_mcus_ok i Hi W 0%nat s0 dn ltac:(lia) I0 Ch) as (s1 & E1 & I1 & C1). rewrite E1. cbn [bind].
    destruct (after_row_ok _ s1 I1) as (s2 & E2 & I2 & C2). exists s2. split; [exact E2|]. split; [exact I2|]. rewrite C2.
    eapply chans_weaken; [|exact C1]. intros; right; lia.
  Qed.
  Lemma chans_next i i' dn chs : chans_ok i dn chs -> chans_ok i' (fun _ _ _ _ => False) chs.
  Proof.
    intros (L & C). split; [exact L|]. intros k ch Ek Ik Nk. destruct (C k ch Ek Ik Nk) as (X & _). split; [exact X|]. intros j v h _ _ _ [].
  Qed.
  (** * All rows *)
  Lemma run_rows_ok : forall c i s, (i + c = H)%nat -> Inv (i * W) s -> chans_ok i (fun _ _ _ _ => False) (chans s) ->
    exists out s', run_rows debug avx false strict sampled order W (seq i c) s = Ok (AllRows, out, s') /\ length out = c /\
      forall r chs, nth_error out r = Some chs -> chans_ok (i + r) (fun _ _ _ _ => True) chs.
  Proof.
    induction c as [|c IH]; intros i s Hi Iv Ch; cbn [seq run_rows].
    - exists [], s. split; [reflexivity|]. split; [reflexivity|]. intros [|r] chs E; discriminate E.
    - assert (Ov : 0 <? over (str s) = false).
      { destruct Iv as (c' & last & bs & pad & m & rest & _ & _ & _ & _ & _ & _ & (u & _ & (O0 & Or & _)) & _).
        destruct (Z.ltb_spec 0 (over (str s))) as [X|X]; [|reflexivity]. destruct (Or X) as (_ & Y). discriminate Y. }
      rewrite Ov. destruct (decode_row_ok i s _ ltac:(lia) Iv Ch) as (s1 & E1 & I1 & C1). rewrite E1. cbn [bind].
      destruct (IH (S i) s1 ltac:(lia) I1 (chans_next _ _ _ _ C1)) as (out & s' & E' & L' & O'). rewrite E'. cbn [bind].
      exists (chans s1 :: out), s'. split; [reflexivity|]. split; [cbn [length]; now rewrite L'|]. intros [|r] chs E; cbn [nth_error] in E.
      + injection E as <-. now rewrite Nat.add_0_r.
      + replace (i + S r)%nat with (S i + r)%nat by lia. now apply O'.
  Qed.
  Theorem scan_ok file cs chs dri : scan_bytes parts order blk R 0 0 total file -> bytes file -> (0 < H)%nat ->
    comps_ok (fun _ => 0) cs -> chans_ok 0 (fun _ _ _ _ => False) chs ->
    match dri with None => R = 0%nat | Some d => d = Z.of_nat R end -> Z.of_nat total < 2 ^ 31 ->
    exists out s', run_scan debug avx false strict sampled order W H (start_scan file cs chs dri) = Ok (AllRows, out, s') /\ length out = H /\
      forall r chs, nth_error out r = Some chs -> chans_ok r (fun _ _ _ _ => True) chs.
  Proof.
    intros Sb B H0 C Ch Ed Ht. unfold run_scan. apply (run_rows_ok H 0%nat (start_scan file cs chs dri)); [reflexivity| |exact Ch].
    assert (Htot : (0 < total)%nat) by (unfold total; apply Nat.mul_pos_pos; lia).
    apply (fresh_inv 0 0 total file); try assumption; try reflexivity; cbn [start_scan todo interval tmp more comps str].
    - destruct dri as [d|]; lia.
    - intros HR. destruct dri as [d|]; lia.
    - intros HR. destruct dri as [d|]; [subst d; rewrite HR; change ((Z.of_nat 0 - 1) mod 2 ^ 64) with (2 ^ 64 - 1); lia|].
      change ((2147483647 - 1) mod 2 ^ 64) with (2 ^ 31 - 2). lia.
    - destruct dri as [d|]; lia.
    - split; [reflexivity|discriminate].
  Qed.
End Scan.
