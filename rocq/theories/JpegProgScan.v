(** Scans of progressive JPEG files *)
From Verif Require Import Base BaseProof Loops Slices Bits JpegSimd JpegHuffModel JpegIdctSpec JpegHuffSpec JpegHuffTable JpegHuffBits JpegHuffBlock JpegHuffRun JpegScanModel JpegProgModel JpegProgSpec JpegProgBits JpegProgBlock.

(** * DC coefficients *)
Lemma i32_id x : - 2 ^ 31 <= x < 2 ^ 31 -> i32 x = x.
Proof. intros H. unfold i32. change (2 ^ 31) with 2147483648 in *. change (2 ^ 32) with 4294967296. rewrite Z.mod_small; lia. Qed.
Lemma dc_first_ok counts values t al last c b1 st rest fin : dc_table counts values t -> (al <= 13)%nat -> small c -> dc_coded counts values (c / 2 ^ Z.of_nat al - last) b1 ->
  rready st (b1 ++ rest) fin ->
  exists st', dc_first t (Z.shiftl 1 (Z.of_nat al)) last st = Ok (c / 2 ^ Z.of_nat al, known_dc al c, st') /\ rready st' rest fin /\
    (fin <> None -> (length b1 + length rest <= 31)%nat -> marker st' <> None).
Proof.
  intros T Al S D (R & Eo). destruct (decode_dc_ok _ _ _ _ _ _ _ _ last T D R) as (st' & E & _ & R').
  replace (last + (c / 2 ^ Z.of_nat al - last)) with (c / 2 ^ Z.of_nat al) in E by lia. unfold small in S.
  destruct (known_dc_range al c ltac:(lia) Al) as (K1 & K2). rewrite i32_id in E by (clear -K2; lia).
  destruct (decode_dc_keeps _ _ _ _ _ E (ready_left _ _ _ R)) as (s1 & F1 & F2 & F3).
  exists st'. split; [|split; [split; [exact R'|congruence]|]].
  - unfold dc_first. rewrite E. cbn [bind]. rewrite Z.shiftl_1_l, (i16_id (c / _)) by exact K2. unfold known_dc in *. rewrite i16_id by exact K1. reflexivity.
  - intros Hf L. rewrite F3. destruct (refill_more _ _ _ (conj R Eo)) as (s1' & G1 & (R1 & Eo1) & _ & [G4|G4]); assert (s1' = s1) as -> by congruence; [|exact G4].
    destruct R1 as (u & H & (_ & _ & _ & Src)). destruct (marker s1); [discriminate|]. exfalso. rewrite Eo1 in Src. destruct Src as (data & tail & k & _ & _ & Eu & K).
    rewrite (K Hf) in Eu. cbn [repeat] in Eu. rewrite app_nil_r in Eu. apply (f_equal (@length bool)) in Eu. rewrite !app_length in Eu. pose proof (h_left _ _ H). lia.
Qed.
Lemma dc_refine_ok al c st rest fin : (al <= 13)%nat -> small c -> rready st (Z.testbit c (Z.of_nat al) :: rest) fin ->
  exists st', dc_refine (Z.shiftl 1 (Z.of_nat al)) (known_dc (al + 1) c) st = Ok (known_dc al c, st') /\ rready st' rest fin.
Proof.
  intros Al S R. destruct (need_bit _ _ _ _ R) as (st1 & st2 & F1 & F2 & F3 & F4). exists st2. split; [|exact F4]. unfold dc_refine.
  replace (if left st <? 1 then do s <- refill st; if left s <? 1 then Err EOther else Ok s else Ok st) with (Ok st1).
  2: { symmetry. destruct (left st <? 1); [|exact F1]. rewrite F1. cbn [bind]. replace (left st1 <? 1) with false by (symmetry; apply Z.ltb_ge; exact F2). reflexivity. }
  cbn [bind]. rewrite F3. f_equal. f_equal. pose proof (known_dc_fine al c) as K. rewrite Z.shiftl_1_l. unfold small in S. destruct (known_dc_range al c ltac:(lia) Al) as (K1 & _).
  destruct (Z.testbit c _); [rewrite K; now apply i16_id|lia].
Qed.

(** * Coefficients in the buffers *)
Definition here (k b k' b' : nat) : bool := (k =? k')%nat && (b =? b')%nat.
(** what is known after one more block *)
Definition learn (s : pscan) (p : knowledge) (x : nat * nat) : knowledge :=
  fun k b i => if here (fst x) (snd x) k b && ((s_ss s <=? i)%nat && (i <=? s_se s)%nat) then Some (s_al s) else p k b i.
Section Bufs.
  Variables (coef : nat -> nat -> list Z) (n : nat) (blocks : nat -> nat).
  Definition shown (p : knowledge) (k b : nat) : list Z := map (fun i => known i (p k b i) (nth i (coef k b) 0)) (seq 0 64).
  Definition bufs_ok (p : knowledge) (bufs : list (list Z)) : Prop :=
    length bufs = n /\ forall k buf, nth_error bufs k = Some buf -> length buf = (64 * blocks k)%nat /\ forall b, (b < blocks k)%nat -> view (slice buf (64 * b) 64) = shown p k b.
  Lemma bufs_ext p p' bufs : (forall k b i, (k < n)%nat -> (b < blocks k)%nat -> (i < 64)%nat -> p k b i = p' k b i) -> bufs_ok p bufs -> bufs_ok p' bufs.
  Proof.
    intros E (L & B). split; [exact L|]. intros k buf Ek. destruct (B k buf Ek) as (B1 & B2). split; [exact B1|]. intros b Hb. rewrite B2 by exact Hb. apply map_ext_in. intros i Hi. apply in_seq in Hi.
    f_equal. apply E; [|exact Hb|lia]. rewrite <- L. apply nth_error_Some. congruence.
  Qed.
  Lemma slice_mid {A} (a b c : list A) i m : length a = i -> length b = m -> slice (a ++ b ++ c) i m = b.
  Proof. intros <- <-. apply slice_app_exact. Qed.
  Lemma slice_put {A} (buf block : list A) pos pos' : (pos + 64 <= length buf)%nat -> length block = 64%nat -> (pos' + 64 <= length buf)%nat -> (pos' + 64 <= pos \/ pos + 64 <= pos')%nat ->
    slice (firstn pos buf ++ block ++ skipn (pos + 64) buf) pos' 64 = slice buf pos' 64.
  Proof.
    intros H1 L H2 H3. destruct buf as [|d buf']; [cbn in H2; lia|]. set (buf := d :: buf') in *. assert (L' : length (firstn pos buf ++ block ++ skipn (pos + 64) buf) = length buf) by (rewrite !app_length, firstn_length, skipn_length; lia).
    apply (list_eq_nth d); [rewrite !slice_length by lia; reflexivity|]. rewrite slice_length by lia. intros i Hi. rewrite !slice_nth by exact Hi.
    destruct H3 as [H3|H3].
    - rewrite app_nth1 by (rewrite firstn_length; lia). apply nth_firstn. lia.
    - rewrite app_nth2 by (rewrite firstn_length; lia). rewrite app_nth2 by (rewrite firstn_length; lia). rewrite nth_skipn. f_equal. rewrite firstn_length. lia.
  Qed.
  Lemma bufs_put (s : pscan) p bufs k b buf block : bufs_ok p bufs -> nth_error bufs k = Some buf -> (b < blocks k)%nat -> length block = 64%nat -> view block = shown (learn s p (k, b)) k b ->
    bufs_ok (learn s p (k, b)) (upd bufs k (firstn (64 * b) buf ++ block ++ skipn (64 * b + 64) buf)).
  Proof.
    intros (L & B) Ek Hb Lb V. destruct (B k buf Ek) as (B1 & B2). split; [now rewrite upd_length|]. intros k' buf' Ek'.
    assert (Hp : (64 * b + 64 <= length buf)%nat) by lia.
    destruct (Nat.eq_dec k' k) as [->|N].
    - assert (Hk : (k < length bufs)%nat) by (apply nth_error_Some; congruence). rewrite (nth_error_nth' _ buf) in Ek' by (rewrite upd_length; exact Hk). rewrite upd_nth_same in Ek' by exact Hk. injection Ek' as <-.
      split; [rewrite !app_length, firstn_length, skipn_length; lia|]. intros b' Hb'. destruct (Nat.eq_dec b' b) as [->|N].
      + rewrite slice_mid; [exact V|rewrite firstn_length; lia|exact Lb].
      + rewrite slice_put by lia. rewrite B2 by exact Hb'. apply map_ext_in. intros i Hi. unfold learn, here. cbn [fst snd].
        replace (b =? b')%nat with false by (symmetry; apply Nat.eqb_neq; lia). now rewrite andb_false_r.
    - assert (Ek2 : nth_error bufs k' = Some buf').
      { rewrite <- Ek'. symmetry. assert (Hk' : (k' < length bufs)%nat) by (rewrite <- (upd_length bufs k (firstn (64 * b) buf ++ block ++ skipn (64 * b + 64) buf)); apply nth_error_Some; congruence).
        rewrite (nth_error_nth' _ []) by (rewrite upd_length; exact Hk'). rewrite (nth_error_nth' bufs []) by exact Hk'. now rewrite upd_nth_other by lia. }
      destruct (B k' buf' Ek2) as (C1 & C2). split; [exact C1|]. intros b' Hb'. rewrite C2 by exact Hb'. apply map_ext_in. intros i Hi. unfold learn, here. cbn [fst snd].
      now replace (k =? k')%nat with false by (symmetry; apply Nat.eqb_neq; lia).
  Qed.
  Lemma bufs_same (s : pscan) p bufs k b : bufs_ok p bufs -> (k < n)%nat -> (b < blocks k)%nat -> shown (learn s p (k, b)) k b = shown p k b -> bufs_ok (learn s p (k, b)) bufs.
  Proof.
    intros (L & B) Hk Hb E. split; [exact L|]. intros k' buf' Ek'. destruct (B k' buf' Ek') as (C1 & C2). split; [exact C1|]. intros b' Hb'. rewrite C2 by exact Hb'.
    destruct (here k b k' b') eqn:Hh; [apply andb_prop in Hh; destruct Hh as (H1 & H2); apply Nat.eqb_eq in H1, H2; subst k' b'; now rewrite E|].
    apply map_ext_in. intros i Hi. unfold learn. cbn [fst snd]. now rewrite Hh.
  Qed.
End Bufs.
(** writing the first coefficient *)
Lemma put_first buf pos (x : Z) : (pos + 64 <= length buf)%nat -> upd buf pos x = firstn pos buf ++ upd (slice buf pos 64) 0 x ++ skipn (pos + 64) buf.
Proof.
  intros H. assert (E : buf = firstn pos buf ++ slice buf pos 64 ++ skipn (pos + 64) buf).
  { rewrite <- (firstn_skipn pos buf) at 1. f_equal. rewrite <- (firstn_skipn 64 (skipn pos buf)) at 1. unfold slice. f_equal. now rewrite skipn_skipn'. }
  pose proof (slice_length buf pos 64 H) as Ls. destruct (slice buf pos 64) as [|y sl] eqn:Es; [cbn in Ls; lia|]. cbn [upd app] in *.
  rewrite E at 1. assert (La : length (firstn pos buf) = pos) by (rewrite firstn_length; lia). revert La. generalize (firstn pos buf) (skipn (pos + 64) buf). intros a c La. rewrite <- La at 1. apply upd_app.
Qed.

(** * One block of a scan *)
Lemma seq_split3 a m : (a + m <= 64)%nat -> seq 0 64 = seq 0 a ++ seq a m ++ seq (a + m) (64 - a - m).
Proof. intros H. rewrite <- seq_app. replace a with (0 + a)%nat at 2 by lia. rewrite <- seq_app. f_equal. lia. Qed.
Lemma map_zero {A} (f : A -> Z) l : (forall i, f i = 0) -> map f l = repeat 0 (length l).
Proof. intros H. induction l as [|i l IH]; [reflexivity|]. cbn [map length repeat]. now rewrite H, IH. Qed.
Lemma rst_marker_ i : In (208 + Z.of_nat i mod 8) markers /\ is_rst (208 + Z.of_nat i mod 8) = true.
Proof.
  pose proof (Z.mod_pos_bound (Z.of_nat i) 8 ltac:(lia)) as B. set (x := Z.of_nat i mod 8) in *. clearbody x.
  assert (C : x = 0 \/ x = 1 \/ x = 2 \/ x = 3 \/ x = 4 \/ x = 5 \/ x = 6 \/ x = 7) by lia.
  repeat (destruct C as [->|C]; [split; [cbn; tauto|reflexivity]|]). subst x. split; [cbn; tauto|reflexivity].
Qed.
Section Scan.
  Variables (debug : bool) (coef : nat -> nat -> list Z) (s : pscan) (h : head) (n : nat) (blocks : nat -> nat) (R : nat).
  Hypothesis legal_ : scan_legal s.
  Hypothesis coef_ok : forall k b, (k < n)%nat -> (b < blocks k)%nat -> length (coef k b) = 64%nat /\ Forall small (coef k b).
  Hypothesis Ho : order h = s_order s.
  Hypothesis Hss : ss h = s_ss s.
  Hypothesis Hse : se h = s_se s.
  Hypothesis Hah : ah h = Z.of_nat (s_ah s).
  Hypothesis Hal : al h = Z.of_nat (s_al s).
  Hypothesis Hdri : dri h = Z.of_nat R.
  Hypothesis tables : forall k, In k (s_order s) -> if (s_ss s =? 0)%nat then exists t, nth_error (dctab h) k = Some (Some t) /\ (s_ah s = 0%nat -> dc_table (s_dcn s k) (s_dcv s k) t)
    else exists t a, nth_error (actab h) k = Some (Some t) /\ ac_table (s_acn s k) (s_acv s k) t a.
  Hypothesis ord : forall k, In k (s_order s) -> (k < n)%nat.
  Definition single : bool := match s_order s with [_] => true | _ => false end.
  Definition step_block := if single then single_block debug h else inter_block h.
  (** short codes: a code and its value have no more than 24 bits *)
  Definition short_codes : Prop := forall k sym code, In k (s_order s) -> code_of (s_dcn s k) (s_dcv s k) sym code -> Z.of_nat (length code) + sym <= 24.
  (** the decoder before the blocks [bl] with the bits [bs] *)
  Definition awaits (st : pst) (bl : list (nat * nat)) (bs : list bool) : Prop :=
    length (preds st) = n /\
    if (s_ss s =? 0)%nat then
      if (s_ah s =? 0)%nat then (exists last, (forall k, (k < n)%nat -> nth k (preds st) 0 = last k) /\ dc_first_coded coef s last bl bs) /\
        (bl = [] -> short_codes -> marker (pb st) <> None)
      else bs = map (fun x => Z.testbit (dc coef x) (Z.of_nat (s_al s))) bl
    else
      let k := hd 0%nat (s_order s) in
      exists e, eob st = Z.of_nat e /\
      if (s_ah s =? 0)%nat then bands_first (s_acn s k) (s_acv s k) e (map (fun x => map (fun c => Z.quot c (2 ^ Z.of_nat (s_al s))) (band coef s x)) bl) bs
      else bands_fine (s_acn s k) (s_acv s k) (s_al s) e (map (band coef s) bl) bs.
  Definition expected (p : knowledge) (x : nat * nat) : Prop :=
    forall i, (s_ss s <= i <= s_se s)%nat -> p (fst x) (snd x) i = if (s_ah s =? 0)%nat then None else Some (s_ah s).
  Let m := (s_se s + 1 - s_ss s)%nat.
  Lemma band_len : (s_ss s + m <= 64)%nat /\ (0 < m)%nat /\ (s_ss s + m = s_se s + 1)%nat /\ (s_al s <= 13)%nat.
  Proof. destruct legal_ as (_ & Al & _ & [(E1 & E2)|(E1 & E2 & _)]); unfold m; lia. Qed.
  Lemma band_is k b : length (coef k b) = 64%nat -> band coef s (k, b) = map (fun i => nth i (coef k b) 0) (seq (s_ss s) m).
  Proof. reflexivity. Qed.
  Lemma band_small k b : (k < n)%nat -> (b < blocks k)%nat -> Forall small (band coef s (k, b)) /\ length (band coef s (k, b)) = m.
  Proof.
    intros Hk Hb. destruct (coef_ok k b Hk Hb) as (L & F). destruct band_len as (M1 & _). split; [|unfold band; now rewrite map_length, seq_length].
    unfold band. apply Forall_forall. intros c Hc. apply in_map_iff in Hc. destruct Hc as (i & <- & Hi). apply in_seq in Hi. rewrite Forall_forall in F. apply F. apply nth_In. cbn [fst snd]. unfold m in *. lia.
  Qed.
  (** the coefficients of a block before, in and after the band *)
  Definition before (p : knowledge) (k b : nat) := map (fun i => known i (p k b i) (nth i (coef k b) 0)) (seq 0 (s_ss s)).
  Definition after (p : knowledge) (k b : nat) := map (fun i => known i (p k b i) (nth i (coef k b) 0)) (seq (s_ss s + m) (64 - s_ss s - m)).
  Lemma before_length p k b : length (before p k b) = s_ss s.
  Proof. unfold before. now rewrite map_length, seq_length. Qed.
  Lemma shown_split p k b : shown coef p k b = before p k b ++ map (fun i => known i (p k b i) (nth i (coef k b) 0)) (seq (s_ss s) m) ++ after p k b.
  Proof. unfold shown. rewrite (seq_split3 (s_ss s) m) by apply band_len. now rewrite !map_app. Qed.
  Lemma shown_learn p k b : shown coef (learn s p (k, b)) k b = before p k b ++ map (fun i => known i (Some (s_al s)) (nth i (coef k b) 0)) (seq (s_ss s) m) ++ after p k b.
  Proof.
    rewrite shown_split. assert (Hh : here k b k b = true) by (unfold here; now rewrite !Nat.eqb_refl). destruct band_len as (M1 & M2 & M3 & _). f_equal; [|f_equal].
    - apply map_ext_in. intros i Hi. apply in_seq in Hi. unfold learn. cbn [fst snd]. rewrite Hh. replace (s_ss s <=? i)%nat with false by (symmetry; apply Nat.leb_gt; lia). reflexivity.
    - apply map_ext_in. intros i Hi. apply in_seq in Hi. unfold learn. cbn [fst snd]. rewrite Hh. replace (s_ss s <=? i)%nat with true by (symmetry; apply Nat.leb_le; lia). replace (i <=? s_se s)%nat with true by (symmetry; apply Nat.leb_le; lia). reflexivity.
    - apply map_ext_in. intros i Hi. apply in_seq in Hi. unfold learn. cbn [fst snd]. rewrite Hh. replace (i <=? s_se s)%nat with false by (symmetry; apply Nat.leb_gt; lia). now rewrite andb_false_r.
  Qed.
  Lemma shown_ac p k b : s_ss s <> 0%nat -> shown coef (learn s p (k, b)) k b = before p k b ++ map (known_ac (s_al s)) (band coef s (k, b)) ++ after p k b.
  Proof.
    intros H. rewrite shown_learn. do 2 f_equal. unfold band. rewrite map_map. apply map_ext_in. intros i Hi. apply in_seq in Hi. cbn [known fst snd].
    now replace (i =? 0)%nat with false by (symmetry; apply Nat.eqb_neq; lia).
  Qed.
  Lemma shown_exp p k b : expected p (k, b) -> shown coef p k b = before p k b ++ map (fun i => known i (if (s_ah s =? 0)%nat then None else Some (s_ah s)) (nth i (coef k b) 0)) (seq (s_ss s) m) ++ after p k b.
  Proof.
    intros E. rewrite shown_split. do 2 f_equal. apply map_ext_in. intros i Hi. apply in_seq in Hi. destruct band_len as (M1 & M2 & M3 & _). specialize (E i ltac:(lia)). cbn [fst snd] in E. now rewrite E.
  Qed.
  Lemma quot_fits l : Forall small l -> Forall (fits (s_al s)) (map (fun c => Z.quot c (2 ^ Z.of_nat (s_al s))) l).
  Proof.
    intros F. apply Forall_forall. intros v Hv. apply in_map_iff in Hv. destruct Hv as (c & <- & Hc). rewrite Forall_forall in F. specialize (F c Hc).
    unfold fits. destruct (known_ac_range (s_al s) c F) as (K & _). exact K.
  Qed.
  Lemma fits_app a b : Forall (fits (s_al s)) (a ++ b) -> Forall (fits (s_al s)) a.
  Proof. intros F. now apply Forall_app in F. Qed.
  Lemma block_step st k b bl bs pad fin p bufs : awaits st ((k, b) :: bl) bs -> rready (pb st) (bs ++ pad) (Some fin) -> (length pad < 8)%nat -> bufs_ok coef n blocks p bufs ->
    In k (s_order s) -> (b < blocks k)%nat -> expected p (k, b) ->
    exists bufs' st' bs', step_block k (64 * b) bufs st = (bufs', Ok st') /\ awaits st' bl bs' /\ rready (pb st') (bs' ++ pad) (Some fin) /\ bufs_ok coef n blocks (learn s p (k, b)) bufs' /\
      ptodo st' = ptodo st.
  Proof.
    intros (Lp & A) Rd Pd Bk Ik Hb Ex. pose proof (ord k Ik) as Hk. pose proof (tables k Ik) as Tb. destruct band_len as (M1 & M2 & M3 & Al).
    destruct (nth_error bufs k) as [buf|] eqn:Ek; [|apply nth_error_None in Ek; destruct Bk; lia].
    assert (Gk : get_at bufs k = Ok buf) by (unfold get_at; now rewrite Ek).
    destruct (proj2 Bk k buf Ek) as (Lb & Vb). specialize (Vb b Hb). assert (Ps : (64 * b + 64 <= length buf)%nat) by lia.
    destruct (coef_ok k b Hk Hb) as (Lc & Fc). set (block := slice buf (64 * b) 64) in *. assert (L64 : length block = 64%nat) by (apply slice_length; exact Ps).
    rewrite (shown_exp _ _ _ Ex) in Vb.
    destruct (Nat.eq_dec (s_ss s) 0) as [S0|S0].
    - (* DC *)
      rewrite S0 in A, Tb. change ((0 =? 0)%nat) with true in A, Tb. cbv iota in A, Tb. destruct Tb as (t & Et & Tt).
      assert (Se0 : s_se s = 0%nat) by (destruct legal_ as (_ & _ & _ & [(_ & E)|(E & _)]); lia).
      assert (m1 : m = 1%nat) by (unfold m; lia).
      assert (V0 : view block = [] ++ known 0 (if (s_ah s =? 0)%nat then None else Some (s_ah s)) (nth 0 (coef k b) 0) :: after p k b).
      { rewrite Vb. rewrite m1, S0. unfold before. rewrite S0. reflexivity. }
      set (x0 := known 0 _ _) in V0.
      destruct (read_view _ _ _ _ L64 V0) as (_ & G0 & _). change (nth (length (@nil Z)) zigzag 0%nat) with 0%nat in G0.
      assert (N0 : nth_error buf (64 * b) = Some x0).
      { rewrite (get_at_ok block 0 0) in G0 by lia. rewrite (nth_error_nth' buf 0) by lia. f_equal. apply (f_equal (fun r => match r with Ok v => v | _ => 0 end)) in G0. cbv beta iota in G0. rewrite <- G0. unfold block. rewrite slice_nth by lia. now rewrite Nat.add_0_r. }
      assert (Put : bufs_ok coef n blocks (learn s p (k, b)) (upd bufs k (upd buf (64 * b) (known_dc (s_al s) (nth 0 (coef k b) 0))))).
      { rewrite put_first by exact Ps. fold block. apply bufs_put; try assumption; [now rewrite upd_length|].
        change 0%nat with (nth 0 zigzag 0%nat) at 1. rewrite view_upd by (assumption || lia). rewrite V0. change (upd ([] ++ x0 :: after p k b) 0 (known_dc (s_al s) (nth 0 (coef k b) 0))) with (known_dc (s_al s) (nth 0 (coef k b) 0) :: after p k b).
        rewrite shown_learn, m1, S0. unfold before. rewrite S0. reflexivity. }
      assert (Sm : small (nth 0 (coef k b) 0)) by (rewrite Forall_forall in Fc; apply Fc; apply nth_In; lia).
      assert (Run : forall (f : list (list Z) * res pst), (if (s_ah s =? 0)%nat then
            then_ (bufs, get_at (preds st) k) (fun bufs p0 => then_ (bufs, dc_first t (Z.shiftl 1 (al h)) p0 (pb st)) (fun bufs '(p0, x, s0) => (upd bufs k (upd buf (64 * b) x), Ok (PSt s0 (eob st) (upd (preds st) k p0) (ptodo st)))))
          else then_ (bufs, dc_refine (Z.shiftl 1 (al h)) x0 (pb st)) (fun bufs '(x, s0) => (upd bufs k (upd buf (64 * b) x), Ok (PSt s0 (eob st) (preds st) (ptodo st))))) = f ->
          exists bufs' st' bs', f = (bufs', Ok st') /\ awaits st' bl bs' /\ rready (pb st') (bs' ++ pad) (Some fin) /\ bufs_ok coef n blocks (learn s p (k, b)) bufs' /\ ptodo st' = ptodo st).
      { intros f <-. destruct (Nat.eqb_spec (s_ah s) 0) as [A0|A0].
        - destruct A as ((last & Hl & b1 & b2 & -> & D & Nx) & _). cbn [fst snd] in D, Nx. specialize (Tt A0). rewrite <- app_assoc in Rd.
          destruct (dc_first_ok _ _ _ _ _ _ _ _ _ _ Tt Al Sm D Rd) as (st' & E & R' & Mk).
          rewrite (get_at_ok _ _ 0) by lia. rewrite (then_ok _ _ _ _ eq_refl). rewrite Hl by exact Hk. rewrite Hal. rewrite (then_ok _ _ _ _ E).
          eexists _, _, b2. split; [reflexivity|]. cbn [pb ptodo]. split; [|split; [exact R'|split; [exact Put|reflexivity]]].
          split; [cbn [preds]; now rewrite upd_length|]. rewrite S0, A0. change ((0 =? 0)%nat) with true. cbv iota. cbn [preds pb]. split.
          + eexists. split; [|exact Nx]. intros k' Hk'. cbv beta. destruct (Nat.eqb_spec k' k) as [->|N]; [apply upd_nth_same; lia|]. rewrite upd_nth_other by lia. now apply Hl.
          + intros -> Sh. apply Mk; [discriminate|]. cbn [dc_first_coded] in Nx. subst b2. cbn [app]. destruct D as (sz & code & Hsz & _ & Co & ->). specialize (Sh k sz code Ik Co).
            rewrite app_length, extra_length. lia.
        - subst bs. cbn [map app] in Rd. rewrite Hal. unfold x0. cbn [known]. change ((0 =? 0)%nat) with true. cbv iota.
          assert (Eh : s_ah s = (s_al s + 1)%nat) by (destruct legal_ as (_ & _ & [E|E] & _); [congruence|exact E]). rewrite Eh.
          destruct (dc_refine_ok _ _ _ _ _ Al Sm Rd) as (st' & E & R'). rewrite (then_ok _ _ _ _ E).
          eexists _, _, _. split; [reflexivity|]. cbn [pb ptodo]. split; [|split; [exact R'|split; [exact Put|reflexivity]]].
          split; [exact Lp|]. rewrite S0. change ((0 =? 0)%nat) with true. cbv iota. replace (s_ah s =? 0)%nat with false by (symmetry; apply Nat.eqb_neq; exact A0). reflexivity. }
      assert (Ah : (ah h =? 0) = (s_ah s =? 0)%nat) by (rewrite Hah; destruct (Nat.eqb_spec (s_ah s) 0) as [->|N]; [reflexivity|apply Z.eqb_neq; lia]).
      apply Run. unfold step_block. destruct single.
      + unfold single_block. rewrite Hss, S0. change ((0 =? 0)%nat) with true. cbn [negb andb]. cbv iota. rewrite (then_ok _ _ _ _ Gk).
        replace (length buf <? 64 * b + 64)%nat with false by (symmetry; apply Nat.ltb_ge; exact Ps). unfold the_table. rewrite Et. rewrite (then_ok _ _ _ _ eq_refl).
        fold block. rewrite (then_ok _ _ _ _ G0). rewrite Ah. reflexivity.
      + unfold inter_block. unfold the_table. rewrite Et. rewrite (then_ok _ _ _ _ eq_refl), (then_ok _ _ _ _ Gk), N0, Ah. reflexivity.
    - (* AC *)
      replace (s_ss s =? 0)%nat with false in A, Tb by (symmetry; apply Nat.eqb_neq; exact S0). destruct Tb as (t & fast & Et & Tt).
      assert (Sg : single = true /\ k = hd 0%nat (s_order s)).
      { destruct legal_ as (_ & _ & _ & [(E & _)|(_ & _ & k0 & E)]); [congruence|]. unfold single. rewrite E in *. split; [reflexivity|]. destruct Ik as [<-|[]]; reflexivity. }
      destruct Sg as (Sg & Kh). destruct A as (e & Ee & A). rewrite <- Kh in A.
      destruct (band_small k b Hk Hb) as (Fb & Lbd). assert (Se63 : (s_se s <= 63)%nat) by lia.
      assert (Put : forall block', length block' = 64%nat -> view block' = before p k b ++ map (known_ac (s_al s)) (band coef s (k, b)) ++ after p k b ->
        bufs_ok coef n blocks (learn s p (k, b)) (upd bufs k (firstn (64 * b) buf ++ block' ++ skipn (64 * b + 64) buf))).
      { intros block' L' V'. apply bufs_put; try assumption. now rewrite shown_ac. }
      unfold step_block. rewrite Sg. unfold single_block. rewrite Hss, Hse, Hal.
      replace (s_ss s =? 0)%nat with false by (symmetry; apply Nat.eqb_neq; exact S0). cbn [negb andb].
      assert (Ah : (ah h =? 0) = (s_ah s =? 0)%nat) by (rewrite Hah; destruct (Nat.eqb_spec (s_ah s) 0) as [->|N]; [reflexivity|apply Z.eqb_neq; lia]). rewrite Ah.
      rewrite (then_ok _ _ _ _ Gk). replace (length buf <? 64 * b + 64)%nat with false by (symmetry; apply Nat.ltb_ge; exact Ps). unfold the_table. rewrite Et. rewrite (then_ok _ _ _ _ eq_refl). fold block.
      destruct (Nat.eqb_spec (s_ah s) 0) as [A0|A0]; cbn [andb].
      + (* first *)
        assert (V1 : view block = before p k b ++ repeat 0 m ++ after p k b).
        { rewrite Vb. do 2 f_equal. rewrite map_zero by reflexivity. now rewrite seq_length. }
        set (qs := map (fun c => Z.quot c (2 ^ Z.of_nat (s_al s))) (band coef s (k, b))) in *. assert (Lq : length qs = m) by (unfold qs; now rewrite map_length).
        assert (Fq : Forall (fits (s_al s)) qs) by now apply quot_fits.
        assert (Kq : map (fun v => v * 2 ^ Z.of_nat (s_al s)) qs = map (known_ac (s_al s)) (band coef s (k, b))) by (unfold qs; rewrite map_map; reflexivity).
        cbn [map] in A. fold qs in A. inversion A as [|e' n' bl' bs' A' E1 E2 E3|b' bl' b1 bs' C1 A' E1 E2 E3|b' n' run bl' b1 b2 bs' Hn C1 C2 A' E1 E2 E3].
        * (* in a run *)
          subst e bl' bs'. rewrite Ee. replace (0 <? Z.of_nat (S e')) with true by (symmetry; apply Z.ltb_lt; lia). eexists _, _, bs. split; [reflexivity|]. cbn [pb ptodo].
          split; [|split; [exact Rd|split; [|reflexivity]]].
          { split; [exact Lp|]. replace (s_ss s =? 0)%nat with false by (symmetry; apply Nat.eqb_neq; exact S0). rewrite A0. change ((0 =? 0)%nat) with true. cbv iota. exists e'. cbn [eob]. split; [lia|]. rewrite <- Kh. exact A'. }
          apply bufs_same; try assumption. rewrite shown_ac, (shown_exp _ _ _ Ex), A0 by exact S0. change ((0 =? 0)%nat) with true. cbv iota. do 2 f_equal.
          rewrite <- Kq, <- E2. assert (n' = m) as -> by (rewrite <- Lq, <- E2; now rewrite repeat_length).
          rewrite (map_zero (fun i => known i None _)) by reflexivity. rewrite seq_length. clear; induction m; cbn; congruence.
        * (* to the end *)
          subst e b' bl' bs. rewrite Ee. change (0 <? Z.of_nat 0) with false. cbv iota. destruct Tt as (T1 & T2 & T3). rewrite T2. rewrite <- app_assoc in Rd.
          destruct (ac_first_full _ _ _ _ _ _ (Some fin) (conj T1 (conj T2 T3)) Al Se63 (s_ss s) (before p k b) qs b1 (after p k b) block (pb st) (bs' ++ pad)) as (blk' & st' & F1 & F2 & F3 & F4);
            [now rewrite before_length|exact C1|exact Fq|lia|rewrite before_length; lia|exact L64|now rewrite Lq|exact Rd|].
          rewrite F1. cbv beta iota. rewrite (then_ok _ _ _ _ eq_refl). eexists _, _, bs'. split; [reflexivity|]. cbn [pb ptodo]. split; [|split; [exact F4|split; [|reflexivity]]].
          { split; [exact Lp|]. replace (s_ss s =? 0)%nat with false by (symmetry; apply Nat.eqb_neq; exact S0). rewrite A0. change ((0 =? 0)%nat) with true. cbv iota. exists 0%nat. cbn [eob]. split; [reflexivity|]. rewrite <- Kh. exact A'. }
          apply Put; [exact F2|]. now rewrite F3, Kq.
        * (* to the last coefficient *)
          subst e bl' bs. rewrite Ee. change (0 <? Z.of_nat 0) with false. cbv iota. destruct Tt as (T1 & T2 & T3). rewrite T2. rewrite <- !app_assoc in Rd.
          assert (Lb' : (length b' + n' = m)%nat) by (rewrite <- Lq, <- E2, app_length, repeat_length; reflexivity).
          destruct (ac_first_end _ _ _ _ _ _ (Some fin) (conj T1 (conj T2 T3)) Al Se63 (s_ss s) (before p k b) b' n' run b1 b2 (after p k b) block (pb st) (bs' ++ pad)) as (blk' & st' & F1 & F2 & F3 & F4);
            [now rewrite before_length|exact C1|rewrite <- E2 in Fq; exact (fits_app _ _ Fq)|lia|rewrite before_length; lia|exact C2|exact L64|now rewrite Lb'|exact Rd|].
          rewrite F1. cbv beta iota. rewrite (then_ok _ _ _ _ eq_refl). eexists _, _, bs'. split; [reflexivity|]. cbn [pb ptodo]. split; [|split; [exact F4|split; [|reflexivity]]].
          { split; [exact Lp|]. replace (s_ss s =? 0)%nat with false by (symmetry; apply Nat.eqb_neq; exact S0). rewrite A0. change ((0 =? 0)%nat) with true. cbv iota. exists run. cbn [eob]. split; [reflexivity|]. rewrite <- Kh. exact A'. }
          apply Put; [exact F2|]. now rewrite F3, E2, Kq.
      + (* refinement *)
        assert (Eh : s_ah s = (s_al s + 1)%nat) by (destruct legal_ as (_ & _ & [E|E] & _); [congruence|exact E]).
        assert (V1 : view block = before p k b ++ map (known_ac (s_al s + 1)) (band coef s (k, b)) ++ after p k b).
        { rewrite Vb. do 2 f_equal. unfold band. rewrite map_map. apply map_ext_in. intros i Hi. apply in_seq in Hi. cbn [known fst snd]. rewrite Eh.
          now replace (i =? 0)%nat with false by (symmetry; apply Nat.eqb_neq; lia). }
        set (cs := band coef s (k, b)) in *. destruct Tt as (T1 & _).
        assert (Aw : forall st' e' bs', length (preds st') = n -> eob st' = Z.of_nat e' -> bands_fine (s_acn s k) (s_acv s k) (s_al s) e' (map (band coef s) bl) bs' -> awaits st' bl bs').
        { intros st' e' bs' X1 X2 X3. split; [exact X1|]. replace (s_ss s =? 0)%nat with false by (symmetry; apply Nat.eqb_neq; exact S0). replace (s_ah s =? 0)%nat with false by (symmetry; apply Nat.eqb_neq; exact A0).
          exists e'. split; [exact X2|]. rewrite <- Kh. exact X3. }
        cbn [map] in A. fold cs in A. inversion A as [|e' b' bl' bs' Nn A' E1 E2 E3|b' bl' b1 bs' C1 A' E1 E2 E3|b' tl run bl' b1 b2 bs' Ht C1 Nn C2 A' E1 E2 E3].
        * subst e b' bl' bs. rewrite Ee. rewrite <- app_assoc in Rd.
          destruct (ac_refine_skip t (s_al s) (s_se s) (Some fin) debug Al Se63 e' (s_ss s) (before p k b) cs (after p k b) block (pb st) (bs' ++ pad)) as (blk' & st' & F1 & F2 & F3 & F4);
            [now rewrite before_length|exact Fb|exact Nn|rewrite before_length; lia|rewrite before_length; lia|exact L64|exact V1|exact Rd|].
          rewrite F1. cbv beta iota. rewrite (then_ok _ _ _ _ eq_refl). eexists _, _, bs'. split; [reflexivity|]. cbn [pb ptodo]. split; [|split; [exact F4|split; [|reflexivity]]].
          { apply (Aw _ e'); [exact Lp|reflexivity|exact A']. }
          apply Put; [exact F2|exact F3].
        * subst e b' bl' bs. rewrite Ee. rewrite <- app_assoc in Rd.
          destruct (ac_refine_full _ _ t (s_al s) (s_se s) (Some fin) debug T1 Al Se63 (s_ss s) (before p k b) cs b1 (after p k b) block (pb st) (bs' ++ pad)) as (blk' & st' & F1 & F2 & F3 & F4);
            [now rewrite before_length|exact Fb|exact C1|lia|rewrite before_length; lia|exact L64|exact V1|exact Rd|].
          change (Z.of_nat 0) with 0. rewrite F1. cbv beta iota. rewrite (then_ok _ _ _ _ eq_refl). eexists _, _, bs'. split; [reflexivity|]. cbn [pb ptodo]. split; [|split; [exact F4|split; [|reflexivity]]].
          { apply (Aw _ 0%nat); [exact Lp|reflexivity|exact A']. }
          apply Put; [exact F2|exact F3].
        * subst e bl' bs. rewrite Ee. rewrite <- !app_assoc in Rd. rewrite <- E2 in *.
          destruct (ac_refine_end _ _ t (s_al s) (s_se s) (Some fin) debug T1 Al Se63 (s_ss s) (before p k b) b' tl run b1 b2 (after p k b) block (pb st) (bs' ++ pad)) as (blk' & st' & F1 & F2 & F3 & F4);
            [now rewrite before_length|exact Fb|exact C1|exact Ht|exact Nn|exact C2|rewrite before_length; lia|rewrite before_length; lia|exact L64|exact V1|exact Rd|].
          change (Z.of_nat 0) with 0. rewrite F1. cbv beta iota. rewrite (then_ok _ _ _ _ eq_refl). eexists _, _, bs'. split; [reflexivity|]. cbn [pb ptodo]. split; [|split; [exact F4|split; [|reflexivity]]].
          { apply (Aw _ run); [exact Lp|reflexivity|exact A']. }
          apply Put; [exact F2|exact F3].
  Qed.

  (** * The MCUs of a scan *)
  Definition place (u : list (nat * nat)) : list (nat * nat) := map (fun x => (fst x, 64 * snd x)%nat) u.
  Definition ahead (p : knowledge) (bl : list (nat * nat)) : Prop :=
    NoDup bl /\ Forall (fun x => In (fst x) (s_order s) /\ (snd x < blocks (fst x))%nat /\ expected p x) bl.
  Lemma expected_learn p x y : x <> y -> expected p y -> expected (learn s p x) y.
  Proof.
    intros N E i Hi. unfold learn. destruct (here (fst x) (snd x) (fst y) (snd y)) eqn:Hh; [|cbn [andb]; now apply E].
    exfalso. apply andb_prop in Hh. destruct Hh as (H1 & H2). apply Nat.eqb_eq in H1, H2. apply N. destruct x, y. cbn [fst snd] in *. congruence.
  Qed.
  Lemma ahead_step p x bl : ahead p (x :: bl) -> ahead (learn s p x) bl.
  Proof.
    intros (N & F). inversion N as [|y l N1 N2]. subst y l. inversion F as [|y l F1 F2]. subst y l. split; [exact N2|].
    rewrite Forall_forall in *. intros y Hy. destruct (F2 y Hy) as (A & B & C). split; [exact A|]. split; [exact B|]. apply expected_learn; [|exact C]. intros ->. now apply N1.
  Qed.
  Lemma run_list_ok fin pad : (length pad < 8)%nat -> forall u st bl more bs p bufs, awaits st (u ++ bl) bs -> rready (pb st) (bs ++ pad) (Some fin) -> bufs_ok coef n blocks p bufs -> ahead p (u ++ more) ->
    exists bufs' st' bs', run_block_list step_block (place u) bufs st = (bufs', Ok st') /\ awaits st' bl bs' /\ rready (pb st') (bs' ++ pad) (Some fin) /\
      bufs_ok coef n blocks (fold_left (learn s) u p) bufs' /\ ahead (fold_left (learn s) u p) more /\ ptodo st' = ptodo st.
  Proof.
    intros Pd. induction u as [|[k b] u IH]; intros st bl more bs p bufs A Rd Bk Ah.
    - exists bufs, st, bs. cbn [place map run_block_list fold_left app] in *. split; [reflexivity|]. split; [exact A|]. split; [exact Rd|]. split; [exact Bk|]. split; [exact Ah|reflexivity].
    - cbn [app] in *. pose proof (proj2 Ah) as F. inversion F as [|y l (F1 & F2 & F3) _]. subst y l. cbn [fst snd] in F1, F2.
      destruct (block_step st k b _ bs pad fin p bufs A Rd Pd Bk F1 F2 F3) as (bufs1 & st1 & bs1 & E1 & A1 & R1 & B1 & T1).
      destruct (IH st1 bl more bs1 (learn s p (k, b)) bufs1 A1 R1 B1 (ahead_step _ _ _ Ah)) as (bufs' & st' & bs' & E2 & A2 & R2 & B2 & C2 & T2).
      exists bufs', st', bs'. cbn [place map run_block_list fst snd]. rewrite E1, (then_ok _ _ _ _ eq_refl). split; [exact E2|]. split; [exact A2|]. split; [exact R2|]. split; [exact B2|]. split; [exact C2|congruence].
  Qed.
  Lemma awaits_todo st bl bs x : awaits st bl bs -> awaits (PSt (pb st) (eob st) (preds st) x) bl bs.
  Proof. intros A. exact A. Qed.
  Lemma run_seg_ok fin pad us' : (length pad < 8)%nat -> forall us st bl more bs p bufs, awaits st (concat us ++ bl) bs -> rready (pb st) (bs ++ pad) (Some fin) -> bufs_ok coef n blocks p bufs ->
    ahead p (concat us ++ more) -> Z.of_nat (length us) < ptodo st ->
    exists bufs' st' bs', run_units h step_block (map place (us ++ us')) bufs st = run_units h step_block (map place us') bufs' st' /\ awaits st' bl bs' /\ rready (pb st') (bs' ++ pad) (Some fin) /\
      bufs_ok coef n blocks (fold_left (learn s) (concat us) p) bufs' /\ ahead (fold_left (learn s) (concat us) p) more /\ ptodo st' = ptodo st - Z.of_nat (length us).
  Proof.
    intros Pd. induction us as [|u us IH]; intros st bl more bs p bufs A Rd Bk Ah Td.
    - exists bufs, st, bs. cbn [concat app length fold_left] in *. split; [reflexivity|]. split; [exact A|]. split; [exact Rd|]. split; [exact Bk|]. split; [exact Ah|lia].
    - cbn [concat app length map run_units] in *. rewrite <- app_assoc in A, Ah.
      destruct (run_list_ok fin pad Pd u st _ _ bs p bufs A Rd Bk Ah) as (bufs1 & st1 & bs1 & E1 & A1 & R1 & B1 & C1 & T1).
      rewrite E1, (then_ok _ _ _ _ eq_refl). cbv zeta. cbn [ptodo]. replace (ptodo st1 - 1 =? 0) with false by (symmetry; apply Z.eqb_neq; lia). rewrite (then_ok _ _ _ _ eq_refl).
      destruct (IH (PSt (pb st1) (eob st1) (preds st1) (ptodo st1 - 1)) bl more bs1 _ bufs1 (awaits_todo _ _ _ _ A1) R1 B1 C1) as (bufs' & st' & bs' & E2 & A2 & R2 & B2 & C2 & T2); [cbn [ptodo]; lia|].
      exists bufs', st', bs'. rewrite fold_left_app. split; [exact E2|]. split; [exact A2|]. split; [exact R2|]. split; [exact B2|]. split; [exact C2|]. cbn [ptodo] in T2. lia.
  Qed.
  (** the end of an interval *)
  Lemma rst_ok st pad mk file : rready (pb st) pad (Some (mk, file)) -> (length pad < 8)%nat -> is_rst mk = true -> length (preds st) = n ->
    prog_rst h st = Ok (PSt (Bits 0 0 0 None 0 false file) 0 (repeat 0 n) (dri h)).
  Proof.
    intros ((u & H & S) & Eo) Pd Rs Lp. destruct (refill_end _ _ _ _ _ H S Pd) as (b & E & E1 & E2 & E3 & _ & [E4|(E4 & _)]); [|congruence].
    unfold prog_rst. rewrite E. cbn [bind]. rewrite E4. rewrite andb_false_r. cbn [andb]. rewrite E4, Rs. unfold reset. rewrite E1, E2, E3, Eo.
    replace (map (fun _ => 0) (preds st)) with (repeat 0 n); [reflexivity|]. rewrite <- Lp. clear. induction (preds st) as [|x l IH]; cbn; congruence.
  Qed.
  Lemma rst_end st pad rest : rready (pb st) pad (Some (217, rest)) -> (length pad < 8)%nat ->
    exists b, prog_rst h st = Ok (PSt b (eob st) (preds st) (dri h)) /\ marker b = Some 217 /\ rd b = rest /\ over b = 0 /\ eoi b = false.
  Proof.
    intros ((u & H & S) & Eo) Pd. destruct (refill_end _ _ _ _ _ H S Pd) as (b & E & E1 & E2 & E3 & _ & [E4|(E4 & _)]); [|congruence].
    exists b. unfold prog_rst. rewrite E. cbn [bind]. rewrite E4. rewrite andb_false_r. cbn [andb]. rewrite E4. change (is_rst 217) with false. change (217 =? 217) with true. cbv iota.
    split; [reflexivity|]. split; [reflexivity|]. split; [exact E1|]. split; [exact E2|congruence].
  Qed.
  (** the end of a scan *)
  Definition ended (b : bits) (mk : Z) (rest : list Z) : Prop :=
    over b = 0 /\ eoi b = false /\ (marker b = Some mk /\ rd b = rest \/ marker b = None /\ get_marker (S (length (rd b))) (rd b) = (Some mk, rest)).
  Lemma skip_fill k mk rest : mk <> 255 -> skip_ff (repeat 255 k ++ mk :: rest) = Some (mk, rest).
  Proof. intros H. induction k as [|k IH]; cbn [repeat app skip_ff]; [now replace (mk =? 255) with false by (symmetry; apply Z.eqb_neq; exact H)|exact IH]. Qed.
  Lemma scan_ended st pad mk rest : rready st pad (Some (mk, rest)) -> (length pad < 8)%nat -> ended st mk rest.
  Proof.
    intros ((u & H & (O0 & Or & B & Src)) & Eo) Pd. split; [|split; [exact Eo|]].
    { destruct (Z.le_gt_cases (over st) 0); [lia|]. destruct (Or ltac:(lia)) as (_ & E); discriminate E. }
    destruct (marker st) as [m'|].
    - left. destruct Src as (m0 & k & E & _ & _ & [X|X] & _); [discriminate X|]. injection E as E1 E2. split; congruence.
    - right. split; [reflexivity|]. rewrite Eo in Src. destruct Src as (data & tail & k & Er & T & Eu & K). rewrite (K ltac:(discriminate)) in Eu. cbn [repeat] in Eu. rewrite app_nil_r in Eu.
      destruct data as [|x data]; [|exfalso; apply (f_equal (@length bool)) in Eu; rewrite data_bits_cons, !app_length, msb_length in Eu; lia].
      cbn [stuff map concat app] in Er. destruct T as (f & -> & Im). destruct (JpegHuffBits.known mk Im) as (_ & Rm). rewrite Er. cbn [repeat app length get_marker]. change (255 =? 255) with true. cbv iota.
      rewrite skip_fill by lia. now replace (mk =? 0) with false by (symmetry; apply Z.eqb_neq; lia).
  Qed.
  (** a scan *)
  Definition fresh (file : list Z) (td : Z) : pst := PSt (Bits 0 0 0 None 0 false file) 0 (repeat 0 n) td.
  Lemma fresh_awaits file td bl bs : bl <> [] -> blocks_bits coef s bl bs -> awaits (fresh file td) bl bs.
  Proof.
    intros Nb B. split; [apply repeat_length|]. unfold blocks_bits in B. destruct (s_ss s =? 0)%nat; [destruct (s_ah s =? 0)%nat|].
    - split; [|congruence]. exists (fun _ => 0). split; [|exact B]. intros k _. apply nth_repeat.
    - exact B.
    - exists 0%nat. split; [reflexivity|]. exact B.
  Qed.
  Lemma tail_bytes (a : list Z) k mk file : bytes (a ++ repeat 255 (S k) ++ mk :: file) -> bytes file.
  Proof. unfold bytes. intros B. apply Forall_app in B. destruct B as (_ & B). apply Forall_app in B. destruct B as (_ & B). now inversion B. Qed.
  Lemma awaits_nil st bs : awaits st [] bs -> bs = [].
  Proof.
    intros (_ & A). destruct (s_ss s =? 0)%nat; [destruct (s_ah s =? 0)%nat|].
    - destruct A as ((last & _ & E) & _). exact E.
    - exact A.
    - destruct A as (e & _ & A). destruct (s_ah s =? 0)%nat; inversion A; reflexivity.
  Qed.
  Definition dc_scan : Prop := s_ss s = 0%nat /\ s_ah s = 0%nat /\ short_codes.
  Lemma awaits_marker st bs : awaits st [] bs -> dc_scan -> marker (pb st) <> None.
  Proof. intros (_ & A) (E1 & E2 & Sh). rewrite E1, E2 in A. destruct A as (_ & A). now apply A. Qed.
  Hypothesis R_small : Z.of_nat R < 2 ^ 16.
  Lemma mod_more a : (0 < R)%nat -> ((R + a) mod R = a mod R)%nat.
  Proof. intros H. replace (R + a)%nat with (a + 1 * R)%nat by lia. apply Nat.mod_add. lia. Qed.
  Lemma scan_ok : forall i us file mk rest, scan_bytes coef s R i us file mk rest -> forall p bufs, bytes file -> Forall (fun u => u <> []) us -> us <> [] -> Z.of_nat (length us) < 2 ^ 64 - 1 ->
    bufs_ok coef n blocks p bufs -> ahead p (concat us) -> (R = 0%nat \/ (length us mod R)%nat <> 0%nat \/ mk = 217) ->
    exists bufs' st', run_units h step_block (map place us) bufs (fresh file (if dri h =? 0 then 2 ^ 64 - 1 else dri h)) = (bufs', Ok st') /\
      bufs_ok coef n blocks (fold_left (learn s) (concat us) p) bufs' /\ ended (pb st') mk rest /\ (dc_scan -> marker (pb st') <> None).
  Proof.
    intros i us file mk rest Sb. induction Sb as [i us data fill mk rest Hd (bs & pad & Bd & Eb & Lp & Co) Im Nr|i us us' data fill file mk rest HR R0 Hc (bs & pad & Bd & Eb & Lp & Co) Sb IH]; intros p bufs B Ne N0 Big Bk Ah Rf.
    - set (td := if dri h =? 0 then 2 ^ 64 - 1 else dri h).
      assert (Cn : concat us <> []) by (destruct us as [|u us]; [congruence|]; inversion Ne; cbn [concat]; destruct u; [congruence|discriminate]).
      assert (Rd : rready (pb (fresh (stuff data ++ repeat 255 (S fill) ++ mk :: rest) td)) (bs ++ pad) (Some (mk, rest))).
      { split; [|reflexivity]. rewrite <- Eb. apply (ready_start _ data (repeat 255 (S fill) ++ mk :: rest)); [reflexivity|now exists fill|exact B|lia|lia]. }
      pose proof (fresh_awaits (stuff data ++ repeat 255 (S fill) ++ mk :: rest) td _ _ Cn Co) as A.
      assert (Hc : Z.of_nat (length us) < td \/ (Z.of_nat (length us) = td /\ mk = 217)).
      { unfold td. rewrite Hdri. destruct (Z.eqb_spec (Z.of_nat R) 0) as [E0|E0]; [now left|]. destruct Hd as [Hd|Hd]; [lia|].
        destruct (Nat.eq_dec (length us) R) as [El|El]; [right|left; lia]. split; [now rewrite El|]. destruct Rf as [X|[X|X]]; [lia| |exact X]. exfalso. apply X. rewrite El. apply Nat.mod_same. lia. }
      destruct Hc as [Hc|(Hc & ->)].
      + rewrite <- (app_nil_r (concat us)) in A, Ah. destruct (run_seg_ok (mk, rest) pad [] Lp us _ [] [] bs p bufs A Rd Bk Ah Hc) as (bufs' & st' & bs' & E & A' & R' & B' & _).
        rewrite app_nil_r in E. cbn [map run_units] in E. exists bufs', st'. split; [exact E|]. split; [exact B'|]. pose proof (awaits_nil _ _ A') as ->. split; [now apply (scan_ended _ pad)|].
        now apply awaits_marker with (bs := []).
      + destruct (exists_last N0) as (us0 & u & ->). rewrite app_length in Hc, Big. cbn [length] in Hc, Big. rewrite concat_app in *. cbn [concat] in *. rewrite app_nil_r in *.
        destruct (run_seg_ok (217, rest) pad [u] Lp us0 _ u u bs p bufs A Rd Bk Ah) as (bufs1 & st1 & bs1 & E1 & A1 & R1 & B1 & C1 & T1); [cbn [fresh ptodo]; lia|].
        rewrite E1. cbn [map run_units]. rewrite <- (app_nil_r u) in A1, C1.
        destruct (run_list_ok (217, rest) pad Lp u st1 _ _ bs1 _ bufs1 A1 R1 B1 C1) as (bufs2 & st2 & bs2 & E2 & A2 & R2 & B2 & _ & T2).
        rewrite E2, (then_ok _ _ _ _ eq_refl). cbv zeta. cbn [ptodo]. cbn [fresh ptodo] in T1. replace (ptodo st2 - 1 =? 0) with true by (symmetry; apply Z.eqb_eq; lia).
        pose proof (awaits_nil _ _ A2) as ->. cbn [app] in R2.
        destruct (rst_end (PSt (pb st2) (eob st2) (preds st2) (ptodo st2 - 1)) pad rest R2 Lp) as (b & F1 & F2 & F3 & F4 & F5). rewrite (then_ok _ _ _ _ F1).
        eexists _, _. split; [reflexivity|]. split; [rewrite fold_left_app; exact B2|]. cbn [pb]. split; [|intros _; congruence]. split; [exact F4|]. split; [exact F5|]. left. now split.
    - assert (N1 : us <> []) by (destruct us; [cbn in HR; lia|discriminate]).
      apply Forall_app in Ne. destruct Ne as (Ne1 & Ne2). rewrite app_length in Big, Rf. rewrite HR in Rf. rewrite mod_more in Rf by exact R0.
      assert (Cn : concat us <> []) by (destruct us as [|u us]; [congruence|]; inversion Ne1; cbn [concat]; destruct u; [congruence|discriminate]).
      set (mk' := 208 + Z.of_nat i mod 8) in *. assert (Hm : In mk' markers /\ is_rst mk' = true) by apply rst_marker_. destruct Hm as (M1 & M2).
      set (td := if dri h =? 0 then 2 ^ 64 - 1 else dri h) in *.
      assert (Rd : rready (pb (fresh (stuff data ++ repeat 255 (S fill) ++ mk' :: file) td)) (bs ++ pad) (Some (mk', file))).
      { split; [|reflexivity]. rewrite <- Eb. apply (ready_start _ data (repeat 255 (S fill) ++ mk' :: file)); [reflexivity|now exists fill|exact B|lia|lia]. }
      pose proof (fresh_awaits (stuff data ++ repeat 255 (S fill) ++ mk' :: file) td _ _ Cn Co) as A.
      assert (Htd : td = Z.of_nat R) by (unfold td; rewrite Hdri; replace (Z.of_nat R =? 0) with false by (symmetry; apply Z.eqb_neq; lia); reflexivity).
      rewrite concat_app in *. destruct (exists_last N1) as (us0 & u & ->). rewrite app_length in HR, Big. cbn [length] in HR, Big. rewrite concat_app in *. cbn [concat] in *. rewrite app_nil_r in *. rewrite <- app_assoc in Ah.
      destruct (run_seg_ok (mk', file) pad (u :: us') Lp us0 _ u (u ++ concat us') bs p bufs A Rd Bk Ah) as (bufs1 & st1 & bs1 & E1 & A1 & R1 & B1 & C1 & T1); [cbn [fresh ptodo]; lia|].
      rewrite <- app_assoc. cbn [app]. rewrite E1. cbn [map run_units]. rewrite <- (app_nil_r u) in A1.
      destruct (run_list_ok (mk', file) pad Lp u st1 _ _ bs1 _ bufs1 A1 R1 B1 C1) as (bufs2 & st2 & bs2 & E2 & A2 & R2 & B2 & C2 & T2).
      rewrite E2, (then_ok _ _ _ _ eq_refl). cbv zeta. cbn [ptodo]. cbn [fresh ptodo] in T1. replace (ptodo st2 - 1 =? 0) with true by (symmetry; apply Z.eqb_eq; lia).
      pose proof (awaits_nil _ _ A2) as ->. cbn [app] in R2. pose proof (proj1 A2) as Lp2.
      rewrite (then_ok _ _ _ _ (rst_ok (PSt (pb st2) (eob st2) (preds st2) (ptodo st2 - 1)) pad mk' file R2 Lp M2 Lp2)).
      destruct (IH (fold_left (learn s) u (fold_left (learn s) (concat us0) p)) bufs2) as (bufs' & st' & G1 & G2 & G3 & G4); try assumption.
      + now apply tail_bytes in B.
      + lia.
      + exists bufs', st'. replace (dri h) with td at 1 by (rewrite Htd, Hdri; reflexivity). split; [exact G1|]. split; [|split; [exact G3|exact G4]].
        rewrite <- app_assoc, !fold_left_app. exact G2.
  Qed.
End Scan.
