(** The tables zune-jpeg builds for Huffman decoding *)
From Verif Require Import Base BaseProof Loops Slices Bits JpegSimd JpegHuffModel JpegIdctSpec JpegHuffSpec.

(** * Codes as intervals of 16-bit windows *)
Definition wt (s : Z) : Z := 2 ^ (16 - s).
Fixpoint sumw (l : list Z) : Z := match l with [] => 0 | s :: l' => wt s + sumw l' end.
Definition start (S : list Z) (p : nat) : Z := sumw (firstn p S).
Lemma wt_pos s : s <= 16 -> 0 < wt s.
Proof. intros H. unfold wt. apply Z.pow_pos_nonneg; lia. Qed.
Lemma sumw_app a b : sumw (a ++ b) = sumw a + sumw b.
Proof. induction a; cbn [sumw app]; lia. Qed.
Lemma start_S S : forall p, (p < length S)%nat -> start S (p + 1) = start S p + wt (nth p S 0).
Proof.
  unfold start. induction S as [|s S IH]; cbn [length]; intros p H; [lia|].
  destruct p as [|p]; cbn [Nat.add firstn sumw nth]; [lia|]. rewrite IH by lia. lia.
Qed.
Lemma start_mono S : Forall (fun s => 1 <= s <= 16) S -> forall p q, (p <= q)%nat -> start S p <= start S q.
Proof.
  unfold start. intros F p q H. replace q with (p + (q - p))%nat by lia. generalize (q - p)%nat. clear q H. intros d.
  revert p d. induction F as [|s S Hs F IH]; intros p d; [now rewrite !firstn_nil|].
  pose proof (wt_pos s ltac:(lia)). destruct p as [|p]; cbn [firstn sumw Nat.add].
  - destruct d as [|d]; cbn [firstn sumw]; [lia|]. specialize (IH 0%nat d). cbn [firstn sumw Nat.add] in IH. lia.
  - specialize (IH p d). lia.
Qed.
Lemma start_0 S : start S 0 = 0.
Proof. reflexivity. Qed.

Fixpoint sorted_from (prev : Z) (S : list Z) : Prop :=
  match S with [] => True | s :: S' => prev <= s <= 16 /\ sorted_from s S' end.
Lemma assign_codes S : forall prev next base, 0 <= prev -> sorted_from prev S -> next * 2 ^ (16 - prev) = base ->
  length (assign prev next S) = length S /\
  forall p s c, nth_error (assign prev next S) p = Some (s, c) -> s = nth p S 0 /\ c * wt s = base + start S p.
Proof.
  induction S as [|s0 S IH]; intros prev next base P0 F E; cbn [assign length].
  - split; [reflexivity|]. intros [|p] s c H; discriminate H.
  - destruct F as (Hs & F).
    assert (E1 : next * 2 ^ (s0 - prev) * wt s0 = base).
    { rewrite <- E. unfold wt. rewrite <- Z.mul_assoc, <- Z.pow_add_r by lia. do 2 f_equal. lia. }
    destruct (IH s0 (next * 2 ^ (s0 - prev) + 1) (base + wt s0)) as (L & G); [lia|exact F| |].
    { rewrite Z.mul_add_distr_r. fold (wt s0). rewrite E1. lia. }
    split; [now rewrite L|]. intros [|p] s c H; cbn [nth_error nth] in *.
    + injection H as <- <-. split; [reflexivity|]. rewrite E1, start_0. lia.
    + apply G in H. destruct H as (H1 & H2). split; [exact H1|]. rewrite H2. unfold start. cbn [firstn sumw]. lia.
Qed.
Lemma sizes_sorted counts : forall l, 0 <= l -> l + Z.of_nat (length counts) <= 17 -> sorted_from l (sizes_from l counts).
Proof.
  induction counts as [|n counts IH]; intros l H0 H; cbn [sizes_from length] in *; [exact I|].
  assert (G : forall k S, sorted_from (l + 1) S -> sorted_from l (repeat l k ++ S)).
  { induction k as [|k IHk]; intros S HS; cbn [repeat app sorted_from].
    - destruct S as [|x S]; [exact I|]. destruct HS as (A & B). split; [lia|exact B].
    - split; [lia|]. now apply IHk. }
  apply G. apply IH; lia.
Qed.
Lemma sizes_bounds counts : forall l, Forall (fun s => l <= s < l + Z.of_nat (length counts)) (sizes_from l counts).
Proof.
  induction counts as [|n counts IH]; intros l; cbn [sizes_from length]; [constructor|].
  apply Forall_app. split.
  - apply Forall_forall. intros x Hx. apply repeat_spec in Hx. lia.
  - eapply Forall_impl; [|apply IH]. cbv beta. intros. lia.
Qed.
Lemma nth_rep {A} (x d : A) n i : (i < n)%nat -> nth i (repeat x n) d = x.
Proof. revert i. induction n as [|n IH]; intros i H; [lia|]. destruct i; cbn [repeat nth]; [reflexivity|]. apply IH. lia. Qed.
(** Number of codes with at most [j] bits *)
Definition cum (counts : list Z) (j : nat) : nat := length (sizes_from 1 (firstn j counts)).
Lemma sizes_length counts : forall l l', length (sizes_from l counts) = length (sizes_from l' counts).
Proof. induction counts as [|n counts IH]; intros l l'; cbn [sizes_from]; [reflexivity|]. now rewrite !app_length, !repeat_length, (IH (l + 1) (l' + 1)). Qed.
Lemma cum_S counts j : (j < length counts)%nat -> cum counts (j + 1) = (cum counts j + Z.to_nat (nth j counts 0%Z))%nat.
Proof.
  unfold cum. generalize 1. revert j. induction counts as [|n counts IH]; cbn [length]; intros j l H; [lia|].
  destruct j as [|j]; cbn [Nat.add firstn sizes_from nth]; rewrite ?app_length, ?repeat_length; cbn [length].
  - lia.
  - rewrite IH by lia. lia.
Qed.
Lemma cum_le counts j : (cum counts j <= length (sizes_from 1 counts))%nat.
Proof.
  unfold cum. generalize 1. revert j. induction counts as [|n counts IH]; intros j l.
  - now rewrite firstn_nil.
  - destruct j as [|j]; cbn [firstn sizes_from length]; [lia|]. rewrite !app_length. specialize (IH j (l + 1)). lia.
Qed.
Lemma cum_all counts j : (length counts <= j)%nat -> cum counts j = length (sizes_from 1 counts).
Proof. intros H. unfold cum. now rewrite firstn_all2. Qed.
Lemma size_cum counts q j : (q < length (sizes_from 1 counts))%nat ->
  nth q (sizes_from 1 counts) 0 <= Z.of_nat j <-> (q < cum counts j)%nat.
Proof.
  unfold cum. assert (G : forall l, (q < length (sizes_from l counts))%nat ->
    nth q (sizes_from l counts) 0 < l + Z.of_nat j <-> (q < length (sizes_from l (firstn j counts)))%nat).
  { revert q j. induction counts as [|n counts IH]; intros q j l H; cbn [sizes_from length] in H; [lia|].
    cbn [sizes_from]. destruct j as [|j]; cbn [firstn sizes_from length].
    - split; [|lia]. intros A. exfalso. pose proof (sizes_bounds (n :: counts) l) as F. cbn [sizes_from] in F.
      rewrite Forall_forall in F. specialize (F _ (nth_In _ 0 H)). lia.
    - rewrite app_length, repeat_length in *. destruct (Nat.lt_ge_cases q (Z.to_nat n)) as [C|C].
      + rewrite app_nth1 by (rewrite repeat_length; lia). rewrite nth_rep by lia. split; intros; lia.
      + rewrite app_nth2 by (rewrite repeat_length; lia). rewrite repeat_length.
        specialize (IH (q - Z.to_nat n)%nat j (l + 1) ltac:(lia)). split; intros; [|]; intuition lia. }
  intros H. specialize (G 1 H). rewrite <- G. lia.
Qed.

(** * Short values with their codes *)
Definition pack (k run n : Z) : Z := i16 (i16 (Z.shiftl k 8) + i16 (Z.shiftl run 4) + n).
Definition small_value (j : nat) (len mag : Z) : Z :=
  let k := Z.shiftr (Z.land (i16 (Z.shiftl (Z.of_nat j) len)) 511) (9 - mag) in
  if k <? Z.shiftl 1 (mag - 1) then i16 (k + (i16 (Z.shiftl (-1) mag) + 1)) else k.
Definition fast_of (j : nat) (len rs : Z) : Z :=
  let run := Z.land (Z.shiftr rs 4) 15 in
  let mag := Z.land rs 15 in
  if negb (mag =? 0) && (len + mag <=? 9) then
    if (-128 <=? small_value j len mag) && (small_value j len mag <=? 127) then pack (small_value j len mag) run (len + mag) else 0
  else 0.
Lemma fast_entry_eq hs values j f : (255 <= f \/ 0 <= f /\ (Z.to_nat f < length hs)%nat /\ (Z.to_nat f < length values)%nat) ->
  fast_entry hs values j f = Ok (if f <? 255 then fast_of j (nth (Z.to_nat f) hs 0) (nth (Z.to_nat f) values 0) else 0).
Proof.
  intros H. unfold fast_entry. destruct (Z.ltb_spec f 255) as [C|C]; [|reflexivity].
  destruct H as [H|(H0 & H1 & H2)]; [lia|]. rewrite !(get_at_ok _ _ 0) by lia. cbn [bind].
  unfold fast_of. cbv zeta. destruct (negb _ && _); [|reflexivity]. unfold small_value, pack. cbv zeta.
  destruct (_ && _); reflexivity.
Qed.
Definition pack_check (k' run n : Z) : bool :=
  let k := k' - 128 in let e := pack k run n in
  (Z.land (Z.shiftr e 4) 15 =? run) && (Z.shiftr e 8 =? k) && (Z.land e 15 =? n).
Lemma pack_parts k run n : -128 <= k <= 127 -> 0 <= run < 16 -> 0 <= n < 16 ->
  let e := pack k run n in Z.land (Z.shiftr e 4) 15 = run /\ Z.shiftr e 8 = k /\ Z.land e 15 = n.
Proof.
  intros Hk Hr Hn.
  assert (A : forallb (fun k => forallb (fun r => forallb (fun n => pack_check k r n) (zrange 16)) (zrange 16)) (zrange 256) = true)
    by (vm_compute; reflexivity).
  pose proof (sweep _ 256 A (k + 128) ltac:(lia)) as A1. cbv beta in A1.
  pose proof (sweep _ 16 A1 run ltac:(lia)) as A2. cbv beta in A2. pose proof (sweep _ 16 A2 n ltac:(lia)) as A3. clear A A1 A2.
  unfold pack_check in A3. replace (k + 128 - 128) with k in A3 by lia. cbv zeta in *.
  apply andb_prop in A3. destruct A3 as [A3 A5]. apply andb_prop in A3. destruct A3 as [A3 A4].
  split; [|split]; now apply Z.eqb_eq.
Qed.
Definition small_check (j' s mag : Z) : bool :=
  let j := Z.to_nat j' in
  negb ((1 <=? s) && (1 <=? mag) && (s + mag <=? 9)) ||
  (small_value j s mag =? huff_extend ((j' mod 2 ^ (9 - s)) / 2 ^ (9 - s - mag)) mag).
Lemma small_value_ok j s mag : (j < 512)%nat -> 1 <= s -> 1 <= mag -> s + mag <= 9 ->
  small_value j s mag = huff_extend ((Z.of_nat j mod 2 ^ (9 - s)) / 2 ^ (9 - s - mag)) mag.
Proof.
  intros Hj Hs Hm H.
  assert (A : forallb (fun j => forallb (fun s => forallb (fun m => small_check j s m) (zrange 9)) (zrange 9)) (zrange 512) = true)
    by (vm_compute; reflexivity).
  pose proof (sweep _ 512 A (Z.of_nat j) ltac:(lia)) as A1. cbv beta in A1.
  pose proof (sweep _ 9 A1 s ltac:(lia)) as A2. cbv beta in A2. pose proof (sweep _ 9 A2 mag ltac:(lia)) as A3. clear A A1 A2.
  unfold small_check in A3. rewrite Nat2Z.id in A3. cbv zeta in A3.
  replace ((1 <=? s) && (1 <=? mag) && (s + mag <=? 9)) with true in A3 by lia. now apply Z.eqb_eq in A3.
Qed.
Lemma fast_of_parts j len rs : (j < 512)%nat -> 1 <= len -> 0 <= rs < 256 -> fast_of j len rs <> 0 ->
  let e := fast_of j len rs in let mag := Z.land rs 15 in
  1 <= mag /\ len + mag <= 9 /\ Z.land (Z.shiftr e 4) 15 = Z.shiftr rs 4 /\ Z.land e 15 = len + mag /\
  Z.shiftr e 8 = huff_extend ((Z.of_nat j mod 2 ^ (9 - len)) / 2 ^ (9 - len - mag)) mag.
Proof.
  intros Hj Hl Hrs. unfold fast_of. cbv zeta.
  assert (M : 0 <= Z.land rs 15 < 16) by (change 15 with (2 ^ 4 - 1); rewrite land_low by lia; change (2 ^ 4) with 16; lia).
  assert (R : Z.land (Z.shiftr rs 4) 15 = Z.shiftr rs 4 /\ 0 <= Z.shiftr rs 4 < 16).
  { rewrite Z.shiftr_div_pow2 by lia. change (2 ^ 4) with 16. change 15 with (2 ^ 4 - 1). rewrite land_low by lia. change (2 ^ 4) with 16.
    split; [apply Z.mod_small|]; lia. }
  destruct R as (R & R1). rewrite R. set (mag := Z.land rs 15) in *. set (run := Z.shiftr rs 4) in *. clearbody mag run.
  destruct (Z.eqb_spec mag 0) as [Em|Em]; cbn [negb andb]; [now intros []|].
  destruct (Z.leb_spec (len + mag) 9) as [C|C]; [|now intros []].
  destruct ((-128 <=? small_value j len mag) && (small_value j len mag <=? 127)) eqn:E; [|now intros []]. intros _.
  destruct (pack_parts (small_value j len mag) run (len + mag)) as (P1 & P2 & P3); [lia|lia|lia|].
  rewrite P1, P2, P3. rewrite small_value_ok by lia. repeat split; lia.
Qed.

(** * The loops *)
Section Table.
  Variable counts values : list Z.
  Hypothesis LC : length counts = 16%nat.
  Hypothesis PC : Forall (fun n => 0 <= n) counts.
  Let Sz := sizes_from 1 counts.
  Let N := length Sz.
  Hypothesis HN : (N <= 256)%nat.
  Hypothesis LV : length values = 256%nat.
  Hypothesis BV : bytes values.
  Let st := start Sz.
  Let hs := Sz ++ repeat 0 (257 - N).

  Lemma Sz_bounds : Forall (fun s => 1 <= s <= 16) Sz.
  Proof. eapply Forall_impl; [|apply (sizes_bounds counts 1)]. cbv beta. rewrite LC. intros. lia. Qed.
  Lemma Sz_nth p : (p < N)%nat -> 1 <= nth p Sz 0 <= 16.
  Proof. intros H. pose proof Sz_bounds as F. rewrite Forall_forall in F. apply F, nth_In. exact H. Qed.
  Lemma hs_len : length hs = 257%nat.
  Proof. unfold hs. rewrite app_length, repeat_length. fold N. lia. Qed.
  Lemma hs_nth p : (p < N)%nat -> nth p hs 0 = nth p Sz 0.
  Proof. intros H. unfold hs. now rewrite app_nth1 by exact H. Qed.
  Lemma hs_end p : (N <= p <= 256)%nat -> nth p hs 0 = 0.
  Proof. intros H. unfold hs. rewrite app_nth2 by (fold N; lia). fold N. rewrite nth_rep by lia. reflexivity. Qed.
  Lemma st_mono p q : (p <= q)%nat -> st p <= st q.
  Proof. apply start_mono, Sz_bounds. Qed.
  Lemma st_S p : (p < N)%nat -> st (p + 1) = st p + wt (nth p Sz 0).
  Proof. intros H. now apply start_S. Qed.
  Lemma Sz_cum q j : (q < N)%nat -> nth q Sz 0 <= Z.of_nat j <-> (q < cum counts j)%nat.
  Proof. intros H. now apply size_cum. Qed.
  Lemma cum_N j : (cum counts j <= N)%nat.
  Proof. apply cum_le. Qed.

  (** codes written so far *)
  Definition coded (hc : list Z) (p : nat) : Prop :=
    length hc = 257%nat /\ forall q, (q < p)%nat -> nth q hc 0 * wt (nth q Sz 0) = st q.
  Lemma same_size_ok fuel : forall si p code hc, 1 <= si <= 16 -> (p <= N)%nat -> (N - p < fuel)%nat ->
    (forall q, (p <= q < N)%nat -> si <= nth q Sz 0) ->
    code * wt si = st p -> coded hc p ->
    exists p' code' hc', same_size fuel hs si p code hc = Ok (p', code', hc') /\ (p <= p' <= N)%nat /\
      p' = Nat.max p (cum counts (Z.to_nat si)) /\ code' * wt si = st p' /\ coded hc' p'.
  Proof.
    induction fuel as [|f IH]; intros si p code hc Hsi Hp Hf Hq Hc (Lh & Hh); [lia|]. cbn [same_size].
    rewrite (get_at_ok _ _ 0) by (rewrite hs_len; lia). cbn [bind].
    destruct (Nat.eq_dec p N) as [->|Hne].
    - rewrite hs_end by lia. replace (0 =? si) with false by lia.
      exists N, code, hc. pose proof (cum_N (Z.to_nat si)). split; [reflexivity|]. split; [lia|]. split; [lia|]. split; [exact Hc|now split].
    - assert (Hlt : (p < N)%nat) by lia. rewrite hs_nth by exact Hlt.
      pose proof (Sz_cum p (Z.to_nat si) Hlt) as SC. rewrite Z2Nat.id in SC by lia. specialize (Hq p ltac:(lia)) as Hqp.
      destruct (Z.eqb_spec (nth p Sz 0) si) as [E|E].
      + rewrite set_at_ok by lia. cbn [bind].
        destruct (IH si (p + 1)%nat (code + 1) (upd hc p code)) as (p' & code' & hc' & R & R1 & R2 & R3 & R4); [lia|lia|lia| | | |].
        * intros q Hqq. apply Hq. lia.
        * rewrite st_S by exact Hlt. rewrite E. lia.
        * split; [now rewrite upd_length|]. intros q Hqq. destruct (Nat.eq_dec q p) as [->|Hn].
          -- rewrite upd_nth_same by lia. rewrite E. exact Hc.
          -- rewrite upd_nth_other by lia. apply Hh. lia.
        * exists p', code', hc'. split; [exact R|]. split; [lia|]. split; [|now split]. lia.
      + exists p, code, hc. split; [reflexivity|]. split; [lia|]. split; [lia|]. split; [exact Hc|now split].
  Qed.
  Definition maxed (mc : list Z) (k : nat) : Prop :=
    length mc = 18%nat /\ forall l, (1 <= l < k)%nat -> nth (l - 1) counts 0 <> 0 -> nth l mc 0 = st (cum counts l).
  Lemma cum_mono i j : (i <= j <= 16)%nat -> (cum counts i <= cum counts j)%nat.
  Proof.
    intros H. replace j with (i + (j - i))%nat by lia. assert (B : (i + (j - i) <= 16)%nat) by lia. revert B. generalize (j - i)%nat.
    intros d. induction d as [|d IH]; intros B; [now rewrite Nat.add_0_r|].
    replace (i + S d)%nat with (i + d + 1)%nat by lia. rewrite cum_S by lia. specialize (IH ltac:(lia)). lia.
  Qed.
  Lemma cum_step l : (1 <= l <= 16)%nat -> cum counts l = (cum counts (l - 1) + Z.to_nat (nth (l - 1) counts 0%Z))%nat.
  Proof. intros H. replace l with (l - 1 + 1)%nat at 1 by lia. apply cum_S. lia. Qed.
  Lemma count_nonneg l : 0 <= nth l counts 0.
  Proof.
    destruct (Nat.lt_ge_cases l (length counts)) as [H|H]; [|rewrite nth_overflow by exact H; lia].
    rewrite Forall_forall in PC. apply PC, nth_In, H.
  Qed.
  Lemma cum_lt_count l : (1 <= l <= 16)%nat -> nth (l - 1) counts 0 <> 0 <-> (cum counts (l - 1) < cum counts l)%nat.
  Proof. intros H. rewrite (cum_step l H). pose proof (count_nonneg (l - 1)). lia. Qed.
  Lemma all_codes_ok fuel : forall si p code hc mc, 1 <= si -> (p <= N)%nat -> 17 - si < Z.of_nat fuel ->
    (p = N \/ si <= 16 /\ code * wt si = st p) -> p = cum counts (Z.to_nat (si - 1)) -> (si <= 17) ->
    coded hc p -> maxed mc (Z.to_nat si) -> st p < 2 ^ 16 ->
    (st N < 2 ^ 16 -> exists hc' mc', all_codes fuel hs si p code hc mc = Ok (hc', mc') /\ coded hc' N /\ maxed mc' 17) /\
    (2 ^ 16 <= st N -> all_codes fuel hs si p code hc mc = Err EOther).
  Proof.
    induction fuel as [|f IH]; intros si p code hc mc Hsi Hp Hf Hc Ep Hs17 Ch Mm Hst; [lia|]. cbn [all_codes].
    rewrite (get_at_ok _ _ 0) by (rewrite hs_len; lia). cbn [bind].
    destruct (Nat.eq_dec p N) as [EN|Hne].
    - rewrite hs_end by lia. change (0 =? 0) with true. cbv iota. split; [|intros X; rewrite EN in Hst; lia].
      intros _. exists hc, mc. split; [reflexivity|]. split; [now rewrite <- EN|]. destruct Mm as (M1 & M2). split; [exact M1|].
      intros l Hl Hn. destruct (Nat.lt_ge_cases l (Z.to_nat si)) as [C|C]; [apply M2; [lia|exact Hn]|].
      exfalso. apply (cum_lt_count l ltac:(lia)) in Hn. pose proof (cum_mono (Z.to_nat (si - 1)) (l - 1) ltac:(lia)).
      pose proof (cum_N l). lia.
    - assert (Hlt : (p < N)%nat) by lia. destruct Hc as [Hc|(Hc1 & Hc)]; [lia|]. rewrite hs_nth by exact Hlt.
      pose proof (Sz_nth p Hlt) as B. replace (nth p Sz 0 =? 0) with false by lia.
      destruct (same_size_ok 300 si p code hc) as (p' & code' & hc' & R & R1 & R2 & R3 & R4); [lia|lia|lia| |exact Hc|exact Ch|].
      { intros q Hq. destruct (Z.le_gt_cases si (nth q Sz 0)) as [Y|Y]; [exact Y|exfalso].
        pose proof (proj1 (Sz_cum q (Z.to_nat (si - 1)) ltac:(lia))). lia. }
      rewrite R. cbn [bind]. replace (16 <? si) with false by lia. destruct Mm as (M1 & M2).
      rewrite set_at_ok by lia. cbn [bind].
      assert (E' : p' = cum counts (Z.to_nat si)).
      { pose proof (cum_mono (Z.to_nat (si - 1)) (Z.to_nat si) ltac:(lia)). lia. }
      assert (P2 : 2 ^ si * wt si = 2 ^ 16) by (unfold wt; rewrite <- Z.pow_add_r by lia; f_equal; lia).
      pose proof (wt_pos si ltac:(lia)) as Wp.
      rewrite !Z.shiftl_mul_pow2 by lia. rewrite Z.mul_1_l. fold (wt si). rewrite R3.
      destruct (Z.leb_spec (2 ^ si) code') as [C|C].
      + split; [|reflexivity]. intros X. exfalso. pose proof (st_mono p' N ltac:(lia)). nia.
      + assert (st p' < 2 ^ 16) by nia.
        apply IH.
        * lia.
        * lia.
        * lia.
        * destruct (Nat.eq_dec p' N) as [|Hn]; [now left|right].
          pose proof (Sz_nth p' ltac:(lia)). pose proof (proj2 (Sz_cum p' (Z.to_nat si) ltac:(lia))).
          pose proof (proj1 (Sz_cum p' (Z.to_nat si) ltac:(lia))). split; [lia|].
          rewrite <- R3. unfold wt. replace (16 - si) with (1 + (16 - (si + 1))) by lia. rewrite Z.pow_add_r by lia. lia.
        * rewrite E'. f_equal. lia.
        * lia.
        * exact R4.
        * split; [now rewrite upd_length|]. intros l Hl Hn. destruct (Nat.eq_dec l (Z.to_nat si)) as [->|Hx].
          -- rewrite upd_nth_same by lia. now rewrite E'.
          -- rewrite upd_nth_other by lia. apply M2; [lia|exact Hn].
        * assumption.
  Qed.

  Lemma offsets_ok : forall rest l mc off hc, (l + length rest = 17)%nat -> (1 <= l)%nat -> rest = skipn (l - 1) counts ->
    coded hc N -> length mc = 18%nat -> length off = 18%nat ->
    exists mc' off', offsets l rest (cum counts (l - 1)) hc mc off = Ok (mc', off') /\ length mc' = 18%nat /\ length off' = 18%nat /\
      (forall k, (k < l \/ 16 < k)%nat -> nth k mc' 0 = nth k mc 0 /\ nth k off' 0 = nth k off 0) /\
      (forall k, (l <= k <= 16)%nat -> nth (k - 1) counts 0 = 0 -> nth k mc' 0 = -1) /\
      (forall k, (l <= k <= 16)%nat -> nth (k - 1) counts 0 <> 0 -> nth k mc' 0 = nth k mc 0 /\
         nth k off' 0 = Z.of_nat (cum counts (k - 1)) - nth (cum counts (k - 1)) hc 0).
  Proof.
    induction rest as [|b rest IH]; intros l mc off hc Hl H1 Er Ch Lm Lo; cbn [offsets length] in *.
    - exists mc, off. repeat split; auto; intros; lia.
    - assert (Eb : b = nth (l - 1) counts 0 /\ rest = skipn (l + 1 - 1) counts).
      { clear -Er Hl H1 LC. replace (l + 1 - 1)%nat with (S (l - 1)) by lia. assert (l - 1 < length counts)%nat by lia.
        revert Er H. generalize (l - 1)%nat as k. clear. intros k. revert k. induction counts as [|c cs IH]; intros k; cbn [length]; [lia|].
        destruct k as [|k]; cbn [skipn nth].
        - intros [=-> ->] _. now split.
        - intros E H. apply IH; [exact E|lia]. }
      destruct Eb as (Eb & Er'). assert (Ec : cum counts l = (cum counts (l - 1) + Z.to_nat b)%nat) by (rewrite Eb; apply cum_step; lia).
      destruct (Z.eqb_spec b 0) as [E|E].
      + rewrite set_at_ok by lia. cbn [bind]. replace (cum counts (l - 1)) with (cum counts (l + 1 - 1)) by (replace (l + 1 - 1)%nat with l by lia; lia).
        destruct (IH (l + 1)%nat (upd mc l (-1)) off hc) as (mc' & off' & R & R1 & R2 & R3 & R4 & R5);
          [lia|lia|exact Er'|exact Ch|now rewrite upd_length|exact Lo|].
        exists mc', off'. split; [exact R|]. split; [exact R1|]. split; [exact R2|]. split; [|split].
        * intros k Hk. destruct (R3 k ltac:(lia)) as (A & B). split; [|exact B]. rewrite A. apply upd_nth_other. lia.
        * intros k Hk Hz. destruct (Nat.eq_dec k l) as [->|Hn]; [|apply R4; [lia|exact Hz]].
          destruct (R3 l ltac:(lia)) as (A & _). rewrite A. apply upd_nth_same. lia.
        * intros k Hk Hz. destruct (Nat.eq_dec k l) as [->|Hn]; [lia|].
          destruct (R5 k ltac:(lia) Hz) as (A & B). split; [|exact B]. rewrite A. apply upd_nth_other. lia.
      + destruct Ch as (Lh & Hh). pose proof (cum_N l). pose proof (count_nonneg (l - 1)).
        rewrite (get_at_ok _ _ 0) by lia. cbn [bind]. rewrite set_at_ok by lia. cbn [bind].
        rewrite <- Ec. replace (cum counts l) with (cum counts (l + 1 - 1)) by (f_equal; lia).
        destruct (IH (l + 1)%nat mc (upd off l (Z.of_nat (cum counts (l - 1)) - nth (cum counts (l - 1)) hc 0)) hc)
          as (mc' & off' & R & R1 & R2 & R3 & R4 & R5); [lia|lia|exact Er'|now split|exact Lm|now rewrite upd_length|].
        exists mc', off'. split; [exact R|]. split; [exact R1|]. split; [exact R2|]. split; [|split].
        * intros k Hk. destruct (R3 k ltac:(lia)) as (A & B). split; [exact A|]. rewrite B. apply upd_nth_other. lia.
        * intros k Hk Hz. destruct (Nat.eq_dec k l) as [->|Hn]; [lia|apply R4; [lia|exact Hz]].
        * intros k Hk Hz. destruct (Nat.eq_dec k l) as [->|Hn].
          -- destruct (R3 l ltac:(lia)) as (A & B). split; [exact A|]. rewrite B. apply upd_nth_same. lia.
          -- destruct (R5 k ltac:(lia) Hz) as (A & B). split; [exact A|exact B].
  Qed.
  Lemma fill_ok n : forall i x t, (i + n <= length t)%nat ->
    exists t', fill n i x t = Ok t' /\ length t' = length t /\ forall j, nth j t' 0 = if ((i <=? j) && (j <? i + n))%nat then x else nth j t 0.
  Proof.
    induction n as [|n IH]; intros i x t H; cbn [fill].
    - exists t. split; [reflexivity|]. split; [reflexivity|]. intros j. now replace ((i <=? j) && (j <? i + 0))%nat with false by lia.
    - rewrite set_at_ok by lia. cbn [bind]. destruct (IH (i + 1)%nat x (upd t i x)) as (t' & R & R1 & R2); [rewrite upd_length; lia|].
      exists t'. split; [exact R|]. split; [now rewrite R1, upd_length|]. intros j. rewrite R2.
      destruct (Nat.eq_dec j i) as [->|Hn].
      + rewrite upd_nth_same by lia. replace ((i + 1 <=? i) && (i <? i + 1 + n))%nat with false by lia.
        now replace ((i <=? i) && (i <? i + S n))%nat with true by lia.
      + rewrite upd_nth_other by lia. now replace ((i + 1 <=? j) && (j <? i + 1 + n))%nat with ((i <=? j) && (j <? i + S n))%nat by lia.
  Qed.
  (** a table of 9-bit windows after the first [m] symbols *)
  Definition windows (f : nat -> Z) (d : Z) (m : nat) (t : list Z) : Prop :=
    length t = 512%nat /\ forall j, (j < 512)%nat ->
      (forall p, (p < m)%nat -> st p <= 128 * Z.of_nat j < st (p + 1) -> nth j t 0 = f p) /\ (st m <= 128 * Z.of_nat j -> nth j t 0 = d).
  Lemma fill_window f d p hc t : (p < N)%nat -> nth p Sz 0 <= 9 -> coded hc N -> st N < 2 ^ 16 -> windows f d p t ->
    exists t', fill (Z.to_nat (Z.shiftl 1 (9 - nth p Sz 0))) (Z.to_nat (Z.shiftl (nth p hc 0) (9 - nth p Sz 0))) (f p) t = Ok t' /\
      windows f d (S p) t'.
  Proof.
    intros Hp H9 (Lh & Hh) HS (Lt & W). pose proof (Sz_nth p Hp) as B. pose proof (st_S p Hp) as E. pose proof (st_mono (p + 1) N ltac:(lia)) as M.
    pose proof (Hh p Hp) as Ec. set (s := nth p Sz 0) in *. rewrite !Z.shiftl_mul_pow2 by lia. rewrite Z.mul_1_l.
    assert (P : wt s = 128 * 2 ^ (9 - s)) by (unfold wt; replace (16 - s) with (7 + (9 - s)) by lia; rewrite Z.pow_add_r by lia; reflexivity).
    set (w := 2 ^ (9 - s)) in *. assert (Pw : 0 < w) by (apply Z.pow_pos_nonneg; lia). set (c := nth p hc 0) in *.
    assert (S0 : 0 <= st p) by (pose proof (st_mono 0 p ltac:(lia)) as X; change (st 0) with 0 in X; lia).
    assert (Ecw : st p = 128 * (c * w)) by (rewrite <- Ec, P; lia). set (cw := c * w) in *. clearbody w cw s. clear c Ec Hh.
    assert (H512 : cw + w < 512) by lia.
    destruct (fill_ok (Z.to_nat w) (Z.to_nat cw) (f p) t) as (t' & R & R1 & R2); [lia|].
    exists t'. split; [exact R|]. split; [lia|]. intros j Hj. rewrite R2. destruct (W j Hj) as (W1 & W2). replace (S p) with (p + 1)%nat by lia. split.
    - intros q Hq Hst. destruct (Nat.eq_dec q p) as [->|Hn].
      + now replace ((Z.to_nat cw <=? j) && (j <? Z.to_nat cw + Z.to_nat w))%nat with true by lia.
      + pose proof (st_mono (q + 1) p ltac:(lia)).
        replace ((Z.to_nat cw <=? j) && (j <? Z.to_nat cw + Z.to_nat w))%nat with false by lia. apply W1; [lia|exact Hst].
    - intros Hst. replace ((Z.to_nat cw <=? j) && (j <? Z.to_nat cw + Z.to_nat w))%nat with false by lia. apply W2. lia.
  Qed.
  Lemma windows_0 f d : windows f d 0 (repeat d 512).
  Proof.
    split; [apply repeat_length|]. intros j Hj. split; [intros; lia|]. intros _. now apply nth_rep.
  Qed.
  Definition entry (p : nat) : Z := Z.lor (Z.shiftl (nth p Sz 0) 9) (nth p values 0).
  Lemma fill_lookup_ok hc : coded hc N -> st N < 2 ^ 16 ->
    exists t, fill_lookup hs hc values (cum counts 9) (repeat (Z.shiftl 10 9) 512) = Ok t /\ windows entry (Z.shiftl 10 9) (cum counts 9) t.
  Proof.
    intros Ch HS. unfold fill_lookup. pose proof (cum_N 9).
    apply (for_range_inv (fun p t => windows entry (Z.shiftl 10 9) p t)); [lia|apply windows_0|].
    intros p t Hp W. pose proof (proj2 (Sz_cum p 9 ltac:(lia)) ltac:(lia)).
    rewrite (get_at_ok hs _ 0) by (rewrite hs_len; lia). cbn [bind]. rewrite hs_nth by lia.
    rewrite (get_at_ok hc _ 0) by (destruct Ch; lia). cbn [bind]. rewrite (get_at_ok values _ 0) by lia. cbn [bind].
    apply (fill_window entry _ p hc t); auto; lia.
  Qed.
  Lemma fill_fast_ok hc : coded hc N -> st N < 2 ^ 16 ->
    exists t, fill_fast hs hc N (repeat 255 512) = Ok t /\ windows Z.of_nat 255 (cum counts 9) t.
  Proof.
    intros Ch HS. unfold fill_fast. pose proof (cum_N 9).
    destruct (for_range_inv (fun p t => windows Z.of_nat 255 (Nat.min p (cum counts 9)) t) 0 N
      (fun i t => do s <- get_at hs i; do c <- get_at hc i;
        if s <=? 9 then fill (Z.to_nat (Z.shiftl 1 (9 - s))) (Z.to_nat (Z.shiftl c (9 - s))) (Z.of_nat i) t else Ok t) (repeat 255 512))
      as (t & R & W); [lia|apply windows_0| |].
    - intros p t Hp W. rewrite (get_at_ok hs _ 0) by (rewrite hs_len; lia). cbn [bind]. rewrite hs_nth by lia.
      rewrite (get_at_ok hc _ 0) by (destruct Ch; lia). cbn [bind]. pose proof (Sz_cum p 9 ltac:(lia)) as SC.
      destruct (Z.leb_spec (nth p Sz 0) 9) as [C|C].
      + rewrite Nat.min_l in W by lia. rewrite Nat.min_l by lia. apply (fill_window Z.of_nat 255 p hc t); auto; lia.
      + exists t. split; [reflexivity|]. rewrite Nat.min_r in W by lia. rewrite Nat.min_r by lia. exact W.
    - exists t. split; [exact R|]. rewrite Nat.min_r in W by lia. exact W.
  Qed.

  Lemma fast_entries_ok fast : forall i, (forall f, In f fast -> 255 <= f \/ 0 <= f < 256) ->
    exists a, fast_entries hs values i fast = Ok a /\ length a = length fast /\
      forall j, (j < length fast)%nat -> nth j a 0 = if nth j fast 0 <? 255 then
        fast_of (i + j) (nth (Z.to_nat (nth j fast 0)) hs 0) (nth (Z.to_nat (nth j fast 0)) values 0) else 0.
  Proof.
    induction fast as [|f fast IH]; intros i H; cbn [fast_entries].
    - exists []. split; [reflexivity|]. split; [reflexivity|]. cbn [length]. intros; lia.
    - rewrite fast_entry_eq by (specialize (H f (or_introl eq_refl)); rewrite hs_len; lia). cbn [bind].
      destruct (IH (i + 1)%nat) as (a & R & R1 & R2); [intros g Hg; apply H; now right|]. rewrite R. cbn [bind].
      eexists. split; [reflexivity|]. split; [cbn [length]; now rewrite R1|].
      intros [|j] Hj; cbn [nth]; [now rewrite Nat.add_0_r|]. cbn [length] in Hj. rewrite R2 by lia.
      now replace (i + 1 + j)%nat with (i + S j)%nat by lia.
  Qed.
  Lemma covered m x : (m <= N)%nat -> 0 <= x < st m -> exists p, (p < m)%nat /\ st p <= x < st (p + 1).
  Proof.
    induction m as [|m IH]; intros Hm Hx; [change (st 0) with 0 in Hx; lia|].
    destruct (Z.lt_ge_cases x (st m)) as [C|C].
    - destruct IH as (p & Hp & E); [lia|lia|]. exists p. split; [lia|exact E].
    - exists m. split; [lia|]. replace (m + 1)%nat with (S m) by lia. lia.
  Qed.

  (** What the decoder relies on *)
  Record facts (t : table) : Prop := Facts {
    f_maxlen : length (maxcode t) = 18%nat;
    f_maxnone : forall l, (1 <= l <= 16)%nat -> nth (l - 1) counts 0 = 0 -> nth l (maxcode t) 0 = -1;
    f_max : forall l, (1 <= l <= 16)%nat -> nth (l - 1) counts 0 <> 0 -> nth l (maxcode t) 0 = st (cum counts l);
    f_offlen : length (offset t) = 18%nat;
    f_off : forall l, (1 <= l <= 16)%nat -> nth (l - 1) counts 0 <> 0 ->
      exists c, nth l (offset t) 0 = Z.of_nat (cum counts (l - 1)) - c /\ c * wt (Z.of_nat l) = st (cum counts (l - 1));
    f_lookup : windows entry (Z.shiftl 10 9) (cum counts 9) (lookup t);
    f_values : JpegHuffModel.values t = values }.
  Definition fast_facts (a : list Z) : Prop :=
    length a = 512%nat /\ forall j, (j < 512)%nat -> nth j a 0 <> 0 ->
      exists p, (p < cum counts 9)%nat /\ st p <= 128 * Z.of_nat j < st (p + 1) /\ nth j a 0 = fast_of j (nth p Sz 0) (nth p values 0).

  Lemma code_sizes_eq k : (k <= 16)%nat -> code_sizes k counts = sizes_from 1 (firstn k counts).
  Proof.
    intros H. unfold code_sizes. rewrite <- LC in H. clear -H.
    assert (G : forall k l cs, (k <= length cs)%nat -> (1 <= l)%nat ->
      concat (map (fun j => repeat (Z.of_nat j) (Z.to_nat (nth (j - l) cs 0))) (seq l k)) = sizes_from (Z.of_nat l) (firstn k cs)).
    { clear. induction k as [|k IH]; intros l cs H H1; [reflexivity|]. destruct cs as [|c cs]; cbn [length] in H; [lia|].
      cbn [seq map concat firstn sizes_from]. rewrite Nat.sub_diag. cbn [nth]. f_equal.
      replace (Z.of_nat l + 1) with (Z.of_nat (S l)) by lia. rewrite <- IH by lia. f_equal. apply map_ext_in. intros j Hj. apply in_seq in Hj.
      replace (j - l)%nat with (S (j - S l)) by lia. reflexivity. }
    apply (G k 1%nat counts); lia.
  Qed.
  Definition dc_ok : Prop := Forall (fun v => v <= 15) (firstn N values).
  Lemma new_table_facts is_dc :
    (st N < 2 ^ 16 -> (is_dc = true -> dc_ok) -> exists t, new_table is_dc counts values = Ok t /\ facts t /\
        if is_dc then ac_lookup t = None else exists a, ac_lookup t = Some a /\ fast_facts a) /\
    (2 ^ 16 <= st N \/ is_dc = true /\ ~ dc_ok -> new_table is_dc counts values = Err EOther).
  Proof.
    unfold new_table. cbv zeta. rewrite code_sizes_eq, firstn_all2 by lia. fold Sz. fold N.
    replace (256 <? N)%nat with false by lia. rewrite (code_sizes_eq 9) by lia. fold (cum counts 9). fold hs.
    rewrite (get_at_ok hs _ 0) by (rewrite hs_len; lia). cbn [bind].
    assert (AC : (st N < 2 ^ 16 -> exists hc mc, all_codes 20 hs (nth 0 hs 0) 0 0 (repeat 0 257) (repeat 0 18) = Ok (hc, mc) /\ coded hc N /\ maxed mc 17) /\
      (2 ^ 16 <= st N -> all_codes 20 hs (nth 0 hs 0) 0 0 (repeat 0 257) (repeat 0 18) = Err EOther)).
    { destruct (Nat.eq_dec N 0) as [E|E].
      - split; [intros _|intros X; exfalso; revert X; rewrite E; change (st 0) with 0; lia]. exists (repeat 0 257), (repeat 0 18).
        unfold all_codes. rewrite (get_at_ok hs _ 0) by (rewrite hs_len; lia). cbn [bind]. rewrite hs_end by lia.
        split; [reflexivity|]. split; [split; [reflexivity|intros; lia]|]. split; [reflexivity|]. intros l Hl Hn. exfalso.
        apply (cum_lt_count l ltac:(lia)) in Hn. pose proof (cum_N l). lia.
      - rewrite hs_nth by lia. pose proof (Sz_nth 0 ltac:(lia)) as B.
        apply all_codes_ok; try lia.
        + right. split; [lia|reflexivity].
        + pose proof (Sz_cum 0 (Z.to_nat (nth 0 Sz 0 - 1)) ltac:(lia)). lia.
        + split; [reflexivity|intros; lia].
        + split; [reflexivity|]. intros l Hl Hn. exfalso. apply (cum_lt_count l ltac:(lia)) in Hn.
          pose proof (Sz_cum 0 l ltac:(lia)). lia.
        + reflexivity. }
    destruct AC as (AC1 & AC2). destruct (Z.lt_ge_cases (st N) (2 ^ 16)) as [HS|HS].
    2:{ split; [lia|]. intros _. now rewrite AC2 by exact HS. }
    destruct (AC1 HS) as (hc & mc & R & Ch & (Lm & Mm)). rewrite R. cbn [bind]. rewrite set_at_ok by lia. cbn [bind].
    destruct (offsets_ok counts 1 (upd mc 0 (-1)) (repeat 0 18) hc) as (mc' & off' & O & O1 & O2 & O3 & O4 & O5);
      [lia|lia|reflexivity|exact Ch|now rewrite upd_length|reflexivity|].
    change (cum counts (1 - 1)) with 0%nat in O. rewrite O. cbn [bind]. rewrite set_at_ok by lia. cbn [bind]. rewrite set_at_ok by lia. cbn [bind].
    destruct (fill_lookup_ok hc Ch HS) as (lk & LK & Wl). rewrite LK. cbn [bind].
    assert (FT : forall ac, facts (Table (upd mc' 17 1048575) (upd off' 17 0) lk ac values)).
    { intros ac. constructor; cbn [maxcode offset lookup JpegHuffModel.values]; rewrite ?upd_length; auto.
      - intros l Hl Hz. rewrite upd_nth_other by lia. apply O4; [lia|exact Hz].
      - intros l Hl Hz. rewrite upd_nth_other by lia. destruct (O5 l ltac:(lia) Hz) as (A & _). rewrite A.
        rewrite upd_nth_other by lia. apply Mm; [lia|exact Hz].
      - intros l Hl Hz. rewrite upd_nth_other by lia. destruct (O5 l ltac:(lia) Hz) as (_ & A). rewrite A.
        eexists. split; [reflexivity|]. apply (cum_lt_count l ltac:(lia)) in Hz. pose proof (cum_N l). destruct Ch as (Lh & Hh).
        set (q := cum counts (l - 1)) in *. rewrite <- (Hh q) by lia. do 2 f_equal.
        pose proof (Sz_cum q l ltac:(lia)). pose proof (Sz_cum q (l - 1) ltac:(lia)). lia. }
    destruct is_dc; cbn [andb].
    - cbn [bind]. destruct (existsb (fun v => 15 <? v) (firstn N values)) eqn:E.
      + apply existsb_exists in E. destruct E as (v & Hv & Hb). assert (ND : ~ dc_ok).
        { intros D. unfold dc_ok in D. rewrite Forall_forall in D. specialize (D v Hv). lia. }
        split; [intros _ D; exfalso; apply ND, D; reflexivity|reflexivity].
      + split.
        * intros _ _. eexists. split; [reflexivity|]. split; [apply FT|reflexivity].
        * intros [X|(_ & X)]; [lia|]. exfalso. apply X. apply Forall_forall. intros v Hv. destruct (Z.le_gt_cases v 15); [assumption|].
          assert (existsb (fun v => 15 <? v) (firstn N values) = true) by (apply existsb_exists; exists v; split; [exact Hv|lia]). congruence.
    - destruct (fill_fast_ok hc Ch HS) as (ft & FR & FW). rewrite FR. cbn [bind].
      assert (Range : forall j, (j < 512)%nat -> nth j ft 0 = 255 \/ exists p, (p < cum counts 9)%nat /\ st p <= 128 * Z.of_nat j < st (p + 1) /\ nth j ft 0 = Z.of_nat p).
      { intros j Hj. destruct FW as (_ & W). destruct (W j Hj) as (W1 & W2). destruct (Z.lt_ge_cases (128 * Z.of_nat j) (st (cum counts 9))) as [C|C]; [right|left; auto].
        destruct (covered (cum counts 9) (128 * Z.of_nat j) (cum_N 9)) as (p & Hp & E); [lia|]. exists p. split; [exact Hp|]. split; [exact E|]. now apply W1. }
      destruct (fast_entries_ok ft 0) as (a & AR & AL & AN).
      { intros f Hf. destruct (In_nth _ _ 0 Hf) as (j & Hj & <-). destruct FW as (Lf & _). destruct (Range j ltac:(lia)) as [E|(p & Hp & _ & E)]; [lia|].
        pose proof (cum_N 9). lia. }
      rewrite AR. cbn [bind]. split; [|intros [X|(X & _)]; [lia|discriminate X]].
      intros _ _. eexists. split; [reflexivity|]. split; [apply FT|]. exists a. split; [reflexivity|]. destruct FW as (Lf & _). split; [lia|].
      intros j Hj. rewrite AN by lia. destruct (Z.ltb_spec (nth j ft 0) 255) as [C|C]; [|now intros []]. intros _.
      destruct (Range j Hj) as [E|(p & Hp & E1 & E)]; [lia|]. exists p. split; [exact Hp|]. split; [exact E1|].
      rewrite E, Nat2Z.id. pose proof (cum_N 9). now rewrite hs_nth by lia.
  Qed.
End Table.
