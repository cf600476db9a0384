(** Table construction, part one: the next codeword, the histogram of code lengths and the sorted symbols. *)
From Verif Require Import Base BaseProof Bits Loops Slices BitReaderSpec BitReaderModel InflateModel HuffModel HuffSpec HuffCode.

Lemma next_rev l : forall c, 0 <= c -> c + 1 < 2 ^ Z.of_nat l -> next_codeword (rev l c) l = rev l (c + 1).
Proof.
  induction l as [|l IH]; intros c Hc Hl; [cbn in Hl; lia|].
  pose proof (pow_pos l) as Pl. pose proof (rev_bound l (c / 2)) as Ba.
  rewrite pow_S in Hl.
  unfold next_codeword in *. rewrite (Z.shiftl_1_l (Z.of_nat (S l))), pow_S.
  cbn [rev]. set (a := rev l (c / 2)) in *.
  replace (c mod 2 * 2 ^ Z.of_nat l + a) with (a + 2 ^ Z.of_nat l * (c mod 2)) by lia.
  replace (2 * 2 ^ Z.of_nat l - 1) with (2 ^ Z.of_nat l - 1 + 2 ^ Z.of_nat l * 1) by lia.
  rewrite lxor_split by lia.
  assert (Bx : 0 <= Z.lxor a (2 ^ Z.of_nat l - 1) < 2 ^ Z.of_nat l) by (apply lxor_bound; lia).
  assert (c mod 2 = 0 \/ c mod 2 = 1) as [E|E] by (clear; lia); rewrite E.
  - change (Z.lxor 0 1) with 1.
    rewrite (Z.log2_unique _ (Z.of_nat l)) by (rewrite ?Z.pow_succ_r by lia; lia).
    rewrite Z.shiftl_1_l, land_low by lia. rewrite Z.mul_0_r, Z.add_0_r, Z.mod_small by lia.
    replace (2 ^ Z.of_nat l) with (2 ^ Z.of_nat l * 1) at 1 by lia. rewrite lor_add by lia.
    replace ((c + 1) mod 2) with 1 by lia. replace ((c + 1) / 2) with (c / 2) by lia. fold a. lia.
  - change (Z.lxor 1 1) with 0. rewrite Z.mul_0_r, Z.add_0_r.
    specialize (IH (c / 2) ltac:(lia) ltac:(lia)). fold a in IH. rewrite (Z.shiftl_1_l (Z.of_nat l)) in IH.
    set (x := Z.lxor a (2 ^ Z.of_nat l - 1)) in *.
    assert (Bb : 0 < Z.shiftl 1 (Z.log2 x) <= 2 ^ Z.of_nat l).
    { rewrite Z.shiftl_1_l. pose proof (Z.log2_nonneg x). split; [apply Z.pow_pos_nonneg; lia|].
      destruct (Z.eq_dec x 0) as [->|]; [cbn; lia|]. pose proof (Z.log2_spec x ltac:(lia)). lia. }
    set (bit := Z.shiftl 1 (Z.log2 x)) in *.
    replace (bit - 1) with (bit - 1 + 2 ^ Z.of_nat l * 0) by lia. rewrite land_split by lia.
    change (Z.land 1 0) with 0. rewrite Z.mul_0_r, !Z.add_0_r. rewrite IH.
    replace (c + 1) with (2 * (c / 2 + 1)) by lia.
    change ((2 * (c / 2 + 1)) mod 2 * 2 ^ Z.of_nat l + rev l (2 * (c / 2 + 1) / 2)) with (rev (S l) (2 * (c / 2 + 1))).
    now rewrite rev_double.
Qed.

Section Sort.
Variable lens : list Z.      (* the array handed in *)
Variable num : nat.
Hypothesis num_ok : (num <= length lens)%nat.
Hypothesis num_max : (num <= max_num_syms)%nat.
Let ls := firstn num lens.
Hypothesis range : Forall (fun x => 0 <= x <= 15) ls.

Lemma ls_length : length ls = num.
Proof. unfold ls. rewrite firstn_length. lia. Qed.
Lemma ls_nth s : (s < num)%nat -> nth s ls 0 = nth s lens 0.
Proof. intros H. unfold ls. apply nth_firstn. exact H. Qed.
Lemma ls_range s : (s < num)%nat -> 0 <= nth s ls 0 <= 15.
Proof.
  intros H. apply (proj1 (Forall_forall _ ls) range (nth s ls 0)). apply nth_In. rewrite ls_length. exact H.
Qed.

Lemma count_lens_ok : exists counts, count_lens lens num = Ok counts /\ length counts = 16%nat /\
  forall l, (l < 16)%nat -> nth l counts 0%nat = ncount ls l.
Proof.
  unfold count_lens.
  destruct (for_range_inv (fun k c => length c = 16%nat /\ forall l, (l < 16)%nat -> nth l c 0%nat = ncount (firstn k ls) l)
    0 num (fun sym c => do l <- get_at lens sym ; do x <- get_at c (Z.to_nat l) ; set_at c (Z.to_nat l) (S x)) (repeat 0%nat 16))
    as (c & E & L & N).
  - lia.
  - split; [apply repeat_length|]. intros l Hl. rewrite nth_repeat. reflexivity.
  - intros k c Hk (L & N). pose proof (ls_range k ltac:(lia)) as R. pose proof (ls_nth k ltac:(lia)) as EN.
    rewrite (get_at_ok lens k 0) by lia. cbn [bind]. rewrite <- EN.
    rewrite (get_at_ok c _ 0%nat) by lia. cbn [bind]. rewrite set_at_ok by lia.
    eexists. split; [reflexivity|]. split; [now rewrite upd_length|].
    intros l Hl. rewrite ncount_step by (rewrite ls_length; lia).
    destruct (Nat.eq_dec (Z.to_nat (nth k ls 0)) l) as [Hn|Hn].
    + subst l. rewrite upd_nth_same by lia. rewrite N by lia. replace (nth k ls 0 =? Z.of_nat (Z.to_nat (nth k ls 0))) with true by lia. lia.
    + rewrite upd_nth_other by exact Hn. rewrite N by lia. replace (nth k ls 0 =? Z.of_nat l) with false by lia. lia.
  - exists c. split; [exact E|]. split; [exact L|]. intros l Hl. rewrite N by exact Hl. rewrite <- ls_length. now rewrite firstn_all.
Qed.

Lemma used_max_ok counts : forall m, (1 <= m)%nat ->
  (1 <= used_max counts m <= m)%nat /\
  (forall l, (used_max counts m < l <= m)%nat -> nth l counts 0%nat = 0%nat) /\
  (used_max counts m = 1%nat \/ nth (used_max counts m) counts 0%nat <> 0%nat).
Proof.
  induction m as [|m IH]; intros H; [lia|]. destruct m as [|m].
  - cbn [used_max]. split; [lia|]. split; [intros; lia|now left].
  - cbn [used_max] in *. destruct (Nat.eqb_spec (nth (S (S m)) counts 0%nat) 0) as [E|E].
    + destruct (IH ltac:(lia)) as (A & B & C). split; [lia|]. split; [|exact C].
      intros l Hl. destruct (Nat.eq_dec l (S (S m))) as [->|]; [exact E|]. apply B. lia.
    + split; [lia|]. split; [intros; lia|now right].
Qed.

(** Where the symbols of length [l] start in the sorted list. *)
Fixpoint noff (l : nat) : nat := match l with O => O | S l' => (noff l' + ncount ls l')%nat end.
Lemma noff_mono : forall a b, (a <= b)%nat -> (noff a <= noff b)%nat.
Proof. intros a b H. induction H; [lia|]. cbn [noff]. lia. Qed.
Lemma noff_total : noff 16 = num.
Proof.
  assert (G : forall l, Forall (fun x => 0 <= x <= 15) l ->
    (forall k, (k <= 16)%nat -> fold_right (fun x acc => (if (x <? Z.of_nat k)%Z then 1 else 0) + acc)%nat 0%nat l =
       (fix f k := match k with O => O | S k' => (f k' + ncount l k')%nat end) k)).
  { intros l Hl k. induction k as [|k IHk]; intros Hk.
    - induction Hl as [|x l Hx _ IHl]; [reflexivity|]. cbn [fold_right]. rewrite IHl.
      replace (x <? Z.of_nat 0) with false by lia. reflexivity.
    - rewrite <- IHk by lia. clear IHk. induction Hl as [|x l Hx _ IHl]; [reflexivity|]. cbn [fold_right ncount]. rewrite IHl.
      destruct (Z.ltb_spec x (Z.of_nat (S k))), (Z.ltb_spec x (Z.of_nat k)), (Z.eqb_spec x (Z.of_nat k)); lia. }
  change (noff 16) with ((fix f k := match k with O => O | S k' => (f k' + ncount ls k')%nat end) 16%nat).
  rewrite <- G by (auto; lia). rewrite <- ls_length. clear -range. induction range as [|x l Hx Hl IHl]; [reflexivity|].
  cbn [fold_right length]. rewrite (IHl Hl). replace (x <? Z.of_nat 16) with true by lia. reflexivity.
Qed.
Lemma noff_slot l r : (l <= 15)%nat -> (r < ncount ls l)%nat -> (noff l + r < num)%nat.
Proof.
  intros Hl Hr. pose proof (noff_mono (S l) 16 ltac:(lia)) as M. rewrite noff_total in M. cbn [noff] in M. lia.
Qed.
Lemma slot_inj l r l' r' : (r < ncount ls l)%nat -> (r' < ncount ls l')%nat -> (noff l + r = noff l' + r')%nat -> l = l' /\ r = r'.
Proof.
  intros H H' E. destruct (Nat.lt_trichotomy l l') as [Hl|[Hl|Hl]].
  - pose proof (noff_mono (S l) l' ltac:(lia)) as M. cbn [noff] in M. lia.
  - subst. lia.
  - pose proof (noff_mono (S l') l ltac:(lia)) as M. cbn [noff] in M. lia.
Qed.

Section Given.
Variable counts : list nat.
Hypothesis Hlen : length counts = 16%nat.
Hypothesis Hcount : forall l, (l < 16)%nat -> nth l counts 0%nat = ncount ls l.

Lemma sort_offsets_ok m : (1 <= m <= 15)%nat -> exists offs used, sort_offsets counts m = Ok (offs, used) /\
  length offs = 16%nat /\ (forall l, (l <= m)%nat -> nth l offs 0%nat = noff l) /\ Z.of_nat used = total ls (m - 1).
Proof.
  intros Hm. unfold sort_offsets. rewrite set_at_ok by (rewrite repeat_length; lia). cbn [bind].
  set (init := upd (repeat 0%nat 16) 1 (nth 0 counts 0%nat)).
  destruct (for_range_inv (fun k (s : list nat * nat) => length (fst s) = 16%nat /\
      (forall l, (l <= k)%nat -> nth l (fst s) 0%nat = noff l) /\ Z.of_nat (snd s) = total ls (k - 1))
    1 m (fun len s => do o <- get_at (fst s) len ; do c <- get_at counts len ;
      do offs <- set_at (fst s) (S len) (o + c)%nat ; Ok (offs, 2 * snd s + c)%nat) (init, 0%nat)) as ([offs used] & E & L & N & U).
  - lia.
  - cbn [fst snd]. split; [unfold init; now rewrite upd_length, repeat_length|]. split; [|reflexivity].
    intros l Hl. assert (l = 0 \/ l = 1)%nat as [->| ->] by lia.
    + unfold init. rewrite upd_nth_other by lia. reflexivity.
    + unfold init. rewrite upd_nth_same by (rewrite repeat_length; lia). rewrite Hcount by lia. cbn [noff]. lia.
  - intros k [s u] Hk (L & N & U). cbn [fst snd] in *.
    rewrite (get_at_ok s k 0%nat) by lia. cbn [bind]. rewrite (get_at_ok counts k 0%nat) by lia. cbn [bind].
    rewrite set_at_ok by lia. cbn [bind]. eexists. split; [reflexivity|]. cbn [fst snd].
    split; [now rewrite upd_length|]. split.
    + intros l Hl. destruct (Nat.eq_dec l (S k)) as [->|Hn].
      * rewrite upd_nth_same by lia. rewrite N, Hcount by lia. reflexivity.
      * rewrite upd_nth_other by lia. apply N. lia.
    + replace (S k - 1)%nat with (S (k - 1)) by lia. rewrite total_S, <- U. replace (S (k - 1)) with k by lia.
      rewrite Hcount by lia. destruct k as [|k]; [lia|]. cbn [cz]. rewrite count_ncount. lia.
  - exists offs, used. cbn [fst snd] in *. auto.
Qed.

Lemma sort_syms_ok offs m : length offs = 16%nat -> (1 <= m <= 15)%nat -> (forall l, (l <= m)%nat -> nth l offs 0%nat = noff l) ->
  (forall l, (m < l <= 15)%nat -> ncount ls l = 0%nat) ->
  exists sorted offs', sort_syms lens num offs = Ok (sorted, offs') /\ length sorted = max_num_syms /\
    length offs' = 16%nat /\ nth 0 offs' 0%nat = noff 1 /\
    forall s l, (s < num)%nat -> nth s ls 0 = Z.of_nat l -> nth (noff l + rank ls s) sorted 0%nat = s.
Proof.
  intros Ho Hm Hoff Hz. unfold sort_syms.
  assert (Lm : forall s l, (s < num)%nat -> nth s ls 0 = Z.of_nat l -> (l <= m)%nat).
  { intros s l Hs El. destruct (Nat.le_gt_cases l m) as [|Hl]; [assumption|].
    pose proof (ls_range s Hs). pose proof (rank_lt ls s l ltac:(rewrite ls_length; exact Hs) El). rewrite Hz in *; lia. }
  destruct (for_range_inv (fun k (s : list nat * list nat) => length (fst s) = max_num_syms /\ length (snd s) = 16%nat /\
      (forall l, (l <= m)%nat -> nth l (snd s) 0%nat = (noff l + ncount (firstn k ls) l)%nat) /\
      (forall t l, (t < k)%nat -> nth t ls 0 = Z.of_nat l -> nth (noff l + rank ls t) (fst s) 0%nat = t))
    0 num (fun sym s => do l <- get_at lens sym ; do o <- get_at (snd s) (Z.to_nat l) ;
      do sorted <- set_at (fst s) o sym ; do offs <- set_at (snd s) (Z.to_nat l) (S o) ; Ok (sorted, offs))
    (repeat 0%nat max_num_syms, offs)) as ([sorted offs'] & E & L & L2 & N & So).
  - lia.
  - cbn [fst snd]. split; [apply repeat_length|]. split; [exact Ho|]. split; [|intros; lia].
    intros l Hl. rewrite Hoff by exact Hl. cbn [firstn ncount]. lia.
  - intros k [s u] Hk (L & L2 & N & So). cbn [fst snd] in *.
    pose proof (ls_range k ltac:(lia)) as R. pose proof (ls_nth k ltac:(lia)) as EN.
    set (l := Z.to_nat (nth k ls 0)). assert (El : nth k ls 0 = Z.of_nat l) by lia.
    assert (Hl : (l <= m)%nat) by (apply (Lm k); [lia|exact El]).
    pose proof (rank_lt ls k l ltac:(rewrite ls_length; lia) El) as Rk.
    assert (Er : rank ls k = ncount (firstn k ls) l) by reflexivity.
    pose proof (noff_slot l (rank ls k) ltac:(lia) Rk) as Sl.
    rewrite (get_at_ok lens k 0) by lia. cbn [bind]. rewrite <- EN. fold l.
    rewrite (get_at_ok u l 0%nat) by lia. cbn [bind]. rewrite N by exact Hl. rewrite <- Er.
    rewrite set_at_ok by lia. cbn [bind]. rewrite set_at_ok by lia. cbn [bind].
    eexists. split; [reflexivity|]. cbn [fst snd]. split; [now rewrite upd_length|]. split; [now rewrite upd_length|].
    split.
    + intros l' Hl'. rewrite ncount_step by (rewrite ls_length; lia). destruct (Nat.eq_dec l l') as [<-|Hn].
      * rewrite upd_nth_same by lia. replace (nth k ls 0 =? Z.of_nat l) with true by lia. rewrite Er. lia.
      * rewrite upd_nth_other by exact Hn. rewrite N by exact Hl'. replace (nth k ls 0 =? Z.of_nat l') with false by lia. lia.
    + intros t l' Ht El'. destruct (Nat.eq_dec t k) as [->|Hn].
      * assert (l' = l) by lia. subst l'. apply upd_nth_same. lia.
      * rewrite upd_nth_other; [apply So; [lia|exact El']|]. intros C.
        pose proof (rank_lt ls t l' ltac:(rewrite ls_length; lia) El') as Rt.
        destruct (slot_inj l (rank ls k) l' (rank ls t) Rk Rt C) as [<- C2].
        apply Hn. symmetry. eapply (rank_inj ls k t l); auto; rewrite ls_length; lia.
  - exists sorted, offs'. split; [exact E|]. cbn [fst snd] in *. split; [exact L|]. split; [exact L2|]. split.
    + rewrite N by lia. rewrite <- ls_length, firstn_all. reflexivity.
    + exact So.
Qed.
End Given.
End Sort.
