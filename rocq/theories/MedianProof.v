(** Proofs about the median filter. *)
From Verif Require Import Base BaseProof Loops Slices GeomModel GeomSpec GeomProof MedianModel MedianSpec.

(** ** Counting *)

Fixpoint cnt (v : Z) (l : list Z) : Z :=
  match l with [] => 0 | x :: l' => (if x =? v then 1 else 0) + cnt v l' end.

Lemma cnt_app v a b : cnt v (a ++ b) = cnt v a + cnt v b.
Proof. induction a as [|x a IH]; cbn [app cnt]; lia. Qed.
Lemma cnt_bound v l : 0 <= cnt v l <= Z.of_nat (length l).
Proof. induction l as [|x l IH]; cbn [cnt length]; [lia|]. destruct (x =? v); lia. Qed.
Lemma cnt_in v l : In v l -> 1 <= cnt v l.
Proof.
  induction l as [|x l IH]; intros H; [easy|]. cbn [cnt]. pose proof (cnt_bound v l).
  destruct H as [->|H]; [rewrite Z.eqb_refl; lia|]. specialize (IH H). destruct (x =? v); lia.
Qed.

(** [h] is the histogram of the multiset counted by [c]. *)
Definition is_hist (levels : nat) (h : list Z) (c : Z -> Z) : Prop :=
  length h = levels /\ forall v, (v < levels)%nat -> nth v h 0 = c (Z.of_nat v).

Definition in_levels (levels : nat) (x : Z) : Prop := 0 <= x < Z.of_nat levels.

Lemma hist_add_ok levels h c x : is_hist levels h c -> in_levels levels x -> c x + 1 < 2 ^ 32 ->
  exists h', hist_add h x = Ok h' /\ is_hist levels h' (fun v => (if x =? v then 1 else 0) + c v).
Proof.
  unfold in_levels. intros [L N] Hx Hc. unfold hist_add. rewrite (get_at_ok h _ 0) by lia. cbn [bind].
  rewrite N by lia. rewrite Z2Nat.id by lia. replace (2 ^ 32 <=? c x + 1) with false by lia.
  rewrite set_at_ok by lia. eexists. split; [reflexivity|]. split; [now rewrite upd_length|]. intros v Hv.
  destruct (Nat.eq_dec v (Z.to_nat x)) as [->|Ne].
  - rewrite upd_nth_same by lia. rewrite Z2Nat.id by lia. rewrite Z.eqb_refl. lia.
  - rewrite upd_nth_other by lia. rewrite N by easy. replace (x =? Z.of_nat v) with false by lia. lia.
Qed.

Lemma hist_sub_ok levels h c x : is_hist levels h c -> in_levels levels x -> 1 <= c x ->
  exists h', hist_sub h x = Ok h' /\ is_hist levels h' (fun v => c v - (if x =? v then 1 else 0)).
Proof.
  unfold in_levels. intros [L N] Hx Hc. unfold hist_sub. rewrite (get_at_ok h _ 0) by lia. cbn [bind].
  rewrite N by lia. rewrite Z2Nat.id by lia. replace (c x =? 0) with false by lia.
  rewrite set_at_ok by lia. eexists. split; [reflexivity|]. split; [now rewrite upd_length|]. intros v Hv.
  destruct (Nat.eq_dec v (Z.to_nat x)) as [->|Ne].
  - rewrite upd_nth_same by lia. rewrite Z2Nat.id by lia. rewrite Z.eqb_refl. lia.
  - rewrite upd_nth_other by lia. rewrite N by easy. replace (x =? Z.of_nat v) with false by lia. lia.
Qed.

Lemma is_hist_ext levels h c c' : (forall v, c v = c' v) -> is_hist levels h c -> is_hist levels h c'.
Proof. intros E [L N]. split; [easy|]. intros. now rewrite N, E. Qed.

Lemma hist_add_all levels xs : forall h c, is_hist levels h c -> Forall (in_levels levels) xs ->
  (forall v, c v + cnt v xs < 2 ^ 32) -> (forall v, 0 <= c v) ->
  exists h', hist_all hist_add xs h = Ok h' /\ is_hist levels h' (fun v => c v + cnt v xs).
Proof.
  induction xs as [|x xs IH]; intros h c H F B P; cbn [hist_all cnt] in *.
  - exists h. split; [easy|]. eapply is_hist_ext; [|exact H]. intros; lia.
  - apply Forall_cons_iff in F as [Fx F].
    destruct (hist_add_ok levels h c x H Fx) as (h1 & -> & H1).
    { specialize (B x). rewrite Z.eqb_refl in B. pose proof (cnt_bound x xs). lia. }
    cbn [bind]. destruct (IH h1 _ H1 F) as (h2 & E2 & H2).
    + intros v. specialize (B v). lia.
    + intros v. specialize (P v). destruct (x =? v); lia.
    + exists h2. split; [easy|]. eapply is_hist_ext; [|exact H2]. intros v. cbv beta. lia.
Qed.

Lemma hist_sub_all levels xs : forall h c, is_hist levels h c -> Forall (in_levels levels) xs ->
  (forall v, cnt v xs <= c v) ->
  exists h', hist_all hist_sub xs h = Ok h' /\ is_hist levels h' (fun v => c v - cnt v xs).
Proof.
  induction xs as [|x xs IH]; intros h c H F B; cbn [hist_all cnt] in *.
  - exists h. split; [easy|]. eapply is_hist_ext; [|exact H]. intros; lia.
  - apply Forall_cons_iff in F as [Fx F].
    destruct (hist_sub_ok levels h c x H Fx) as (h1 & -> & H1).
    { specialize (B x). rewrite Z.eqb_refl in B. pose proof (cnt_bound x xs). lia. }
    cbn [bind]. destruct (IH h1 _ H1 F) as (h2 & E2 & H2).
    + intros v. specialize (B v). cbv beta. lia.
    + exists h2. split; [easy|]. eapply is_hist_ext; [|exact H2]. intros v. cbv beta. lia.
Qed.

(** ** The scan *)

Lemma count_lt_S n l : Z.of_nat (count_lt (n + 1) l) = Z.of_nat (count_lt n l) + cnt n l.
Proof.
  unfold count_lt. induction l as [|x l IH]; cbn [filter cnt length]; [lia|].
  destruct (Z.ltb_spec x (n + 1)), (Z.ltb_spec x n), (Z.eqb_spec x n); cbn [length]; lia.
Qed.
Lemma count_le_lt v l : count_le v l = count_lt (v + 1) l.
Proof. unfold count_le, count_lt. f_equal. apply filter_ext. intros. lia. Qed.
Lemma count_lt_bound v l : (count_lt v l <= length l)%nat.
Proof. unfold count_lt. induction l as [|x l IH]; cbn [filter length]; [lia|]. destruct (x <? v); cbn [length]; lia. Qed.

Lemma scan_ok l target : (1 <= target)%nat -> Z.of_nat (length l) < 2 ^ 32 ->
  forall h pos, 0 <= pos -> (forall j, (j < length h)%nat -> nth j h 0 = cnt (pos + Z.of_nat j) l) ->
  (count_lt pos l < target)%nat -> (target <= count_lt (pos + Z.of_nat (length h)) l)%nat ->
  exists v, scan h pos (Z.of_nat (count_lt pos l)) (Z.of_nat target) = Ok v /\ pos <= v < pos + Z.of_nat (length h) /\
    kth_smallest target l v.
Proof.
  intros Ht Hl. induction h as [|c h IH]; intros pos Hp Hn Hlo Hhi.
  - cbn [length] in Hhi. rewrite Z.add_0_r in Hhi. lia.
  - cbn [scan]. pose proof (Hn O ltac:(cbn [length]; lia)) as Hc. cbn [nth] in Hc. rewrite Z.add_0_r in Hc. subst c.
    rewrite <- count_lt_S. pose proof (count_lt_bound (pos + 1) l).
    replace (2 ^ 32 <=? Z.of_nat (count_lt (pos + 1) l)) with false by lia.
    destruct (Z.leb_spec (Z.of_nat target) (Z.of_nat (count_lt (pos + 1) l))).
    + exists pos. split; [easy|]. split; [cbn [length]; lia|]. unfold kth_smallest. rewrite count_le_lt. lia.
    + destruct (IH (pos + 1)) as (v & E & R & K).
      * lia.
      * intros j Hj. specialize (Hn (S j) ltac:(cbn [length]; lia)). cbn [nth] in Hn. rewrite Hn. f_equal. lia.
      * lia.
      * cbn [length] in Hhi. replace (pos + 1 + Z.of_nat (length h)) with (pos + Z.of_nat (S (length h))) by lia. easy.
      * exists v. split; [easy|]. split; [cbn [length]; lia|easy].
Qed.

Lemma count_all levels l : Forall (in_levels levels) l -> count_lt (Z.of_nat levels) l = length l.
Proof.
  unfold in_levels. intros H. unfold count_lt. induction H as [|x l Hx H IH]; cbn [filter length]; [easy|].
  replace (x <? Z.of_nat levels) with true by lia. cbn [length]. now rewrite IH.
Qed.
Lemma count_none levels l : Forall (in_levels levels) l -> count_lt 0 l = O.
Proof.
  unfold in_levels. intros H. unfold count_lt. induction H as [|x l Hx H IH]; cbn [filter length]; [easy|].
  now replace (x <? 0) with false by lia.
Qed.

(** ** Windows *)

Section Win.
Context (P : nat -> nat -> Z) (rs : nat).

Definition wrow (x y : nat) : list Z := map (fun dx => P (x + dx) y) (seq 0 rs).
Definition wrows (x y : nat) : list (list Z) := map (fun dy => wrow x (y + dy)) (seq 0 rs).
Definition win (x y : nat) : list Z := concat (wrows x y).
Definition col (x y : nat) : list Z := map (fun dy => P x (y + dy)) (seq 0 rs).

Lemma wrow_length x y : length (wrow x y) = rs.
Proof. unfold wrow. now rewrite map_length, seq_length. Qed.
Lemma wrows_lengths x y : Forall (fun r => length r = rs) (wrows x y).
Proof. apply Forall_forall. intros r Hr. apply in_map_iff in Hr as (d & <- & _). apply wrow_length. Qed.
Lemma win_length x y : length (win x y) = (rs * rs)%nat.
Proof. unfold win. rewrite (concat_length_const rs) by apply wrows_lengths. unfold wrows. now rewrite map_length, seq_length. Qed.

Lemma wrow_slide v x y : cnt v (wrow (S x) y) = cnt v (wrow x y) - cnt v [P x y] + cnt v [P (x + rs)%nat y].
Proof.
  assert (E : cnt v (P x y :: wrow (S x) y) = cnt v (wrow x y ++ [P (x + rs)%nat y])).
  { f_equal. unfold wrow. rewrite <- (seq_shift rs 0), map_map || idtac.
    transitivity (map (fun dx => P (x + dx)%nat y) (seq 0 (S rs))).
    - cbn [seq map]. rewrite Nat.add_0_r. f_equal. rewrite <- seq_shift, map_map. apply map_ext. intros d. f_equal. lia.
    - rewrite seq_S, map_app. reflexivity. }
  rewrite cnt_app in E. cbn [cnt] in *. lia.
Qed.

Lemma rows_slide v x y n : cnt v (concat (map (fun dy => wrow (S x) (y + dy)) (seq 0 n))) =
  cnt v (concat (map (fun dy => wrow x (y + dy)) (seq 0 n))) - cnt v (map (fun dy => P x (y + dy)) (seq 0 n))
  + cnt v (map (fun dy => P (x + rs)%nat (y + dy)) (seq 0 n)).
Proof.
  induction n as [|n IH]; [reflexivity|]. rewrite seq_S, !map_app, !concat_app, !cnt_app, IH. cbn [map concat].
  rewrite !app_nil_r, wrow_slide. cbn [Nat.add cnt]. lia.
Qed.
Lemma win_slide v x y : cnt v (win (S x) y) = cnt v (win x y) - cnt v (col x y) + cnt v (col (x + rs) y).
Proof. apply rows_slide. Qed.

Lemma win_chunks x y : (0 < rs)%nat -> chunks_exact rs (win x y) = wrows x y.
Proof. intros H. apply chunks_exact_of_concat; [easy|apply wrows_lengths]. Qed.

Lemma wrows_first x y : (0 < rs)%nat -> map (fun v => nth 0 v 0) (wrows x y) = col x y.
Proof.
  intros H. unfold wrows, col. rewrite map_map. apply map_ext. intros d. unfold wrow.
  rewrite (map_nth_in _ _ _ O 0) by (rewrite seq_length; lia). rewrite seq_nth by easy. f_equal. lia.
Qed.
Lemma wrows_last x y : (0 < rs)%nat -> map (fun v => last v 0) (wrows x y) = col (x + rs - 1) y.
Proof.
  intros H. unfold wrows, col. rewrite map_map. apply map_ext. intros d. rewrite <- nth_last', wrow_length. unfold wrow.
  rewrite (map_nth_in _ _ _ O 0) by (rewrite seq_length; lia). rewrite seq_nth by lia. f_equal. lia.
Qed.

Lemma win_forall (Q : Z -> Prop) x y : (forall a b, Q (P a b)) -> Forall Q (win x y).
Proof.
  intros H. apply Forall_concat. apply Forall_forall. intros r Hr. apply in_map_iff in Hr as (d & <- & _).
  apply Forall_forall. intros v Hv. apply in_map_iff in Hv as (e & <- & _). apply H.
Qed.
Lemma col_forall (Q : Z -> Prop) x y : (forall a b, Q (P a b)) -> Forall Q (col x y).
Proof. intros H. apply Forall_forall. intros v Hv. apply in_map_iff in Hv as (e & <- & _). apply H. Qed.

Lemma col_le_win v x y : (0 < rs)%nat -> cnt v (col x y) <= cnt v (win x y).
Proof.
  intros H. unfold col, win, wrows. generalize (seq 0 rs) as ds. induction ds as [|d ds IH]; cbn [map concat cnt]; [lia|].
  rewrite cnt_app. assert ((if P x (y + d) =? v then 1 else 0) <= cnt v (wrow x (y + d))).
  { unfold wrow. destruct rs as [|n]; [lia|]. cbn [seq map cnt]. rewrite Nat.add_0_r.
    pose proof (cnt_bound v (map (fun dx => P (x + dx) (y + d)) (seq 1 n))). lia. }
  lia.
Qed.

(** What one call of the closure keeps true: after the call at (x, y) the histogram is that of the window there
    and the column to drop is its leftmost. *)
Definition after (levels : nat) (st : mstate) (x y : nat) : Prop :=
  is_hist levels (m_hist st) (fun v => cnt v (win x y)) /\ m_drop st = col x y.

Lemma median_step_ok levels w st x y : (0 < rs)%nat -> (2 <= rs * rs)%nat -> Z.of_nat (rs * rs) < 2 ^ 32 -> (x < w)%nat ->
  (forall a b, in_levels levels (P a b)) ->
  m_count st = (y * w + x)%nat -> length (m_drop st) = rs ->
  (0 < x -> after levels st (x - 1) y)%nat ->
  exists st' v, median_step levels rs w st (win x y) = Ok (st', v) /\
    m_count st' = (y * w + x + 1)%nat /\ length (m_drop st') = rs /\ after levels st' x y /\
    kth_smallest (rs * rs / 2) (win x y) v /\ in_levels levels v.
Proof.
  intros Hrs Hrr Hbig Hx HP Hc Hd Ha. unfold median_step. replace (w =? 0)%nat with false by lia.
  assert (HM : (m_count st mod w = x)%nat).
  { rewrite Hc, Nat.add_comm, Nat.mod_add by lia. apply Nat.mod_small. lia. }
  rewrite HM. pose proof (win_forall (in_levels levels) x y HP) as FW.
  assert (CB : forall v, cnt v (win x y) < 2 ^ 32).
  { intros v. pose proof (cnt_bound v (win x y)). rewrite win_length in *. lia. }
  assert (HH : exists h, (if (x =? 0)%nat then hist_all hist_add (win x y) (repeat 0 levels)
           else do h <- hist_all hist_sub (m_drop st) (m_hist st) ;
                hist_all hist_add (map (fun v => last v 0) (chunks_exact rs (win x y))) h) = Ok h /\
           is_hist levels h (fun v => cnt v (win x y))).
  { destruct (Nat.eqb_spec x 0) as [->|Nx].
    - destruct (hist_add_all levels (win 0 y) (repeat 0 levels) (fun _ => 0)) as (h & E & H).
      + split; [apply repeat_length|]. intros v Hv. now rewrite nth_repeat.
      + exact FW.
      + intros v. apply CB.
      + intros. lia.
      + exists h. split; [exact E|]. eapply is_hist_ext; [|exact H]. intros; cbv beta; lia.
    - destruct (Ha ltac:(lia)) as [H0 D0]. destruct x as [|x]; [easy|]. replace (S x - 1)%nat with x in * by lia.
      rewrite D0. destruct (hist_sub_all levels (col x y) (m_hist st) _ H0) as (h1 & -> & H1).
      + now apply col_forall.
      + intros v. now apply col_le_win.
      + cbn [bind]. rewrite win_chunks, wrows_last by easy. replace (S x + rs - 1)%nat with (x + rs)%nat by lia.
        destruct (hist_add_all levels (col (x + rs) y) h1 _ H1) as (h2 & E2 & H2).
        * now apply col_forall.
        * intros v. rewrite <- win_slide. apply CB.
        * intros v. pose proof (col_le_win v x y Hrs). lia.
        * exists h2. split; [exact E2|]. eapply is_hist_ext; [|exact H2]. intros v. cbv beta. now rewrite win_slide. }
  destruct HH as (h & -> & H). cbn [bind]. rewrite win_length.
  set (t := (rs * rs / 2)%nat) in *.
  assert (Ht : (1 <= t < rs * rs)%nat) by (unfold t; generalize dependent (rs * rs)%nat; intros; lia). clearbody t.
  rewrite Z.mod_small by lia.
  destruct (scan_ok (win x y) t ltac:(lia) ltac:(rewrite win_length; lia) h 0 ltac:(lia)) as (v & E & R & K).
  - intros j Hj. destruct H as [L N]. rewrite N by lia. f_equal.
  - rewrite (count_none levels) by easy. lia.
  - destruct H as [L N]. rewrite L, Z.add_0_l, (count_all levels) by easy. rewrite win_length. lia.
  - rewrite (count_none levels) in E by easy. change (Z.of_nat 0) with 0 in E. rewrite E. cbn [bind].
    rewrite win_chunks by easy. unfold wrows at 1. rewrite map_length, seq_length, Hd, Nat.eqb_refl. cbn [negb].
    rewrite wrows_first by easy. eexists _, v. split; [reflexivity|]. cbn [m_count m_drop m_hist].
    split; [lia|]. split; [unfold col; now rewrite map_length, seq_length|]. split; [|split; [exact K|]].
    + split; [exact H|reflexivity].
    + unfold in_levels. destruct H as [L _]. rewrite L in R. lia.
Qed.

End Win.

Lemma gather_ok inp pw ph rs ix iy : length inp = (pw * ph)%nat -> (ix + rs <= pw)%nat -> (iy + rs <= ph)%nat ->
  gather inp pw rs ix iy = Ok (win (px pw inp) rs ix iy).
Proof.
  intros Hl Hx Hy. unfold gather.
  destruct (for_range_inv (fun k acc => acc = concat (map (fun dy => wrow (px pw inp) rs ix (iy + dy)) (seq 0 k))) 0 rs
    (fun ky acc => do s <- get_slice inp ((iy + ky) * pw + ix) rs ; Ok (acc ++ s)) []) as (s & -> & ->).
  - lia.
  - reflexivity.
  - intros k acc Hk ->.
    assert (Hb : ((iy + k) * pw + pw <= pw * ph)%nat) by nia.
    rewrite get_slice_ok by lia. cbn [bind]. eexists. split; [reflexivity|].
    rewrite seq_S, map_app, concat_app. f_equal. cbn [map concat]. rewrite app_nil_r. cbn [Nat.add].
    apply (list_eq_nth 0); [rewrite slice_length, wrow_length; [easy|lia]|]. intros j Hj. rewrite slice_length in Hj by lia.
    rewrite slice_nth by easy. unfold wrow. rewrite (map_nth_in _ _ _ O 0) by (rewrite seq_length; lia). rewrite seq_nth by easy.
    unfold px. f_equal. lia.
  - reflexivity.
Qed.

(** Only the samples inside the gathered range matter. *)
Lemma win_ext P Q rs x y : (forall a b, (x <= a < x + rs)%nat -> (y <= b < y + rs)%nat -> P a b = Q a b) -> win P rs x y = win Q rs x y.
Proof.
  intros H. unfold win, wrows. f_equal. apply map_ext_in. intros d Hd. apply in_seq in Hd. unfold wrow.
  apply map_ext_in. intros e He. apply in_seq in He. apply H; lia.
Qed.

Lemma median_spec levels l r w h : (0 < w)%nat -> (0 < h)%nat -> (1 <= r)%nat -> length l = (w * h)%nat ->
  Forall (in_levels levels) l -> Z.of_nat ((2 * r + 1) * (2 * r + 1)) < 2 ^ 32 ->
  exists out, median levels l r w h = Ok out /\ length out = (w * h)%nat /\
    forall x y, (x < w)%nat -> (y < h)%nat ->
      kth_smallest ((2 * r + 1) * (2 * r + 1) / 2) (window w h l r x y) (px w out x y) /\ in_levels levels (px w out x y).
Proof.
  intros Hw Hh Hr Hl HL Hbig. unfold median.
  destruct (pad_replicate_spec l w h r r Hw Hh Hl) as (pd & -> & Lp & Np). cbn [bind].
  unfold spatial_median. replace (r * 2 + w)%nat with (w + r * 2)%nat by lia. replace (r * 2 + h)%nat with (h + r * 2)%nat by lia.
  replace ((h + r * 2) * (w + r * 2) =? length pd)%nat with true by (symmetry; apply Nat.eqb_eq; rewrite Lp; apply Nat.mul_comm). cbn [negb].
  set (rs := (2 * r + 1)%nat) in *. assert (Hrs : rs = (2 * r + 1)%nat) by easy. clearbody rs.
  set (P := fun a b => px w l (clamp w r a) (clamp h r b)).
  assert (HP : forall a b, in_levels levels (P a b)).
  { intros a b. unfold P, px. rewrite Forall_forall in HL. apply HL, nth_In. rewrite Hl. apply idx_bound'; unfold clamp; lia. }
  assert (HW : forall x y, (x < w)%nat -> (y < h)%nat -> gather pd (w + r * 2) rs x y = Ok (win P rs x y)).
  { intros x y Hx Hy. rewrite (gather_ok pd (w + r * 2) (h + r * 2)) by (try easy; lia). f_equal. apply win_ext.
    intros a b Ha Hb. apply Np; lia. }
  assert (HS : forall x y, window w h l r x y = win P rs x y) by (intros x y; subst rs; reflexivity).
  assert (R0 : (0 < rs)%nat) by lia. assert (R1 : (2 <= rs * rs)%nat) by nia.
  set (good := fun (out : list Z) x y => kth_smallest (rs * rs / 2) (win P rs x y) (px w out x y) /\ in_levels levels (px w out x y)).
  destruct (for_range_inv (fun y (so : mstate * list Z) => length (snd so) = (w * h)%nat /\ m_count (fst so) = (y * w)%nat /\
      length (m_drop (fst so)) = rs /\ forall x' y', (x' < w)%nat -> (y' < y)%nat -> (y' < h)%nat -> good (snd so) x' y') 0 h
      (fun iy so => for_range 0 w (fun ix so =>
        do win <- gather pd (w + r * 2) rs ix iy ;
        do sv <- median_step levels rs w (fst so) win ;
        do out <- set_at (snd so) (iy * w + ix) (snd sv) ;
        Ok (fst sv, out)) so) (MState (repeat 0 levels) (repeat 0 rs) 0, repeat 0 (length l))) as (so & -> & L & _ & _ & G).
  - lia.
  - cbn [fst snd m_count m_drop]. split; [now rewrite repeat_length|]. split; [lia|]. split; [apply repeat_length|]. intros. lia.
  - intros y so Hy (L & C & D & G).
    destruct (for_range_inv (fun x (so : mstate * list Z) => length (snd so) = (w * h)%nat /\ m_count (fst so) = (y * w + x)%nat /\
      length (m_drop (fst so)) = rs /\ ((0 < x)%nat -> after P rs levels (fst so) (x - 1) y) /\
      forall x' y', (x' < w)%nat -> (y' < h)%nat -> (y' < y)%nat \/ (y' = y /\ (x' < x)%nat) -> good (snd so) x' y') 0 w
      (fun ix so => do win <- gather pd (w + r * 2) rs ix y ;
        do sv <- median_step levels rs w (fst so) win ;
        do out <- set_at (snd so) (y * w + ix) (snd sv) ;
        Ok (fst sv, out)) so) as (so' & E' & L' & C' & D' & _ & G').
    + lia.
    + split; [easy|]. split; [lia|]. split; [easy|]. split; [intros; lia|]. intros x' y' Hx' Hy' [H|H]; [now apply G|lia].
    + intros x s Hx (Ls & Cs & Ds & As & Gs). rewrite HW by lia. cbn [bind].
      destruct (median_step_ok P rs levels w (fst s) x y R0 R1 Hbig ltac:(lia) HP Cs Ds As) as (st' & v & -> & C2 & D2 & A2 & K2 & V2).
      cbn [bind fst snd]. assert (Hi : (y * w + x < w * h)%nat) by (apply idx_bound'; lia).
      rewrite set_at_ok by lia. cbn [bind]. eexists. split; [reflexivity|]. cbn [fst snd].
      split; [now rewrite upd_length|]. split; [lia|]. split; [easy|]. split; [intros _; now replace (S x - 1)%nat with x by lia|].
      intros x' y' Hx' Hy' H. unfold good, px.
      destruct (Nat.eq_dec (y' * w + x') (y * w + x)) as [E|Ne].
      * apply idx_inj in E as [-> ->]; [|lia|lia]. rewrite upd_nth_same by lia. now split.
      * rewrite upd_nth_other by lia. apply Gs; [easy|easy|]. destruct H as [H|[-> H]]; [now left|].
        right. split; [easy|]. assert (x' <> x) by (intros ->; lia). lia.
    + exists so'. split; [exact E'|]. split; [easy|]. split; [lia|]. split; [easy|].
      intros x' y' Hx' Hy' Hyh. apply G'; [easy|easy|]. destruct (Nat.eq_dec y' y); [right; lia|left; lia].
  - cbn [bind]. eexists. split; [reflexivity|]. split; [exact L|]. intros x y Hx Hy. rewrite HS. now apply G.
Qed.

Lemma count_lt_le_in v l : (count_lt v l < count_le v l)%nat -> In v l.
Proof.
  unfold count_lt, count_le. induction l as [|x l IH]; cbn [filter length In]; [lia|]. intros H.
  destruct (Z.eq_dec x v) as [->|N]; [now left|right]. apply IH.
  destruct (Z.leb_spec x v), (Z.ltb_spec x v); cbn [length] in H; lia.
Qed.
