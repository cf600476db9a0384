(** Proofs about the box blur. *)
From Verif Require Import Base BaseProof Loops Slices GeomModel GeomSpec GeomProof ProcModel ProcProof BlurModel BlurSpec.

(** ** Prefix sums *)

Definition psum (s : list Z) (k : nat) : Z := sumz (firstn k s).

Lemma psum_S s k : (k < length s)%nat -> psum s (S k) = psum s k + nth k s 0.
Proof.
  unfold psum, sumz. revert k. induction s as [|x s IH]; intros k Hk; cbn [length] in Hk; [lia|].
  destruct k as [|k]; cbn [firstn fold_right nth]; [lia|].
  specialize (IH k ltac:(lia)). cbn [firstn] in IH. lia.
Qed.

Lemma psum_seq s a n : (a + n <= length s)%nat -> total (map (fun k => nth k s 0) (seq a n)) = psum s (a + n) - psum s a.
Proof.
  revert a. induction n as [|n IH]; intros a H; unfold total in *; cbn [seq map fold_right]; [rewrite Nat.add_0_r; lia|].
  rewrite IH by lia. replace (S a + n)%nat with (a + S n)%nat by lia. rewrite (psum_S s a) by lia. lia.
Qed.
Lemma total_app a c : total (a ++ c) = total a + total c.
Proof. unfold total. induction a as [|x a IH]; cbn [app fold_right]; lia. Qed.
Lemma total_repeat c n : total (repeat c n) = Z.of_nat n * c.
Proof. unfold total. induction n as [|n IH]; cbn [repeat fold_right]; lia. Qed.
Lemma total_bounds lo hi l : Forall (fun v => lo <= v <= hi) l -> lo * Z.of_nat (length l) <= total l <= hi * Z.of_nat (length l).
Proof. intros H. unfold total. induction H as [|x l Hx H IH]; cbn [fold_right length]; lia. Qed.
Lemma map_repeat' {A B} (f : A -> B) x n : map f (repeat x n) = repeat (f x) n.
Proof. induction n; cbn [repeat map]; congruence. Qed.

Lemma seq_from n : forall a, seq a n = map (fun k => (a + k)%nat) (seq 0 n).
Proof.
  induction n as [|n IH]; intros a; cbn [seq map]; [easy|]. rewrite Nat.add_0_r. f_equal.
  rewrite (IH (S a)), (IH 1%nat), map_map. apply map_ext. intros k. lia.
Qed.

(** ** Taps *)

Lemma taps_length w m x : (2 * m + 1 <= w)%nat -> (x < w)%nat -> length (taps w m x) = (2 * m + 1)%nat.
Proof.
  intros Hw Hx. unfold taps. destruct (Nat.ltb_spec (x + m + 1) w).
  - now rewrite map_length, seq_length.
  - rewrite !app_length, !seq_length, repeat_length. lia.
Qed.
Lemma taps_in w m x t : (2 * m + 1 <= w)%nat -> (x < w)%nat -> In t (taps w m x) -> (t < w)%nat.
Proof.
  intros Hw Hx. unfold taps. destruct (Nat.ltb_spec (x + m + 1) w) as [H|H]; intros I.
  - apply in_map_iff in I as (k & <- & I). apply in_seq in I. lia.
  - apply in_app_or in I as [I|I]; [apply in_seq in I; lia|].
    apply in_app_or in I as [I|I]; [apply in_seq in I; lia|]. apply repeat_spec in I. lia.
Qed.

(** Near the left edge. *)
Lemma taps_left m x : (x < m)%nat -> map (fun k => (x + 1 + k - m)%nat) (seq 0 (2 * m + 1)) = repeat O (m - x - 1) ++ seq 0 (x + m + 2).
Proof.
  intros H. replace (2 * m + 1)%nat with ((m - x - 1) + (x + m + 2))%nat by lia. rewrite seq_app, map_app. f_equal.
  - transitivity (map (fun _ : nat => O) (seq 0 (m - x - 1))).
    + apply map_ext_in. intros k Hk. apply in_seq in Hk. lia.
    + generalize 0%nat at 2 as z. induction (m - x - 1)%nat as [|n IH]; intros z; cbn [seq map repeat]; [easy|now rewrite IH].
  - cbn [Nat.add]. transitivity (map (fun k => (k - (m - x - 1))%nat) (seq (m - x - 1) (x + m + 2))).
    + apply map_ext_in. intros k Hk. apply in_seq in Hk. lia.
    + rewrite (seq_from _ (m - x - 1)), map_map. transitivity (map (fun k : nat => k) (seq 0 (x + m + 2))); [|apply map_id].
      apply map_ext. intros k. lia.
Qed.
Lemma taps_mid m x : (m <= x)%nat -> map (fun k => (x + 1 + k - m)%nat) (seq 0 (2 * m + 1)) = seq (x + 1 - m) (2 * m + 1).
Proof.
  intros H. generalize (2 * m + 1)%nat as n. intros n. transitivity (map (fun k => (x + 1 - m + k)%nat) (seq 0 n)).
  - apply map_ext. intros k. lia.
  - symmetry. apply seq_from.
Qed.

(** The sum over the taps, in terms of prefix sums. *)
Definition tap_sum (s : list Z) (m x : nat) : Z := total (map (fun k => nth k s 0) (taps (length s) m x)).

Lemma tap_sum_left s m x : (2 * m + 1 <= length s)%nat -> (x < m)%nat ->
  tap_sum s m x = psum s (m + 1 + S x) + Z.of_nat (m - S x) * nth 0 s 0.
Proof.
  intros Hw Hx. unfold tap_sum, taps. replace (x + m + 1 <? length s)%nat with true by lia.
  rewrite taps_left by easy. rewrite map_app, total_app, map_repeat', total_repeat, psum_seq by lia.
  replace (psum s 0) with 0 by reflexivity. replace (0 + (x + m + 2))%nat with (m + 1 + S x)%nat by lia.
  replace (m - x - 1)%nat with (m - S x)%nat by lia. lia.
Qed.
Lemma tap_sum_mid s m j : (2 * m + 1 + S j <= length s)%nat -> tap_sum s m (m + j) = psum s (2 * m + 1 + S j) - psum s (S j).
Proof.
  intros Hw. unfold tap_sum, taps. replace (m + j + m + 1 <? length s)%nat with true by lia.
  rewrite taps_mid by lia. rewrite psum_seq by lia. f_equal; f_equal; lia.
Qed.
Lemma tap_sum_right s m i : (2 * m + 1 <= length s)%nat -> (i <= m)%nat ->
  tap_sum s m (length s - (m + 1) + i) = psum s (length s) - psum s (length s - (2 * m + 1))
    - (psum s (length s - (m + 1) + S i) - psum s (length s - (m + 1))) + Z.of_nat (S i) * nth (length s - 1) s 0.
Proof.
  intros Hw Hi. unfold tap_sum, taps. replace (length s - (m + 1) + i + m + 1 <? length s)%nat with false by lia.
  rewrite !map_app, !total_app, map_repeat', total_repeat, !psum_seq by lia.
  replace (length s - (m + 1) + i + 1 + (length s - (length s - (m + 1) + i + 1)))%nat with (length s) by lia.
  replace (length s - (2 * m + 1) + m)%nat with (length s - (m + 1))%nat by lia.
  replace (length s - (m + 1) + i + 1)%nat with (length s - (m + 1) + S i)%nat by lia.
  replace (length s - (m + 1) + i + m + 2 - length s)%nat with (S i) by lia. lia.
Qed.

Lemma tap_sum_bound s m x lo hi : (2 * m + 1 <= length s)%nat -> (x < length s)%nat -> Forall (fun v => lo <= v <= hi) s ->
  lo * Z.of_nat (2 * m + 1) <= tap_sum s m x <= hi * Z.of_nat (2 * m + 1).
Proof.
  intros Hw Hx F. unfold tap_sum. rewrite <- (taps_length (length s) m x) by easy.
  rewrite <- (map_length (fun k => nth k s 0) (taps (length s) m x)). apply total_bounds.
  apply Forall_forall. intros v Hv. apply in_map_iff in Hv as (t & <- & Ht). apply taps_in in Ht; [|easy|easy].
  rewrite Forall_forall in F. now apply F, nth_In.
Qed.

(** ** One row *)

Lemma blur_row_spec b m mul s o : b = 8 \/ b = 16 -> (2 * m + 1 <= length s)%nat -> length o = length s ->
  Forall (fun v => 0 <= v < 2 ^ b) s -> (2 ^ b - 1) * Z.of_nat (2 * m + 2) < 2 ^ 32 ->
  compute_mod (Z.of_nat (2 * m + 1)) = Ok mul ->
  exists out, blur_row b (2 * m + 1) mul s o = Ok out /\ length out = length s /\
    forall x, (x < length s)%nat -> nth x out 0 = tap_sum s m x / Z.of_nat (2 * m + 1).
Proof.
  intros Hb Hw Ho Hs Hbig Hmul.
  assert (B : 256 <= 2 ^ b) by (destruct Hb as [-> | ->]; easy).
  assert (Hs' : Forall (fun v => 0 <= v <= 2 ^ b - 1) s) by (eapply Forall_impl; [|exact Hs]; cbv beta; lia).
  assert (HN : forall k, (k < length s)%nat -> 0 <= nth k s 0 <= 2 ^ b - 1).
  { intros k Hk. rewrite Forall_forall in Hs'. now apply Hs', nth_In. }
  set (M := 2 ^ b - 1) in *.
  assert (HM : M = 2 ^ b - 1) by easy. assert (HM' : 2 ^ b = M + 1) by lia. clearbody M.
  set (D := Z.of_nat (2 * m + 1)) in *. assert (HD : D = Z.of_nat (2 * m + 1)) by easy.
  assert (HMD : M * D + M < 2 ^ 32).
  { replace (Z.of_nat (2 * m + 2)) with (D + 1) in Hbig by lia. rewrite Z.mul_add_distr_l in Hbig. lia. }
  clearbody D. set (avg := fun x => tap_sum s m x / D).
  assert (HQ : forall x, (x < length s)%nat -> fastdiv (tap_sum s m x) mul = Ok (avg x) /\ avg x mod 2 ^ b = avg x
                 /\ 0 <= tap_sum s m x /\ tap_sum s m x <= M * D).
  { intros x Hx. pose proof (tap_sum_bound s m x 0 M Hw Hx Hs') as T. rewrite <- HD in T.
    destruct (fastdiv_exact (tap_sum s m x) D ltac:(lia)) as (m' & E1 & E2).
    { split; [lia|]. assert (D <= M * D) by nia. lia. }
    rewrite Hmul in E1. injection E1 as <-. split; [exact E2|]. split; [|lia].
    unfold avg. apply Z.mod_small. split; [apply Z.div_pos; lia|]. apply Z.div_lt_upper_bound; [lia|].
    rewrite HM'. replace (D * (M + 1)) with (M * D + D) by ring. lia. }
  change (exists out, blur_row b (2 * m + 1) mul s o = Ok out /\ length out = length s /\
    forall x, (x < length s)%nat -> nth x out 0 = avg x).
  clearbody avg. clear Hbig Hs Hs' Hmul.
  unfold blur_row. replace ((2 * m + 1 + 1) / 2)%nat with (m + 1)%nat by (replace (2 * m + 1 + 1)%nat with ((m + 1) * 2)%nat by lia; now rewrite Nat.div_mul).
  replace (length s <? m + 1)%nat with false by lia.
  replace (m + 1 - 1)%nat with m by lia.
  fold (psum s (m + 1)).
  (* the initial sum *)
  assert (P0 : forall k, (k <= length s)%nat -> 0 <= psum s k <= M * Z.of_nat k).
  { intros k Hk. replace (psum s k) with (total (map (fun j => nth j s 0) (seq 0 k))) by (rewrite psum_seq by lia; cbn [Nat.add]; unfold psum at 2; cbn [firstn sumz fold_right]; lia).
    pose proof (total_bounds 0 M (map (fun j => nth j s 0) (seq 0 k))) as T. rewrite map_length, seq_length in T.
    rewrite Z.mul_0_l in T. apply T. apply Forall_forall. intros v Hv. apply in_map_iff in Hv as (t & <- & Ht). apply in_seq in Ht. apply HN. lia. }
  pose proof (HN O ltac:(lia)) as H0.
  assert (A0 : u32_add 0 (psum s (m + 1)) = Ok (psum s (m + 1))).
  { unfold u32_add. pose proof (P0 (m + 1)%nat ltac:(lia)). rewrite Z.add_0_l. now replace (2 ^ 32 <=? psum s (m + 1)) with false by nia. }
  rewrite A0. cbn [bind]. rewrite (get_at_ok s 0 0) by lia. cbn [bind].
  rewrite (Z.mod_small (Z.of_nat m)) by nia.
  assert (A1 : u32_add 0 (Z.of_nat m * nth 0 s 0) = Ok (Z.of_nat m * nth 0 s 0)).
  { unfold u32_add. rewrite Z.add_0_l. replace (2 ^ 32 <=? Z.of_nat m * nth 0 s 0) with false; [easy|]. nia. }
  rewrite A1. cbn [bind].
  assert (A2 : u32_add (psum s (m + 1)) (Z.of_nat m * nth 0 s 0) = Ok (psum s (m + 1) + Z.of_nat m * nth 0 s 0)).
  { unfold u32_add. pose proof (P0 (m + 1)%nat ltac:(lia)).
    replace (2 ^ 32 <=? psum s (m + 1) + Z.of_nat m * nth 0 s 0) with false; [easy|]. nia. }
  rewrite A2. cbn [bind]. clear A0 A1 A2.
  replace (Nat.min m (Nat.min (length s - (m + 1)) (length o))) with m by lia.
  (* first loop *)
  match goal with |- context [for_range 0 m ?body _] => set (body1 := body) end.
  destruct (for_range_inv (fun i (ao : Z * list Z) => fst ao = psum s (m + 1 + i) + Z.of_nat (m - i) * nth 0 s 0 /\
     length (snd ao) = length s /\ forall x, (x < i)%nat -> nth x (snd ao) 0 = avg x) 0 m body1
     (psum s (m + 1) + Z.of_nat m * nth 0 s 0, o)) as (ao & -> & Ea & La & Ga).
  { lia. }
  { cbn [fst snd]. split; [now rewrite Nat.add_0_r, Nat.sub_0_r|]. split; [easy|]. intros; lia. }
  { intros i [acc o1] Hi (Ea & La & Ga). cbn [fst snd] in *. subst body1. cbv beta. cbn [fst snd].
    rewrite (get_at_ok s _ 0) by lia. cbn [bind].
    destruct (HQ i ltac:(lia)) as (Q1 & Q2 & Q3 & Q4). rewrite tap_sum_left in Q3, Q4 by lia.
    pose proof (psum_S s (m + 1 + i) ltac:(lia)) as PS. replace (S (m + 1 + i)) with (m + 1 + S i)%nat in PS by lia.
    assert (Em : Z.of_nat (m - i) * nth 0 s 0 = Z.of_nat (m - S i) * nth 0 s 0 + nth 0 s 0) by (clear - Hi; replace (m - i)%nat with (S (m - S i)) by lia; lia).
    unfold u32_add. replace (2 ^ 32 <=? acc + nth (m + 1 + i) s 0) with false by lia. cbn [bind].
    unfold u32_sub. replace (acc + nth (m + 1 + i) s 0 <? nth 0 s 0) with false by lia. cbn [bind].
    replace (acc + nth (m + 1 + i) s 0 - nth 0 s 0) with (tap_sum s m i) by (rewrite tap_sum_left by lia; lia).
    rewrite Q1. cbn [bind]. rewrite Q2, set_at_ok by lia. cbn [bind]. eexists. split; [reflexivity|]. cbn [fst snd].
    split; [now rewrite tap_sum_left by lia|]. split; [now rewrite upd_length|]. intros x Hx.
    destruct (Nat.eq_dec x i) as [->|Ne]; [rewrite upd_nth_same by lia; easy|rewrite upd_nth_other by lia; apply Ga; lia]. }
  cbn [bind]. clear body1. destruct ao as [acc1 o1]. cbn [fst snd] in *. rewrite Nat.sub_diag, Z.mul_0_l, Z.add_0_r in Ea.
  replace (m + 1 + m)%nat with (2 * m + 1)%nat in Ea by lia.
  replace (Nat.min (length s - (2 * m + 1)) (length o - m)) with (length s - (2 * m + 1))%nat by lia.
  (* second loop *)
  match goal with |- context [for_range 0 (length s - (2 * m + 1)) ?body _] => set (body2 := body) end.
  destruct (for_range_inv (fun j (so : Z * Z * list Z) => fst (fst so) = psum s (2 * m + 1 + j) - psum s j /\
     snd (fst so) = nth j s 0 /\ length (snd so) = length s /\ forall x, (x < m + j)%nat -> nth x (snd so) 0 = avg x)
     0 (length s - (2 * m + 1)) body2 (acc1, nth 0 s 0, o1)) as (so & -> & Es & _ & Ls & Gs).
  { lia. }
  { cbn [fst snd]. rewrite Nat.add_0_r. change (psum s 0) with 0. split; [lia|]. split; [easy|]. split; [easy|].
    intros x Hx. apply Ga. lia. }
  { intros j [[acc sl] o2] Hj (Es & Esl & Ls & Gs). cbn [fst snd] in *. subst body2. cbv beta iota.
    destruct (HQ (m + j)%nat ltac:(lia)) as (Q1 & Q2 & Q3 & Q4). rewrite tap_sum_mid in Q3, Q4 by lia.
    pose proof (psum_S s (2 * m + 1 + j) ltac:(lia)) as PS. replace (S (2 * m + 1 + j)) with (2 * m + 1 + S j)%nat in PS by lia.
    pose proof (psum_S s j ltac:(lia)) as PS'.
    assert (Hge : psum s (S j) <= psum s (2 * m + 1 + j)).
    { assert (forall k, (S j + k <= length s)%nat -> psum s (S j) <= psum s (S j + k)).
      { induction k as [|k IHk]; intros Hk; [rewrite Nat.add_0_r; lia|]. rewrite Nat.add_succ_r, (psum_S s (S j + k)) by lia. pose proof (HN (S j + k)%nat ltac:(lia)). specialize (IHk ltac:(lia)). lia. }
      replace (2 * m + 1 + j)%nat with (S j + 2 * m)%nat by lia. apply H. lia. }
    pose proof (HN (2 * m + 1 + j)%nat ltac:(lia)).
    unfold u32_sub. replace (acc <? sl) with false by lia. cbn [bind].
    replace (1 + j + (2 * m + 1 - 1))%nat with (2 * m + 1 + j)%nat by lia.
    rewrite (get_at_ok s (2 * m + 1 + j) 0) by lia. cbn [bind]. unfold u32_add.
    replace (2 ^ 32 <=? acc - sl + nth (2 * m + 1 + j) s 0) with false by lia. cbn [bind].
    rewrite (get_at_ok s (1 + j) 0) by lia. cbn [bind].
    replace (acc - sl + nth (2 * m + 1 + j) s 0) with (tap_sum s m (m + j)) by (rewrite tap_sum_mid by lia; lia).
    rewrite Q1. cbn [bind]. rewrite Q2, set_at_ok by lia. cbn [bind]. eexists. split; [reflexivity|]. cbn [fst snd].
    split; [now rewrite tap_sum_mid by lia|]. split; [easy|]. split; [now rewrite upd_length|]. intros x Hx.
    destruct (Nat.eq_dec x (m + j)) as [->|Ne]; [rewrite upd_nth_same by lia; easy|rewrite upd_nth_other by lia; apply Gs; lia]. }
  cbn [bind]. clear body2. destruct so as [[acc2 sl] o2]. cbn [fst snd] in *. clear sl.
  rewrite Ls. replace (length s <? m + 1)%nat with false by lia.
  replace (2 * m + 1 + (length s - (2 * m + 1)))%nat with (length s) in Es by lia.
  replace (Nat.min (m + 1) (length s - (length s - (m + 1)))) with (m + 1)%nat by lia.
  rewrite <- nth_last'.
  (* third loop *)
  match goal with |- context [for_range 0 (m + 1) ?body _] => set (body3 := body) end.
  destruct (for_range_inv (fun i (ao : Z * list Z) => fst ao = psum s (length s) - psum s (length s - (2 * m + 1))
       - (psum s (length s - (m + 1) + i) - psum s (length s - (m + 1))) + Z.of_nat i * nth (length s - 1) s 0 /\
     length (snd ao) = length s /\ forall x, (x < length s - (m + 1) + i)%nat -> nth x (snd ao) 0 = avg x)
     0 (m + 1) body3 (acc2, o2)) as (ao & -> & _ & Lf & Gf).
  { lia. }
  { cbn [fst snd]. rewrite Nat.add_0_r. split; [lia|]. split; [easy|]. intros x Hx. apply Gs. lia. }
  { intros i [acc o3] Hi (Ef & Lf & Gf). cbn [fst snd] in *. subst body3. cbv beta zeta. cbn [fst snd].
    rewrite (get_at_ok s _ 0) by lia. cbn [bind].
    destruct (HQ (length s - (m + 1) + i)%nat ltac:(lia)) as (Q1 & Q2 & Q3 & Q4). rewrite tap_sum_right in Q3, Q4 by lia.
    pose proof (psum_S s (length s - (m + 1) + i) ltac:(lia)) as PS.
    replace (S (length s - (m + 1) + i)) with (length s - (m + 1) + S i)%nat in PS by lia.
    assert (Ev : ((acc - nth (length s - (m + 1) + i) s 0) mod 2 ^ 32 + nth (length s - 1) s 0) mod 2 ^ 32
        = tap_sum s m (length s - (m + 1) + i)).
    { rewrite Zplus_mod_idemp_l. rewrite tap_sum_right by lia. rewrite Z.mod_small; [lia|].
      split; lia. }
    rewrite Ev, Q1. cbn [bind]. rewrite Q2, set_at_ok by lia. cbn [bind]. eexists. split; [reflexivity|]. cbn [fst snd].
    split; [now rewrite tap_sum_right by lia|]. split; [now rewrite upd_length|]. intros x Hx.
    destruct (Nat.eq_dec x (length s - (m + 1) + i)) as [->|Ne]; [rewrite upd_nth_same by lia; easy|rewrite upd_nth_other by lia; apply Gf; lia]. }
  cbn [bind]. eexists. split; [reflexivity|]. split; [exact Lf|]. intros x Hx. apply Gf. lia.
Qed.

(** ** Images *)

Lemma blur_rows_spec b m mul w : b = 8 \/ b = 16 -> (2 * m + 1 <= w)%nat -> (2 ^ b - 1) * Z.of_nat (2 * m + 2) < 2 ^ 32 ->
  compute_mod (Z.of_nat (2 * m + 1)) = Ok mul ->
  forall ins outs, length ins = length outs -> Forall (fun r => length r = w) ins -> Forall (fun r => length r = w) outs ->
  Forall (Forall (fun v => 0 <= v < 2 ^ b)) ins ->
  exists rows, blur_rows b (2 * m + 1) mul ins outs = Ok rows /\ length rows = length ins /\ Forall (fun r => length r = w) rows /\
    forall x y, (x < w)%nat -> (y < length ins)%nat -> nth x (nth y rows []) 0 = tap_sum (nth y ins []) m x / Z.of_nat (2 * m + 1).
Proof.
  intros Hb Hw HB Hm. induction ins as [|s ins IH]; intros outs Hl Fi Fo Fs.
  - destruct outs; [|easy]. exists []. split; [easy|]. split; [easy|]. split; [constructor|]. cbn [length]. intros; lia.
  - destruct outs as [|o outs]; [easy|]. cbn [length] in Hl. injection Hl as Hl.
    apply Forall_cons_iff in Fi as [Fi1 Fi]. apply Forall_cons_iff in Fo as [Fo1 Fo]. apply Forall_cons_iff in Fs as [Fs1 Fs].
    destruct (blur_row_spec b m mul s o Hb ltac:(lia) ltac:(lia) Fs1 HB Hm) as (r & Er & Lr & Nr).
    destruct (IH outs Hl Fi Fo Fs) as (rs & Ers & Lrs & Frs & Nrs).
    cbn [blur_rows]. rewrite Er. cbn [bind]. rewrite Ers. cbn [bind]. eexists. split; [reflexivity|].
    split; [cbn [length]; lia|]. split; [constructor; [lia|easy]|]. intros x y Hx Hy. destruct y as [|y]; cbn [nth length] in *.
    + apply Nr. lia.
    + apply Nrs; lia.
Qed.

Lemma chunks_forall {A} (P : A -> Prop) n l : (0 < n)%nat -> Forall P l -> Forall (Forall P) (chunks_exact n l).
Proof.
  intros Hn. pattern l; apply (chunk_ind n); clear l; [lia|intros l H _|intros x l Hx IH F].
  - rewrite chunks_exact_short by easy. constructor.
  - rewrite chunks_exact_cons by easy. apply Forall_app in F as [F1 F2]. constructor; [easy|now apply IH].
Qed.

Lemma inner_spec b inp out w h r m : b = 8 \/ b = 16 -> (2 <= w)%nat -> (1 <= r)%nat -> Nat.min (2 * r + 1) w = (2 * m + 1)%nat ->
  length inp = (w * h)%nat -> length out = (w * h)%nat -> Forall (fun v => 0 <= v < 2 ^ b) inp ->
  (2 ^ b - 1) * Z.of_nat (2 * m + 2) < 2 ^ 32 ->
  exists out', box_blur_inner b inp out w r = Ok out' /\
    is_image w h out' (fun x y => average (fun t => px w inp t y) (taps w m x)).
Proof.
  intros Hb Hw Hr Hm Hi Ho Hs HB. unfold box_blur_inner.
  replace ((w <=? 1) || (r * 2 + 1 <=? 1))%nat with false by lia.
  replace (Nat.min (r * 2 + 1) w) with (2 * m + 1)%nat by lia.
  assert (B : 256 <= 2 ^ b) by (destruct Hb as [-> | ->]; easy).
  assert (HD : 1 <= Z.of_nat (2 * m + 1) < 2 ^ 32) by nia.
  destruct (fastdiv_exact 0 (Z.of_nat (2 * m + 1)) ltac:(lia) HD) as (mul & Em & _). rewrite Em. cbn [bind].
  destruct (rows_of w h inp ltac:(lia) Hi) as (I1 & I2 & I3). destruct (rows_of w h out ltac:(lia) Ho) as (O1 & O2 & O3).
  destruct (blur_rows_spec b m mul w Hb ltac:(lia) HB Em (chunks_exact w inp) (chunks_exact w out) ltac:(lia) I2 O2
     ltac:(apply chunks_forall; [lia|easy])) as (rows & -> & L & F & N).
  cbn [bind]. eexists. split; [reflexivity|]. rewrite O1. rewrite (skipn_all2 out) by lia. rewrite app_nil_r.
  apply is_image_rows; [lia|easy|]. intros x y Hx Hy. rewrite N by lia. unfold average, tap_sum.
  assert (Ly : length (nth y (chunks_exact w inp) []) = w).
  { rewrite Forall_forall in I2. apply I2, nth_In. lia. }
  rewrite Ly, taps_length by lia. f_equal. f_equal. apply map_ext_in. intros t Ht. apply taps_in in Ht; [|lia|lia].
  apply (row_nth w h); lia || easy.
Qed.

Lemma average_bounds f ts lo hi : (0 < length ts)%nat -> (forall t, In t ts -> lo <= f t <= hi) -> lo <= average f ts <= hi.
Proof.
  intros Hl H. unfold average. pose proof (total_bounds lo hi (map f ts)) as T. rewrite map_length in T.
  specialize (T ltac:(apply Forall_forall; intros v Hv; apply in_map_iff in Hv as (t & <- & Ht); now apply H)).
  split; [apply Z.div_le_lower_bound; lia|]. apply Z.div_le_upper_bound; lia.
Qed.

Lemma average_ext f g ts : (forall t, In t ts -> f t = g t) -> average f ts = average g ts.
Proof. intros H. unfold average. now rewrite (map_ext_in f g). Qed.

Lemma image_forall (P : Z -> Prop) w h out f : is_image w h out f -> (0 < w)%nat -> (forall x y, (x < w)%nat -> (y < h)%nat -> P (f x y)) -> Forall P out.
Proof.
  intros [L N] Hw H. apply Forall_forall. intros v Hv. apply (In_nth _ _ 0) in Hv as (k & Hk & <-).
  assert (E : k = (k / w * w + k mod w)%nat) by (rewrite Nat.mul_comm; apply Nat.div_mod; lia).
  assert (k mod w < w)%nat by (apply Nat.mod_upper_bound; lia). assert (k / w < h)%nat by (apply Nat.div_lt_upper_bound; lia).
  rewrite E. fold (px w out (k mod w) (k / w)). rewrite N by easy. now apply H.
Qed.

Lemma blur_spec b checked img w h r mw mh : b = 8 \/ b = 16 -> (8 <= w)%nat -> (8 <= h)%nat -> (2 <= r)%nat ->
  let r' := (r + (if Nat.even r then 1 else 0))%nat in
  Nat.min (2 * r' + 1) w = (2 * mw + 1)%nat -> Nat.min (2 * r' + 1) h = (2 * mh + 1)%nat ->
  (2 ^ b - 1) * Z.of_nat (2 * mw + 2) < 2 ^ 32 -> (2 ^ b - 1) * Z.of_nat (2 * mh + 2) < 2 ^ 32 ->
  length img = (w * h)%nat -> Forall (fun v => 0 <= v < 2 ^ b) img ->
  exists out, box_blur b checked img w h r = Ok out /\
    is_image w h out (fun x y => average (fun u => average (fun t => px w img t u) (taps w mw x)) (taps h mh y)).
Proof.
  intros Hb Hw Hh Hr r' Mw Mh Bw Bh Hl Hs. unfold box_blur.
  replace ((w =? 0) || (r <=? 1))%nat with false by lia.
  replace (if (r mod 2 =? 0)%nat then (r + 1)%nat else r) with r'.
  2: { subst r'. assert (E : (r mod 2 =? 0)%nat = Nat.even r).
       { destruct (Nat.even r) eqn:Ev.
         - apply Nat.even_spec in Ev as [k ->]. apply Nat.eqb_eq. rewrite Nat.mul_comm. apply Nat.mod_mul. lia.
         - apply Nat.eqb_neq. intros E0. apply Nat.mod_divides in E0 as [k ->]; [|lia]. rewrite Nat.even_mul in Ev. easy. }
       rewrite E. destruct (Nat.even r); lia. }
  assert (Hr' : (1 <= r')%nat) by (subst r'; lia). clearbody r'.
  destruct (inner_spec b img (repeat 0 (w * h)) w h r' mw Hb ltac:(lia) Hr' Mw Hl (repeat_length _ _) Hs Bw) as (s1 & -> & I1).
  cbn [bind]. destruct (transpose_spec checked w h s1 img Hw Hh (proj1 I1) Hl) as (t1 & -> & T1). cbn [bind].
  assert (S1 : Forall (fun v => 0 <= v < 2 ^ b) t1).
  { apply (image_forall _ h w t1 _ T1); [lia|]. intros x y Hx Hy. destruct I1 as [_ N1]. rewrite N1 by easy.
    assert (A : 0 <= average (fun t => px w img t x) (taps w mw y) <= 2 ^ b - 1); [|lia].
    apply average_bounds; [rewrite taps_length by lia; lia|]. intros t Ht. apply taps_in in Ht; [|lia|easy].
    rewrite Forall_forall in Hs. assert (In (px w img t x) img); [|specialize (Hs _ H); lia].
    unfold px. apply nth_In. rewrite Hl. now apply idx_bound'. }
  destruct (inner_spec b t1 s1 h w r' mh Hb ltac:(lia) Hr' Mh (proj1 T1) ltac:(rewrite (proj1 I1); lia) S1 Bh) as (s2 & -> & I2).
  cbn [bind]. destruct (transpose_spec checked h w s2 t1 Hh Hw (proj1 I2) (proj1 T1)) as (t2 & -> & T2).
  exists t2. split; [easy|]. eapply is_image_ext; [|exact T2]. intros x y Hx Hy. cbv beta.
  destruct I2 as [_ N2]. rewrite N2 by easy. apply average_ext. intros u Hu. apply taps_in in Hu; [|lia|easy].
  destruct T1 as [_ N1]. rewrite N1 by easy. now apply I1.
Qed.
