(** The bilateral filter (C138, C139). *)
From Coq Require Import Logic.FinFun.
From Verif Require Import Base BaseProof Loops Slices HdrProof GeomModel GeomSpec GeomProof MedianModel MedianSpec MedianProof.
From Verif Require Import SpatialModel SpatialSpec SpatialProof ProcModel BlurModel BlurSpec BlurProof BilateralModel BilateralSpec.

Lemma zrange_length r : length (zrange r) = (2 * r + 1)%nat.
Proof. unfold zrange. now rewrite map_length, seq_length. Qed.
Lemma zrange_nodup r : NoDup (zrange r).
Proof. apply Injective_map_NoDup; [|apply seq_NoDup]. intros a b. lia. Qed.

Definition row_count (r : nat) (i : Z) : nat :=
  length (filter (fun n => n <=? Z.of_nat r * Z.of_nat r) (map (fun j => i * i + j * j) (zrange r))).

Lemma filter_length_le {A} (f : A -> bool) l : (length (filter f l) <= length l)%nat.
Proof. induction l as [|a l IH]; [easy|]. cbn. destruct (f a); cbn; lia. Qed.
Lemma filter_map {A B} (g : A -> B) (f : B -> bool) l : filter f (map g l) = map g (filter (fun a => f (g a)) l).
Proof. induction l as [|a l IH]; [easy|]. cbn. destruct (f (g a)); cbn; now rewrite IH. Qed.

Lemma row_count_le r i : (row_count r i <= 2 * r + 1)%nat.
Proof. unfold row_count. etransitivity; [apply filter_length_le|]. now rewrite map_length, zrange_length. Qed.

(** Only the middle one of the top and bottom rows lies in the circle *)
Lemma row_count_edge r i : i * i = Z.of_nat r * Z.of_nat r -> (row_count r i <= 1)%nat.
Proof.
  intros E. unfold row_count. rewrite filter_map, map_length.
  apply (NoDup_incl_length (l' := [0])); [apply NoDup_filter, zrange_nodup|].
  intros j Hj. apply filter_In in Hj as (_ & Hj). left. nia.
Qed.

(** Both ends of every row but the middle one lie outside the circle *)
Lemma row_count_inner r i : (1 <= r)%nat -> i <> 0 -> (row_count r i <= 2 * r - 1)%nat.
Proof.
  intros Hr Hi. unfold row_count. rewrite filter_map, map_length.
  assert (E : (length (filter (fun j => (i * i + j * j <=? Z.of_nat r * Z.of_nat r)%Z) (zrange r)) + 2 <= length (zrange r))%nat).
  { unfold zrange. replace (2 * r + 1)%nat with (1 + ((2 * r - 1) + 1))%nat by lia. rewrite !seq_app, !map_app, !filter_app, !app_length.
    cbn [seq map filter Nat.add]. replace (Z.of_nat (S (2 * r - 1)) - Z.of_nat r) with (Z.of_nat r) by lia.
    replace (i * i + (Z.of_nat 0 - Z.of_nat r) * (Z.of_nat 0 - Z.of_nat r) <=? Z.of_nat r * Z.of_nat r) with false by nia.
    replace (i * i + Z.of_nat r * Z.of_nat r <=? Z.of_nat r * Z.of_nat r) with false by nia.
    cbn [length]. match goal with |- context [length (filter ?f ?l)] => pose proof (filter_length_le f l) end. lia. }
  rewrite zrange_length in E. lia.
Qed.

Lemma distances_rows r : length (distances r) = fold_right Nat.add 0%nat (map (row_count r) (zrange r)).
Proof.
  unfold distances. generalize (zrange r) at 2 3 as l. induction l as [|i l IH]; [reflexivity|]. cbn [map concat fold_right].
  rewrite app_length, IH. reflexivity.
Qed.

Lemma fold_add_app a b : fold_right Nat.add 0%nat (a ++ b) = (fold_right Nat.add 0%nat a + fold_right Nat.add 0%nat b)%nat.
Proof. induction a as [|x a IH]; [reflexivity|]. cbn. rewrite IH. lia. Qed.
Lemma fold_add_le l m : Forall (fun x => (x <= m)%nat) l -> (fold_right Nat.add 0%nat l <= length l * m)%nat.
Proof. induction 1; cbn; lia. Qed.

Lemma rows_le r l : (fold_right Nat.add 0%nat (map (row_count r) l) <= length l * (2 * r + 1))%nat.
Proof.
  rewrite <- (map_length (row_count r) l). apply fold_add_le. apply Forall_forall. intros x Hx. apply in_map_iff in Hx as (i & <- & _).
  apply row_count_le.
Qed.

(** The table has room for the circle for every diameter but 2 *)
Lemma table_fits d : 3 <= d -> Z.of_nat (length (distances (Z.to_nat (d / 2)))) <= d * d.
Proof.
  intros Hd. set (r := Z.to_nat (d / 2)). rewrite distances_rows. assert (D : d = 2 * Z.of_nat r \/ d = 2 * Z.of_nat r + 1) by lia.
  destruct D as [D|D].
  - assert (Hr : (2 <= r)%nat) by lia. unfold zrange. replace (2 * r + 1)%nat with (1 + ((2 * r - 2) + (1 + 1)))%nat by lia.
    rewrite !seq_app, !map_app, !fold_add_app. cbn [seq map fold_right Nat.add].
    pose proof (row_count_edge r (Z.of_nat 0 - Z.of_nat r) ltac:(lia)).
    pose proof (row_count_inner r (Z.of_nat (S (2 * r - 2)) - Z.of_nat r) ltac:(lia) ltac:(lia)).
    pose proof (row_count_edge r (Z.of_nat (S (2 * r - 2 + 1)) - Z.of_nat r)) as H1.
    replace (Z.of_nat (S (2 * r - 2 + 1)) - Z.of_nat r) with (Z.of_nat r) in * by lia. specialize (H1 eq_refl).
    pose proof (rows_le r (map (fun k => Z.of_nat k - Z.of_nat r) (seq 1 (2 * r - 2)))) as H2. rewrite map_length, seq_length in H2.
    rewrite D. clear - H H0 H1 H2 Hr. revert H H0 H1 H2.
    generalize (row_count r (Z.of_nat 0 - Z.of_nat r)) (row_count r (Z.of_nat (S (2 * r - 2)) - Z.of_nat r)) (row_count r (Z.of_nat r)).
    match goal with |- context [fold_right Nat.add 0%nat ?l] => generalize (fold_right Nat.add 0%nat l) end.
    clearbody r. destruct r as [|[|q]]; [lia|lia|]. replace (2 * S (S q) - 2)%nat with (2 * q + 2)%nat by lia. intros; nia.
  - pose proof (rows_le r (zrange r)) as H. rewrite zrange_length in H. rewrite D. nia.
Qed.

Lemma distances_nonempty r : distances r <> [].
Proof.
  intros E. assert (H : In 0 (distances r)); [|now rewrite E in H].
  assert (Z0 : In 0 (zrange r)) by (apply in_map_iff; exists r; rewrite in_seq; lia).
  unfold distances. apply in_concat. eexists. split; [apply in_map_iff; exists 0; split; [reflexivity|exact Z0]|].
  apply filter_In. split; [|nia]. apply in_map_iff. exists 0. split; [reflexivity|exact Z0].
Qed.

Lemma fn_ok {W} (color : Z -> W) avg ws area r : (1 <= r)%nat -> length area = ((2 * r + 1) * (2 * r + 1))%nat -> ws <> [] ->
  exists ts, bilateral_fn color avg ws area = Ok (avg ts) /\ ts <> [] /\ forall t, In t ts -> In (snd t) area.
Proof.
  intros Hr Ha Hw. unfold bilateral_fn.
  destruct (nth_error area ((length area + 1) / 2)) as [v0|] eqn:E.
  - eexists. split; [reflexivity|]. split.
    + destruct area as [|a area]; [cbn in Ha; lia|]. destruct ws; [easy|]. discriminate.
    + intros t Ht. apply in_map_iff in Ht as ([v s] & <- & Ht). cbn [snd fst]. now apply in_combine_l in Ht.
  - apply nth_error_None in E. exfalso. rewrite Ha in E. clear - E Hr. nia.
Qed.

(** With a diameter of at least 3 the filter does not panic, and for every average that stays between the samples, every
    sample of the result lies between the smallest and the largest sample of the picture. Missing from the full claim: the
    diameters 1 and 2. *)
Theorem bilateral_range_partial {W} (space color : Z -> W) avg d l w h lo hi : between avg -> 3 <= d -> d * d < 2 ^ 31 ->
  (0 < w)%nat -> (0 < h)%nat -> length l = (w * h)%nat -> Forall (fun v => lo <= v <= hi) l ->
  exists out, bilateral space color avg d l w h = Ok out /\ length out = (w * h)%nat /\ Forall (fun v => lo <= v <= hi) out.
Proof.
  intros HB Hd Hm Hw Hh Hl HF. unfold bilateral, space_weights. replace (d <? 1) with false by lia.
  replace (2 ^ 31 <=? d * d) with false by (clear - Hm; lia). cbv zeta. pose proof (table_fits d Hd) as T.
  replace (d * d <? Z.of_nat (length (distances (Z.to_nat (d / 2))))) with false by (clear - T; lia). cbn [bind].
  set (r := Z.to_nat (d / 2)). assert (Hr : (1 <= r)%nat) by (unfold r; clear - Hd; lia).
  set (ws := map space (distances r)).
  assert (Hws : ws <> []) by (unfold ws; pose proof (distances_nonempty r); now destruct (distances r)).
  set (g := fun area => match bilateral_fn color avg ws area with Ok v => v | _ => 0 end).
  destruct (filter_image_ok (bilateral_fn color avg ws) g l r w h Hw Hh Hl) as (out & E & I).
  { intros x y Hx Hy. destruct (fn_ok color avg ws (window w h l r x y) r Hr (window_length _ _ _ _ _ _) Hws) as (ts & E & _). unfold g. now rewrite E. }
  exists out. split; [exact E|]. split; [apply I|]. apply (image_forall _ w h out _ I); [lia|]. intros x y Hx Hy.
  destruct (fn_ok color avg ws (window w h l r x y) r Hr (window_length _ _ _ _ _ _) Hws) as (ts & E' & N & Hin). unfold g. rewrite E'.
  apply HB; [exact N|]. apply Forall_forall. intros t Ht. pose proof (window_forall _ w h l r x y Hw Hh Hl HF) as WF. rewrite Forall_forall in WF.
  apply WF, Hin, Ht.
Qed.
Print Assumptions bilateral_range_partial.

(** A flat picture stays as it is. *)
Theorem bilateral_flat_partial {W} (space color : Z -> W) avg d c w h : between avg -> 3 <= d -> d * d < 2 ^ 31 ->
  (0 < w)%nat -> (0 < h)%nat -> bilateral space color avg d (repeat c (w * h)) w h = Ok (repeat c (w * h)).
Proof.
  intros HB Hd Hm Hw Hh.
  destruct (bilateral_range_partial space color avg d (repeat c (w * h)) w h c c HB Hd Hm Hw Hh (repeat_length _ _)) as (out & -> & L & F).
  - apply Forall_forall. intros v Hv. apply repeat_spec in Hv. lia.
  - f_equal. rewrite <- L. apply Forall_eq_repeat. eapply Forall_impl; [|exact F]. cbv beta. intros; lia.
Qed.
Print Assumptions bilateral_flat_partial.

(** With both deviations so large that all weights are 1, the average is the mean, rounded *)
Definition mean (ts : list (Z * Z * Z)) : Z :=
  let n := Z.of_nat (length ts) in (2 * fold_right Z.add 0 (map snd ts) + n) / (2 * n).
Definition one : Z -> Z := fun _ => 1.
Lemma mean_between : between mean.
Proof.
  intros ts lo hi N F. unfold mean. set (n := Z.of_nat (length ts)).
  assert (Hn : 0 < n) by (unfold n; destruct ts; [easy|cbn; lia]).
  assert (S : n * lo <= fold_right Z.add 0 (map snd ts) <= n * hi).
  { unfold n. clear N Hn n. induction F as [|t ts Ht F IH]; [cbn; lia|]. cbn [map fold_right length]. lia. }
  split; [apply Z.div_le_lower_bound|]; [lia|nia|]. apply Z.lt_succ_r, Z.div_lt_upper_bound; [lia|nia].
Qed.
Example bilateral_ex : between mean /\ bilateral one one mean 3 [10; 20; 30; 40; 50; 60; 70; 80; 90] 3 3 = Ok [12; 18; 26; 24; 30; 38; 54; 60; 68] /\
  bilateral one one mean 4 (repeat 7 6) 3 2 = Ok (repeat 7 6).
Proof. split; [exact mean_between|]. vm_compute. split; reflexivity. Qed.

Lemma filter_image_panic f l r w h : (0 < w)%nat -> (0 < h)%nat -> length l = (w * h)%nat -> f (window w h l r 0 0) = Panic ->
  filter_image f l r w h = Panic.
Proof.
  intros Hw Hh Hl Hf. unfold filter_image. destruct (pad_replicate_spec l w h r r Hw Hh Hl) as (pd & -> & Lp & Np). cbn [bind].
  unfold spatial. replace (r * 2 + w)%nat with (w + r * 2)%nat by lia. replace (r * 2 + h)%nat with (h + r * 2)%nat by lia.
  replace ((h + r * 2) * (w + r * 2) =? length pd)%nat with true by (symmetry; apply Nat.eqb_eq; rewrite Lp; apply Nat.mul_comm). cbn [negb].
  assert (HW : gather pd (w + r * 2) (2 * r + 1) 0 0 = Ok (window w h l r 0 0)).
  { rewrite (gather_ok pd (w + r * 2) (h + r * 2)) by (try easy; lia). f_equal.
    change (window w h l r 0 0) with (win (fun a b => px w l (clamp w r a) (clamp h r b)) (2 * r + 1) 0 0). apply win_ext.
    intros a b Ha Hb. apply Np; lia. }
  unfold for_range. destruct w as [|w]; [lia|]. destruct h as [|h]; [lia|]. rewrite !Nat.sub_0_r. cbn [for_loop].
  rewrite HW. cbn [bind]. rewrite Hf. reflexivity.
Qed.

(** The claim that every diameter works is false: with a diameter of 1 the filter panics on every picture, as it looks for
    the middle of one sample behind it, and with a diameter of 2 the table is too small for the circle. *)
Theorem bilateral_small_refuted {W} (space color : Z -> W) avg l w h : (0 < w)%nat -> (0 < h)%nat -> length l = (w * h)%nat ->
  bilateral space color avg 1 l w h = Panic /\ bilateral space color avg 2 l w h = Panic.
Proof.
  intros Hw Hh Hl. split; [|reflexivity]. unfold bilateral, space_weights. change (1 <? 1) with false. cbv iota.
  change (2 ^ 31 <=? 1 * 1) with false. change (Z.to_nat (1 / 2)) with 0%nat. cbv iota zeta.
  change (1 * 1 <? Z.of_nat (length (distances 0))) with false. cbn [bind].
  apply filter_image_panic; try assumption. unfold bilateral_fn.
  destruct (nth_error (window w h l 0 0 0) ((length (window w h l 0 0 0) + 1) / 2)) eqn:E; [|reflexivity].
  assert (N : nth_error (window w h l 0 0 0) ((length (window w h l 0 0 0) + 1) / 2) <> None) by now rewrite E.
  apply nth_error_Some in N. rewrite window_length in N. cbn in N. lia.
Qed.
Print Assumptions bilateral_small_refuted.

(** The claim that the filter averages the neighbours in the circle is false: the weights of the circle are applied to the
    first samples of the square window instead. The bright sample right below the centre has no influence on it, and the
    one at the upper left corner, outside the circle, has. *)
Theorem bilateral_value_refuted :
  (match bilateral one one mean 3 [0; 0; 0; 0; 0; 0; 0; 100; 0] 3 3 with Ok out => px 3 out 1 1 = 0 | _ => False end) /\
  bilateral_value one one mean 1 3 3 [0; 0; 0; 0; 0; 0; 0; 100; 0] 1 1 = 20 /\
  (match bilateral one one mean 3 [100; 0; 0; 0; 0; 0; 0; 0; 0] 3 3 with Ok out => px 3 out 1 1 = 20 | _ => False end) /\
  bilateral_value one one mean 1 3 3 [100; 0; 0; 0; 0; 0; 0; 0; 0] 1 1 = 0.
Proof. vm_compute. repeat split. Qed.
Print Assumptions bilateral_value_refuted.

(** What is computed: for a diameter of at least 3, every sample is the average of the first samples of its window, as many
    as there are points in the circle, with the weights of the circle in their order, and of colour relative to the sample
    one behind the centre. Missing from the full claim: the right samples and the right centre. *)
Theorem bilateral_value_partial {W} (space color : Z -> W) avg d l w h : 3 <= d -> d * d < 2 ^ 31 ->
  (0 < w)%nat -> (0 < h)%nat -> length l = (w * h)%nat ->
  let r := Z.to_nat (d / 2) in
  exists out, bilateral space color avg d l w h = Ok out /\ length out = (w * h)%nat /\
    forall x y, (x < w)%nat -> (y < h)%nat ->
      let win := window w h l r x y in
      let centre := nth (2 * r * (r + 1) + 1) win 0 in
      px w out x y = avg (map (fun vn => (space (snd vn), color (Z.abs (fst vn - centre)), fst vn)) (combine win (distances r))).
Proof.
  intros Hd Hm Hw Hh Hl r. unfold bilateral, space_weights. replace (d <? 1) with false by lia.
  replace (2 ^ 31 <=? d * d) with false by (clear - Hm; lia). cbv zeta. pose proof (table_fits d Hd) as T.
  replace (d * d <? Z.of_nat (length (distances (Z.to_nat (d / 2))))) with false by (clear - T; lia). cbn [bind]. fold r.
  assert (Hr : (1 <= r)%nat) by (unfold r; clear - Hd; lia). clearbody r.
  set (g := fun win => avg (map (fun vn => (space (snd vn), color (Z.abs (fst vn - nth (2 * r * (r + 1) + 1) win 0)), fst vn)) (combine win (distances r)))).
  destruct (filter_image_ok (bilateral_fn color avg (map space (distances r))) g l r w h Hw Hh Hl) as (out & E & I).
  { intros x y Hx Hy. unfold bilateral_fn, g. rewrite window_length.
    replace (((2 * r + 1) * (2 * r + 1) + 1) / 2)%nat with (2 * r * (r + 1) + 1)%nat by (apply (Nat.div_unique _ 2 _ 0); lia).
    rewrite (nth_error_nth' _ 0) by (rewrite window_length; clear - Hr; nia). f_equal. f_equal.
    generalize (window w h l r x y) as win. intros win. generalize (nth (2 * r * (r + 1) + 1) win 0) as c. intros c. generalize (distances r) as ds.
    induction win as [|v win IH]; intros ds; [reflexivity|]. destruct ds; [reflexivity|]. cbn [map combine fst snd]. f_equal. apply IH. }
  exists out. split; [exact E|]. split; [apply I|]. intros x y Hx Hy. now apply I.
Qed.
Print Assumptions bilateral_value_partial.
