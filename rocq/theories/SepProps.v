(** Resizing with a separable kernel: what it reads, when it cannot panic, and that it does not keep flat rows flat. *)
From Verif Require Import Base F32 SepModel SepProof.
From Coq Require Import Lia.

Lemma collect_ok {A} (l : list (res A)) : (forall x, In x l -> exists v, x = Ok v) -> exists r, collect l = Ok r /\ length r = length l.
Proof.
  induction l as [|x l IH]; intros H; [now exists []|]. destruct (H x (or_introl eq_refl)) as [v ->]. destruct IH as (r & E & L); [intros; apply H; now right|].
  cbn [collect bind]. rewrite E. cbn [bind]. exists (v :: r). split; [reflexivity|]. cbn. lia.
Qed.
Lemma collect_in {A} (l : list (res A)) r : collect l = Ok r -> forall v, In v r -> In (Ok v) l.
Proof.
  revert r. induction l as [|x l IH]; intros r H v Hv; [injection H as <-; easy|]. cbn [collect] in H. destruct x as [w|e| |]; try discriminate. cbn [bind] in H.
  destruct (collect l) as [r'|e| |] eqn:E; try discriminate. cbn [bind] in H. injection H as <-. destruct Hv as [->|Hv]; [now left|right]. now apply (IH r').
Qed.
Lemma precompute_window kf a n ratio o k : precompute kf a n ratio o = Ok k -> (kstart k, kend k) = window a n (floor_i32 (position ratio o)).
Proof.
  unfold precompute. destruct (window a n (floor_i32 (position ratio o))) as [s e]. cbv zeta. destruct (6 <? _)%nat; [discriminate|]. intros [= <-]. reflexivity.
Qed.
Lemma window_size a n c : let '(s, e) := window a n c in e - s + 1 <= 2 * a /\ 0 <= s /\ e < n.
Proof. unfold window. lia. Qed.

(** ** C142: a flat picture stays flat
    Full claim: resizing a row (and a picture) of equal samples gives equal samples again, with every method.
    False: white becomes 254 in places, because the sum of the rounded weights is below 1 and samples are cut, not rounded. *)
Theorem sep_flat_refuted :
  ~ (forall v inn out, 0 <= v <= 255 -> (1 <= inn)%nat -> (1 <= out)%nat -> resize_row 255 catmull_rom 2 inn out (repeat v inn) = Ok (repeat v out)) /\
  ~ (forall v inn out, 0 <= v <= 255 -> (1 <= inn)%nat -> (1 <= out)%nat -> resize_row 255 mitchell 2 inn out (repeat v inn) = Ok (repeat v out)).
Proof.
  split; intros C.
  - specialize (C 255 4%nat 8%nat ltac:(lia) ltac:(lia) ltac:(lia)). vm_compute in C. discriminate.
  - specialize (C 255 4%nat 3%nat ltac:(lia) ltac:(lia) ltac:(lia)). vm_compute in C. discriminate.
Qed.
Print Assumptions sep_flat_refuted.
Example sep_flat_case : resize_row 255 catmull_rom 2 4 8 [255; 255; 255; 255] = Ok [255; 254; 254; 255; 255; 254; 255; 255].
Proof. vm_compute. reflexivity. Qed.

(** As long as the positions computed stay within the row (at most one sample off), every kernel function and every row
    give a result of the new size with samples in range. *)
Definition positions_ok (inn out : nat) : Prop :=
  forall o, (o < out)%nat -> -1 <= floor_i32 (position (fdiv (of_int (Z.of_nat inn)) (of_int (Z.of_nat out))) o) <= Z.of_nat inn.
Lemma to_uint_range hi f : 0 <= hi -> 0 <= to_uint hi f <= hi.
Proof.
  intros Hh. destruct f as [s|[]| |[] m e]; cbn [to_uint]; try lia.
  assert (0 <= if 0 <=? e then Zpos m * 2 ^ e else Zpos m / 2 ^ (- e)); [|lia].
  destruct (Z.leb_spec 0 e); [apply Z.mul_nonneg_nonneg; [lia|apply Z.pow_nonneg; lia]|apply Z.div_pos; [lia|apply Z.pow_pos_nonneg; lia]].
Qed.
Lemma resample_if kf a inn out line : 2 <= a <= 3 -> (1 <= inn)%nat -> length line = inn -> positions_ok inn out ->
  exists l, resample kf a inn out line = Ok l /\ length l = out.
Proof.
  intros Ha Hi Hl HP.
  unfold resample, kernels. set (ratio := fdiv _ _). unfold positions_ok in HP. fold ratio in HP. clearbody ratio.
  assert (W : forall o, (o < out)%nat -> exists k, precompute kf a (Z.of_nat inn) ratio o = Ok k).
  { intros o Ho. unfold precompute. pose proof (window_size a (Z.of_nat inn) (floor_i32 (position ratio o))) as S.
    destruct (window a (Z.of_nat inn) (floor_i32 (position ratio o))) as [s e]. destruct S as (S & _). cbv zeta.
    match goal with |- context [(6 <? ?L)%nat] => assert (B : (L <= 6)%nat) by (rewrite map_length, seq_length; lia); destruct (Nat.ltb_spec 6 L); [lia|] end.
    eexists. reflexivity. }
  destruct (collect_ok (map (precompute kf a (Z.of_nat inn) ratio) (seq 0 out))) as (ks & Ek & Lk).
  { intros x Hx. apply in_map_iff in Hx as (o & <- & Ho). apply in_seq in Ho. apply W. lia. }
  rewrite Ek. cbn [bind]. rewrite map_length, seq_length in Lk.
  destruct (collect_ok (map (weigh line) ks)) as (l & El & Ll).
  { intros x Hx. apply in_map_iff in Hx as (k & <- & Hk). apply (collect_in _ _ Ek) in Hk. apply in_map_iff in Hk as (o & Eo & Ho). apply in_seq in Ho.
    apply precompute_window in Eo. specialize (HP o ltac:(lia)). unfold window in Eo. injection Eo as Es Ee.
    unfold weigh. replace ((kend k <? kstart k) || (kstart k <? 0)) with false by (symmetry; apply Bool.orb_false_iff; split; apply Z.ltb_ge; lia).
    rewrite firstn_length, skipn_length. rewrite (proj2 (Nat.eqb_eq _ _)) by lia. eexists. reflexivity. }
  rewrite El. exists l. split; [reflexivity|]. rewrite map_length in Ll. lia.
Qed.
Lemma resample_ok kf a inn out line : 2 <= a <= 3 -> 1 <= Z.of_nat inn <= 2 ^ 20 -> Z.of_nat out <= 2 ^ 20 -> length line = inn ->
  exists l, resample kf a inn out line = Ok l /\ length l = out.
Proof. intros Ha Hi Ho Hl. apply resample_if; [easy|lia|easy|]. intros o Hlt. apply position_ok; lia. Qed.
(** The rounded positions do so for all sizes up to [2 ^ 20]: no method panics, whatever its kernel function computes. *)
Theorem sep_size hi kf a inn out row : 2 <= a <= 3 -> 0 <= hi -> 1 <= Z.of_nat inn <= 2 ^ 20 -> Z.of_nat out <= 2 ^ 20 -> length row = inn ->
  (forall v, In v row -> 0 <= v <= hi) ->
  exists r, resize_row hi kf a inn out row = Ok r /\ length r = out /\ forall v, In v r -> 0 <= v <= hi.
Proof.
  intros Ha Hh Hi Ho Hl Hr. unfold resize_row. destruct (Nat.eqb_spec inn out) as [<-|_]; [now exists row|].
  destruct (resample_ok kf a inn out (map of_int row)) as (l & -> & L); [easy|easy|easy|now rewrite map_length|]. cbn [bind].
  exists (map (to_uint hi) l). split; [reflexivity|]. rewrite map_length. split; [exact L|].
  intros v Hv. apply in_map_iff in Hv as (f & <- & _). now apply to_uint_range.
Qed.
Print Assumptions sep_size.
(** … and so for whole pictures *)
Lemma concat_len {A} (l : list (list A)) w : (forall r, In r l -> length r = w) -> length (concat l) = (w * length l)%nat.
Proof. induction l as [|r l IH]; intros H; [cbn; lia|]. cbn [concat length]. rewrite app_length, (H r (or_introl eq_refl)), IH by (intros x Hx; apply H; now right). lia. Qed.
Theorem sep_picture hi kf a w h ow oh inp : 2 <= a <= 3 -> 0 <= hi -> 1 <= Z.of_nat w <= 2 ^ 20 -> 1 <= Z.of_nat h <= 2 ^ 20 ->
  Z.of_nat ow <= 2 ^ 20 -> Z.of_nat oh <= 2 ^ 20 -> length inp = (w * h)%nat -> (forall v, In v inp -> 0 <= v <= hi) ->
  exists out, resize_picture hi kf a w h ow oh inp = Ok out /\ length out = (ow * oh)%nat /\ forall v, In v out -> 0 <= v <= hi.
Proof.
  intros Ha Hh Hw Hht How Hoh Hl Hr. unfold resize_picture. destruct ((w =? ow)%nat && (h =? oh)%nat) eqn:E.
  { apply andb_prop in E as [E1 E2]. apply Nat.eqb_eq in E1, E2. subst ow oh. now exists inp. }
  cbv zeta. clear E. set (rows := rows_of w h (map of_int inp)).
  assert (R : length rows = h /\ forall r, In r rows -> length r = w).
  { unfold rows, rows_of. split; [now rewrite map_length, seq_length|]. intros r Hr'. apply in_map_iff in Hr' as (y & <- & Hy). apply in_seq in Hy.
    rewrite firstn_length, skipn_length, map_length, Hl. assert ((y + 1) * w <= h * w)%nat by (apply Nat.mul_le_mono_r; lia). lia. }
  clearbody rows. destruct R as [Rl Rr].
  assert (A : exists hs, (if (w =? ow)%nat then Ok rows else collect (map (resample kf a w ow) rows)) = Ok hs /\ length hs = h /\ forall r, In r hs -> length r = ow).
  { destruct (Nat.eqb_spec w ow) as [<-|_]; [now exists rows|].
    destruct (collect_ok (map (resample kf a w ow) rows)) as (hs & Eh & Lh).
    - intros x Hx. apply in_map_iff in Hx as (r & <- & Hx). destruct (resample_ok kf a w ow r Ha Hw How (Rr r Hx)) as (l & -> & _). now exists l.
    - exists hs. split; [exact Eh|]. rewrite map_length in Lh. split; [lia|]. intros r Hx. apply (collect_in _ _ Eh) in Hx. apply in_map_iff in Hx as (r0 & E0 & Hx).
      destruct (resample_ok kf a w ow r0 Ha Hw How (Rr r0 Hx)) as (l & E1 & L1). rewrite E1 in E0. injection E0 as <-. exact L1. }
  destruct A as (hs & -> & Hs1 & Hs2). cbn [bind].
  assert (B : exists vs, (if (h =? oh)%nat then Ok hs else do cols <- collect (map (fun x => resample kf a h oh (column hs x)) (seq 0 ow)) ; Ok (map (column cols) (seq 0 oh))) = Ok vs /\
    length vs = oh /\ forall r, In r vs -> length r = ow).
  { destruct (Nat.eqb_spec h oh) as [<-|_]; [now exists hs|].
    destruct (collect_ok (map (fun x => resample kf a h oh (column hs x)) (seq 0 ow))) as (cols & Ec & Lc).
    - intros x Hx. apply in_map_iff in Hx as (c & <- & Hx). destruct (resample_ok kf a h oh (column hs c) Ha Hht Hoh) as (l & -> & _); [unfold column; now rewrite map_length|]. now exists l.
    - rewrite Ec. cbn [bind]. eexists. split; [reflexivity|]. rewrite map_length, seq_length in Lc |- *. split; [reflexivity|].
      intros r Hx. apply in_map_iff in Hx as (y & <- & _). unfold column. now rewrite map_length. }
  destruct B as (vs & -> & V1 & V2). cbn [bind]. eexists. split; [reflexivity|]. rewrite map_length, (concat_len vs ow V2), V1. split; [reflexivity|].
  intros v Hv. apply in_map_iff in Hv as (f & <- & _). now apply to_uint_range.
Qed.
Print Assumptions sep_picture.
Example sep_picture_case : resize_picture 255 bspline 2 2 2 3 1 [0; 100; 200; 255] = Ok [110; 138; 167] /\ resize_picture 255 catmull_rom 2 2 2 2 3 [0; 100; 200; 255] = Ok [0; 89; 100; 177; 213; 255].
Proof. split; vm_compute; reflexivity. Qed.
Example sep_size_case : resize_row 255 bspline 2 4 5 [0; 100; 200; 255] = Ok [15; 70; 149; 213; 246] /\ resize_row 255 (fun _ => S754_nan) 3 1 5 [200] = Ok [0; 0; 0; 0; 0].
Proof. split; vm_compute; reflexivity. Qed.

(** ** C143: shrinking uses the whole picture
    Full claim: when a row is shrunk, every sample of it can influence the result. False for every kernel function and every
    size: a kernel reads at most [2 a] samples however much the row is shrunk. *)
Lemma part_same (l l' : list f32) s c : length l = length l' -> (forall j, (s <= j < s + c)%nat -> nth_error l j = nth_error l' j) -> firstn c (skipn s l) = firstn c (skipn s l').
Proof.
  revert l l' c. induction s as [|s IH]; intros l l' c L H.
  - cbn [skipn]. revert l l' L H. induction c as [|c IHc]; intros l l' L H; [reflexivity|]. destruct l as [|x l], l' as [|x' l']; try discriminate; [reflexivity|].
    cbn [firstn]. pose proof (H 0%nat ltac:(lia)) as H0. cbn in H0. injection H0 as <-. f_equal. apply IHc; [cbn in L; lia|]. intros j Hj. apply (H (S j)). lia.
  - destruct l as [|x l], l' as [|x' l']; try discriminate; [reflexivity|]. cbn [skipn]. apply IH; [cbn in L; lia|]. intros j Hj. apply (H (S j)). lia.
Qed.
Theorem sep_skips_refuted hi kf a inn out : 1 <= a -> 2 * a * Z.of_nat out < Z.of_nat inn ->
  exists i, (i < inn)%nat /\ forall row row', length row = inn -> length row' = inn -> (forall j, j <> i -> nth_error row j = nth_error row' j) ->
    resize_row hi kf a inn out row = resize_row hi kf a inn out row'.
Proof.
  intros Ha Hs. set (ratio := fdiv (of_int (Z.of_nat inn)) (of_int (Z.of_nat out))).
  set (reads := fun o : nat => let '(s, e) := window a (Z.of_nat inn) (floor_i32 (position ratio o)) in seq (Z.to_nat s) (Z.to_nat (e - s + 1))).
  assert (LR : forall n, Z.of_nat (length (flat_map reads (seq 0 n))) <= 2 * a * Z.of_nat n).
  { intros n. induction n as [|n IH]; [cbn; lia|]. rewrite seq_S, flat_map_app, app_length. cbn [flat_map]. rewrite app_nil_r. cbn [Nat.add].
    assert (Z.of_nat (length (reads n)) <= 2 * a); [|lia]. unfold reads. pose proof (window_size a (Z.of_nat inn) (floor_i32 (position ratio n))) as S.
    destruct (window a (Z.of_nat inn) (floor_i32 (position ratio n))) as [s e]. destruct S as (S & _). rewrite seq_length. lia. }
  assert (EX : exists i, (i < inn)%nat /\ ~ In i (flat_map reads (seq 0 out))).
  { destruct (Exists_dec (fun i => ~ In i (flat_map reads (seq 0 out))) (seq 0 inn)) as [E|E].
    - intros i. destruct (in_dec Nat.eq_dec i (flat_map reads (seq 0 out))); [now right|now left].
    - apply Exists_exists in E as (i & Hi & N). apply in_seq in Hi. exists i. split; [lia|exact N].
    - exfalso. assert (I : incl (seq 0 inn) (flat_map reads (seq 0 out))).
      { intros i Hi. destruct (in_dec Nat.eq_dec i (flat_map reads (seq 0 out))) as [|N]; [easy|]. exfalso. apply E, Exists_exists. now exists i. }
      apply NoDup_incl_length in I; [|apply seq_NoDup]. rewrite seq_length in I. specialize (LR out). lia. }
  destruct EX as (i & Hi & Ni). exists i. split; [exact Hi|]. intros row row' L L' H. unfold resize_row.
  destruct (Nat.eqb_spec inn out) as [E|_]; [exfalso; clear - E Hs Ha; nia|]. unfold resample, kernels. fold ratio.
  destruct (collect (map (precompute kf a (Z.of_nat inn) ratio) (seq 0 out))) as [ks|e| |] eqn:Ek; try reflexivity. cbn [bind].
  replace (map (weigh (map of_int row)) ks) with (map (weigh (map of_int row')) ks); [reflexivity|]. apply map_ext_in. intros k Hk.
  apply (collect_in _ _ Ek) in Hk. apply in_map_iff in Hk as (o & Eo & Ho). apply precompute_window in Eo.
  unfold weigh. destruct (_ || _) eqn:C; [reflexivity|]. apply Bool.orb_false_iff in C as [C1 C2].
  rewrite (part_same (map of_int row') (map of_int row)); [reflexivity|now rewrite !map_length, L, L'|].
  intros j Hj. rewrite !nth_error_map. rewrite H; [reflexivity|]. intros ->. apply Ni. apply in_flat_map. exists o. split; [exact Ho|].
  unfold reads. rewrite <- Eo. apply in_seq. exact Hj.
Qed.
Print Assumptions sep_skips_refuted.
(** A row of sixteen samples shrunk to one: only four in the middle count *)
Example sep_skips_case : resize_row 255 catmull_rom 2 16 1 [0; 0; 0; 0; 255; 255; 0; 0; 0; 0; 0; 255; 255; 255; 255; 255] = Ok [0] /\ 2 * 2 * Z.of_nat 1 < Z.of_nat 16.
Proof. split; [vm_compute; reflexivity|cbn; lia]. Qed.
