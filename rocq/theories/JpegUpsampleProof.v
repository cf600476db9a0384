(** Proofs about upsampling. *)
From Verif Require Import Base BaseProof Loops Slices JpegSimd JpegColorProof JpegUpsampleModel JpegUpsampleSpec.

(** ** Single samples *)
Lemma tri_blend a b : sample a -> sample b -> tri a b = blend a b.
Proof.
  unfold sample, tri, blend. intros Ha Hb. rewrite (i16_id (3 * a)), (i16_id (3 * a + 2)), (i16_id (3 * a + 2 + b)) by lia. rewrite Z.shiftr_div_pow2 by lia.
  change (2 ^ 2) with 4. f_equal. lia.
Qed.
Lemma tri'_blend a b : sample a -> sample b -> tri' a b = blend a b.
Proof.
  unfold sample, tri', blend. intros Ha Hb. rewrite (i16_id (a * 3)), (i16_id (a * 3 + b)), (i16_id (a * 3 + b + 2)) by lia. rewrite Z.shiftr_div_pow2 by lia.
  change (2 ^ 2) with 4. f_equal. lia.
Qed.
Lemma blend_sample a b : sample a -> sample b -> sample (blend a b).
Proof. unfold sample, blend. intros. split; [apply Z.div_pos; lia|apply Z.div_lt_upper_bound; lia]. Qed.
Lemma blend_same a : blend a a = a.
Proof. unfold blend. symmetry. apply Z.div_unique with 2; lia. Qed.

(** ** Filling a buffer from the left *)
Definition good (G : nat -> Z) (p : nat) (l : list Z) : Prop := forall j, (j < p)%nat -> nth j l 0 = G j.
Lemma put_good G p l q xs : good G p l -> (q <= p)%nat -> (q + length xs <= length l)%nat ->
  (forall t, (t < length xs)%nat -> nth t xs 0 = G (q + t)%nat) -> good G (Nat.max p (q + length xs)) (put l q xs).
Proof.
  intros H Hq Hl Hx j Hj. rewrite put_nth by exact Hl.
  destruct (Nat.leb_spec q j); destruct (Nat.ltb_spec j (q + length xs)); cbn [andb]; [|apply H; lia..].
  rewrite Hx by lia. f_equal. lia.
Qed.
Lemma put_good' G p l q xs p' : good G p l -> (q <= p)%nat -> (q + length xs <= length l)%nat ->
  (forall t, (t < length xs)%nat -> nth t xs 0 = G (q + t)%nat) -> (p' <= Nat.max p (q + length xs))%nat -> good G p' (put l q xs).
Proof. intros H H1 H2 H3 H4 j Hj. apply (put_good G p l q xs); [assumption..|lia]. Qed.
Lemma upd_good G p l q x : good G p l -> (q <= p)%nat -> (q < length l)%nat -> x = G q -> good G (Nat.max p (S q)) (upd l q x).
Proof.
  intros H Hq Hl -> j Hj. destruct (Nat.eq_dec j q) as [->|N]; [now apply upd_nth_same|].
  rewrite upd_nth_other by auto. apply H. lia.
Qed.
Lemma good_all G l : good G (length l) l -> l = map G (seq 0 (length l)).
Proof.
  intros H. apply (list_eq_nth 0); [now rewrite map_length, seq_length|]. intros i Hi.
  rewrite (map_nth_in _ _ _ 0%nat) by (rewrite seq_length; exact Hi). rewrite seq_nth by exact Hi. now apply H.
Qed.

Lemma nth_concat2 : forall (ls : list (list Z)) i b, Forall (fun l => length l = 2%nat) ls -> (b < 2)%nat ->
  nth (2 * i + b) (concat ls) 0 = nth b (nth i ls []) 0.
Proof.
  induction ls as [|l ls IH]; intros i b H Hb.
  - cbn [concat]. destruct i; cbn [nth]; [destruct b|destruct (2 * S i + b)%nat, b]; reflexivity.
  - inversion H as [|? ? Hl Hls]; subst. cbn [concat]. destruct i as [|i].
    + rewrite app_nth1 by lia. reflexivity.
    + rewrite app_nth2 by lia. rewrite Hl. replace (2 * S i + b - 2)%nat with (2 * i + b)%nat by lia. cbn [nth]. now apply IH.
Qed.

(** ** Rows twice as wide *)
Lemma half_even a : (2 * a / 2 = a)%nat.
Proof. rewrite Nat.mul_comm. now apply Nat.div_mul. Qed.
Lemma half_odd a : ((2 * a + 1) / 2 = a)%nat.
Proof. symmetry. apply Nat.div_unique with 1%nat; lia. Qed.
Section Wide.
  Variable r : list Z.
  Hypothesis Hs : Forall sample r.
  Let n := length r.
  Let G k := blend (nth (k / 2) r 0) (nth (neighbour n k) r 0).
  Lemma r_sample k : (k < n)%nat -> sample (nth k r 0).
  Proof. intros H. now apply Forall_nth. Qed.
  Lemma G_even a : G (2 * a) = blend (nth a r 0) (nth (a - 1) r 0).
  Proof.
    unfold G, neighbour. rewrite half_even. now rewrite Nat.even_mul.
  Qed.
  Lemma G_odd a : G (2 * a + 1) = blend (nth a r 0) (nth (Nat.min (a + 1) (n - 1)) r 0).
  Proof.
    unfold G, neighbour. rewrite half_odd.
    now replace (Nat.even (2 * a + 1)) with false by (rewrite Nat.even_add, Nat.even_mul; reflexivity).
  Qed.
  Lemma horizontal_wide out : (2 < n)%nat -> length out = (2 * n)%nat -> horizontal r out = Ok (wide r).
  Proof.
    intros Hn Lo. unfold horizontal. fold n.
    replace (n * 2 =? length out)%nat with true by lia. replace (4 <? length out)%nat with true by lia.
    replace (2 <? n)%nat with true by lia. cbn [negb andb].
    rewrite (get_at_ok r 0 0), (get_at_ok r 1 0) by (fold n; lia). cbn [bind].
    rewrite set_at_ok by lia. cbn [bind]. rewrite set_at_ok by (rewrite upd_length; lia). cbn [bind].
    rewrite !upd_length, Lo.
    replace ((2 * n - 2) / 2)%nat with (n - 1)%nat by (replace (2 * n - 2)%nat with ((n - 1) * 2)%nat by lia; now rewrite Nat.div_mul).
    rewrite Nat.min_r by lia.
    set (o1 := upd (upd out 0 (nth 0 r 0)) 1 (tri' (nth 0 r 0) (nth 1 r 0))).
    assert (L1 : length o1 = (2 * n)%nat) by (unfold o1; now rewrite !upd_length).
    assert (G1 : good G 2 o1).
    { assert (g0 : good G 0 out) by (intros j Hj; lia).
      assert (g1 : good G (Nat.max 0 1) (upd out 0 (nth 0 r 0))).
      { apply upd_good; [exact g0|lia..|]. change 0%nat with (2 * 0)%nat at 2. rewrite G_even. symmetry. apply blend_same. }
      unfold o1. change 2%nat with (Nat.max (Nat.max 0 1) (S 1)). apply upd_good; [exact g1|lia|rewrite upd_length; lia|].
      rewrite tri'_blend by (apply r_sample; lia). change 1%nat with (2 * 0 + 1)%nat at 2. rewrite G_odd. rewrite Nat.min_l by lia. reflexivity. }
    destruct (for_range_inv (fun k o => length o = (2 * n)%nat /\ good G (2 + 2 * k) o) 0 (n - 2)
      (fun k out => do a <- get_at r k ; do b <- get_at r (k + 1) ; do c <- get_at r (k + 2) ;
                    put_slice out (2 + 2 * k) [tri b a; tri b c]) o1) as (o2 & -> & L2 & G2).
    { lia. }
    { split; [exact L1|exact G1]. }
    { intros k o Hk (L & Go). rewrite (get_at_ok r k 0), (get_at_ok r (k + 1) 0), (get_at_ok r (k + 2) 0) by (fold n; lia). cbn [bind].
      rewrite put_slice_ok by (cbn [length]; lia). eexists. split; [reflexivity|].
      split; [now rewrite put_length by (cbn [length]; lia)|].
      apply (put_good' G (2 + 2 * k)); [exact Go|lia|cbn [length]; lia| |cbn [length]; lia].
      intros t Ht. cbn [length] in Ht. rewrite !tri_blend by (apply r_sample; lia). destruct t as [|[|t]]; [| |lia]; cbn [nth].
      - replace (2 + 2 * k + 0)%nat with (2 * (k + 1))%nat by lia. rewrite G_even. do 2 f_equal. lia.
      - replace (2 + 2 * k + 1)%nat with (2 * (k + 1) + 1)%nat by lia. rewrite G_odd. rewrite Nat.min_l by lia. do 2 f_equal. lia. }
    cbn [bind]. rewrite (get_at_ok r (n - 2) 0), (get_at_ok r (n - 1) 0) by (fold n; lia). cbn [bind].
    rewrite L2. rewrite set_at_ok by lia. cbn [bind]. rewrite upd_length, L2. rewrite set_at_ok by (rewrite upd_length; lia). f_equal.
    replace (2 + 2 * (n - 2))%nat with (2 * n - 2)%nat in G2 by lia.
    apply (upd_good G _ _ (2 * n - 2) (tri' (nth (n - 1) r 0) (nth (n - 2) r 0))) in G2; [|lia..|].
    2:{ rewrite tri'_blend by (apply r_sample; lia). replace (2 * n - 2)%nat with (2 * (n - 1))%nat by lia. rewrite G_even. do 2 f_equal. lia. }
    apply (upd_good G _ _ (2 * n - 1) (nth (n - 1) r 0)) in G2; [|lia|rewrite upd_length; lia|].
    2:{ replace (2 * n - 1)%nat with (2 * (n - 1) + 1)%nat by lia. rewrite G_odd. rewrite Nat.min_r by lia. symmetry. apply blend_same. }
    apply good_all in G2 || (match type of G2 with good _ ?p ?l => replace p with (length l) in G2 by (rewrite !upd_length; lia) end; apply good_all in G2).
    rewrite G2. rewrite !upd_length, L2. reflexivity.
  Qed.
  (** The AVX2 closure *)
  Definition hlane (w : nat -> Z) (i : nat) : list Z :=
    [Z.shiftr (i16 (i16 (i16 (w (S i) * 3) + 2) + w i)) 2; Z.shiftr (i16 (i16 (i16 (w (S i) * 3) + 2) + w (S (S i)))) 2].
  Lemma h16_lanes (w : nat -> Z) : h16 (map w (seq 0 18)) = concat (lanes16 (hlane w)).
  Proof. cbv -[i16 Z.add Z.mul Z.shiftr]. reflexivity. Qed.
  Lemma h16_nth w t : length w = 18%nat -> Forall sample w -> (t < 32)%nat ->
    nth t (h16 w) 0 = blend (nth (t / 2 + 1) w 0) (nth (if Nat.even t then t / 2 else t / 2 + 2)%nat w 0).
  Proof.
    intros Lw Hw Ht.
    assert (Ew : w = map (fun i => nth i w 0) (seq 0 18)).
    { apply (list_eq_nth 0); [now rewrite map_length, seq_length|]. intros i Hi. rewrite (map_nth_in _ _ _ 0%nat) by (rewrite seq_length; lia).
      now rewrite seq_nth by lia. }
    rewrite Ew at 1. rewrite h16_lanes.
    assert (W : forall i, (i < 18)%nat -> sample (nth i w 0)) by (intros i Hi; apply Forall_nth; [exact Hw|lia]).
    assert (T : exists i, (i < 16)%nat /\ (t = 2 * i \/ t = 2 * i + 1)%nat).
    { exists (t / 2)%nat. lia. }
    destruct T as (i & Hi & T).
    assert (E : nth t (concat (lanes16 (hlane (fun i => nth i w 0)))) 0 = nth (t - 2 * i) (hlane (fun i => nth i w 0) i) 0).
    { replace t with (2 * i + (t - 2 * i))%nat at 1 by lia. rewrite nth_concat2; [|apply Forall_forall; intros l Hl;
        apply in_map_iff in Hl; destruct Hl as (? & <- & _); reflexivity|lia].
      unfold lanes16. rewrite (map_nth_in _ _ _ 0%nat) by (rewrite seq_length; exact Hi). now rewrite seq_nth by exact Hi. }
    rewrite E. unfold hlane.
    assert (Q : forall a b, sample a -> sample b -> Z.shiftr (i16 (i16 (i16 (a * 3) + 2) + b)) 2 = blend a b).
    { intros a b Ha Hb. rewrite (Z.mul_comm a 3). now apply tri_blend. }
    rewrite !Q by (apply W; lia). destruct T as [-> | ->].
    - rewrite half_even, Nat.sub_diag. replace (Nat.even (2 * i)) with true by (now rewrite Nat.even_mul). cbn [nth]. now replace (i + 1)%nat with (S i) by lia.
    - rewrite half_odd. replace (Nat.even (2 * i + 1)) with false by (rewrite Nat.even_add, Nat.even_mul; reflexivity).
      replace (2 * i + 1 - 2 * i)%nat with 1%nat by lia. cbn [nth]. now replace (i + 1)%nat with (S i) by lia; replace (i + 2)%nat with (S (S i)) by lia.
  Qed.
  Lemma h16_length w : length w = 18%nat -> length (h16 w) = 32%nat.
  Proof.
    intros Lw. do 18 (destruct w as [|? w]; [discriminate Lw|]). destruct w; [|discriminate Lw]. reflexivity.
  Qed.
  Lemma h16_window k t : (k + 18 <= n)%nat -> (t < 32)%nat -> nth t (h16 (slice r k 18)) 0 = G (2 + 2 * k + t).
  Proof.
    intros Hk Ht. rewrite h16_nth; [|now apply slice_length|apply Forall_forall; intros x Hx; apply (proj1 (Forall_forall _ _) Hs);
      unfold slice in Hx; rewrite <- (firstn_skipn k r); apply in_or_app; right; rewrite <- (firstn_skipn 18 (skipn k r)); apply in_or_app; now left|exact Ht].
    assert (T : exists i, (i < 16)%nat /\ (t = 2 * i \/ t = 2 * i + 1)%nat) by (exists (t / 2)%nat; lia).
    destruct T as (i & Hi & [-> | ->]).
    - rewrite half_even. replace (Nat.even (2 * i)) with true by (now rewrite Nat.even_mul).
      rewrite !slice_nth by lia. replace (2 + 2 * k + 2 * i)%nat with (2 * (1 + k + i))%nat by lia. rewrite G_even. f_equal; f_equal; lia.
    - rewrite half_odd. replace (Nat.even (2 * i + 1)) with false by (rewrite Nat.even_add, Nat.even_mul; reflexivity).
      rewrite !slice_nth by lia. replace (2 + 2 * k + (2 * i + 1))%nat with (2 * (1 + k + i) + 1)%nat by lia. rewrite G_odd. rewrite Nat.min_l by lia.
      f_equal; f_equal; lia.
  Qed.
  Lemma horizontal_avx2_wide out : (2 < n)%nat -> length out = (2 * n)%nat -> horizontal_avx2 r out = Ok (wide r).
  Proof.
    intros Hn Lo. unfold horizontal_avx2. fold n.
    replace (n * 2 =? length out)%nat with true by lia. replace (2 <? n)%nat with true by lia. cbn [negb].
    destruct (Nat.ltb_spec n 18) as [Hs18|Hs18]; [now apply horizontal_wide|].
    rewrite (get_at_ok r 0 0), (get_at_ok r 1 0) by (fold n; lia). cbn [bind].
    rewrite set_at_ok by lia. cbn [bind]. rewrite set_at_ok by (rewrite upd_length; lia). cbn [bind].
    rewrite !upd_length, Lo.
    set (o1 := upd (upd out 0 (nth 0 r 0)) 1 (tri' (nth 0 r 0) (nth 1 r 0))).
    assert (L1 : length o1 = (2 * n)%nat) by (unfold o1; now rewrite !upd_length).
    assert (G1 : good G 2 o1).
    { assert (g0 : good G 0 out) by (intros j Hj; lia).
      assert (g1 : good G (Nat.max 0 1) (upd out 0 (nth 0 r 0))).
      { apply upd_good; [exact g0|lia..|]. change 0%nat with (2 * 0)%nat at 2. rewrite G_even. symmetry. apply blend_same. }
      unfold o1. change 2%nat with (Nat.max (Nat.max 0 1) (S 1)). apply upd_good; [exact g1|lia|rewrite upd_length; lia|].
      rewrite tri'_blend by (apply r_sample; lia). change 1%nat with (2 * 0 + 1)%nat at 2. rewrite G_odd. rewrite Nat.min_l by lia. reflexivity. }
    set (K := Nat.min ((n - 17 + 15) / 16) ((2 * n - 2) / 32)).
    assert (HK : (n - 18 <= 16 * K)%nat /\ (forall k, (k < K)%nat -> (16 * k + 18 <= n)%nat /\ (2 + 32 * k + 32 <= 2 * n)%nat)).
    { assert (Q1 : exists q, ((n - 17 + 15) / 16 = q /\ 16 * q <= n - 2 < 16 * q + 16)%nat) by (eexists; split; [reflexivity|lia]).
      assert (Q2 : exists q, ((2 * n - 2) / 32 = q /\ 32 * q <= 2 * n - 2 < 32 * q + 32)%nat) by (eexists; split; [reflexivity|lia]).
      destruct Q1 as (q1 & E1 & B1), Q2 as (q2 & E2 & B2). unfold K. rewrite E1, E2. clear -B1 B2 Hs18. split; [lia|]. intros k Hk. lia. }
    clearbody K. destruct HK as (HK1 & HK2).
    destruct (for_range_inv (fun k o => length o = (2 * n)%nat /\ good G (2 + 32 * k) o) 0 K
      (fun k out => do w <- get_slice r (16 * k) 18 ; put_slice out (2 + 32 * k) (h16 w)) o1) as (o2 & -> & L2 & G2).
    { lia. }
    { split; [exact L1|exact G1]. }
    { intros k o Hk (L & Go). destruct (HK2 k) as (A & B); [lia|]. rewrite get_slice_ok by exact A. cbn [bind].
      assert (Lh : length (h16 (slice r (16 * k) 18)) = 32%nat) by (apply h16_length, slice_length; exact A).
      rewrite put_slice_ok by (rewrite Lh; lia). eexists. split; [reflexivity|].
      split; [now rewrite put_length by (rewrite Lh; lia)|].
      apply (put_good' G (2 + 32 * k)); [exact Go|lia|rewrite Lh; lia| |rewrite Lh; lia].
      intros t Ht. rewrite Lh in Ht. rewrite h16_window by lia. f_equal. lia. }
    cbn [bind]. rewrite get_slice_ok by (fold n; lia). cbn [bind].
    assert (Lh : length (h16 (slice r (n - 18) 18)) = 32%nat) by (apply h16_length, slice_length; fold n; lia).
    rewrite L2. rewrite put_slice_ok by (rewrite Lh; lia). cbn [bind].
    apply (put_good' G _ _ (2 * n - 2 - 32) (h16 (slice r (n - 18) 18)) (2 * n - 2)) in G2;
      [|lia|rewrite Lh; lia| |rewrite Lh; lia].
    2:{ intros t Ht. rewrite Lh in Ht. rewrite h16_window by lia. f_equal. lia. }
    set (o3 := put o2 (2 * n - 2 - 32) (h16 (slice r (n - 18) 18))) in *.
    assert (L3 : length o3 = (2 * n)%nat) by (unfold o3; rewrite put_length; [exact L2|rewrite Lh; lia]). clearbody o3.
    rewrite (get_at_ok r (n - 2) 0), (get_at_ok r (n - 1) 0) by (fold n; lia). cbn [bind].
    rewrite L3. rewrite set_at_ok by lia. cbn [bind]. rewrite upd_length, L3. rewrite set_at_ok by (rewrite upd_length; lia). f_equal.
    apply (upd_good G _ _ (2 * n - 2) (tri' (nth (n - 1) r 0) (nth (n - 2) r 0))) in G2; [|lia..|].
    2:{ rewrite tri'_blend by (apply r_sample; lia). replace (2 * n - 2)%nat with (2 * (n - 1))%nat by lia. rewrite G_even. do 2 f_equal. lia. }
    apply (upd_good G _ _ (2 * n - 1) (nth (n - 1) r 0)) in G2; [|lia|rewrite upd_length; lia|].
    2:{ replace (2 * n - 1)%nat with (2 * (n - 1) + 1)%nat by lia. rewrite G_odd. rewrite Nat.min_r by lia. symmetry. apply blend_same. }
    match type of G2 with good _ ?p ?l => replace p with (length l) in G2 by (rewrite !upd_length; lia) end. apply good_all in G2.
    rewrite G2. rewrite !upd_length, L3. reflexivity.
  Qed.
  Lemma wide_length : length (wide r) = (2 * n)%nat.
  Proof. unfold wide. now rewrite map_length, seq_length. Qed.
  Lemma wide_sample : Forall sample (wide r).
  Proof.
    apply Forall_forall. intros x Hx. apply in_map_iff in Hx. destruct Hx as (k & <- & Hk). apply in_seq in Hk. fold n. fold n in Hk.
    apply blend_sample; apply r_sample; unfold neighbour; [|destruct (Nat.even k)]; lia.
  Qed.
End Wide.

(** ** Two rows from three *)
Lemma mix_length a b : length (mix a b) = length a.
Proof. unfold mix. now rewrite map_length, seq_length. Qed.
Lemma mix_sample a b : Forall sample a -> Forall sample b -> length b = length a -> Forall sample (mix a b).
Proof.
  intros Ha Hb L. apply Forall_forall. intros x Hx. apply in_map_iff in Hx. destruct Hx as (k & <- & Hk). apply in_seq in Hk.
  apply blend_sample; apply Forall_nth; auto; lia.
Qed.
Lemma map2_nth {A B C} (f : A -> B -> C) da db dc : forall a b i, (i < length a)%nat -> (i < length b)%nat ->
  nth i (map2 f a b) dc = f (nth i a da) (nth i b db).
Proof. induction a as [|x a IH]; intros [|y b] [|i] H1 H2; cbn [length map2 nth] in *; try lia; [reflexivity|]. apply IH; lia. Qed.
Lemma map2_length {A B C} (f : A -> B -> C) : forall a b, length (map2 f a b) = Nat.min (length a) (length b).
Proof. induction a as [|x a IH]; intros [|y b]; cbn [map2 length]; [reflexivity..|]. now rewrite IH. Qed.
Lemma map2_mix a b : Forall sample a -> Forall sample b -> length b = length a -> map2 tri a b = mix a b.
Proof.
  intros Ha Hb L. apply (list_eq_nth 0); [rewrite map2_length, mix_length; lia|]. intros i Hi. rewrite map2_length in Hi.
  rewrite (map2_nth _ 0 0) by lia. unfold mix. rewrite (map_nth_in _ _ _ 0%nat) by (rewrite seq_length; lia). rewrite seq_nth by lia.
  cbn [Nat.add]. apply tri_blend; apply Forall_nth; auto; lia.
Qed.
Lemma vertical_mix a near far out : Forall sample a -> Forall sample near -> Forall sample far ->
  length near = length a -> length far = length a -> length out = (2 * length a)%nat ->
  vertical a near far out = Ok (mix a near ++ mix a far).
Proof.
  intros Ha Hn Hf Ln Lf Lo. unfold vertical. replace (length a * 2 =? length out)%nat with true by lia.
  rewrite Ln, Lf, Nat.eqb_refl. cbn [andb negb]. now rewrite !map2_mix.
Qed.
Lemma v16_lanes (a b : nat -> Z) : v16 (lanes16 a) (lanes16 b) = lanes16 (fun i => Z.shiftr (i16 (i16 (i16 (a i * 3) + 2) + b i)) 2).
Proof. cbv -[i16 Z.add Z.mul Z.shiftr]. reflexivity. Qed.
Lemma v16_mix a b : length a = 16%nat -> length b = 16%nat -> Forall sample a -> Forall sample b -> v16 a b = mix a b.
Proof.
  intros La Lb Ha Hb. rewrite (as_lanes16 a La) at 1. rewrite (as_lanes16 b Lb) at 1. rewrite v16_lanes.
  unfold mix. rewrite La. apply map_ext_in. intros i Hi. apply in_seq in Hi. rewrite (Z.mul_comm _ 3).
  apply tri_blend; apply Forall_nth; auto; lia.
Qed.
Lemma slice_sample (r : list Z) k m : Forall sample r -> Forall sample (slice r k m).
Proof.
  intros H. apply Forall_forall; intros x Hx; apply (proj1 (Forall_forall _ _) H);
      unfold slice in Hx; rewrite <- (firstn_skipn k r); apply in_or_app; right; rewrite <- (firstn_skipn m (skipn k r)); apply in_or_app; now left.
Qed.
Lemma mix_nth a b t : (t < length a)%nat -> nth t (mix a b) 0 = blend (nth t a 0) (nth t b 0).
Proof. intros H. unfold mix. rewrite (map_nth_in _ _ _ 0%nat) by (rewrite seq_length; exact H). now rewrite seq_nth. Qed.
Lemma half_avx2 a b out : let n := length a in (16 <= n)%nat -> Forall sample a -> Forall sample b -> length b = n -> length out = n ->
  (do out <- for_range 0 (n / 16) (fun k out => do x <- get_slice a (16 * k) 16 ; do y <- get_slice b (16 * k) 16 ;
                                                 put_slice out (16 * k) (v16 x y)) out ;
   do x <- get_slice a (n - 16) 16 ; do y <- get_slice b (n - 16) 16 ;
   put_slice out (n - 16) (v16 x y)) = Ok (mix a b).
Proof.
  intros n Hn Ha Hb Lb Lo. set (G := fun k => blend (nth k a 0) (nth k b 0)).
  assert (V : forall k, (k + 16 <= n)%nat -> length (v16 (slice a k 16) (slice b k 16)) = 16%nat /\
    forall t, (t < 16)%nat -> nth t (v16 (slice a k 16) (slice b k 16)) 0 = G (k + t)%nat).
  { intros k Hk. rewrite v16_mix by (first [apply slice_length; lia|now apply slice_sample]).
    rewrite mix_length, slice_length by (fold n; lia). split; [reflexivity|]. intros t Ht. rewrite mix_nth by (rewrite slice_length by (fold n; lia); exact Ht).
    now rewrite !slice_nth by exact Ht. }
  assert (Q : exists q, (n / 16 = q /\ 16 * q <= n < 16 * q + 16)%nat) by (eexists; split; [reflexivity|lia]).
  destruct Q as (q & -> & Bq).
  destruct (for_range_inv (fun k o => length o = n /\ good G (16 * k) o) 0 q
    (fun k out => do x <- get_slice a (16 * k) 16 ; do y <- get_slice b (16 * k) 16 ; put_slice out (16 * k) (v16 x y)) out) as (o & -> & L & Go).
  { lia. }
  { split; [exact Lo|]. intros j Hj. lia. }
  { intros k o Hk (L & Go). rewrite !get_slice_ok by (fold n; lia). cbn [bind]. destruct (V (16 * k)%nat) as (Lv & Nv); [lia|].
    rewrite put_slice_ok by (rewrite Lv; lia). eexists. split; [reflexivity|]. split; [now rewrite put_length by (rewrite Lv; lia)|].
    apply (put_good' G (16 * k)); [exact Go|lia|rewrite Lv; lia|rewrite Lv; exact Nv|rewrite Lv; lia]. }
  cbn [bind]. rewrite !get_slice_ok by (fold n; lia). cbn [bind]. destruct (V (n - 16)%nat) as (Lv & Nv); [lia|].
  rewrite put_slice_ok by (rewrite Lv; lia). f_equal.
  apply (put_good' G _ _ (n - 16) (v16 (slice a (n - 16) 16) (slice b (n - 16) 16)) n) in Go;
    [|lia|rewrite Lv; lia|rewrite Lv; exact Nv|rewrite Lv; lia].
  assert (Lp : length (put o (n - 16) (v16 (slice a (n - 16) 16) (slice b (n - 16) 16))) = n) by (rewrite put_length by (rewrite Lv; lia); exact L).
  rewrite <- Lp in Go at 1. apply good_all in Go. rewrite Go, Lp. reflexivity.
Qed.
Lemma vertical_avx2_mix a near far out : Forall sample a -> Forall sample near -> Forall sample far ->
  length near = length a -> length far = length a -> length out = (2 * length a)%nat ->
  vertical_avx2 a near far out = Ok (mix a near ++ mix a far).
Proof.
  intros Ha Hn Hf Ln Lf Lo. unfold vertical_avx2. cbv zeta. replace (length a * 2 =? length out)%nat with true by lia.
  replace (length near =? length a)%nat with true by lia. replace (length far =? length a)%nat with true by lia. cbn [andb negb].
  destruct (Nat.ltb_spec (length a) 16) as [H|H]; [now apply vertical_mix|].
  replace (length out / 2)%nat with (length a) by (rewrite Lo; symmetry; apply half_even).
  rewrite (half_avx2 a near) by (first [assumption|rewrite firstn_length; lia]). cbn [bind].
  rewrite (half_avx2 a far) by (first [assumption|rewrite skipn_length; lia]). reflexivity.
Qed.
