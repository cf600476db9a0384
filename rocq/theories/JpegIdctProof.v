(** Proofs about the inverse DCT routines *)
From Verif Require Import Base BaseProof Loops Slices JpegSimd JpegIdctModel JpegIdctSpec.

Lemma list64 (b : list Z) : length b = 64%nat -> b = map (fun i => nth i b 0) (seq 0 64).
Proof.
  intros H. apply (list_eq_nth 0).
  - now rewrite map_length, seq_length.
  - intros i Hi. rewrite (map_nth_in _ _ _ 0%nat) by (rewrite seq_length; lia). now rewrite seq_nth by lia.
Qed.

(** * Wrapping arithmetic *)
Lemma i32_eq a b : (exists k, a = b + k * 2 ^ 32) -> i32 a = i32 b.
Proof. intros [k ->]. unfold i32. replace (b + k * 2 ^ 32 + 2 ^ 31) with (b + 2 ^ 31 + k * 2 ^ 32) by ring. now rewrite Z.mod_add by (now compute). Qed.
Lemma i32_split a : exists k, i32 a = a + k * 2 ^ 32.
Proof. exists (- ((a + 2 ^ 31) / 2 ^ 32)). unfold i32. rewrite Z.mod_eq by (now compute). ring. Qed.
Lemma i32_id a : is_i32 a -> i32 a = a.
Proof. unfold is_i32, i32. intros H. rewrite Z.mod_small; [ring|]. lia. Qed.
Lemma i32_range a : is_i32 (i32 a).
Proof. unfold is_i32, i32. pose proof (Z.mod_pos_bound (a + 2 ^ 31) (2 ^ 32) eq_refl). lia. Qed.
(** Equality modulo [2 ^ 32] *)
Definition cong (a b : Z) : Prop := exists k, a = b + k * 2 ^ 32.
Lemma cong_refl a : cong a a. Proof. exists 0. ring. Qed.
Lemma cong_i32 a b : cong a b -> cong (i32 a) b.
Proof. intros [k ->]. destruct (i32_split (b + k * 2 ^ 32)) as [j ->]. exists (k + j). ring. Qed.
Lemma cong_add a a' b b' : cong a a' -> cong b b' -> cong (a + b) (a' + b').
Proof. intros [k ->] [j ->]. exists (k + j). ring. Qed.
Lemma cong_sub a a' b b' : cong a a' -> cong b b' -> cong (a - b) (a' - b').
Proof. intros [k ->] [j ->]. exists (k - j). ring. Qed.
Lemma cong_mul a a' b : cong a a' -> cong (a * b) (a' * b).
Proof. intros [k ->]. exists (k * b). ring. Qed.
Lemma cong_shl a a' : cong a a' -> cong (Z.shiftl a 12) (a' * 2 ^ 12).
Proof. intros H. rewrite Z.shiftl_mul_pow2 by lia. now apply cong_mul. Qed.
Lemma i32_cong a b x y : cong a x -> cong b y -> x = y -> i32 a = i32 b.
Proof. intros [k ->] [j ->] ->. transitivity (i32 y); [|symmetry]; apply i32_eq; eauto. Qed.
Ltac congs :=
  repeat first [apply cong_i32 | apply cong_sub | apply cong_add | apply cong_shl | apply cong_mul | apply cong_refl].
Ltac i32_ring := eapply i32_cong; [congs | congs | ring].

Lemma cons_eq {A} (x y : A) l l' : x = y -> l = l' -> x :: l = y :: l'.
Proof. now intros -> ->. Qed.
Lemma shift_i32_eq sh a b : i32 a = i32 b -> Z.shiftr (i32 a) sh = Z.shiftr (i32 b) sh.
Proof. now intros ->. Qed.
Lemma shift_i32_val sh a b x : Z.shiftr (i32 b) sh = x -> i32 a = i32 b -> Z.shiftr (i32 a) sh = x.
Proof. now intros <- ->. Qed.

(** * The four-by-four passes *)
Lemma pass4_eq bias sh v0 v1 v2 v3 :
  pass4 bias sh [v0; v1; v2; v3; 0; 0; 0; 0] = pass bias sh [v0; v1; v2; v3; 0; 0; 0; 0].
Proof.
  unfold pass4, pass, get8, wa, ws, wm, fsh. cbn [nth map].
  repeat (apply cons_eq; [apply shift_i32_eq; i32_ring|]). reflexivity.
Qed.
Lemma pass4_first bias sh v : length v = 8%nat ->
  pass4 bias sh v = pass4 bias sh [get8 v 0; get8 v 1; get8 v 2; get8 v 3; 0; 0; 0; 0].
Proof. intros _. reflexivity. Qed.

(** * Only a DC coefficient *)
Definition dc_ok (d : Z) : Prop := - 2 ^ 16 <= d < 2 ^ 16.
Lemma pass_dc1 d : dc_ok d -> pass 512 10 [d; 0; 0; 0; 0; 0; 0; 0] = repeat (4 * d) 8.
Proof.
  intros H. unfold dc_ok in H.
  assert (E : Z.shiftr (i32 (d * 2 ^ 12 + 512)) 10 = 4 * d).
  { rewrite i32_id by (unfold is_i32; lia). rewrite Z.shiftr_div_pow2 by lia. lia. }
  unfold pass, get8, wa, ws, wm, fsh. cbn [nth map repeat].
  repeat (apply cons_eq; [apply (shift_i32_val _ _ _ _ E); i32_ring|]). reflexivity.
Qed.
Lemma pass_dc2 d : dc_ok d ->
  map clamp (pass SCALE_BITS 17 [4 * d; 0; 0; 0; 0; 0; 0; 0]) = repeat (clamp (Z.shiftr (wa (wa d 4) 1024) 3)) 8.
Proof.
  intros H. unfold dc_ok in H.
  assert (E : Z.shiftr (i32 (4 * d * 2 ^ 12 + SCALE_BITS)) 17 = Z.shiftr (wa (wa d 4) 1024) 3).
  { unfold wa, SCALE_BITS. rewrite (i32_id (d + 4)) by (unfold is_i32; lia). rewrite !i32_id by (unfold is_i32; lia). rewrite !Z.shiftr_div_pow2 by lia. lia. }
  rewrite <- E. unfold pass, get8, wa, ws, wm, fsh. cbn [nth map repeat].
  repeat (apply cons_eq; [apply (f_equal clamp); apply shift_i32_eq; i32_ring|]). reflexivity.
Qed.

(** * The in-place vertical loops *)
Lemma row_vertical8 f b i : length b = 64%nat -> (i < 8)%nat ->
  row (vertical f 8 b) i = map (fun c => nth i (f (col b c)) 0) (seq 0 8).
Proof.
  intros H Hi. rewrite (list64 b H).
  set (g := fun i => nth i b 0). clearbody g. clear b H.
  do 8 (destruct i as [|i]; [reflexivity|]). lia.
Qed.
Lemma row_vertical4 f b i : length b = 64%nat -> (i < 8)%nat ->
  row (vertical f 4 b) i =
  map (fun c => nth i (f (col b c)) 0) (seq 0 4) ++ map (fun c => nth (8 * i + c) b 0) (seq 4 4).
Proof.
  intros H Hi. rewrite (list64 b H).
  set (g := fun i => nth i b 0). clearbody g. clear b H.
  do 8 (destruct i as [|i]; [reflexivity|]). lia.
Qed.

(** * Registers *)
Definition lanes (u : nat -> Z) : list Z := map u (seq 0 8).
Lemma vadd_lanes u v : vadd (lanes u) (lanes v) = lanes (fun i => wa (u i) (v i)). Proof. reflexivity. Qed.
Lemma vsub_lanes u v : vsub (lanes u) (lanes v) = lanes (fun i => ws (u i) (v i)). Proof. reflexivity. Qed.
Lemma vmulc_lanes u c : vmulc (lanes u) c = lanes (fun i => wm (u i) c). Proof. reflexivity. Qed.
Lemma vaddc_lanes u c : vaddc (lanes u) c = lanes (fun i => wa (u i) c). Proof. reflexivity. Qed.
Lemma slli_lanes u : slli_epi32 12 (lanes u) = lanes (fun i => fsh (u i)). Proof. reflexivity. Qed.
Lemma srai_lanes u k : srai_epi32 k (lanes u) = lanes (fun i => Z.shiftr (u i) k). Proof. reflexivity. Qed.
Definition grid (f : nat -> nat -> Z) : list (list Z) := map (fun k => lanes (f k)) (seq 0 8).
Lemma transpose_grid f : transpose (grid f) = grid (fun i j => f j i).
Proof. reflexivity. Qed.

Ltac lanes_up := rewrite ?vadd_lanes, ?vsub_lanes, ?vmulc_lanes, ?vaddc_lanes, ?slli_lanes, ?srai_lanes.
Lemma dct_pass_grid bias sh f :
  dct_pass bias sh (grid f) = grid (fun k c => get8 (pass bias sh (lanes (fun j => f j c))) k).
Proof.
  unfold dct_pass, reg_at, grid. cbv zeta. cbn [map seq nth].
  repeat (progress lanes_up).
  repeat (apply cons_eq; [reflexivity|]). reflexivity.
Qed.
Lemma dct_pass4_grid bias sh (f : nat -> nat -> Z) rest :
  dct_pass4 bias sh (lanes (f 0%nat) :: lanes (f 1%nat) :: lanes (f 2%nat) :: lanes (f 3%nat) :: rest) =
  grid (fun k c => get8 (pass4 bias sh (lanes (fun j => f j c))) k).
Proof.
  unfold dct_pass4, reg_at, grid. cbv zeta. cbn [map seq nth].
  repeat (progress lanes_up).
  repeat (apply cons_eq; [reflexivity|]). reflexivity.
Qed.
Lemma pass_length bias sh v : length (pass bias sh v) = 8%nat. Proof. reflexivity. Qed.

(** * Storing *)
Lemma for_range_ext {S} (f g : nat -> S -> res S) lo hi s :
  (forall i s, (lo <= i < hi)%nat -> f i s = g i s) -> for_range lo hi f s = for_range lo hi g s.
Proof.
  unfold for_range. remember (hi - lo)%nat as n eqn:En. revert lo s En.
  induction n as [|n IH]; intros lo s En H; cbn [for_loop]; [reflexivity|].
  rewrite H by lia. destruct (g lo s); cbn [bind]; auto. apply IH; [lia|]. intros i s' Hi. apply H. lia.
Qed.
Lemma store_rows_ext f g stride out :
  (forall i, (i < 8)%nat -> f i = g i) -> store_rows f stride out = store_rows g stride out.
Proof. intros H. apply for_range_ext. intros i s Hi. now rewrite H by lia. Qed.

Lemma clamp_avx_lane x : Z.min (Z.max (clampz (- 2 ^ 15) (2 ^ 15 - 1) x) 0) 255 = clamp x.
Proof. unfold clamp, clampz. lia. Qed.
Lemma permuted_lanes u v : permuted (lanes u) (lanes v) = map clamp (lanes u) ++ map clamp (lanes v).
Proof.
  transitivity (map (fun x => Z.min (Z.max (clampz (- 2 ^ 15) (2 ^ 15 - 1) x) 0) 255) (lanes u ++ lanes v)); [reflexivity|].
  rewrite (map_ext _ clamp clamp_avx_lane). apply map_app.
Qed.
Lemma store_grid g stride out :
  store_regs (grid g) stride out = store_rows (fun i => map clamp (lanes (g i))) stride out.
Proof.
  unfold store_regs, store_rows, for_range. cbn [Nat.sub for_loop].
  assert (B : forall A B C (r : res A) (f : A -> res B) (k : B -> res C), bind (bind r f) k = bind r (fun x => bind (f x) k)).
  { intros A B C [| | |] f k; reflexivity. }
  assert (R : forall k, (k < 8)%nat -> reg_at (grid g) k = lanes (g k)).
  { intros k Hk. do 8 (destruct k as [|k]; [reflexivity|]). lia. }
  assert (L : forall u v, lo128 (map clamp (lanes u) ++ map clamp (lanes v)) = map clamp (lanes u)) by reflexivity.
  assert (H : forall u v, hi128 (map clamp (lanes u) ++ map clamp (lanes v)) = map clamp (lanes v)) by reflexivity.
  repeat (rewrite R by lia). rewrite !permuted_lanes, !L, !H.
  change (2 * 0)%nat with 0%nat. change (2 * 1)%nat with 2%nat. change (2 * 2)%nat with 4%nat. change (2 * 3)%nat with 6%nat.
  cbn [Nat.add].
  destruct (put_slice out (0 * stride) _) as [o| | |]; cbn [bind]; auto.
  destruct (put_slice o (1 * stride) _) as [o1| | |]; cbn [bind]; auto.
  destruct (put_slice o1 (2 * stride) _) as [o2| | |]; cbn [bind]; auto.
  destruct (put_slice o2 (3 * stride) _) as [o3| | |]; cbn [bind]; auto.
  destruct (put_slice o3 (4 * stride) _) as [o4| | |]; cbn [bind]; auto.
  destruct (put_slice o4 (5 * stride) _) as [o5| | |]; cbn [bind]; auto.
Qed.

(** * The routines *)
(** The samples only *)
Definition samples (r : res (list Z * list Z)) : res (list Z) := do (o, _) <- r ; Ok o.
Lemma samples_bind (r : res (list Z)) (b : list Z) : samples (do o <- r ; Ok (o, b)) = r.
Proof. now destruct r. Qed.

Definition full_row (b : list Z) (i : nat) : list Z :=
  map clamp (pass SCALE_BITS 17 (lanes (fun c => get8 (pass 512 10 (col b c)) i))).
Definition dc_row (b : list Z) : list Z := repeat (clamp (Z.shiftr (wa (wa (nth 0 b 0) 4) 1024) 3)) 8.

Lemma idct_1x1_rows b out stride : samples (idct_1x1 b out stride) = store_rows (fun _ => dc_row b) stride out.
Proof. unfold idct_1x1. now rewrite samples_bind. Qed.
Lemma idct_int_rows b out stride : length b = 64%nat ->
  samples (idct_int b out stride) =
  if forallb (Z.eqb 0) (skipn 1 b) then store_rows (fun _ => dc_row b) stride out
  else store_rows (full_row b) stride out.
Proof.
  intros H. unfold idct_int. destruct (forallb _ _); [apply idct_1x1_rows|].
  rewrite samples_bind. apply store_rows_ext. intros i Hi. now rewrite row_vertical8 by assumption.
Qed.

(** A block of zeros behind the DC coefficient *)
Lemma zeros_nth (l : list Z) : forallb (Z.eqb 0) l = true -> forall i, nth i l 0 = 0.
Proof.
  induction l as [|x l IH]; intros H i; [now destruct i|].
  cbn [forallb] in H. apply andb_prop in H. destruct H as [H1 H2]. apply Z.eqb_eq in H1. subst x.
  destruct i; cbn [nth]; auto.
Qed.
Lemma dc_only_nth b : forallb (Z.eqb 0) (skipn 1 b) = true -> forall i, (0 < i)%nat -> nth i b 0 = 0.
Proof.
  intros H i Hi. destruct b as [|x b]; [now destruct i|]. cbn [skipn] in H.
  destruct i as [|i]; [lia|]. cbn [nth]. now apply zeros_nth.
Qed.
Lemma dc_full_row b i : dc_ok (nth 0 b 0) -> (forall j, (0 < j)%nat -> nth j b 0 = 0) -> (i < 8)%nat -> full_row b i = dc_row b.
Proof.
  intros D Z0 Hi. unfold full_row.
  assert (C0 : col b 0 = [nth 0 b 0; 0; 0; 0; 0; 0; 0; 0]).
  { unfold col. cbn [map seq]. repeat (apply cons_eq; [first [reflexivity | now rewrite Z0 by lia]|]). reflexivity. }
  assert (C : forall c, (0 < c)%nat -> col b c = [0; 0; 0; 0; 0; 0; 0; 0]).
  { intros c Hc. unfold col. cbn [map seq]. repeat (apply cons_eq; [now rewrite Z0 by lia|]). reflexivity. }
  assert (P0 : pass 512 10 [0; 0; 0; 0; 0; 0; 0; 0] = repeat 0 8) by reflexivity.
  assert (E : lanes (fun c => get8 (pass 512 10 (col b c)) i) = [4 * nth 0 b 0; 0; 0; 0; 0; 0; 0; 0]).
  { unfold lanes. cbn [map seq]. rewrite C0, (pass_dc1 _ D).
    rewrite (C 1%nat), (C 2%nat), (C 3%nat), (C 4%nat), (C 5%nat), (C 6%nat), (C 7%nat), P0 by lia.
    clear -Hi. do 8 (destruct i as [|i]; [reflexivity|]). lia. }
  rewrite E. now apply pass_dc2.
Qed.

(** ** Four by four *)
Lemma lanes_get8 v : length v = 8%nat -> lanes (get8 v) = v.
Proof. intros H. do 8 (destruct v as [|? v]; [discriminate H|]). destruct v; [reflexivity|discriminate H]. Qed.
Lemma col_corner b c : corner b -> (c < 8)%nat ->
  col b c = [nth c b 0; nth (8 + c) b 0; nth (16 + c) b 0; nth (24 + c) b 0; 0; 0; 0; 0].
Proof.
  intros H Hc. unfold col. cbn [map seq].
  repeat (apply cons_eq; [first [reflexivity | rewrite H by lia; reflexivity]|]). reflexivity.
Qed.
Lemma pass_zero : pass 512 10 [0; 0; 0; 0; 0; 0; 0; 0] = repeat 0 8. Proof. reflexivity. Qed.
Lemma corner_right b c : corner b -> (4 <= c < 8)%nat -> col b c = [0; 0; 0; 0; 0; 0; 0; 0].
Proof.
  intros H Hc. unfold col. cbn [map seq].
  repeat (apply cons_eq; [rewrite H by lia; reflexivity|]). reflexivity.
Qed.
Lemma mid_right b i c : corner b -> (4 <= c < 8)%nat -> get8 (pass 512 10 (col b c)) i = 0.
Proof.
  intros H Hc. rewrite corner_right, pass_zero by assumption. unfold get8. cbn [repeat].
  do 8 (destruct i as [|i]; [reflexivity|]). now destruct i.
Qed.
Lemma idct_4x4_rows b out stride : length b = 64%nat -> corner b ->
  samples (idct_4x4 b out stride) = store_rows (full_row b) stride out.
Proof.
  intros H C. unfold idct_4x4. cbv zeta. rewrite samples_bind. apply store_rows_ext. intros i Hi.
  rewrite row_vertical4 by assumption. unfold full_row. apply (f_equal (map clamp)).
  assert (E : map (fun c => nth i (pass4 512 10 (col b c)) 0) (seq 0 4) ++ map (fun c => nth (8 * i + c) b 0) (seq 4 4) =
              lanes (fun c => get8 (pass 512 10 (col b c)) i)).
  { unfold lanes. cbn [map seq app].
    assert (L : forall c, (c < 4)%nat -> nth i (pass4 512 10 (col b c)) 0 = get8 (pass 512 10 (col b c)) i).
    { intros c Hc. rewrite (col_corner b c C) by lia. now rewrite pass4_eq. }
    assert (R : forall c, (4 <= c < 8)%nat -> nth (8 * i + c) b 0 = get8 (pass 512 10 (col b c)) i).
    { intros c Hc. rewrite mid_right by assumption. apply C; lia. }
    rewrite (L 0%nat), (L 1%nat), (L 2%nat), (L 3%nat), (R 4%nat), (R 5%nat), (R 6%nat), (R 7%nat) by lia. reflexivity. }
  rewrite E. unfold lanes. cbn [map seq]. rewrite (mid_right b i 4), (mid_right b i 5), (mid_right b i 6), (mid_right b i 7) by (assumption || lia).
  apply pass4_eq.
Qed.

(** ** AVX2 *)
Lemma load_rows b : length b = 64%nat ->
  map (fun i => load8 b (8 * i)) (seq 0 8) = grid (fun k c => nth (8 * k + c) b 0).
Proof.
  intros H. rewrite (list64 b H). set (g := fun i => nth i b 0). clearbody g. reflexivity.
Qed.
Lemma load_row b i : length b = 64%nat -> (i < 8)%nat -> load8 b (8 * i) = lanes (fun c => nth (8 * i + c) b 0).
Proof.
  intros H Hi. rewrite (list64 b H). set (g := fun i => nth i b 0). clearbody g.
  do 8 (destruct i as [|i]; [reflexivity|]). lia.
Qed.
Lemma testz_or a b : length a = length b -> testz (or_si256 a b) = testz a && testz b.
Proof.
  revert b. induction a as [|x a IH]; intros [|y b] H; try discriminate H; [reflexivity|].
  injection H as H. unfold testz, or_si256 in *. cbn [map2 forallb]. rewrite IH by exact H.
  assert (E : (0 =? Z.lor x y) = (0 =? x) && (0 =? y)).
  { apply eq_true_iff_eq. rewrite andb_true_iff, !Z.eqb_eq. split.
    - intros E. symmetry in E. apply Z.lor_eq_0_iff in E. destruct E; subst; auto.
    - intros [<- <-]. reflexivity. }
  rewrite E. now destruct (0 =? x), (0 =? y), (forallb (Z.eqb 0) a).
Qed.
Lemma or_length a b : length a = length b -> length (or_si256 a b) = length a.
Proof.
  revert b. induction a as [|x a IH]; intros [|y b] H; try discriminate H; [reflexivity|].
  injection H as H. cbn. f_equal. now apply IH.
Qed.
Lemma load8_length b i : (i + 8 <= length b)%nat -> length (load8 b i) = 8%nat.
Proof. intros H. unfold load8. rewrite firstn_length, skipn_length. lia. Qed.
Lemma testz_iff l : testz l = true <-> forall i, nth i l 0 = 0.
Proof.
  split; [apply zeros_nth|]. intros H. apply forallb_forall. intros x Hx.
  destruct (In_nth l x 0 Hx) as (i & _ & <-). rewrite H. reflexivity.
Qed.
Lemma testz_load b i : testz (load8 b i) = true <-> forall k, (k < 8)%nat -> nth (i + k) b 0 = 0.
Proof.
  rewrite testz_iff. unfold load8. split; intros H k.
  - intros Hk. specialize (H k). rewrite nth_firstn, nth_skipn in H by exact Hk. exact H.
  - destruct (Nat.lt_ge_cases k 8) as [Hk|Hk].
    + rewrite nth_firstn, nth_skipn by exact Hk. now apply H.
    + rewrite nth_overflow; [reflexivity|]. rewrite firstn_length. lia.
Qed.
Lemma bitmap_test b : length b = 64%nat ->
  testz (or_si256 (or_si256 (or_si256 (or_si256 (or_si256 (or_si256 (or_si256 (load8 b (8 * 1)) (load8 b (8 * 2)))
    (load8 b (8 * 3))) (load8 b (8 * 4))) (load8 b (8 * 5))) (load8 b (8 * 6))) (load8 b (8 * 7))) (load8 b 1)) =
  forallb (Z.eqb 0) (skipn 1 b).
Proof.
  intros H.
  assert (L : forall i, (i <= 7)%nat -> length (load8 b (8 * i)) = 8%nat) by (intros; apply load8_length; lia).
  assert (L1 : length (load8 b 1) = 8%nat) by (apply load8_length; lia).
  set (l1 := load8 b (8 * 1)). set (l2 := load8 b (8 * 2)). set (l3 := load8 b (8 * 3)). set (l4 := load8 b (8 * 4)).
  set (l5 := load8 b (8 * 5)). set (l6 := load8 b (8 * 6)). set (l7 := load8 b (8 * 7)).
  assert (H1 : length l1 = 8%nat) by (apply L; lia). assert (H2 : length l2 = 8%nat) by (apply L; lia).
  assert (H3 : length l3 = 8%nat) by (apply L; lia). assert (H4 : length l4 = 8%nat) by (apply L; lia).
  assert (H5 : length l5 = 8%nat) by (apply L; lia). assert (H6 : length l6 = 8%nat) by (apply L; lia).
  assert (H7 : length l7 = 8%nat) by (apply L; lia).
  rewrite !testz_or by (rewrite ?or_length; rewrite ?or_length; rewrite ?or_length; rewrite ?or_length; rewrite ?or_length;
                        rewrite ?or_length; congruence).
  apply eq_true_iff_eq. rewrite !andb_true_iff. unfold l1, l2, l3, l4, l5, l6, l7. rewrite !testz_load.
  change (forallb (Z.eqb 0) (skipn 1 b)) with (testz (skipn 1 b)). rewrite testz_iff. split.
  - intros (((((((A1 & A2) & A3) & A4) & A5) & A6) & A7) & A0) i. rewrite nth_skipn.
    destruct (Nat.lt_ge_cases i 8); [now apply A0|].
    destruct (Nat.lt_ge_cases i 63) as [Hi|Hi]; [|apply nth_overflow; lia].
    assert (E : (1 + i = 8 * ((1 + i) / 8) + (1 + i) mod 8)%nat) by (apply Nat.div_mod; lia).
    assert (M : ((1 + i) mod 8 < 8)%nat) by (apply Nat.mod_upper_bound; lia).
    remember ((1 + i) / 8)%nat as q. remember ((1 + i) mod 8)%nat as r. clear Heqq Heqr.
    assert (Q : q = 1%nat \/ q = 2%nat \/ q = 3%nat \/ q = 4%nat \/ q = 5%nat \/ q = 6%nat \/ q = 7%nat) by lia.
    rewrite E. destruct Q as [->|[->|[->|[->|[->|[->| ->]]]]]]; auto.
  - intros A. assert (A' : forall i, (0 < i)%nat -> nth i b 0 = 0).
    { intros i Hi. specialize (A (i - 1)%nat). rewrite nth_skipn in A. replace (1 + (i - 1))%nat with i in A by lia. exact A. }
    repeat split; intros k Hk; apply A'; lia.
Qed.
Lemma idct_avx2_rows debug b out stride : length b = 64%nat -> (debug = true -> nth 0 b 0 + 1028 < 2 ^ 31) ->
  samples (idct_avx2 debug b out stride) = samples (idct_int b out stride).
Proof.
  intros H D. rewrite idct_int_rows by exact H. unfold idct_avx2. cbv zeta. rewrite bitmap_test by exact H.
  destruct (forallb _ _).
  - replace (debug && (2 ^ 31 <=? nth 0 b 0 + 4 + 1024)) with false; [apply samples_bind|].
    symmetry. destruct debug; [|reflexivity]. cbn [andb]. specialize (D eq_refl). lia.
  - rewrite samples_bind.
    change [load8 b (8 * 0); load8 b (8 * 1); load8 b (8 * 2); load8 b (8 * 3); load8 b (8 * 4); load8 b (8 * 5);
      load8 b (8 * 6); load8 b (8 * 7)] with (map (fun i => load8 b (8 * i)%nat) (seq 0 8)).
    rewrite load_rows by exact H. rewrite dct_pass_grid, transpose_grid, dct_pass_grid, transpose_grid, store_grid.
    apply store_rows_ext. intros i Hi. unfold full_row. now rewrite lanes_get8 by reflexivity.
Qed.
Lemma idct_avx2_4x4_rows b out stride : length b = 64%nat -> corner b ->
  samples (idct_avx2_4x4 b out stride) = store_rows (full_row b) stride out.
Proof.
  intros H C. unfold idct_avx2_4x4. cbv zeta. rewrite samples_bind.
  rewrite (load_row b 0), (load_row b 1), (load_row b 2), (load_row b 3) by (assumption || lia).
  set (f := fun k c => nth (8 * k + c) b 0).
  change (dct_pass4 512 10 _) with (dct_pass4 512 10 (lanes (f 0%nat) :: lanes (f 1%nat) :: lanes (f 2%nat) :: lanes (f 3%nat) :: [])) at 1.
  rewrite dct_pass4_grid, transpose_grid. unfold f. clear f.
  match goal with |- context [grid ?f] => set (g := f) end.
  change (grid g) with (lanes (g 0%nat) :: lanes (g 1%nat) :: lanes (g 2%nat) :: lanes (g 3%nat) ::
    [lanes (g 4%nat); lanes (g 5%nat); lanes (g 6%nat); lanes (g 7%nat)]).
  rewrite dct_pass4_grid, transpose_grid, store_grid.
  apply store_rows_ext. intros i Hi. unfold full_row. rewrite lanes_get8 by reflexivity. apply (f_equal (map clamp)).
  assert (E : forall j, (j < 8)%nat -> g j i = get8 (pass 512 10 (col b j)) i).
  { intros j Hj. unfold g. change (lanes (fun k => nth (8 * k + j) b 0)) with (col b j).
    rewrite (col_corner b j C Hj). now rewrite pass4_eq. }
  unfold lanes. cbn [map seq].
  rewrite (E 0%nat), (E 1%nat), (E 2%nat), (E 3%nat), (E 4%nat), (E 5%nat), (E 6%nat), (E 7%nat) by lia.
  rewrite (mid_right b i 4), (mid_right b i 5), (mid_right b i 6), (mid_right b i 7) by (assumption || lia).
  apply pass4_eq.
Qed.
