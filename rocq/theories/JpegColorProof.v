(** Proofs about JpegColorModel.v *)
From Verif Require Import Base BaseProof Loops Slices Bits DeintModel JpegSimd JpegColorModel.

Definition lanes16 {A} (u : nat -> A) : list A := map u (seq 0 16).
Lemma as_lanes16 (l : list Z) : length l = 16%nat -> l = lanes16 (fun i => nth i l 0).
Proof.
  intros H. apply (list_eq_nth 0).
  - unfold lanes16. now rewrite map_length, seq_length.
  - intros i Hi. unfold lanes16. rewrite (map_nth_in _ _ _ 0%nat) by (rewrite seq_length; lia). now rewrite seq_nth by lia.
Qed.

(** ** The AVX2 arithmetic, lane by lane *)
Definition sample (x : Z) : Prop := 0 <= x < 256.
Lemma uv_bytes (cb cr : Z) : sample cb -> sample cr ->
  Z.lor (i16 (Z.shiftl cb 8)) cr mod 256 = cr /\ (Z.lor (i16 (Z.shiftl cb 8)) cr / 256) mod 256 = cb.
Proof.
  unfold sample. intros H1 H2. rewrite Z.shiftl_mul_pow2 by lia.
  assert (E : exists k, i16 (cb * 2 ^ 8) = 256 * k /\ k mod 256 = cb).
  { unfold i16. destruct (Z.lt_ge_cases cb 128).
    - exists cb. split; [rewrite Z.mod_small by lia; lia|now apply Z.mod_small].
    - exists (cb - 256). split.
      + replace (cb * 2 ^ 8 + 2 ^ 15) with ((cb * 2 ^ 8 - 2 ^ 15) + 1 * 2 ^ 16) by lia. rewrite Z.mod_add by lia.
        rewrite Z.mod_small by lia. lia.
      + replace (cb - 256) with (cb + (-1) * 256) by lia. rewrite Z.mod_add by lia. now apply Z.mod_small. }
  destruct E as (k & -> & E). rewrite Z.lor_comm. change 256 with (2 ^ 8) at 1 3. rewrite lor_add by lia.
  change (2 ^ 8) with 256. split.
  - rewrite Z.mul_comm, Z.mod_add by lia. now apply Z.mod_small.
  - rewrite Z.mul_comm, Z.div_add by lia. now rewrite (Z.div_small cr) by lia.
Qed.
(** What one lane of the registers holds before the packs *)
Definition ylane (y : Z) : Z := i32 (i32 (y * i16 Y_CF + 0 * i16 (Y_CF / 65536)) + YUV_RND).
Definition clane (coef cr cb y : Z) : Z :=
  i16 (clampz 0 65535 (Z.shiftr (i32 (i32 (i16 (i16 (cr + 256 * 0) - 128) * i16 coef + i16 (i16 (cb + 256 * 0) - 128) * i16 (coef / 65536)) + ylane y)) 14)).
Definition uv_reg (cb cr : nat -> Z) : list Z := flat_map (fun i => [cr i; cb i]) (seq 0 16).
Definition baseline' (y u_v_8 : list Z) : list Z * list Z * list Z :=
  let y_coeff := words_of_dwords (set1_epi32 Y_CF) in
  let cr_coeff := words_of_dwords (set1_epi32 R_AVX_COEF) in
  let cb_coeff := words_of_dwords (set1_epi32 B_AVX_COEF) in
  let cg_coeff := words_of_dwords (set1_epi32 G_COEF_AVX_COEF) in
  let v_rnd := set1_epi32 YUV_RND in
  let uv_bias := set1_epi16 128 in
  let zero16 := repeat 0 16 in
  let zero32 := repeat 0 32 in
  let u_v_lo := words_of_bytes (unpacklo_epi8 u_v_8 zero32) in
  let u_v_hi := words_of_bytes (unpackhi_epi8 u_v_8 zero32) in
  let y_lo := unpacklo_epi16 y zero16 in
  let y_hi := unpackhi_epi16 y zero16 in
  let u_v_lo := sub_epi16 u_v_lo uv_bias in
  let u_v_hi := sub_epi16 u_v_hi uv_bias in
  let y_lo := add_epi32 (madd_epi16 y_lo y_coeff) v_rnd in
  let y_hi := add_epi32 (madd_epi16 y_hi y_coeff) v_rnd in
  let one := fun c => packus_epi32 (srai_epi32 14 (add_epi32 (madd_epi16 u_v_lo c) y_lo)) (srai_epi32 14 (add_epi32 (madd_epi16 u_v_hi c) y_hi)) in
  (one cr_coeff, one cg_coeff, one cb_coeff).
Lemma baseline_eq y cb cr : baseline y cb cr = baseline' y (bytes_of_words (or_si256 (slli_epi16 8 cb) cr)).
Proof. reflexivity. Qed.
Lemma baseline_lanes (y cb cr : nat -> Z) :
  baseline' (lanes16 y) (uv_reg cb cr) =
  (lanes16 (fun i => clane R_AVX_COEF (cr i) (cb i) (y i)), lanes16 (fun i => clane G_COEF_AVX_COEF (cr i) (cb i) (y i)),
   lanes16 (fun i => clane B_AVX_COEF (cr i) (cb i) (y i))).
Proof.
  cbv -[i16 i32 Z.add Z.mul Z.sub Z.shiftr Z.div clampz R_AVX_COEF G_COEF_AVX_COEF B_AVX_COEF Y_CF YUV_RND].
  reflexivity.
Qed.
Lemma rgb_bytes_lanes (r g b : nat -> Z) :
  rgb_bytes (lanes16 r) (lanes16 g) (lanes16 b) = concat (lanes16 (fun i => [clampz 0 255 (r i); clampz 0 255 (g i); clampz 0 255 (b i)])).
Proof. cbv -[clampz]. change (clampz 0 255 0) with 0. reflexivity. Qed.
Lemma rgba_bytes_lanes (r g b : nat -> Z) :
  rgba_bytes (lanes16 r) (lanes16 g) (lanes16 b) =
  concat (lanes16 (fun i => [clampz 0 255 (r i); clampz 0 255 (g i); clampz 0 255 (b i); 255])).
Proof. cbv -[clampz]. change (clampz 0 255 255) with 255. reflexivity. Qed.

(** ** Lane = scalar *)
Lemma i16_id x : - 2 ^ 15 <= x < 2 ^ 15 -> i16 x = x.
Proof. intros H. unfold i16. rewrite Z.mod_small by lia. lia. Qed.
Lemma i32_id' x : - 2 ^ 31 <= x < 2 ^ 31 -> i32 x = x.
Proof. intros H. unfold i32. rewrite Z.mod_small by lia. lia. Qed.
Lemma clane_value coef a b cr cb y : i16 coef = a -> i16 (coef / 65536) = b -> Z.abs a <= 32768 -> Z.abs b <= 32768 ->
  sample y -> sample cb -> sample cr ->
  clampz 0 255 (clane coef cr cb y) = clamp255 (Z.shiftr (y * 16384 + 8191 + (cr - 128) * a + (cb - 128) * b) 14).
Proof.
  unfold sample. intros Ea Eb Ha Hb Hy Hcb Hcr. unfold clane, ylane. rewrite Ea, Eb.
  change (i16 (Y_CF / 65536)) with 0. change (i16 Y_CF) with 16384. change YUV_RND with 8191.
  replace (cr + 256 * 0) with cr by lia. replace (cb + 256 * 0) with cb by lia.
  rewrite (i16_id cr), (i16_id cb) by lia. rewrite (i16_id (cr - 128)), (i16_id (cb - 128)) by lia.
  assert (Ba : Z.abs ((cr - 128) * a) <= 128 * 32768) by (rewrite Z.abs_mul; apply Z.mul_le_mono_nonneg; lia).
  assert (Bb : Z.abs ((cb - 128) * b) <= 128 * 32768) by (rewrite Z.abs_mul; apply Z.mul_le_mono_nonneg; lia).
  set (p := (cr - 128) * a) in *. set (q := (cb - 128) * b) in *. clearbody p q.
  rewrite (i32_id' (p + q)) by lia. rewrite (i32_id' (y * 16384 + 0 * 0)) by lia. rewrite (i32_id' (y * 16384 + 0 * 0 + 8191)) by lia.
  rewrite i32_id' by lia. replace (p + q + (y * 16384 + 0 * 0 + 8191)) with (y * 16384 + 8191 + p + q) by lia.
  rewrite Z.shiftr_div_pow2 by lia. change (2 ^ 14) with 16384.
  set (s := (y * 16384 + 8191 + p + q) / 16384).
  assert (Hs : - 600 <= s <= 800).
  { unfold s. split; [apply Z.div_le_lower_bound; lia|apply Z.div_le_upper_bound; lia]. }
  clearbody s. unfold clamp255. rewrite i16_id; unfold clampz; lia.
Qed.
Lemma pixel_value bgr alpha y cb cr : sample y -> sample cb -> sample cr ->
  pixel_of bgr alpha y cb cr =
  let r := clamp255 (Z.shiftr (y * 16384 + 8191 + (cr - 128) * 22970 + (cb - 128) * 0) 14) in
  let g := clamp255 (Z.shiftr (y * 16384 + 8191 + (cr - 128) * (-11700) + (cb - 128) * (-5638)) 14) in
  let b := clamp255 (Z.shiftr (y * 16384 + 8191 + (cr - 128) * 0 + (cb - 128) * 29032) 14) in
  (if bgr then [b; g; r] else [r; g; b]) ++ (if alpha then [255] else []).
Proof.
  unfold sample. intros Hy Hcb Hcr. unfold pixel_of. cbv zeta. rewrite !i16_id by lia.
  unfold Y_CF, CR_CF, CB_CF, C_G_CR_COEF_1, C_G_CB_COEF_2. change YUV_RND with 8191. rewrite (i32_id' (y * 16384 + 8191)) by lia.
  rewrite (i32_id' (y * 16384 + 8191 + (cr - 128) * 22970)) by lia. rewrite (i32_id' (y * 16384 + 8191 + (cr - 128) * -11700)) by lia.
  rewrite (i32_id' (_ + _ + (cb - 128) * -5638)) by lia. rewrite (i32_id' (_ + (cb - 128) * 29032)) by lia.
  replace (y * 16384 + 8191 + (cr - 128) * 22970 + (cb - 128) * 0) with (y * 16384 + 8191 + (cr - 128) * 22970) by lia.
  replace (y * 16384 + 8191 + (cr - 128) * 0 + (cb - 128) * 29032) with (y * 16384 + 8191 + (cb - 128) * 29032) by lia.
  reflexivity.
Qed.
Lemma zip3_lanes {A} (f : Z -> Z -> Z -> A) (y cb cr : nat -> Z) :
  zip3 f (lanes16 y) (lanes16 cb) (lanes16 cr) = lanes16 (fun i => f (y i) (cb i) (cr i)).
Proof. reflexivity. Qed.
Lemma lanes16_ext {A} (u v : nat -> A) : (forall i, (i < 16)%nat -> u i = v i) -> lanes16 u = lanes16 v.
Proof. intros H. apply map_ext_in. intros i Hi. apply in_seq in Hi. apply H. lia. Qed.
Lemma uv_lanes (cb cr : nat -> Z) : (forall i, (i < 16)%nat -> sample (cb i)) -> (forall i, (i < 16)%nat -> sample (cr i)) ->
  bytes_of_words (or_si256 (slli_epi16 8 (lanes16 cb)) (lanes16 cr)) = uv_reg cb cr.
Proof.
  intros H1 H2. change (or_si256 (slli_epi16 8 (lanes16 cb)) (lanes16 cr)) with (lanes16 (fun i => Z.lor (i16 (Z.shiftl (cb i) 8)) (cr i))).
  unfold bytes_of_words, uv_reg, lanes16. rewrite !flat_map_concat_map, map_map. f_equal. apply map_ext_in. intros i Hi. apply in_seq in Hi.
  destruct (uv_bytes (cb i) (cr i)) as [-> ->]; [apply H1; lia|apply H2; lia|reflexivity].
Qed.
Lemma avx_16_scalar alpha y cb cr out : length y = 16%nat -> length cb = 16%nat -> length cr = 16%nat ->
  Forall sample y -> Forall sample cb -> Forall sample cr ->
  avx_16 alpha y cb cr out = scalar_16 false alpha y cb cr out.
Proof.
  intros Ly Lcb Lcr Hy Hcb Hcr. unfold avx_16, scalar_16. rewrite baseline_eq.
  assert (G : forall l, length l = 16%nat -> Forall sample l -> forall i, (i < 16)%nat -> sample (nth i l 0)).
  { intros l L F i Hi. apply Forall_nth; [exact F|lia]. }
  pose proof (G y Ly Hy) as Gy. pose proof (G cb Lcb Hcb) as Gb. pose proof (G cr Lcr Hcr) as Gr.
  rewrite (as_lanes16 y Ly), (as_lanes16 cb Lcb), (as_lanes16 cr Lcr), zip3_lanes, uv_lanes, baseline_lanes by assumption.
  f_equal. destruct alpha; [rewrite rgba_bytes_lanes|rewrite rgb_bytes_lanes]; f_equal; apply lanes16_ext; intros i Hi;
    rewrite pixel_value by auto; cbv zeta; cbn [app];
    rewrite (clane_value R_AVX_COEF 22970 0), (clane_value G_COEF_AVX_COEF (-11700) (-5638)), (clane_value B_AVX_COEF 0 29032);
    auto; lia.
Qed.

(** ** Rows *)
Lemma zip3_length {A} (f : Z -> Z -> Z -> A) : forall a b c n, length a = n -> length b = n -> length c = n -> length (zip3 f a b c) = n.
Proof.
  induction a as [|x a IH]; intros [|y b] [|z c] n Ha Hb Hc; cbn [length] in *; subst n; try discriminate; [reflexivity|].
  cbn [zip3 length]. f_equal. apply IH; congruence.
Qed.
Lemma zip3_firstn {A} (f : Z -> Z -> Z -> A) : forall n a b c, zip3 f (firstn n a) (firstn n b) (firstn n c) = firstn n (zip3 f a b c).
Proof.
  induction n as [|n IH]; intros a b c; [reflexivity|]. destruct a as [|x a]; [reflexivity|]. destruct b as [|y b]; [reflexivity|].
  destruct c as [|z c]; [reflexivity|]. cbn [firstn zip3]. now rewrite IH.
Qed.
Lemma zip3_skipn {A} (f : Z -> Z -> Z -> A) : forall n a b c, length a = length b -> length b = length c ->
  zip3 f (skipn n a) (skipn n b) (skipn n c) = skipn n (zip3 f a b c).
Proof.
  induction n as [|n IH]; intros a b c H1 H2; [reflexivity|]. destruct a as [|x a], b as [|y b], c as [|z c]; try discriminate; [reflexivity|].
  cbn [skipn zip3]. apply IH; cbn [length] in *; congruence.
Qed.
Lemma zip3_app {A} (f : Z -> Z -> Z -> A) : forall a b c a' b' c', length a = length b -> length b = length c ->
  zip3 f (a ++ a') (b ++ b') (c ++ c') = zip3 f a b c ++ zip3 f a' b' c'.
Proof.
  induction a as [|x a IH]; intros [|y b] [|z c] a' b' c' H1 H2; try discriminate; [reflexivity|].
  cbn [app zip3]. f_equal. apply IH; cbn [length] in *; congruence.
Qed.
Lemma firstn_concat {A} nc (ls : list (list A)) k : Forall (fun l => length l = nc) ls -> firstn (k * nc) (concat ls) = concat (firstn k ls).
Proof.
  intros H. revert k. induction H as [|l ls Hl H IH]; intros k; [now rewrite !firstn_nil|].
  destruct k as [|k]; [reflexivity|]. cbn [firstn concat Nat.mul]. rewrite firstn_app, Hl.
  rewrite firstn_all2 by lia. f_equal. rewrite <- IH. f_equal. lia.
Qed.
Lemma skipn_concat {A} nc (ls : list (list A)) k : Forall (fun l => length l = nc) ls -> skipn (k * nc) (concat ls) = concat (skipn k ls).
Proof.
  intros H. revert k. induction H as [|l ls Hl H IH]; intros k; [now rewrite !skipn_nil|].
  destruct k as [|k]; [reflexivity|]. cbn [skipn concat Nat.mul]. rewrite skipn_app, Hl.
  rewrite skipn_all2 by lia. cbn [app]. rewrite <- IH. f_equal. lia.
Qed.
Lemma Forall_firstn_ {A} (P : A -> Prop) n l : Forall P l -> Forall P (firstn n l).
Proof. intros H. revert n. induction H; intros [|n]; cbn [firstn]; constructor; auto. Qed.
Lemma Forall_skipn_ {A} (P : A -> Prop) n l : Forall P l -> Forall P (skipn n l).
Proof. intros H. revert n. induction H; intros [|n]; cbn [skipn]; auto. Qed.
Lemma zip3_Forall {A} (P : A -> Prop) (f : Z -> Z -> Z -> A) : (forall x y z, P (f x y z)) -> forall a b c, Forall P (zip3 f a b c).
Proof. intros H. induction a as [|x a IH]; intros [|y b] [|z c]; cbn [zip3]; constructor; auto. Qed.
Lemma put_whole {A} (l xs : list A) : length xs = length l -> put l 0 xs = xs.
Proof. intros H. unfold put. cbn [firstn app Nat.add]. rewrite skipn_all2 by lia. apply app_nil_r. Qed.

Section Rows.
  Variable f : list Z -> list Z -> list Z -> list Z -> res (list Z).
  Variable pix : Z -> Z -> Z -> list Z.
  Variable nc : nat.
  Hypothesis Hnc : (1 <= nc <= 4)%nat.
  Hypothesis pix_length : forall y cb cr, length (pix y cb cr) = nc.
  Hypothesis f_ok : forall y cb cr out, length y = 16%nat -> length cb = 16%nat -> length cr = 16%nat ->
    Forall sample y -> Forall sample cb -> Forall sample cr -> (16 * nc <= length out)%nat ->
    f y cb cr out = Ok (put out 0 (concat (zip3 pix y cb cr))).

  Lemma pixels_length y cb cr n : length y = n -> length cb = n -> length cr = n -> length (concat (zip3 pix y cb cr)) = (n * nc)%nat.
  Proof.
    intros H1 H2 H3. rewrite (concat_length_const nc) by (apply zip3_Forall; auto). now rewrite (zip3_length _ _ _ _ n).
  Qed.
  Lemma chunks16_ok : forall fuel n y cb cr out, (n <= fuel)%nat ->
    length y = length cb -> length cb = length cr -> Forall sample y -> Forall sample cb -> Forall sample cr ->
    (16 * n <= length y)%nat -> (16 * n * nc <= length out)%nat -> (length out < 16 * (n + 1) * nc)%nat ->
    chunks16 f fuel nc y cb cr out = Ok (concat (firstn (16 * n) (zip3 pix y cb cr)) ++ skipn (16 * n * nc) out).
  Proof.
    induction fuel as [|fuel IH]; intros n y cb cr out Hf L1 L2 Hy Hcb Hcr Hn Ho Ho'.
    { replace n with 0%nat by lia. reflexivity. }
    cbn [chunks16]. destruct n as [|n].
    { replace (16 * nc <=? length out)%nat with false by lia. rewrite andb_false_r. reflexivity. }
    replace ((16 <=? length y) && (16 <=? length cb) && (16 <=? length cr) && (16 * nc <=? length out))%nat with true by lia.
    rewrite f_ok; try (apply Forall_firstn_; assumption); try (rewrite firstn_length; lia).
    cbn [bind]. rewrite (IH n); try (apply Forall_skipn_; assumption); try (rewrite ?skipn_length; lia).
    cbn [bind]. f_equal. rewrite put_whole by (rewrite (pixels_length _ _ _ 16), firstn_length; rewrite ?firstn_length; lia).
    rewrite zip3_firstn, zip3_skipn by assumption. rewrite app_assoc, <- concat_app. f_equal.
    - f_equal. replace (16 * S n)%nat with (16 + 16 * n)%nat by lia.
      generalize (zip3 pix y cb cr) as l. intros l. clear. rewrite <- (firstn_skipn 16 l) at 3.
      destruct (Nat.lt_ge_cases (length l) 16) as [H|H].
      + rewrite (firstn_all2 l), (skipn_all2 l) by lia. rewrite firstn_nil, !app_nil_r. symmetry. apply firstn_all2. lia.
      + rewrite firstn_app, firstn_length. replace (Nat.min 16 (length l)) with 16%nat by lia.
        rewrite (firstn_all2 (firstn 16 l)) by (rewrite firstn_length; lia). f_equal. f_equal. lia.
    - rewrite skipn_skipn'. f_equal. lia.
  Qed.
  Lemma ycbcr_row_ok width y cb cr out : (1 <= width <= length y)%nat -> length y = length cb -> length cb = length cr ->
    Forall sample y -> Forall sample cb -> Forall sample cr -> length out = (width * nc)%nat ->
    ycbcr_row f width nc y cb cr out = Ok (concat (firstn width (zip3 pix y cb cr))).
  Proof.
    intros Hw L1 L2 Hy Hcb Hcr Lo. unfold ycbcr_row. cbv zeta.
    assert (FZ : forall a b c, Forall (fun l : list Z => length l = nc) (zip3 pix a b c)) by (intros; apply zip3_Forall; auto).
    destruct (Nat.ltb_spec width 16) as [H16|H16].
    - assert (PL : forall l : list Z, length (firstn 16 l ++ repeat 0 (16 - length l)) = 16%nat)
        by (intros l; rewrite app_length, firstn_length, repeat_length; lia).
      assert (PS : forall l, Forall sample l -> Forall sample (firstn 16 l ++ repeat 0 (16 - length l))).
      { intros l F. apply Forall_app. split; [now apply Forall_firstn_|]. apply Forall_forall. intros x Hx. apply repeat_spec in Hx. subst. unfold sample. lia. }
      rewrite f_ok; auto; [|rewrite repeat_length; lia]. cbn [bind].
      set (zz := zip3 pix _ _ _).
      assert (Lz : length zz = 16%nat) by (apply zip3_length; apply PL).
      assert (Lc : length (concat zz) = (16 * nc)%nat) by (rewrite (concat_length_const nc), Lz by apply FZ; reflexivity).
      rewrite get_slice_ok by (rewrite put_length, repeat_length; rewrite ?repeat_length; nia). cbn [bind].
      assert (E : slice (put (repeat 0 64) 0 (concat zz)) 0 (width * nc) = concat (firstn width (zip3 pix y cb cr))).
      { unfold slice, put. cbn [skipn firstn app]. rewrite firstn_app. replace (width * nc - length (concat zz))%nat with 0%nat by nia.
        cbn [firstn]. rewrite app_nil_r. rewrite firstn_concat by apply FZ. f_equal. unfold zz.
        rewrite zip3_app by (rewrite !firstn_length; lia). rewrite zip3_firstn, firstn_app.
        rewrite firstn_length, (zip3_length _ _ _ _ (length y)) by congruence.
        replace (width - Nat.min 16 (length y))%nat with 0%nat by lia. rewrite firstn_O. rewrite app_nil_r.
        rewrite firstn_firstn. f_equal. lia. }
      rewrite E, put_slice_ok.
      + f_equal. apply put_whole. rewrite (concat_length_const nc) by (apply Forall_firstn_, FZ).
        rewrite firstn_length, (zip3_length _ _ _ _ (length y)) by congruence. rewrite Lo. f_equal. lia.
      + rewrite (concat_length_const nc) by (apply Forall_firstn_, FZ).
        rewrite firstn_length, (zip3_length _ _ _ _ (length y)) by congruence. rewrite Lo. nia.
    - set (n := (width / 16)%nat).
      assert (Hn : (16 * n <= width < 16 * (n + 1))%nat).
      { unfold n. pose proof (Nat.div_mod_eq width 16). pose proof (Nat.mod_upper_bound width 16). lia. }
      clearbody n. rewrite (chunks16_ok _ n) by (assumption || nia). cbn [bind].
      set (zz := zip3 pix y cb cr).
      assert (Lz : length zz = length y) by (apply zip3_length; congruence).
      rewrite !get_slice_ok by lia. cbn [bind].
      assert (TL : forall l : list Z, slice l (width - 16) (length l - (width - 16)) = skipn (width - 16) l)
        by (intros l; unfold slice; apply firstn_all2; rewrite skipn_length; lia).
      rewrite !TL, !skipn_length.
      replace ((16 <=? length y - (width - 16)) && (16 <=? length cb - (width - 16)) && (16 <=? length cr - (width - 16)))%nat with true by lia.
      rewrite f_ok; try (apply Forall_firstn_, Forall_skipn_; assumption); try (rewrite ?firstn_length, ?skipn_length, ?repeat_length; lia).
      cbn [bind]. rewrite zip3_firstn, zip3_skipn by assumption. fold zz.
      set (tt := concat (firstn 16 (skipn (width - 16) zz))).
      assert (Lt : length tt = (16 * nc)%nat).
      { unfold tt. rewrite (concat_length_const nc) by (apply Forall_firstn_, Forall_skipn_, FZ).
        rewrite firstn_length, skipn_length, Lz. f_equal. lia. }
      assert (L1' : length (concat (firstn (16 * n) zz)) = (16 * n * nc)%nat).
      { rewrite (concat_length_const nc) by (apply Forall_firstn_, FZ). rewrite firstn_length, Lz. f_equal. lia. }
      assert (LO : length (concat (firstn (16 * n) zz) ++ skipn (16 * n * nc) out) = (width * nc)%nat)
        by (rewrite app_length, L1', skipn_length, Lo; nia).
      assert (A : ((width - 16) * nc + 16 * nc = width * nc)%nat) by (rewrite <- Nat.mul_add_distr_r; f_equal; lia).
      rewrite get_slice_ok by lia. cbn [bind]. rewrite slice_length by lia.
      rewrite get_slice_ok by (rewrite put_length, repeat_length; rewrite ?repeat_length; lia). cbn [bind].
      assert (E : slice (put (repeat 0 64) 0 tt) 0 (16 * nc) = tt).
      { unfold slice, put. cbn [skipn firstn app]. now apply firstn_app_exact. }
      rewrite E, put_slice_ok by lia. f_equal. unfold put.
      rewrite (skipn_all2 (concat (firstn (16 * n) zz) ++ _)) by lia. rewrite app_nil_r.
      rewrite firstn_app. replace ((width - 16) * nc - length (concat (firstn (16 * n) zz)))%nat with 0%nat by (rewrite L1'; nia).
      cbn [firstn]. rewrite app_nil_r. rewrite firstn_concat by (apply Forall_firstn_, FZ).
      rewrite firstn_firstn. replace (Nat.min (width - 16) (16 * n)) with (width - 16)%nat by lia.
      unfold tt. rewrite <- concat_app. f_equal.
      assert (W : width = (width - 16 + 16)%nat) by lia. rewrite W at 3. set (k := (width - 16)%nat). clearbody zz k. clear.
      revert k. induction zz as [|z zz IH]; intros k; [now rewrite skipn_nil, !firstn_nil|].
      destruct k as [|k]; [reflexivity|]. cbn [firstn skipn Nat.add app]. f_equal. apply IH.
  Qed.
End Rows.
