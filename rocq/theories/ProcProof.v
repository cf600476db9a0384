(** Proofs about the arithmetic and pointwise operations. *)
From Verif Require Import Base BaseProof Slices GeomSpec GeomProof ProcModel ProcSpec.

(** ** Division by multiplication *)

Lemma reciprocal d : 1 <= d -> let m := (2 ^ 64 - 1) / d + 1 in 2 ^ 64 <= m * d < 2 ^ 64 + d /\ 1 <= m <= 2 ^ 64.
Proof.
  intros Hd m. set (P := 2 ^ 64) in *. assert (HP : 0 < P) by reflexivity. clearbody P.
  pose proof (Z.div_mod (P - 1) d ltac:(lia)) as E. pose proof (Z.mod_pos_bound (P - 1) d ltac:(lia)) as B.
  unfold m. set (q := (P - 1) / d) in *. set (r := (P - 1) mod d) in *. clearbody q r. clear m.
  split; [nia|]. split; [nia|]. nia.
Qed.

Lemma fastdiv_exact a d : 0 <= a < 2 ^ 32 -> 1 <= d < 2 ^ 32 ->
  exists m, compute_mod d = Ok m /\ fastdiv a m = Ok (a / d).
Proof.
  intros Ha Hd. unfold compute_mod. replace (d =? 0) with false by lia. eexists. split; [reflexivity|].
  destruct (reciprocal d ltac:(lia)) as [E M]. cbv zeta in E, M. set (m := (2 ^ 64 - 1) / d + 1) in *. clearbody m.
  unfold fastdiv. 
  assert (Q : 0 <= a / d < 2 ^ 32).
  { split; [apply Z.div_pos; lia|]. apply Z.div_lt_upper_bound; [lia|]. nia. }
  pose proof (Z.div_mod a d ltac:(lia)) as D. pose proof (Z.mod_pos_bound a d ltac:(lia)) as R.
  set (q := a / d) in *. set (r := a mod d) in *. clearbody q r.
  assert (K : (m * a) / 2 ^ 64 = q).
  { symmetry. apply Z.div_unique_pos with (r := m * a - 2 ^ 64 * q); [|lia].
    set (e := m * d - 2 ^ 64) in *. assert (He : 0 <= e < d) by lia.
    assert (E2 : m * d = 2 ^ 64 + e) by lia. clearbody e.
    assert (EA : m * a - 2 ^ 64 * q = q * e + m * r) by (subst a; nia).
    rewrite EA. split; [nia|].
    assert (ED : (q * e + m * r) * d = e * a + 2 ^ 64 * r) by (subst a; nia).
    assert (e * a < 2 ^ 64) by (change (2 ^ 64) with (2 ^ 32 * 2 ^ 32); nia).
    assert ((q * e + m * r) * d < 2 ^ 64 * d) by nia. nia. }
  assert (m * a < 2 ^ 128).
  { assert (m * a <= 2 ^ 64 * a) by nia. assert (2 ^ 64 * a < 2 ^ 64 * 2 ^ 32) by lia.
    change (2 ^ 128) with (2 ^ 64 * 2 ^ 64). lia. }
  replace (2 ^ 128 <=? m * a) with false by lia. rewrite K. f_equal. apply Z.mod_small. lia.
Qed.

Lemma map_res_ok f g l : (forall x, In x l -> f x = Ok (g x)) -> map_res f l = Ok (map g l).
Proof.
  induction l as [|x l IH]; intros H; cbn [map_res map]; [easy|]. rewrite H by now left. cbn [bind].
  rewrite IH by (intros; apply H; now right). reflexivity.
Qed.

Lemma zip_update_ok f g l : forall al, length l = length al -> (forall c a, In c l -> In a al -> f c a = Ok (g c a)) ->
  zip_update f l al = Ok (map (fun p => g (fst p) (snd p)) (combine l al)).
Proof.
  induction l as [|c l IH]; intros [|a al] L H; try discriminate L; cbn [zip_update combine map]; [easy|].
  rewrite H by now left. cbn [bind]. rewrite IH; [reflexivity|cbn [length] in L; lia|intros; apply H; now right].
Qed.

(** ** Alpha *)

(** [premul] computes the rounded product or one more (then possibly wrapping to 0), and exactly when. *)
Lemma premul_spec b c a : b = 8 \/ b = 16 -> sample b c -> sample b a ->
  let n := round_div (a * c) (2 ^ b - 1) in
  let k := a * c - (2 ^ b - 1) * n in
  0 <= n <= 2 ^ b - 1 /\ 0 <= k + 2 ^ (b - 1) - 1 <= 2 ^ b - 2 /\
  premul b c a = Ok (if (k + n <? 2 ^ (b - 1) - 1) || ((k + n =? 2 ^ (b - 1) - 1) && (k + 2 ^ (b - 1) <? n))
                     then n else (n + 1) mod 2 ^ b).
Proof.
  unfold sample, round_div, premul. intros Hb Hc Ha.
  assert (Hp : 0 <= a * c <= (2 ^ b - 1) * (2 ^ b - 1)) by nia.
  set (p := a * c) in *. clearbody p. cbv zeta.
  destruct Hb as [-> | ->].
  - change (2 ^ (8 - 1)) with 128. change (2 ^ (2 * 8)) with 65536. change (2 ^ 8) with 256 in *.
    change (256 - 1) with 255 in *.
    assert (E : exists n k, p = 255 * n + k /\ -127 <= k <= 127) by (exists ((2 * p + 255) / (2 * 255)), (p - 255 * ((2 * p + 255) / (2 * 255))); lia).
    destruct E as (n & k & -> & Hk). replace ((2 * (255 * n + k) + 255) / (2 * 255)) with n by lia.
    replace (255 * n + k - 255 * n) with k by lia. assert (0 <= n <= 255) by lia. split; [lia|]. split; [lia|].
    replace ((255 * n + k + 128) / 256) with (if k + 128 <? n then n - 1 else n).
    2:{ destruct (Z.ltb_spec (k + 128) n); lia. }
    destruct (Z.ltb_spec (k + 128) n); rewrite ?andb_true_r, ?andb_false_r, ?orb_false_r.
    + replace (65536 <=? 255 * n + k + 128) with false by lia. replace (65536 <=? _) with false by lia.
      replace ((255 * n + k + 128 + (n - 1)) / 255) with (if (k + n <? 128) then n else n + 1).
      2:{ destruct (Z.ltb_spec (k + n) 128); lia. }
      replace ((k + n <? 128 - 1) || (k + n =? 128 - 1)) with (k + n <? 128) by lia.
      destruct (k + n <? 128); [f_equal; apply Z.mod_small; lia|reflexivity].
    + replace (65536 <=? 255 * n + k + 128) with false by lia. replace (65536 <=? _) with false by lia.
      replace ((255 * n + k + 128 + n) / 255) with (if (k + n <? 127) then n else n + 1).
      2:{ destruct (Z.ltb_spec (k + n) 127); lia. }
      destruct (Z.ltb_spec (k + n) 127); replace (k + n <? 128 - 1) with (k + n <? 127) by lia.
      * replace (k + n <? 127) with true by lia. f_equal. apply Z.mod_small; lia.
      * replace (k + n <? 127) with false by lia. reflexivity.
  - change (2 ^ (16 - 1)) with 32768. change (2 ^ (2 * 16)) with 4294967296. change (2 ^ 16) with 65536 in *.
    change (65536 - 1) with 65535 in *.
    assert (E : exists n k, p = 65535 * n + k /\ -32767 <= k <= 32767) by (exists ((2 * p + 65535) / (2 * 65535)), (p - 65535 * ((2 * p + 65535) / (2 * 65535))); lia).
    destruct E as (n & k & -> & Hk). replace ((2 * (65535 * n + k) + 65535) / (2 * 65535)) with n by lia.
    replace (65535 * n + k - 65535 * n) with k by lia. assert (0 <= n <= 65535) by lia. split; [lia|]. split; [lia|].
    replace ((65535 * n + k + 32768) / 65536) with (if k + 32768 <? n then n - 1 else n).
    2:{ destruct (Z.ltb_spec (k + 32768) n); lia. }
    destruct (Z.ltb_spec (k + 32768) n); rewrite ?andb_true_r, ?andb_false_r, ?orb_false_r.
    + replace (4294967296 <=? 65535 * n + k + 32768) with false by lia. replace (4294967296 <=? _) with false by lia.
      replace ((65535 * n + k + 32768 + (n - 1)) / 65535) with (if (k + n <? 32768) then n else n + 1).
      2:{ destruct (Z.ltb_spec (k + n) 32768); lia. }
      replace ((k + n <? 32768 - 1) || (k + n =? 32768 - 1)) with (k + n <? 32768) by lia.
      destruct (k + n <? 32768); [f_equal; apply Z.mod_small; lia|reflexivity].
    + replace (4294967296 <=? 65535 * n + k + 32768) with false by lia. replace (4294967296 <=? _) with false by lia.
      replace ((65535 * n + k + 32768 + n) / 65535) with (if (k + n <? 32767) then n else n + 1).
      2:{ destruct (Z.ltb_spec (k + n) 32767); lia. }
      destruct (Z.ltb_spec (k + n) 32767); replace (k + n <? 32768 - 1) with (k + n <? 32767) by lia.
      * replace (k + n <? 32767) with true by lia. f_equal. apply Z.mod_small; lia.
      * replace (k + n <? 32767) with false by lia. reflexivity.
Qed.

Lemma round_half n d : 0 <= n -> 1 <= d -> (n + d / 2) / d = round_div n d.
Proof.
  intros Hn Hd. unfold round_div.
  pose proof (Z.div_mod n d ltac:(lia)) as E. pose proof (Z.mod_pos_bound n d ltac:(lia)) as R.
  set (q := n / d) in *. set (r := n mod d) in *. clearbody q r. subst n.
  replace (d * q + r + d / 2) with (r + d / 2 + q * d) by lia. rewrite Z.div_add by lia.
  replace (2 * (d * q + r) + d) with (2 * r + d + q * (2 * d)) by lia. rewrite Z.div_add by lia. f_equal.
  destruct (Z.lt_ge_cases (r + d / 2) d) as [L|L].
  - rewrite Z.div_small by lia. rewrite Z.div_small; lia.
  - rewrite <- (Z.div_unique (r + d / 2) d 1 (r + d / 2 - d)) by lia.
    rewrite <- (Z.div_unique (2 * r + d) (2 * d) 1 (2 * r + d - 2 * d)) by lia. reflexivity.
Qed.

Lemma unpremul_spec b c a : b = 8 \/ b = 16 -> sample b c -> sample b a ->
  unpremul b c a = Ok (if a =? 0 then 0 else Z.min (2 ^ b - 1) (round_div (c * (2 ^ b - 1)) a)).
Proof.
  intros Hb Hc Ha. unfold sample in *.
  assert (N : 0 <= c * (2 ^ b - 1) + a / 2 < 2 ^ 32).
  { destruct Hb as [-> | ->]; change (2 ^ 32) with 4294967296.
    - change (2 ^ 8) with 256 in *. lia.
    - change (2 ^ 16) with 65536 in *. lia. }
  assert (B : 256 <= 2 ^ b < 2 ^ 32) by (destruct Hb as [-> | ->]; split; easy).
  unfold unpremul, unpremul_table. destruct (Z.eqb_spec a 0) as [->|Na].
  - cbn [bind]. replace (2 ^ 32 <=? _) with false by lia. unfold fastdiv.
    rewrite Z.mul_0_l. change (2 ^ 128 <=? 0) with false. cbv iota. cbn [bind]. change (0 / 2 ^ 64 mod 2 ^ 32) with 0.
    now replace (0 <? 2 ^ b) with true by lia.
  - destruct (fastdiv_exact (c * (2 ^ b - 1) + a / 2) a N ltac:(lia)) as (m & -> & E). cbn [bind].
    replace (2 ^ 32 <=? _) with false by lia. rewrite E. cbn [bind].
    rewrite round_half by (try lia; nia). f_equal. destruct (Z.ltb_spec (round_div (c * (2 ^ b - 1)) a) (2 ^ b)); lia.
Qed.

(** ** Contrast stretch *)

Definition stretch_value (b lower upper x : Z) : Z :=
  if upper <=? x then 2 ^ b - 1 else if x <=? lower then 0 else ((2 ^ b - 1) * (x - lower)) / (upper - lower + 1).

Lemma stretch1_spec b lower upper x : b = 8 \/ b = 16 -> sample b lower -> sample b upper -> lower <= upper -> sample b x ->
  exists m, compute_mod (Z.min (2 ^ 32 - 1) (Z.max 0 (upper - lower) + 1)) = Ok m /\
    stretch1 b lower upper m x = Ok (stretch_value b lower upper x) /\ sample b (stretch_value b lower upper x).
Proof.
  unfold sample. intros Hb Hl Hu Hlu Hx.
  assert (B : 256 <= 2 ^ b <= 65536) by (destruct Hb as [-> | ->]; split; easy).
  set (B' := 2 ^ b) in *.
  assert (EL : Z.min (2 ^ 32 - 1) (Z.max 0 (upper - lower) + 1) = upper - lower + 1) by (change (2 ^ 32) with 4294967296; lia).
  rewrite EL.
  assert (N : lower < x < upper -> 0 <= (B' - 1) * (x - lower) < 2 ^ 32).
  { intros. change (2 ^ 32) with (65536 * 65536). nia. }
  assert (D : 1 <= upper - lower + 1 < 2 ^ 32) by (change (2 ^ 32) with 4294967296; lia).
  assert (S : 0 <= stretch_value b lower upper x < B').
  { unfold stretch_value. fold B'. destruct (Z.leb_spec upper x); [lia|]. destruct (Z.leb_spec x lower); [lia|].
    split; [apply Z.div_pos; [nia|lia]|]. apply Z.div_lt_upper_bound; [lia|]. nia. }
  destruct (Z.leb_spec upper x) as [U|U].
  { destruct (fastdiv_exact 0 (upper - lower + 1) ltac:(easy) D) as (m & E & _). exists m. split; [easy|]. split; [|easy].
    unfold stretch1, stretch_value. now replace (upper <=? x) with true by lia. }
  destruct (Z.leb_spec x lower) as [L|L].
  { destruct (fastdiv_exact 0 (upper - lower + 1) ltac:(easy) D) as (m & E & _). exists m. split; [easy|]. split; [|easy].
    unfold stretch1, stretch_value. replace (upper <=? x) with false by lia. now replace (x <=? lower) with true by lia. }
  destruct (fastdiv_exact ((B' - 1) * (x - lower)) (upper - lower + 1) (N ltac:(lia)) D) as (m & E & F). exists m.
  split; [easy|]. split; [|easy]. specialize (N ltac:(lia)).
  unfold stretch1, stretch_value in *. fold B' in S |- *. replace (upper <=? x) with false in * by lia. replace (x <=? lower) with false in * by lia.
  replace (2 ^ 32 <=? (B' - 1) * (x - lower)) with false by lia. rewrite F. cbn [bind]. f_equal. apply Z.mod_small. easy.
Qed.

Lemma stretch_spec b lower upper l : b = 8 \/ b = 16 -> sample b lower -> sample b upper -> lower <= upper -> Forall (sample b) l ->
  stretch b lower upper l = Ok (map (stretch_value b lower upper) l) /\ Forall (sample b) (map (stretch_value b lower upper) l).
Proof.
  intros Hb Hl Hu Hlu Hx. unfold stretch. replace (upper <? lower) with false by lia.
  destruct (stretch1_spec b lower upper lower Hb Hl Hu Hlu Hl) as (m & Em & _).
  rewrite Em. cbn [bind]. rewrite Forall_forall in Hx. split.
  - apply map_res_ok. intros x Hin. destruct (stretch1_spec b lower upper x Hb Hl Hu Hlu (Hx x Hin)) as (m' & Em' & E & _).
    rewrite Em in Em'. injection Em' as <-. exact E.
  - apply Forall_forall. intros y Hy. apply in_map_iff in Hy as (x & <- & Hin).
    now destruct (stretch1_spec b lower upper x Hb Hl Hu Hlu (Hx x Hin)) as (_ & _ & _ & S).
Qed.

Lemma stretch_mono b lower upper x y : b = 8 \/ b = 16 -> sample b lower -> sample b upper -> lower <= upper ->
  sample b x -> sample b y -> x <= y -> stretch_value b lower upper x <= stretch_value b lower upper y.
Proof.
  intros Hb Hl Hu Hlu Hx Hy Hxy.
  destruct (stretch1_spec b lower upper x Hb Hl Hu Hlu Hx) as (_ & _ & _ & Sx).
  destruct (stretch1_spec b lower upper y Hb Hl Hu Hlu Hy) as (_ & _ & _ & Sy).
  unfold sample in *. assert (256 <= 2 ^ b <= 65536) by (destruct Hb as [-> | ->]; split; easy).
  unfold stretch_value in *. destruct (Z.leb_spec upper y); [destruct (Z.leb_spec upper x); [lia|]; lia|].
  replace (upper <=? x) with false in * by lia. destruct (Z.leb_spec x lower); [lia|].
  replace (y <=? lower) with false in * by lia. apply Z.div_le_mono; [lia|]. apply Z.mul_le_mono_nonneg_l; lia.
Qed.

(** ** Composite *)

Lemma over_row_spec sx d s : length (over_row sx d s) = length d /\
  forall x, (x < length d)%nat -> nth x (over_row sx d s) 0 =
    if ((sx <=? x) && (x - sx <? length s))%nat then nth (x - sx) s 0 else nth x d 0.
Proof.
  unfold over_row. destruct (Nat.leb_spec sx (length d)) as [H|H].
  - set (n := Nat.min (length d - sx) (length s)). assert (Hn : n = Nat.min (length d - sx) (length s)) by easy. clearbody n.
    split; [rewrite !app_length, !firstn_length, skipn_length; lia|]. intros x Hx.
    destruct (Nat.leb_spec sx x) as [L|L]; cbn [andb].
    + rewrite app_nth2; rewrite firstn_length; [|lia]. replace (Nat.min sx (length d)) with sx by lia.
      destruct (Nat.ltb_spec (x - sx) (length s)) as [K|K].
      * rewrite app_nth1 by (rewrite firstn_length; lia). now rewrite nth_firstn by lia.
      * rewrite app_nth2; rewrite firstn_length; [|lia]. rewrite nth_skipn. f_equal. lia.
    + rewrite app_nth1 by (rewrite firstn_length; lia). now rewrite nth_firstn by lia.
  - split; [easy|]. intros x Hx. now replace (sx <=? x)%nat with false by lia.
Qed.

Lemma over_rows_length sx ds : forall ss, length (over_rows sx ds ss) = length ds.
Proof. induction ds as [|d ds IH]; intros [|s ss]; cbn [over_rows length]; auto. Qed.
Lemma over_rows_nth sx ds : forall ss j, (j < length ds)%nat ->
  nth j (over_rows sx ds ss) [] = if (j <? length ss)%nat then over_row sx (nth j ds []) (nth j ss []) else nth j ds [].
Proof.
  induction ds as [|d ds IH]; intros [|s ss] j Hj; cbn [over_rows length] in *; try lia; [easy|].
  destruct j as [|j]; cbn [nth]; [easy|]. rewrite IH by lia. reflexivity.
Qed.

Lemma composite_over_spec src dst sx sy ws hs wd hd : (0 < ws)%nat -> (0 < wd)%nat ->
  length src = (ws * hs)%nat -> length dst = (wd * hd)%nat ->
  exists out, composite_over src dst sx sy ws wd = Ok out /\
    is_image wd hd out (fun x y =>
      if ((sx <=? x) && (x - sx <? ws) && (sy <=? y) && (y - sy <? hs))%nat then px ws src (x - sx) (y - sy) else px wd dst x y).
Proof.
  intros Hws Hwd Hs Hd. unfold composite_over. replace ((wd =? 0) || (ws =? 0))%nat with false by lia.
  destruct (rows_of ws hs src Hws Hs) as (A1 & B1 & C1). destruct (rows_of wd hd dst Hwd Hd) as (A2 & B2 & C2).
  eexists. split; [reflexivity|]. rewrite (skipn_all2 dst) by (rewrite A2, Hd; lia). rewrite app_nil_r.
  assert (R1 : forall y, (y < hs)%nat -> length (nth y (chunks_exact ws src) []) = ws) by (intros; rewrite Forall_forall in B1; apply B1, nth_In; lia).
  assert (R2 : forall y, (y < hd)%nat -> length (nth y (chunks_exact wd dst) []) = wd) by (intros; rewrite Forall_forall in B2; apply B2, nth_In; lia).
  assert (Hrow : forall y, (y < hd)%nat ->
     nth y (firstn sy (chunks_exact wd dst) ++ over_rows sx (skipn sy (chunks_exact wd dst)) (chunks_exact ws src)) [] =
     if ((sy <=? y) && (y - sy <? hs))%nat then over_row sx (nth y (chunks_exact wd dst) []) (nth (y - sy) (chunks_exact ws src) [])
     else nth y (chunks_exact wd dst) []).
  { intros y Hy. destruct (Nat.leb_spec sy y) as [L|L]; cbn [andb].
    - rewrite app_nth2; rewrite firstn_length; [|lia]. replace (Nat.min sy (length (chunks_exact wd dst))) with sy by lia.
      rewrite over_rows_nth by (rewrite skipn_length; lia). rewrite A1, nth_skipn. now replace (sy + (y - sy))%nat with y by lia.
    - rewrite app_nth1 by (rewrite firstn_length; lia). now rewrite nth_firstn by lia. }
  apply is_image_rows.
  - rewrite app_length, firstn_length, over_rows_length, skipn_length. lia.
  - apply Forall_forall. intros r Hr. apply (In_nth _ _ []) in Hr as (y & Hy & <-).
    rewrite app_length, firstn_length, over_rows_length, skipn_length in Hy. rewrite Hrow by lia.
    destruct ((sy <=? y) && (y - sy <? hs))%nat; [rewrite (proj1 (over_row_spec _ _ _))|]; apply R2; lia.
  - intros x y Hx Hy. rewrite Hrow by easy. rewrite <- andb_assoc. destruct ((sy <=? y) && (y - sy <? hs))%nat eqn:E.
    + rewrite (proj2 (over_row_spec _ _ _)) by (rewrite R2; lia). rewrite R1 by lia. rewrite andb_true_r.
      destruct ((sx <=? x) && (x - sx <? ws))%nat eqn:F; [apply (row_nth ws hs); lia|apply (row_nth wd hd); lia].
    + rewrite andb_false_r. apply (row_nth wd hd); lia.
Qed.
