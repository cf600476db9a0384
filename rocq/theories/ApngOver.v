(** Proofs about laying animation frames over a canvas: the arithmetic of one sample, and animations as a whole. *)
From Verif Require Import Base BaseProof Loops Slices F32 F32Round ToneModel ToneSpec ToneProof ToneProof2 DeintModel ApngModel ApngSpec ApngProof.

Lemma times_near i x y : ffin x -> ffin y -> 0 <= fval x -> 0 <= fval y -> 0 <= i <= 100 -> fval x * fval y <= 2 ^ i * unit_ * unit_ ->
  ffin (fmul x y) /\ 0 <= fval (fmul x y) <= 2 ^ i * unit_ /\ 2 ^ 24 * Z.abs (fval (fmul x y) * unit_ - fval x * fval y) <= 2 ^ i * unit_ * unit_.
Proof.
  intros Fx Fy Hx Hy Hi H. assert (P : 0 <= fval x * fval y) by nia. destruct (fmul_val i x y Fx Fy ltac:(lia)) as [F V]; [rewrite Z.abs_eq; easy|].
  split; [exact F|]. rewrite V. split.
  - split; [apply frnd_nonneg; easy|]. pose proof (frnd_bound 149 i (fval x * fval y) ltac:(lia) ltac:(lia)) as B. rewrite Z.abs_eq in B by easy. specialize (B H). lia.
  - assert (1 <= 2 ^ i) by (pose proof (Z.pow_pos_nonneg 2 i); lia). assert (2 ^ i <= 2 ^ 100) by (apply Z.pow_le_mono_r; lia).
    pose proof (mul_near (fval x * fval y)) as N. rewrite (Z.abs_eq (fval x * fval y)) in N by easy. etransitivity; [apply N|].
    + etransitivity; [exact H|]. apply Z.mul_le_mono_nonneg_r; [unfold unit_; lia|]. apply Z.mul_le_mono_nonneg_r; [unfold unit_; lia|easy].
    + apply Z.max_lub; [|exact H]. apply Z.mul_le_mono_nonneg_r; [unfold unit_; lia|]. unfold unit_. nia.
Qed.
Lemma plus_near i x y : ffin x -> ffin y -> 0 <= fval x -> 0 <= fval y -> 0 <= i <= 100 -> fval x + fval y <= 2 ^ i * unit_ ->
  ffin (fadd x y) /\ 0 <= fval (fadd x y) <= 2 ^ i * unit_ /\ 2 ^ 24 * Z.abs (fval (fadd x y) - (fval x + fval y)) <= 2 ^ i * unit_.
Proof.
  intros Fx Fy Hx Hy Hi H. destruct (fadd_val i x y Fx Fy ltac:(lia)) as [F V]; [rewrite Z.abs_eq; lia|]. split; [exact F|]. rewrite V. split.
  - split; [apply frnd_nonneg; lia|]. pose proof (frnd_bound 0 i (fval x + fval y) ltac:(lia) ltac:(lia)) as B. rewrite Z.abs_eq in B by lia. rewrite Z.pow_0_r, Z.mul_1_r in B. specialize (B H). lia.
  - pose proof (add_near (fval x + fval y)) as N. etransitivity; [exact N|]. assert (1 <= 2 ^ i) by (pose proof (Z.pow_pos_nonneg 2 i); lia). unfold unit_ in *. nia.
Qed.

(** [i / 255] *)
Definition frac (i : Z) : f32 := fdiv (of_int i) (of_int 255).
Definition frac_good (i : Z) : bool :=
  match frac i with S754_zero _ => i =? 0 | S754_finite _ m e => SpecFloat.bounded 24 128 m e | _ => false end &&
  (0 <=? fval (frac i)) && (fval (frac i) <=? unit_) && (Z.abs (255 * fval (frac i) - i * unit_) <=? 2 ^ 132).
Lemma frac_all : forallb (fun n => frac_good (Z.of_nat n)) (seq 0 256) = true.
Proof. vm_compute. reflexivity. Qed.
Lemma frac_val i : 0 <= i <= 255 -> ffin (frac i) /\ 0 <= fval (frac i) <= unit_ /\ Z.abs (255 * fval (frac i) - i * unit_) <= 2 ^ 132.
Proof.
  intros H. pose proof frac_all as A. rewrite forallb_forall in A. specialize (A (Z.to_nat i)). rewrite Z2Nat.id in A by lia. unfold frac_good in A.
  assert (I : In (Z.to_nat i) (seq 0 256)) by (apply in_seq; lia). specialize (A I). rewrite !andb_true_iff in A. destruct A as [[[A1 A2] A3] A4].
  split; [|lia]. unfold finite. destruct (frac i); easy.
Qed.
Lemma prod_err U E a A al F : 0 < U -> Z.abs (255 * A - a * U) <= E -> Z.abs (255 * F - al * U) <= E -> 0 <= F <= U -> 0 <= a <= 255 ->
  Z.abs (65025 * (A * F) - a * al * (U * U)) <= 510 * E * U.
Proof.
  intros HU H1 H2 HF Ha. replace (65025 * (A * F) - a * al * (U * U)) with ((255 * A - a * U) * (255 * F) + a * U * (255 * F - al * U)) by ring.
  etransitivity; [apply Z.abs_triangle|]. rewrite (Z.abs_mul (255 * A - a * U)), (Z.abs_mul (a * U)). rewrite (Z.abs_eq (255 * F)), (Z.abs_eq (a * U)) by nia.
  assert (Z.abs (255 * A - a * U) * (255 * F) <= E * (255 * U)) by (apply Z.mul_le_mono_nonneg; lia).
  assert (a * U * Z.abs (255 * F - al * U) <= (255 * U) * E) by (apply Z.mul_le_mono_nonneg; nia). lia.
Qed.
Lemma nearest_floor n t : 0 <= n -> Z.abs (510 * t - (2 * n + 255) * unit_) <= 2 ^ 147 -> t / unit_ = nearest255 n.
Proof.
  intros Hn H. unfold nearest255. set (q := (2 * n + 255) / 510). pose proof (Z.div_mod (2 * n + 255) 510 ltac:(lia)) as D. fold q in D.
  pose proof (Z.mod_pos_bound (2 * n + 255) 510 ltac:(lia)) as B. assert (R : 1 <= (2 * n + 255) mod 510 <= 509).
  { assert ((2 * n + 255) mod 510 <> 0); [|lia]. intros E. rewrite E in D. lia. }
  symmetry. apply Z.div_unique with (t - q * unit_); [|ring]. left. clearbody q. set (r := (2 * n + 255) mod 510) in *. clearbody r. rewrite D in H. clear - H R. unfold unit_ in *. lia.
Qed.
(** Adding one half and cutting *)
Definition half : f32 := fdiv f1 (of_int 2).
Lemma half_val : ffin half /\ fval half = 2 ^ 148. Proof. split; vm_compute; reflexivity. Qed.
Lemma scale_up v : ffin v -> 0 <= fval v <= 2 * unit_ ->
  let t := fadd (fmul v (of_int 255)) half in ffin t /\ 0 <= fval t /\ Z.abs (fval t - 255 * fval v - 2 ^ 148) <= 2 ^ 136.
Proof.
  intros F H t. destruct (of_int_rep 255 ltac:(lia)) as [F5 V5]. fold unit_ in V5. destruct half_val as [Fh Vh].
  destruct (times_near 9 v (of_int 255) F F5 ltac:(lia)) as (Fm & Bm & Nm); [rewrite V5; unfold unit_; lia|lia| |].
  { rewrite V5. replace (2 ^ 9 * unit_ * unit_) with ((2 * unit_) * (256 * unit_)) by (unfold unit_; ring). apply Z.mul_le_mono_nonneg; unfold unit_ in *; lia. }
  destruct (plus_near 10 (fmul v (of_int 255)) half Fm Fh ltac:(lia)) as (Fp & Bp & Np); [rewrite Vh; lia|lia|rewrite Vh; unfold unit_ in *; lia|].
  split; [exact Fp|]. split; [apply Bp|]. fold t in Np. rewrite Vh in Np. set (m := fval (fmul v (of_int 255))) in *. set (tv := fval t) in *. clearbody m tv. rewrite V5 in Nm. clear - Nm Np.
  assert (Nm' : 2 ^ 24 * Z.abs (m - fval v * 255) <= 2 ^ 9 * unit_).
  { apply (Z.mul_le_mono_pos_r _ _ unit_); [unfold unit_; lia|]. rewrite <- Z.mul_assoc, <- (Z.abs_eq unit_) at 1 by (unfold unit_; lia). rewrite <- Z.abs_mul.
    replace ((m - fval v * 255) * unit_) with (m * unit_ - fval v * (255 * unit_)) by ring. exact Nm. }
  set (w := fval v) in *. clearbody w. unfold unit_ in *. lia.
Qed.

Section Powf.
Variable powf : f32 -> f32 -> f32.

(** Without gamma correction, a sample is the exact mixture rounded to the nearest integer. *)
Lemma over_linear alpha a b : (forall x, powf x f1 = x) -> sample 255 alpha -> sample 255 a -> sample 255 b ->
  over_sample powf f1 alpha a b = nearest255 (a * alpha + b * (255 - alpha)).
Proof.
  intros Hp Hal Ha Hb. unfold sample in *. unfold over_sample. change (fdiv f1 f1) with f1. rewrite !Hp. fold (frac alpha) (frac a) (frac b) half.
  destruct (frac_val alpha Hal) as (FF & BF & NF). destruct (frac_val a Ha) as (FA & BA & NA). destruct (frac_val b Hb) as (FB & BB & NB).
  destruct (rest_val (frac alpha) FF BF) as (FR & BR & NR). unfold rest in FR, BR, NR. set (r := fsub f1 (frac alpha)) in *.
  assert (U0 : 0 < unit_) by (unfold unit_; lia).
  destruct (times_near 0 (frac a) (frac alpha) FA FF ltac:(lia) ltac:(lia) ltac:(lia)) as (F1 & B1 & N1). { rewrite Z.pow_0_r, Z.mul_1_l. apply Z.mul_le_mono_nonneg; lia. }
  destruct (times_near 0 (frac b) r FB FR ltac:(lia) ltac:(lia) ltac:(lia)) as (F2 & B2 & N2). { rewrite Z.pow_0_r, Z.mul_1_l. apply Z.mul_le_mono_nonneg; lia. }
  destruct (plus_near 1 _ _ F1 F2 ltac:(lia) ltac:(lia) ltac:(lia) ltac:(lia)) as (FS & BS & NS).
  destruct (scale_up _ FS ltac:(lia)) as (FT & BT & NT). rewrite to_uint_val by (easy || lia).
  assert (E1 : Z.abs (65025 * (fval (frac a) * fval (frac alpha)) - a * alpha * (unit_ * unit_)) <= 510 * 2 ^ 134 * unit_) by (apply prod_err; lia).
  assert (NR' : Z.abs (255 * fval r - (255 - alpha) * unit_) <= 2 ^ 134) by (clear - NF NR; unfold unit_ in *; lia).
  assert (E2 : Z.abs (65025 * (fval (frac b) * fval r) - b * (255 - alpha) * (unit_ * unit_)) <= 510 * 2 ^ 134 * unit_) by (apply prod_err; lia).
  set (af := fval (frac a) * fval (frac alpha)) in *. set (br := fval (frac b) * fval r) in *.
  set (p1 := fval (fmul (frac a) (frac alpha))) in *. set (p2 := fval (fmul (frac b) r)) in *. set (s := fval (fadd _ _)) in *. set (t := fval (fadd _ half)) in *.
  clearbody af br p1 p2 s t. set (n1 := a * alpha) in *. set (n2 := b * (255 - alpha)) in *.
  assert (0 <= n1) by (unfold n1; clear - Ha Hal; nia). assert (0 <= n2) by (unfold n2; clear - Hb Hal; nia). assert (NN : n1 + n2 <= 65025) by (unfold n1, n2; clear - Ha Hb Hal; nia). clearbody n1 n2.
  assert (ES : Z.abs (65025 * s - (n1 + n2) * unit_) <= 2 ^ 145).
  { apply (Z.mul_le_mono_pos_r _ _ unit_ U0). rewrite <- (Z.abs_eq unit_) at 2 by lia. rewrite <- Z.abs_mul.
    replace ((65025 * s - (n1 + n2) * unit_) * unit_) with (65025 * (s - (p1 + p2)) * unit_ + 65025 * (p1 * unit_ - af) + 65025 * (p2 * unit_ - br) + (65025 * af - n1 * (unit_ * unit_)) + (65025 * br - n2 * (unit_ * unit_))) by ring.
    assert (D : Z.abs (65025 * (s - (p1 + p2)) * unit_) <= 2 ^ 142 * unit_).
    { rewrite Z.abs_mul, (Z.abs_eq unit_) by lia. apply Z.mul_le_mono_nonneg_r; [lia|]. clear - NS. unfold unit_ in *. lia. }
    clear - N1 N2 E1 E2 D U0. set (x1 := p1 * unit_ - af) in *. set (x2 := p2 * unit_ - br) in *. set (x3 := 65025 * (s - (p1 + p2)) * unit_) in *.
    set (x4 := 65025 * af - _) in *. set (x5 := 65025 * br - _) in *. clearbody x1 x2 x3 x4 x5. unfold unit_ in *. lia. }
  rewrite (nearest_floor (n1 + n2)).
  - assert (N0 : 0 <= n1 + n2 <= 65025) by (clear - H H0 NN; lia). clear - N0. unfold nearest255. set (n := n1 + n2) in *. clearbody n. unfold limit. assert ((2 * n + 255) / 510 < 256) by (apply Z.div_lt_upper_bound; lia).
    pose proof (Z.div_pos (2 * n + 255) 510 ltac:(lia) ltac:(lia)). lia.
  - clear - H H0. lia.
  - clear - NT ES. set (n := n1 + n2) in *. clearbody n. unfold unit_ in *. lia.
Qed.

(** The power function undoes the gamma correction of the 256 levels, with an error of less than a quarter of a level. *)
Definition inverts (g : f32) : Prop := forall i, sample 255 i ->
  ffin (powf (frac i) (fdiv f1 g)) /\ 0 <= fval (powf (frac i) (fdiv f1 g)) <= unit_ /\
  forall x, ffin x -> fval x = fval (powf (frac i) (fdiv f1 g)) -> ffin (powf x g) /\ 0 <= fval (powf x g) <= 2 * unit_ /\ 4 * Z.abs (255 * fval (powf x g) - i * unit_) <= unit_.
(** A frame's opaque sample replaces what is below it. *)
Lemma over_opaque_sample g a b : inverts g -> sample 255 a -> sample 255 b -> over_sample powf g 255 a b = a.
Proof.
  intros Hi Ha Hb. unfold over_sample. change (fdiv (of_int 255) (of_int 255)) with f1. change (fsub f1 f1) with f0. fold (frac a) (frac b) half.
  destruct (Hi a Ha) as (Fa & Ba & Ia). destruct (Hi b Hb) as (Fb & Bb & _). set (la := powf (frac a) (fdiv f1 g)) in *. set (lb := powf (frac b) (fdiv f1 g)) in *.
  destruct (of_int_rep 1 ltac:(lia)) as [F1 V1]. destruct (of_int_rep 0 ltac:(lia)) as [F0 V0]. fold f1 in F1, V1. fold f0 in F0, V0. fold unit_ in V1, V0.
  assert (E1 : frnd 149 (fval la * (1 * unit_)) = fval la).
  { rewrite Z.mul_1_l. change 149 with (0 + 149). unfold unit_. rewrite rnds_scale by lia. apply sval_rnds; (exact Fa || lia). }
  destruct (fmul_val 1 la f1 Fa F1 ltac:(lia)) as [G1 W1]; [rewrite V1; unfold unit_ in *; lia|]. rewrite V1, E1 in W1.
  destruct (fmul_val 1 lb f0 Fb F0 ltac:(lia)) as [G2 W2]; [rewrite V0; unfold unit_ in *; lia|]. rewrite V0, Z.mul_0_l, Z.mul_0_r in W2. change (frnd 149 0) with 0 in W2.
  destruct (fadd_val 1 _ _ G1 G2 ltac:(lia)) as [G3 W3]; [rewrite W1, W2; unfold unit_ in *; lia|]. rewrite W1, W2, Z.add_0_r, sval_rnds in W3 by (easy || lia).
  destruct (Ia _ G3 W3) as (Fp & Bp & Np). destruct (scale_up _ Fp Bp) as (FT & BT & NT). rewrite to_uint_val by (easy || lia).
  unfold sample in Ha. set (t := fval (fadd _ half)) in *. set (p := fval (powf _ g)) in *. clearbody t p.
  replace (t / unit_) with a; [unfold limit; lia|]. apply Z.div_unique with (t - a * unit_); [|ring]. left. clear - NT Np. unfold unit_ in *. lia.
Qed.

Lemma over_samples_nth n g al : forall src dst k, (k < length dst)%nat -> (length dst <= length src)%nat ->
  nth k (over_samples powf n g al src dst) 0 = if (k <? n)%nat then over_sample powf g al (nth k src 0) (nth k dst 0) else nth k dst 0.
Proof.
  induction n as [|n IH]; intros src dst k Hk Hl; [destruct src; reflexivity|]. destruct dst as [|b dst]; [cbn in Hk; lia|]. destruct src as [|a src]; [cbn in Hl; lia|].
  cbn [over_samples length] in *. destruct k as [|k]; [reflexivity|]. cbn [nth]. rewrite IH by lia. reflexivity.
Qed.
Definition samples (l : list Z) : Prop := Forall (sample 255) l.
Lemma samples_nth l k : samples l -> (k < length l)%nat -> sample 255 (nth k l 0).
Proof. intros H Hk. unfold samples in H. rewrite Forall_forall in H. apply H, nth_In, Hk. Qed.
Lemma last_nth_ (l : list Z) : last l 0 = nth (length l - 1) l 0.
Proof.
  destruct l as [|x l] using rev_ind; [reflexivity|]. rewrite last_last, app_length. cbn [length]. rewrite Nat.add_sub. now rewrite nth_middle.
Qed.
Lemma nearest_id b : nearest255 (b * 255) = b.
Proof. unfold nearest255. symmetry. apply Z.div_unique with 255; lia. Qed.
Lemma over_pixel_linear nc s d : (forall x, powf x f1 = x) -> (0 < nc)%nat -> length s = nc -> length d = nc -> samples s -> samples d -> opaque d ->
  over_pixel powf nc f1 s d = over_opaque s d.
Proof.
  intros Hp Hn Ls Ld Ss Sd Od. unfold opaque in Od. rewrite last_nth_, Ld in Od. unfold over_pixel, over_opaque, mixed.
  assert (Sl : sample 255 (last s 0)) by (rewrite last_nth_; apply samples_nth; [exact Ss|lia]). set (al := last s 0) in *. clearbody al.
  assert (L : forall l k, (k < nc)%nat -> nth k (map l (seq 0 (length d - 1)) ++ [255]) 0 = if (k <? nc - 1)%nat then l k else 255 : Z).
  { intros l k Hk. destruct (Nat.ltb_spec k (nc - 1)).
    - rewrite app_nth1 by (rewrite map_length, seq_length; lia). rewrite (nth_indep _ 0 (l O)) by (rewrite map_length, seq_length; lia). rewrite map_nth, seq_nth by lia. reflexivity.
    - rewrite app_nth2 by (rewrite map_length, seq_length; lia). rewrite map_length, seq_length. replace (k - (length d - 1))%nat with 0%nat by lia. reflexivity. }
  apply (list_eq_nth 0); [destruct (al =? 0); rewrite ?over_samples_length, app_length, map_length, seq_length; cbn [length]; lia|].
  intros k Hk. assert (Hk' : (k < nc)%nat) by (destruct (al =? 0); rewrite ?over_samples_length in Hk; lia). rewrite L by easy. destruct (Z.eqb_spec al 0) as [->|Hal].
  - destruct (Nat.ltb_spec k (nc - 1)); [|rewrite <- Od; f_equal; lia]. replace (_ + _) with (nth k d 0 * 255) by ring. now rewrite nearest_id.
  - rewrite over_samples_nth by lia. destruct (Nat.ltb_spec k (nc - 1)); [|rewrite <- Od; f_equal; lia]. apply over_linear; [exact Hp|exact Sl|apply samples_nth; [easy|lia]..].
Qed.
Lemma mixed_opaque s d : opaque (over_opaque s d). Proof. unfold opaque, over_opaque, mixed. apply last_last. Qed.
Lemma mixed_samples s d : samples s -> samples d -> length s = length d -> (0 < length d)%nat -> samples (over_opaque s d).
Proof.
  intros Ss Sd L Ld. unfold over_opaque, mixed. assert (Sl : sample 255 (last s 0)) by (rewrite last_nth_; apply samples_nth; [exact Ss|lia]).
  apply Forall_app. split; [|constructor; [unfold sample; lia|constructor]]. apply Forall_forall. intros v Hv. apply in_map_iff in Hv as (k & <- & Hk). apply in_seq in Hk.
  pose proof (samples_nth s k Ss ltac:(lia)) as A. pose proof (samples_nth d k Sd ltac:(lia)) as B. unfold sample in *. unfold nearest255.
  set (al := last s 0) in *. set (a := nth k s 0) in *. set (b := nth k d 0) in *. clearbody al a b.
  assert (0 <= a * al + b * (255 - al) <= 65025) by nia. set (n := a * al + b * (255 - al)) in *. clearbody n.
  split; [apply Z.div_pos; lia|]. assert ((2 * n + 255) / 510 < 256) by (apply Z.div_lt_upper_bound; lia). lia.
Qed.
(** The opacity of the canvas never changes when a frame is laid over it; a transparent pixel changes nothing, an opaque one gives its colours. *)
Lemma over_pixel_alpha nc g s d : (0 < nc)%nat -> length s = nc -> length d = nc -> last (over_pixel powf nc g s d) 0 = last d 0.
Proof.
  intros Hn Ls Ld. unfold over_pixel. destruct (_ =? 0); [reflexivity|]. rewrite !last_nth_, over_samples_length. rewrite over_samples_nth by lia.
  now replace (length d - 1 <? nc - 1)%nat with false by lia.
Qed.
Lemma over_pixel_opaque nc g s d : inverts g -> (0 < nc)%nat -> length s = nc -> length d = nc -> samples s -> samples d -> opaque s ->
  forall k, (k < nc - 1)%nat -> nth k (over_pixel powf nc g s d) 0 = nth k s 0.
Proof.
  intros Hi Hn Ls Ld Ss Sd Os k Hk. unfold over_pixel. unfold opaque in Os. rewrite Os. change (255 =? 0) with false. cbn [negb]. rewrite over_samples_nth by lia.
  replace (k <? nc - 1)%nat with true by lia. apply over_opaque_sample; [exact Hi|apply samples_nth; [easy|lia]..].
Qed.

(** ** Animations *)
Section Play.
Variables (iw ih : nat) (cs : colorspace) (gm : option f32) (over : list Z -> list Z -> list Z) (P : list Z -> Prop).
Notation nc := (num_components cs).
(** A frame that can be drawn, whose pixels keep the invariant [P] of the canvas, and for which [over] describes OVER *)
Definition regular (fp : frame * list Z) : Prop :=
  let '(f, px) := fp in
  drawable cs f /\ within iw ih f /\ f_dispose f = DNone /\ (f_h f * f_w f * nc <= length px)%nat /\
  forall x y, (x < f_w f)%nat -> (y < f_h f)%nat ->
    let s := pixel (f_w f) nc px x y in
    match f_blend f with
    | BSource => P s
    | BOver => forall d, length d = nc -> P d -> over_pixel powf nc (gam gm) s d = over s d /\ P (over s d)
    end.
Lemma holds_ext l c c' : (forall x y, (x < iw)%nat -> (y < ih)%nat -> c x y = c' x y) -> holds_canvas iw ih nc l c -> holds_canvas iw ih nc l c'.
Proof. intros E [L H]. split; [exact L|]. intros x y Hx Hy. rewrite H, E by easy. reflexivity. Qed.
Lemma pixel_length l x y : length l = (iw * ih * nc)%nat -> (x < iw)%nat -> (y < ih)%nat -> length (pixel iw nc l x y) = nc.
Proof. intros L Hx Hy. unfold pixel. apply slice_length. rewrite L. clear - Hx Hy. assert (A : (y * iw + x + 1 <= iw * ih)%nat) by nia. generalize dependent (y * iw + x)%nat. intros. nia. Qed.
Lemma post_drawn f px prev out c : regular (f, px) -> holds_canvas iw ih nc out c -> (forall x y, (x < iw)%nat -> (y < ih)%nat -> P (c x y)) ->
  exists out', post_process powf iw ih cs f px prev out gm = Ok out' /\ holds_canvas iw ih nc out' (drawn over nc f px c) /\
    forall x y, (x < iw)%nat -> (y < ih)%nat -> P (drawn over nc f px c x y).
Proof.
  intros (D & W & Hd & Hl & Hr) [Lo Hc] HP. destruct (post_ok powf iw ih cs f px prev out gm D W Hl) as (out' & -> & H'); [unfold has_previous; now rewrite Hd|exact Lo|].
  exists out'. split; [reflexivity|]. unfold backdrop in H'. rewrite Hd in H'.
  assert (I : forall x y, inside f x y = true -> (x - f_x f < f_w f)%nat /\ (y - f_y f < f_h f)%nat) by (intros x y E; clear - E; unfold inside in E; rewrite !andb_true_iff, !Nat.leb_le, !Nat.ltb_lt in E; lia). split.
  - eapply holds_ext; [|exact H']. intros x y Hx Hy. unfold drawn. rewrite Hc by easy. destruct (inside f x y) eqn:E; [|reflexivity]. destruct (I x y E) as [Ix Iy].
    specialize (Hr _ _ Ix Iy). cbv zeta in Hr |- *. destruct (f_blend f); [reflexivity|]. apply Hr; [rewrite <- Hc by easy; now apply pixel_length|now apply HP].
  - intros x y Hx Hy. unfold drawn. destruct (inside f x y) eqn:E; [|now apply HP]. destruct (I x y E) as [Ix Iy]. specialize (Hr _ _ Ix Iy). cbv zeta in Hr |- *.
    destruct (f_blend f); [exact Hr|]. apply Hr; [rewrite <- Hc by easy; now apply pixel_length|now apply HP].
Qed.
Lemma shown_ext fs : forall first c c', (forall x y, (x < iw)%nat -> (y < ih)%nat -> c x y = c' x y) -> Forall regular fs ->
  forall outs, Forall2 (holds_canvas iw ih nc) outs (shown over nc first fs c) -> Forall2 (holds_canvas iw ih nc) outs (shown over nc first fs c').
Proof.
  induction fs as [|[f px] fs IH]; intros first c c' E R outs H; [exact H|]. apply Forall_cons_iff in R as [R Rs]. cbn [shown] in *.
  assert (ED : forall x y, (x < iw)%nat -> (y < ih)%nat -> drawn over nc f px c x y = drawn over nc f px c' x y).
  { intros x y Hx Hy. unfold drawn. rewrite E by easy. reflexivity. }
  inversion H as [|o oc outs' cs' H1 H2]; subst. constructor; [eapply holds_ext; [exact ED|exact H1]|]. eapply IH; [|exact Rs|exact H2].
  intros x y Hx Hy. unfold disposed. destruct R as (_ & _ & -> & _). rewrite ED by easy. reflexivity.
Qed.
Lemma play_shown fs : forall first prev out c, Forall regular fs -> holds_canvas iw ih nc out c -> (forall x y, (x < iw)%nat -> (y < ih)%nat -> P (c x y)) ->
  exists outs, play powf iw ih cs gm fs prev out = Ok outs /\ Forall2 (holds_canvas iw ih nc) outs (shown over nc first fs c).
Proof.
  induction fs as [|[f px] fs IH]; intros first prev out c R Hc HP; [exists []; split; [reflexivity|constructor]|]. apply Forall_cons_iff in R as [R Rs].
  cbn [play shown]. destruct (post_drawn f px prev out c R Hc HP) as (out' & -> & H' & P'). cbn [bind].
  destruct (IH false (Some out') out' _ Rs H' P') as (outs & -> & HO). cbn [bind]. exists (out' :: outs). split; [reflexivity|]. constructor; [exact H'|].
  eapply shown_ext; [|exact Rs|exact HO]. intros x y Hx Hy. unfold disposed. destruct R as (_ & _ & -> & _). now destruct (inside f x y).
Qed.
End Play.
End Powf.
