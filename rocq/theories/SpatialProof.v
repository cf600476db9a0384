From Verif Require Import Base BaseProof Loops Slices HdrProof GeomModel GeomSpec GeomProof MedianModel MedianSpec MedianProof F32 F32Round SpatialModel SpatialSpec.

(** A filter computes its function of every window. *)
Lemma filter_image_ok f g l r w h : (0 < w)%nat -> (0 < h)%nat -> length l = (w * h)%nat ->
  (forall x y, (x < w)%nat -> (y < h)%nat -> f (window w h l r x y) = Ok (g (window w h l r x y))) ->
  exists out, filter_image f l r w h = Ok out /\ is_image w h out (fun x y => g (window w h l r x y)).
Proof.
  intros Hw Hh Hl Hf. unfold filter_image.
  destruct (pad_replicate_spec l w h r r Hw Hh Hl) as (pd & -> & Lp & Np). cbn [bind].
  unfold spatial. replace (r * 2 + w)%nat with (w + r * 2)%nat by lia. replace (r * 2 + h)%nat with (h + r * 2)%nat by lia.
  replace ((h + r * 2) * (w + r * 2) =? length pd)%nat with true by (symmetry; apply Nat.eqb_eq; rewrite Lp; apply Nat.mul_comm). cbn [negb].
  assert (HW : forall x y, (x < w)%nat -> (y < h)%nat -> gather pd (w + r * 2) (2 * r + 1) x y = Ok (window w h l r x y)).
  { intros x y Hx Hy. rewrite (gather_ok pd (w + r * 2) (h + r * 2)) by (try easy; lia). f_equal.
    change (window w h l r x y) with (win (fun a b => px w l (clamp w r a) (clamp h r b)) (2 * r + 1) x y). apply win_ext.
    intros a b Ha Hb. apply Np; lia. }
  set (G := fun x y => g (window w h l r x y)).
  destruct (for_range_inv (fun y (out : list Z) => length out = (w * h)%nat /\
      forall x' y', (x' < w)%nat -> (y' < y)%nat -> (y' < h)%nat -> px w out x' y' = G x' y') 0 h
      (fun iy out => for_range 0 w (fun ix out =>
        do win <- gather pd (w + r * 2) (2 * r + 1) ix iy ;
        do v <- f win ; set_at out (iy * w + ix) v) out) (repeat 0 (length l))) as (out & -> & L & N).
  - lia.
  - split; [now rewrite repeat_length|]. intros. lia.
  - intros y out Hy (L & N).
    destruct (for_range_inv (fun x (out : list Z) => length out = (w * h)%nat /\
      forall x' y', (x' < w)%nat -> (y' < h)%nat -> (y' < y)%nat \/ (y' = y /\ (x' < x)%nat) -> px w out x' y' = G x' y') 0 w
      (fun ix out => do win <- gather pd (w + r * 2) (2 * r + 1) ix y ; do v <- f win ; set_at out (y * w + ix) v) out) as (out' & E' & L' & N').
    + lia.
    + split; [easy|]. intros x' y' Hx' Hy' [H|H]; [now apply N|lia].
    + intros x s Hx (Ls & Ns). rewrite HW by lia. cbn [bind]. rewrite Hf by lia. cbn [bind].
      assert (Hi : (y * w + x < w * h)%nat) by (apply idx_bound'; lia). rewrite set_at_ok by lia. eexists. split; [reflexivity|].
      split; [now rewrite upd_length|]. intros x' y' Hx' Hy' H. unfold px.
      destruct (Nat.eq_dec (y' * w + x') (y * w + x)) as [E|Ne].
      * apply idx_inj in E as [-> ->]; [|lia|lia]. now rewrite upd_nth_same by lia.
      * rewrite upd_nth_other by lia. apply Ns; [easy|easy|]. destruct H as [H|[-> H]]; [now left|].
        right. split; [easy|]. assert (x' <> x) by (intros ->; lia). lia.
    + exists out'. split; [exact E'|]. split; [easy|]. intros x' y' Hx' Hy' Hyh. apply N'; [easy|easy|]. destruct (Nat.eq_dec y' y); [right; lia|left; lia].
  - exists out. split; [reflexivity|]. split; [exact L|]. intros x y Hx Hy. now apply N.
Qed.

Lemma window_length w h l r x y : length (window w h l r x y) = ((2 * r + 1) * (2 * r + 1))%nat.
Proof. change (window w h l r x y) with (win (fun a b => px w l (clamp w r a) (clamp h r b)) (2 * r + 1) x y). apply win_length. Qed.
Lemma window_forall (P : Z -> Prop) w h l r x y : (0 < w)%nat -> (0 < h)%nat -> length l = (w * h)%nat -> Forall P l -> Forall P (window w h l r x y).
Proof.
  intros Hw Hh Hl HP. change (window w h l r x y) with (win (fun a b => px w l (clamp w r a) (clamp h r b)) (2 * r + 1) x y).
  apply win_forall. intros a b. unfold px. rewrite Forall_forall in HP. apply HP, nth_In. rewrite Hl. apply idx_bound'; unfold clamp; lia.
Qed.

(** ** Statistics *)
Lemma find_min_ok hi l : l <> [] -> Forall (fun v => 0 <= v <= hi) l -> smallest l (find_min hi l).
Proof.
  intros Hl HF. unfold find_min.
  assert (G : forall l m, let v := fold_left (fun m x => if x <? m then x else m) l m in (v = m \/ In v l) /\ v <= m /\ forall x, In x l -> v <= x).
  { clear. induction l as [|x l IH]; intros m; cbn [fold_left]; [split; [now left|split; [lia|easy]]|].
    specialize (IH (if x <? m then x else m)). cbv zeta in *. destruct IH as (A & B & C). destruct (Z.ltb_spec x m).
    - split; [destruct A as [->|A]; [right; now left|right; now right]|]. split; [lia|]. intros z [->|Hz]; [easy|now apply C].
    - split; [destruct A as [->|A]; [now left|right; now right]|]. split; [easy|]. intros z [->|Hz]; [lia|now apply C]. }
  destruct (G l hi) as (A & B & C). cbv zeta in *. split; [|exact C]. destruct A as [A|A]; [|exact A].
  destruct l as [|x l]; [easy|]. inversion HF as [|? ? Hx HF']; subst. specialize (C x (or_introl eq_refl)). rewrite A in *.
  left. lia.
Qed.
Lemma find_max_ok l : l <> [] -> Forall (fun v => 0 <= v) l -> largest l (find_max l).
Proof.
  intros Hl HF. unfold find_max.
  assert (G : forall l m, let v := fold_left (fun m x => if m <? x then x else m) l m in (v = m \/ In v l) /\ m <= v /\ forall x, In x l -> x <= v).
  { clear. induction l as [|x l IH]; intros m; cbn [fold_left]; [split; [now left|split; [lia|easy]]|].
    specialize (IH (if m <? x then x else m)). cbv zeta in *. destruct IH as (A & B & C). destruct (Z.ltb_spec m x).
    - split; [destruct A as [->|A]; [right; now left|right; now right]|]. split; [lia|]. intros z [->|Hz]; [easy|now apply C].
    - split; [destruct A as [->|A]; [now left|right; now right]|]. split; [easy|]. intros z [->|Hz]; [lia|now apply C]. }
  destruct (G l 0) as (A & B & C). cbv zeta in *. split; [|exact C]. destruct A as [A|A]; [|exact A].
  destruct l as [|x l]; [easy|]. inversion HF as [|? ? Hx HF']; subst. specialize (C x (or_introl eq_refl)). rewrite A in *.
  left. lia.
Qed.
Lemma sum32_ok dbg l : forall acc, 0 <= acc -> Forall (fun v => 0 <= v) l -> acc + total l < 2 ^ 32 -> sum32 dbg l acc = Ok (acc + total l).
Proof.
  induction l as [|x l IH]; intros acc Ha HF H; cbn [sum32 total fold_right] in *; [now rewrite Z.add_0_r|].
  fold (total l) in *. inversion HF as [|? ? Hx HF']; subst.
  assert (0 <= total l) by (clear - HF'; induction HF'; cbn [total fold_right] in *; [lia|fold (total l) in *; lia]).
  replace (acc + x <? 2 ^ 32) with true by lia. rewrite IH by (try easy; lia). f_equal. lia.
Qed.
Lemma total_bound hi l : Forall (fun v => 0 <= v <= hi) l -> 0 <= total l <= hi * Z.of_nat (length l).
Proof. induction 1; cbn [total fold_right length] in *; [lia|]. fold (total l) in *. nia. Qed.

(** ** Edges *)
Lemma magnitude_ok dbg hi a b : 0 <= hi -> a * a + b * b < 2 ^ 31 -> exists v, magnitude dbg hi a b = Ok v /\ root_upto hi (a * a + b * b) v.
Proof.
  intros Hh H. assert (0 <= a * a) by nia. assert (0 <= b * b) by nia. unfold magnitude, i32_op.
  replace ((- 2 ^ 31 <=? a * a) && (a * a <? 2 ^ 31)) with true by lia. cbn [bind].
  replace ((- 2 ^ 31 <=? b * b) && (b * b <? 2 ^ 31)) with true by lia. cbn [bind].
  replace ((- 2 ^ 31 <=? a * a + b * b) && (a * a + b * b <? 2 ^ 31)) with true by lia. cbn [bind].
  rewrite sqrt_cast by lia. eexists. split; [reflexivity|]. set (n := a * a + b * b) in *. unfold root_upto.
  destruct (Z.eqb_spec n 0) as [->|]; [lia|]. destruct (Z.sqrt_spec n ltac:(lia)) as [S1 S2]. pose proof (Z.sqrt_nonneg n).
  unfold Z.succ in S2. set (t := Z.sqrt n) in *. clearbody t. destruct (Z.le_gt_cases t hi).
  - rewrite Z.min_r by lia. lia.
  - rewrite Z.min_l by lia. split; [lia|]. split; [nia|lia].
Qed.
Lemma sobel_fn_ok dbg hi c : length c = 9%nat -> 0 <= hi -> edge sobel_x_code sobel_y c < 2 ^ 31 ->
  exists v, sobel_fn dbg hi c = Ok v /\ root_upto hi (edge sobel_x_code sobel_y c) v.
Proof.
  intros L Hh H. do 9 (destruct c as [|? c]; [discriminate|]). destruct c; [|discriminate].
  cbn [sobel_fn]. unfold edge, sobel_x_code, sobel_y in *. cbn [weighted] in *.
  match goal with |- exists v, magnitude _ _ ?a ?b = _ /\ root_upto _ (?a' * _ + ?b' * _) _ => replace a with a' by lia; replace b with b' by lia end.
  now apply magnitude_ok.
Qed.
Lemma scharr_fn_ok dbg hi c : length c = 9%nat -> 0 <= hi -> edge scharr_x_code scharr_y c < 2 ^ 31 ->
  exists v, scharr_fn dbg hi c = Ok v /\ root_upto hi (edge scharr_x_code scharr_y c) v.
Proof.
  intros L Hh H. do 9 (destruct c as [|? c]; [discriminate|]). destruct c; [|discriminate].
  cbn [scharr_fn]. unfold edge, scharr_x_code, scharr_y in *. cbn [weighted] in *.
  match goal with |- exists v, magnitude _ _ ?a ?b = _ /\ root_upto _ (?a' * _ + ?b' * _) _ => replace a with a' by lia; replace b with b' by lia end.
  now apply magnitude_ok.
Qed.
Lemma root_unique hi n v v' : root_upto hi n v -> root_upto hi n v' -> v = v'.
Proof. unfold root_upto. intros (A & B & C) (A' & B' & C'). destruct (Z.lt_trichotomy v v') as [H|[H|H]]; [|easy|]; nia. Qed.

(** The weights cannot produce more than the sum of their sizes times the largest sample *)
Lemma total_abs ks : 0 <= total (map Z.abs ks).
Proof. induction ks as [|k ks IH]; cbn [total map fold_right] in *; [lia|fold (total (map Z.abs ks)) in *; lia]. Qed.
Lemma weighted_bound hi ks : 0 <= hi -> forall l, Forall (fun v => 0 <= v <= hi) l -> Z.abs (weighted ks l) <= hi * total (map Z.abs ks).
Proof.
  intros Hh. induction ks as [|k ks IH]; intros l HF; cbn [weighted map total fold_right]; [lia|]. fold (total (map Z.abs ks)). pose proof (total_abs ks).
  destruct l as [|x l]; [nia|]. inversion HF as [|? ? Hx HF']; subst. specialize (IH l HF').
  assert (Z.abs (k * x) <= hi * Z.abs k) by (rewrite Z.abs_mul, (Z.abs_eq x) by lia; nia). lia.
Qed.
Lemma edge8 kx ky win c : total (map Z.abs kx) <= c -> total (map Z.abs ky) <= c -> Forall is_byte win -> 2 * (255 * c) * (255 * c) < 2 ^ 31 -> edge kx ky win < 2 ^ 31.
Proof.
  intros Hx Hy HF Hc. unfold edge.
  assert (F : Forall (fun v => 0 <= v <= 255) win) by (eapply Forall_impl; [|exact HF]; unfold is_byte; intros; lia).
  pose proof (weighted_bound 255 kx ltac:(lia) win F). pose proof (weighted_bound 255 ky ltac:(lia) win F).
  set (a := weighted kx win) in *. set (b := weighted ky win) in *. clearbody a b. pose proof (total_abs kx). pose proof (total_abs ky).
  assert (Z.abs a <= 255 * c) by lia. assert (Z.abs b <= 255 * c) by lia.
  assert (a * a <= (255 * c) * (255 * c)) by (rewrite <- (Z.abs_square a); apply Z.mul_le_mono_nonneg; lia).
  assert (b * b <= (255 * c) * (255 * c)) by (rewrite <- (Z.abs_square b); apply Z.mul_le_mono_nonneg; lia). lia.
Qed.

(** ** Convolution *)
Lemma conv_sum ks : forall c acc a, rep acc a -> length c = length ks -> Forall (fun v => 0 <= v < 2 ^ 24) c -> Forall (fun k => Z.abs k < 2 ^ 24) ks ->
  Z.abs a + total (map (fun p => Z.abs (fst p) * snd p) (combine ks c)) < 2 ^ 24 ->
  rep (fold_left fadd (map (fun xw => fmul (of_int (fst xw)) (snd xw)) (combine c (map of_int ks))) acc) (a + weighted ks c).
Proof.
  induction ks as [|k ks IH]; intros [|x c] acc a Ha L HF HK H; try discriminate; cbn [map combine fold_left weighted].
  - now rewrite Z.add_0_r.
  - cbn [combine map total fold_right fst snd] in H. fold (total (map (fun p => Z.abs (fst p) * snd p) (combine ks c))) in H.
    inversion HF as [|? ? Hx HF']; subst. inversion HK as [|? ? Hk HK']; subst. injection L as L.
    assert (T : 0 <= total (map (fun p => Z.abs (fst p) * snd p) (combine ks c))).
    { clear - HF'. revert ks. induction HF' as [|x c Hx _ IHc]; intros [|k ks]; cbn [combine map total fold_right fst snd] in *; try lia.
      fold (total (map (fun p => Z.abs (fst p) * snd p) (combine ks c))). specialize (IHc ks). nia. }
    assert (P : Z.abs (x * k) = Z.abs k * x) by (rewrite Z.abs_mul, (Z.abs_eq x) by lia; lia).
    assert (M : rep (fmul (of_int x) (of_int k)) (x * k)) by (apply fmul_rep; [apply of_int_rep; lia|apply of_int_rep; lia|lia]).
    assert (A : rep (fadd acc (fmul (of_int x) (of_int k))) (a + x * k)) by (apply fadd_rep; [easy|easy|lia]).
    cbn [fst snd]. replace (a + (k * x + weighted ks c)) with ((a + x * k) + weighted ks c) by lia. apply IH; try easy. lia.
Qed.
Lemma products_bound hi ks : 0 <= hi -> forall c, Forall (fun v => 0 <= v <= hi) c ->
  total (map (fun p => Z.abs (fst p) * snd p) (combine ks c)) <= hi * total (map Z.abs ks).
Proof.
  intros Hh. induction ks as [|k ks IH]; intros [|x c] HF; cbn [combine map total fold_right fst snd]; try lia.
  - pose proof (total_abs ks). unfold total in *. nia.
  - inversion HF as [|? ? Hx HF']; subst. specialize (IH c HF'). pose proof (total_abs ks). unfold total in *. nia.
Qed.
Lemma convolve_fn_ok hi ks c : 0 <= hi < 2 ^ 24 -> length c = length ks -> Forall (fun v => 0 <= v <= hi) c -> Forall (fun k => Z.abs k < 2 ^ 24) ks ->
  hi * total (map Z.abs ks) < 2 ^ 24 ->
  convolve_fn hi (map of_int ks) (of_int 1) c = Ok (Z.max 0 (Z.min hi (weighted ks c))).
Proof.
  intros Hh L HF HK H. unfold convolve_fn.
  assert (W : Z.abs (weighted ks c) < 2 ^ 24) by (pose proof (weighted_bound hi ks ltac:(lia) c HF); lia).
  assert (R : rep (fold_left fadd (map (fun xw => fmul (of_int (fst xw)) (snd xw)) (combine c (map of_int ks))) (of_int 0)) (0 + weighted ks c)).
  { apply conv_sum; [apply of_int_rep; lia|easy| |easy|].
    - eapply Forall_impl; [|exact HF]. intros v Hv; cbv beta in *; lia.
    - pose proof (products_bound hi ks ltac:(lia) c HF). lia. }
  rewrite Z.add_0_l in R. set (S := fold_left _ _ _) in *. clearbody S.
  assert (R1 : rep (fmul S (of_int 1)) (weighted ks c * 1)) by (apply fmul_rep; [easy|apply of_int_rep; lia|lia]).
  rewrite (to_uint_rep hi _ _ ltac:(lia) R1). f_equal. lia.
Qed.
