(** Proofs about the composition of animation frames. *)
From Verif Require Import Base BaseProof Loops Slices F32 F32Round ToneModel ToneSpec ToneProof ToneProof2 DeintModel DeintProof BmpProof ApngModel ApngSpec.

Lemma in_firstn_ {A} n (l : list A) x : In x (firstn n l) -> In x l.
Proof. intros H. rewrite <- (firstn_skipn n l). apply in_or_app. now left. Qed.
Lemma in_skipn_ {A} n (l : list A) x : In x (skipn n l) -> In x l.
Proof. intros H. rewrite <- (firstn_skipn n l). apply in_or_app. now right. Qed.
Section Powf.
Variable powf : f32 -> f32 -> f32.

Lemma over_samples_length n g al : forall src dst, length (over_samples powf n g al src dst) = length dst.
Proof. induction n as [|n IH]; intros [|a src] [|b dst]; cbn [over_samples length]; try reflexivity. now rewrite IH. Qed.
Lemma over_pixel_length nc g s d : length (over_pixel powf nc g s d) = length d.
Proof. unfold over_pixel. destruct (_ =? 0); [reflexivity|apply over_samples_length]. Qed.
Lemma over_pixels_length nc g : forall s d, length (over_pixels powf nc g s d) = length d.
Proof. induction s as [|a s IH]; intros [|b d]; cbn [over_pixels length]; try reflexivity. now rewrite IH. Qed.
Lemma over_pixels_forall nc g : forall s d, Forall (fun p => length p = nc) d -> Forall (fun p => length p = nc) (over_pixels powf nc g s d).
Proof.
  induction s as [|a s IH]; intros d H; [exact H|]. destruct H as [|b d Hb H]; cbn [over_pixels]; constructor; [now rewrite over_pixel_length|apply IH, H].
Qed.
Lemma over_pixels_nth nc g : forall s d i, (i < length s)%nat -> (i < length d)%nat ->
  nth i (over_pixels powf nc g s d) [] = over_pixel powf nc g (nth i s []) (nth i d []).
Proof. induction s as [|a s IH]; intros [|b d] [|i] H1 H2; cbn [over_pixels nth length] in *; try lia; [reflexivity|apply IH; lia]. Qed.
Lemma over_row_length nc g s d w : (0 < nc)%nat -> length d = (w * nc)%nat -> length (over_row powf nc g s d) = (w * nc)%nat.
Proof.
  intros Hn Hd. unfold over_row. rewrite (concat_length_const nc) by apply over_pixels_forall, chunks_exact_lengths.
  rewrite over_pixels_length, chunks_exact_length by easy. rewrite Hd, Nat.div_mul by lia. reflexivity.
Qed.
(** Whole pixels of a buffer *)
Lemma chunk_pixel nc (l : list Z) i : (0 < nc)%nat -> ((i + 1) * nc <= length l)%nat -> nth i (chunks_exact nc l) [] = slice l (i * nc) nc.
Proof.
  intros Hn Hl. assert (Hi : (i < length l / nc)%nat) by (apply Nat.div_le_lower_bound; lia).
  assert (L : length (nth i (chunks_exact nc l) []) = nc).
  { pose proof (chunks_exact_lengths nc l) as F. rewrite Forall_forall in F. apply F, nth_In. now rewrite chunks_exact_length. }
  apply (list_eq_nth 0); [rewrite slice_length by lia; exact L|]. intros k Hk. rewrite L in Hk. rewrite slice_nth by lia. rewrite chunks_nth by easy. reflexivity.
Qed.
Lemma concat_slice_at nc : forall (ls : list (list Z)) i, Forall (fun l => length l = nc) ls -> (i < length ls)%nat -> slice (concat ls) (i * nc) nc = nth i ls [].
Proof.
  intros ls i F Hi. assert (L : length (nth i ls []) = nc) by (rewrite Forall_forall in F; apply F, nth_In, Hi).
  apply (list_eq_nth 0); [rewrite slice_length; [easy|rewrite (concat_length_const nc) by easy; nia]|].
  intros k Hk. rewrite slice_length in Hk by (rewrite (concat_length_const nc) by easy; nia). rewrite slice_nth by easy. now apply concat_rows_nth.
Qed.
Lemma over_row_at nc g s d w i : (0 < nc)%nat -> length s = (w * nc)%nat -> length d = (w * nc)%nat -> (i < w)%nat ->
  slice (over_row powf nc g s d) (i * nc) nc = over_pixel powf nc g (slice s (i * nc) nc) (slice d (i * nc) nc).
Proof.
  intros Hn Hs Hd Hi. assert (Q : forall l : list Z, length l = (w * nc)%nat -> length (chunks_exact nc l) = w).
  { intros l E. rewrite chunks_exact_length, E, Nat.div_mul by lia. reflexivity. }
  unfold over_row. rewrite concat_slice_at; [|apply over_pixels_forall, chunks_exact_lengths|rewrite over_pixels_length, Q; easy].
  rewrite over_pixels_nth by (rewrite Q; easy). rewrite !chunk_pixel by nia. reflexivity.
Qed.

(** One row *)
Definition new_row (cs : colorspace) (f : frame) (g : f32) (src row : list Z) : list Z :=
  let nc := num_components cs in
  put row (f_x f * nc) (match f_blend f with BSource => src | BOver => over_row powf nc g src (slice row (f_x f * nc) (f_w f * nc)) end).
Definition drawable (cs : colorspace) (f : frame) : Prop := (0 < num_components cs)%nat /\ (f_blend f = BOver -> has_alpha cs = true).
Lemma draw_row_ok cs f g src row w : drawable cs f -> (f_x f + f_w f <= w)%nat -> length src = (f_w f * num_components cs)%nat -> length row = (w * num_components cs)%nat ->
  draw_row powf cs f g src row = Ok (new_row cs f g src row) /\ length (new_row cs f g src row) = length row.
Proof.
  intros [Hn Ha] Hw Hs Hr. set (nc := num_components cs) in *. unfold draw_row, new_row. fold nc.
  replace ((f_x f + f_w f) * nc - f_x f * nc)%nat with (f_w f * nc)%nat by nia. rewrite get_slice_ok by nia. cbn [bind].
  assert (Ld : length (slice row (f_x f * nc) (f_w f * nc)) = (f_w f * nc)%nat) by (apply slice_length; nia). destruct (f_blend f).
  - rewrite Ld, Hs, Nat.eqb_refl. cbn [bind]. split; [reflexivity|]. apply put_length. nia.
  - rewrite Ha by reflexivity. cbn [bind]. split; [reflexivity|]. apply put_length. rewrite (over_row_length nc g _ _ (f_w f)) by easy. nia.
Qed.
Lemma new_row_at cs f g src row w x : drawable cs f -> (f_x f + f_w f <= w)%nat -> length src = (f_w f * num_components cs)%nat -> length row = (w * num_components cs)%nat -> (x < w)%nat ->
  let nc := num_components cs in
  slice (new_row cs f g src row) (x * nc) nc =
  if ((f_x f <=? x) && (x <? f_x f + f_w f))%nat then
    match f_blend f with
    | BSource => slice src ((x - f_x f) * nc) nc
    | BOver => over_pixel powf nc g (slice src ((x - f_x f) * nc) nc) (slice row (x * nc) nc)
    end
  else slice row (x * nc) nc.
Proof.
  intros D Hw Hs Hr Hx nc. destruct (draw_row_ok cs f g src row w D Hw Hs Hr) as [_ L]. destruct D as [Hn Ha]. fold nc in Hn, Hs, Hr, L.
  unfold new_row in *. fold nc in L |- *. set (new := match f_blend f with BSource => _ | BOver => _ end) in *.
  assert (Ld : length (slice row (f_x f * nc) (f_w f * nc)) = (f_w f * nc)%nat) by (apply slice_length; nia).
  assert (Ln : length new = (f_w f * nc)%nat).
  { unfold new. destruct (f_blend f); [exact Hs|]. apply over_row_length; easy. }
  assert (E : slice (put row (f_x f * nc) new) (x * nc) nc = if ((f_x f <=? x) && (x <? f_x f + f_w f))%nat then slice new ((x - f_x f) * nc) nc else slice row (x * nc) nc).
  { destruct ((f_x f <=? x) && (x <? f_x f + f_w f))%nat eqn:I.
    - apply (list_eq_nth 0); [rewrite !slice_length by nia; reflexivity|]. intros k Hk. rewrite slice_length in Hk by nia. rewrite !slice_nth by easy.
      rewrite put_nth by nia. replace ((f_x f * nc <=? x * nc + k) && (x * nc + k <? f_x f * nc + length new))%nat with true by nia. f_equal. nia.
    - apply (list_eq_nth 0); [rewrite !slice_length by nia; reflexivity|]. intros k Hk. rewrite slice_length in Hk by nia. rewrite !slice_nth by easy.
      rewrite put_nth by nia. replace ((f_x f * nc <=? x * nc + k) && (x * nc + k <? f_x f * nc + length new))%nat with false by nia. reflexivity. }
  rewrite E. destruct ((f_x f <=? x) && (x <? f_x f + f_w f))%nat eqn:I; [|reflexivity]. unfold new. destruct (f_blend f); [reflexivity|].
  rewrite (over_row_at nc g src _ (f_w f)) by (easy || lia). f_equal.
  apply (list_eq_nth 0); [rewrite !slice_length by nia; reflexivity|]. intros k Hk. rewrite slice_length in Hk by nia. rewrite !slice_nth by nia. f_equal. nia.
Qed.
(** All rows *)
Fixpoint new_rows cs f g (src rows : list (list Z)) : list (list Z) :=
  match src, rows with s :: src, r :: rows => new_row cs f g s r :: new_rows cs f g src rows | _, _ => rows end.
Lemma new_rows_length cs f g : forall src rows, length (new_rows cs f g src rows) = length rows.
Proof. induction src as [|s src IH]; intros [|r rows]; cbn [new_rows length]; try reflexivity. now rewrite IH. Qed.
Lemma new_rows_nth cs f g : forall src rows i, (i < length src)%nat -> (i < length rows)%nat -> nth i (new_rows cs f g src rows) [] = new_row cs f g (nth i src []) (nth i rows []).
Proof. induction src as [|s src IH]; intros [|r rows] [|i] H1 H2; cbn [new_rows nth length] in *; try lia; [reflexivity|apply IH; lia]. Qed.
Lemma draw_rows_ok cs f g w : drawable cs f -> (f_x f + f_w f <= w)%nat -> forall src rows, Forall (fun s => length s = (f_w f * num_components cs)%nat) src ->
  Forall (fun r => length r = (w * num_components cs)%nat) rows ->
  draw_rows powf cs f g src rows = Ok (new_rows cs f g src rows) /\ Forall (fun r => length r = (w * num_components cs)%nat) (new_rows cs f g src rows).
Proof.
  intros D Hw. induction src as [|s src IH]; intros rows Fs Fr; [split; [now destruct rows|exact Fr]|]. destruct Fr as [|r rows Hr Fr]; [split; [reflexivity|constructor]|].
  apply Forall_cons_iff in Fs as [Hs Fs]. cbn [draw_rows new_rows]. destruct (draw_row_ok cs f g s r w D Hw Hs Hr) as [-> L]. cbn [bind].
  destruct (IH rows Fs Fr) as [-> F']. cbn [bind]. split; [reflexivity|]. constructor; [now rewrite L|exact F'].
Qed.

(** The whole function *)
Definition backdrop (f : frame) (prev : option (list Z)) (output : list Z) : list Z :=
  match f_dispose f with DNone => output | DBackground => repeat 0 (length output) | DPrevious => match prev with Some p => p | None => output end end.
Definition has_previous (f : frame) (prev : option (list Z)) (output : list Z) : Prop :=
  f_dispose f = DPrevious -> match prev with Some p => length p = length output | None => f_seq f <= 1 end.
Lemma prepare_ok f prev output : has_previous f prev output -> prepare f prev output = Ok (backdrop f prev output) /\ length (backdrop f prev output) = length output.
Proof.
  unfold has_previous, prepare, backdrop. destruct (f_dispose f); intros H; [now split|now rewrite repeat_length|]. specialize (H eq_refl). destruct prev as [p|].
  - now rewrite H, Nat.eqb_refl.
  - now replace (1 <? f_seq f) with false by lia.
Qed.
Definition gam (g : option f32) : f32 := match g with Some g => g | None => gamma22 end.
Lemma post_ok iw ih cs f px prev output g : drawable cs f -> within iw ih f -> (f_h f * f_w f * num_components cs <= length px)%nat -> has_previous f prev output ->
  length output = (iw * ih * num_components cs)%nat ->
  exists out, post_process powf iw ih cs f px prev output g = Ok out /\
  holds_canvas iw ih (num_components cs) out (drawn (over_pixel powf (num_components cs) (gam g)) (num_components cs) f px (pixel iw (num_components cs) (backdrop f prev output))).
Proof.
  intros D (Hw & Hh & Hx & Hy) Hp HP Ho. pose proof D as [Hn Ha]. set (nc := num_components cs) in *. unfold post_process. fold nc.
  replace (iw <? f_x f + f_w f)%nat with false by lia. replace (ih <? f_y f + f_h f)%nat with false by lia. replace (length px <? f_h f * f_w f * nc)%nat with false by lia.
  destruct (prepare_ok f prev output HP) as [-> Lb]. cbn [bind]. fold (gam g). set (b := backdrop f prev output) in *. clearbody b.
  replace (f_w f * nc =? 0)%nat with false by nia. replace (iw * nc =? 0)%nat with false by nia. cbn [orb].
  set (W := (iw * nc)%nat). assert (LW : length b = (ih * W)%nat) by (unfold W; lia). assert (W0 : (0 < W)%nat) by (unfold W; nia).
  assert (LR : length (chunks_exact W b) = ih) by (rewrite chunks_exact_length, LW, Nat.div_mul by lia; reflexivity).
  pose proof (chunks_exact_lengths W b) as FR. pose proof (chunks_exact_lengths (f_w f * nc) px) as FS.
  assert (LS : (f_h f <= length (chunks_exact (f_w f * nc) px))%nat) by (rewrite chunks_exact_length by nia; apply Nat.div_le_lower_bound; nia).
  destruct (draw_rows_ok cs f (gam g) iw D Hx (chunks_exact (f_w f * nc) px) (firstn (f_h f) (skipn (f_y f) (chunks_exact W b)))) as [-> FN]; [exact FS| |].
  { fold nc W. rewrite Forall_forall in FR |- *. intros r Hr. apply FR. apply in_firstn_, in_skipn_ in Hr. exact Hr. }
  cbn [bind]. eexists. split; [reflexivity|]. rewrite LR, (skipn_all2 b) by lia. rewrite app_nil_r.
  set (rows := chunks_exact W b) in *. set (new := new_rows cs f (gam g) (chunks_exact (f_w f * nc) px) (firstn (f_h f) (skipn (f_y f) rows))) in *.
  assert (Ln : length new = f_h f) by (unfold new; rewrite new_rows_length, firstn_length, skipn_length; lia).
  set (all := firstn (f_y f) rows ++ new ++ skipn (f_y f + f_h f) rows).
  assert (LA : length all = ih) by (unfold all; rewrite !app_length, firstn_length, skipn_length; lia).
  assert (FA : Forall (fun r => length r = W) all).
  { unfold all. apply Forall_app. split; [|apply Forall_app; split].
    - rewrite Forall_forall in FR |- *. intros r Hr. apply FR. apply in_firstn_ in Hr. exact Hr.
    - exact FN.
    - rewrite Forall_forall in FR |- *. intros r Hr. apply FR. apply in_skipn_ in Hr. exact Hr. }
  split; [rewrite (concat_length_const W) by exact FA; unfold W; nia|]. intros x y HxI HyI.
  assert (EQ : pixel iw nc (concat all) x y = slice (nth y all []) (x * nc) nc).
  { unfold pixel. assert (Lr : length (nth y all []) = W) by (rewrite Forall_forall in FA; apply FA, nth_In; lia).
    apply (list_eq_nth 0); [rewrite !slice_length; [reflexivity|unfold W in Lr; nia|rewrite (concat_length_const W) by exact FA; unfold W; nia]|].
    intros k Hk. rewrite slice_length in Hk by (rewrite (concat_length_const W) by exact FA; unfold W; nia). rewrite !slice_nth by easy.
    replace ((y * iw + x) * nc + k)%nat with (y * W + (x * nc + k))%nat by (unfold W; nia). apply concat_rows_nth; [exact FA|lia|unfold W; nia]. }
  assert (EB : forall y, (y < ih)%nat -> pixel iw nc b x y = slice (nth y rows []) (x * nc) nc).
  { intros y' Hy'. unfold pixel. assert (Lr : length (nth y' rows []) = W) by (rewrite Forall_forall in FR; apply FR, nth_In; lia).
    apply (list_eq_nth 0); [rewrite !slice_length; [reflexivity|unfold W in Lr; nia|nia]|].
    intros k Hk. rewrite slice_length in Hk by nia. rewrite !slice_nth by easy. unfold rows.
    rewrite chunks_nth; [f_equal; unfold W; nia|exact W0| |unfold W; nia]. rewrite LW, Nat.div_mul by lia. exact Hy'. }
  rewrite EQ. unfold drawn, inside. rewrite EB by easy. destruct (Nat.leb_spec (f_y f) y) as [I1|I1].
  2:{ rewrite andb_false_r. cbn [andb]. unfold all. rewrite app_nth1 by (rewrite firstn_length; lia). now rewrite nth_firstn by lia. }
  destruct (Nat.ltb_spec y (f_y f + f_h f)) as [I2|I2].
  2:{ rewrite andb_false_r. unfold all. rewrite app_nth2 by (rewrite firstn_length; lia). rewrite firstn_length, Nat.min_l by lia. rewrite app_nth2 by lia. rewrite nth_skipn. do 2 f_equal. lia. }
  rewrite !andb_true_r.
  assert (EN : nth y all [] = new_row cs f (gam g) (nth (y - f_y f) (chunks_exact (f_w f * nc) px) []) (nth y rows [])).
  { unfold all. rewrite app_nth2 by (rewrite firstn_length; lia). rewrite firstn_length, Nat.min_l by lia. rewrite app_nth1 by lia. unfold new.
    rewrite new_rows_nth; [|lia|rewrite firstn_length, skipn_length; lia]. rewrite nth_firstn by lia. rewrite nth_skipn. do 2 f_equal. lia. }
  assert (Ls : length (nth (y - f_y f) (chunks_exact (f_w f * nc) px) []) = (f_w f * nc)%nat) by (rewrite Forall_forall in FS; apply FS, nth_In; lia).
  assert (Lr : length (nth y rows []) = (iw * nc)%nat) by (rewrite Forall_forall in FR; apply FR, nth_In; lia).
  rewrite EN. pose proof (new_row_at cs f (gam g) _ _ iw x D Hx Ls Lr HxI) as R. cbv zeta in R. fold nc in R. rewrite R.
  destruct ((f_x f <=? x) && (x <? f_x f + f_w f))%nat eqn:I; [|reflexivity].
  assert (ES : slice (nth (y - f_y f) (chunks_exact (f_w f * nc) px) []) ((x - f_x f) * nc) nc = pixel (f_w f) nc px (x - f_x f) (y - f_y f)).
  { unfold pixel. assert ((f_x f <= x < f_x f + f_w f)%nat) by lia.
    apply (list_eq_nth 0); [rewrite !slice_length; [reflexivity|nia|nia]|]. intros k Hk. rewrite slice_length in Hk by nia. rewrite !slice_nth by easy.
    rewrite chunks_nth; [f_equal; nia|nia|apply Nat.div_le_lower_bound; nia|nia]. }
  rewrite ES. reflexivity.
Qed.
End Powf.
