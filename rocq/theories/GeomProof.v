(** Proofs about the geometric operations. *)
From Verif Require Import Base BaseProof Loops Slices HdrProof PpmProof BmpModel BmpSpec BmpProof GeomModel GeomSpec.

Lemma swap_at_ok l i j : (i < length l)%nat -> (j < length l)%nat ->
  swap_at l i j = Ok (upd (upd l i (nth j l 0)) j (nth i l 0)).
Proof.
  intros Hi Hj. unfold swap_at. rewrite (get_at_ok l i 0), (get_at_ok l j 0) by easy. cbn [bind].
  rewrite set_at_ok by easy. cbn [bind]. now rewrite set_at_ok by now rewrite upd_length.
Qed.

Lemma flip_list_ok l : flip_list l = Ok (rev l).
Proof.
  unfold flip_list. set (n := length l).
  destruct (for_range_inv (fun k s => length s = n /\ forall j, (j < n)%nat ->
      nth j s 0 = nth (if ((j <? k) || (n - k <=? j))%nat then n - 1 - j else j) l 0)
      0 (Nat.min (n / 2) (n - n / 2)) (fun k s => swap_at s k (n - 1 - k)) l) as (s & -> & Hl & Hn).
  - lia.
  - split; [easy|]. intros j Hj. replace ((j <? 0) || (n - 0 <=? j))%nat with false by lia. easy.
  - intros k s Hk [Hl Hs]. rewrite swap_at_ok by lia. eexists. split; [reflexivity|].
    split; [now rewrite !upd_length|]. intros j Hj.
    destruct (Nat.eq_dec j (n - 1 - k)) as [->|N1].
    + rewrite upd_nth_same by (rewrite upd_length; lia). rewrite Hs by lia.
      replace ((k <? k) || (n - k <=? k))%nat with false by lia.
      replace ((n - 1 - k <? S k) || (n - S k <=? n - 1 - k))%nat with true by lia. f_equal. lia.
    + rewrite upd_nth_other by lia. destruct (Nat.eq_dec j k) as [->|N2].
      * rewrite upd_nth_same by lia. rewrite Hs by lia.
        replace ((n - 1 - k <? k) || (n - k <=? n - 1 - k))%nat with false by lia.
        now replace ((k <? S k) || (n - S k <=? k))%nat with true by lia.
      * rewrite upd_nth_other by lia. rewrite Hs by lia.
        destruct ((j <? k) || (n - k <=? j))%nat eqn:E.
        -- now replace ((j <? S k) || (n - S k <=? j))%nat with true by lia.
        -- now replace ((j <? S k) || (n - S k <=? j))%nat with false by lia.
  - f_equal. apply (list_eq_nth 0); [now rewrite rev_length|]. intros j Hj. rewrite Hl in Hj. rewrite Hn by easy.
    rewrite rev_nth by easy. fold n.
    destruct ((j <? Nat.min (n / 2) (n - n / 2)) || (n - Nat.min (n / 2) (n - n / 2) <=? j))%nat eqn:E; f_equal; lia.
Qed.

(** Rows of an image. *)
Lemma rows_of w h (l : list Z) : (0 < w)%nat -> length l = (w * h)%nat ->
  length (chunks_exact w l) = h /\ Forall (fun r => length r = w) (chunks_exact w l) /\ concat (chunks_exact w l) = l.
Proof.
  intros Hw Hl. split; [|split].
  - rewrite chunks_exact_length by lia. rewrite Hl, Nat.mul_comm. apply Nat.div_mul. lia.
  - apply chunks_exact_lengths.
  - apply chunks_exact_concat; [lia|]. rewrite Hl, Nat.mul_comm. apply Nat.mod_mul. lia.
Qed.

Lemma row_nth w h l x y : (0 < w)%nat -> length l = (w * h)%nat -> (x < w)%nat -> (y < h)%nat ->
  nth x (nth y (chunks_exact w l) []) 0 = px w l x y.
Proof.
  intros Hw Hl Hx Hy. destruct (rows_of w h l Hw Hl) as (A & B & C).
  unfold px. rewrite <- C at 2. rewrite concat_rows_nth by (try easy; lia). easy.
Qed.

Lemma is_image_rows w h rows f : length rows = h -> Forall (fun r => length r = w) rows ->
  (forall x y, (x < w)%nat -> (y < h)%nat -> nth x (nth y rows []) 0 = f x y) -> is_image w h (concat rows) f.
Proof.
  intros Hl Hf Hn. split; [rewrite (concat_length_const w) by easy; lia|].
  intros x y Hx Hy. unfold px. rewrite concat_rows_nth by (try easy; lia). now apply Hn.
Qed.

Lemma is_image_ext w h out f g : (forall x y, (x < w)%nat -> (y < h)%nat -> f x y = g x y) -> is_image w h out f -> is_image w h out g.
Proof. intros E [A B]. split; [easy|]. intros. now rewrite B, E. Qed.

Lemma is_image_eq w h a b f : (0 < w)%nat -> is_image w h a f -> is_image w h b f -> a = b.
Proof.
  intros Hw [A1 A2] [B1 B2]. apply (list_eq_nth 0); [lia|]. intros j Hj.
  specialize (A2 (j mod w) (j / w))%nat. specialize (B2 (j mod w) (j / w))%nat. unfold px in *.
  assert (j mod w < w)%nat by (apply Nat.mod_upper_bound; lia).
  assert (j / w < h)%nat by (apply Nat.div_lt_upper_bound; lia).
  replace (j / w * w + j mod w)%nat with j in *; [|rewrite Nat.mul_comm; apply Nat.div_mod; lia].
  now rewrite A2, B2.
Qed.

Lemma is_image_self w h l : length l = (w * h)%nat -> is_image w h l (px w l).
Proof. now split. Qed.

Lemma nth_rev_row row x : (x < length row)%nat -> nth x (rev row) 0 = nth (length row - 1 - x) row 0.
Proof. intros H. rewrite rev_nth by easy. f_equal. lia. Qed.

Lemma flop_spec w h l : (0 < w)%nat -> length l = (w * h)%nat ->
  exists out, flop w l = Ok out /\ is_image w h out (fun x y => px w l (w - 1 - x) y).
Proof.
  intros Hw Hl. unfold flop. replace (w =? 0)%nat with false by lia.
  rewrite Hl, (Nat.mul_comm w h), Nat.mod_mul by lia. cbn [Nat.eqb negb].
  rewrite (mapM_ok _ (@rev Z)) by (intros; apply flip_list_ok). cbn [bind]. eexists. split; [reflexivity|].
  destruct (rows_of w h l Hw Hl) as (A & B & C).
  apply is_image_rows.
  - now rewrite map_length.
  - apply Forall_forall. intros r Hr. apply in_map_iff in Hr as (q & <- & Hq). rewrite rev_length.
    rewrite Forall_forall in B. auto.
  - intros x y Hx Hy. rewrite (map_nth_in _ _ y [] []) by lia.
    assert (length (nth y (chunks_exact w l) []) = w) as HL.
    { rewrite Forall_forall in B. apply B. apply nth_In. lia. }
    rewrite nth_rev_row by lia. rewrite HL. apply (row_nth w h); lia.
Qed.

Lemma vflip_spec w h l : (0 < w)%nat -> length l = (w * h)%nat ->
  exists out, vertical_flip w l = Ok out /\ is_image w h out (fun x y => px w l x (h - 1 - y)).
Proof.
  intros Hw Hl. destruct (flip_rows_nth w h l Hw ltac:(lia)) as (out & E & L & N).
  exists out. split; [exact E|]. split; [lia|]. intros x y Hx Hy. unfold px. now apply N.
Qed.

Lemma flip_spec w h l : (0 < w)%nat -> length l = (w * h)%nat ->
  exists out, flip l = Ok out /\ is_image w h out (fun x y => px w l (w - 1 - x) (h - 1 - y)).
Proof.
  intros Hw Hl. exists (rev l). split; [apply flip_list_ok|]. split; [now rewrite rev_length|].
  intros x y Hx Hy. unfold px. assert (y * w + x < w * h)%nat by nia. rewrite rev_nth by lia. f_equal. rewrite Hl.
  assert (y * w + (h - 1 - y) * w + w = w * h)%nat by nia. lia.
Qed.

(** ** Transpose *)

(** The sample that belongs at (x, y) of the transposed image is in place. *)
Definition good (w h : nat) (inp out : list Z) (x y : nat) : Prop := nth (x * h + y) out 0 = px w inp x y.

Lemma idx_inj h x y x' y' : (y < h)%nat -> (y' < h)%nat -> (x * h + y = x' * h + y')%nat -> x = x' /\ y = y'.
Proof.
  intros Hy Hy' E. assert (x = x')%nat.
  { destruct (Nat.lt_trichotomy x x') as [L|[L|L]]; [|easy|].
    - assert (x * h + h <= x' * h)%nat by nia. lia.
    - assert (x' * h + h <= x * h)%nat by nia. lia. }
  subst. split; [easy|lia].
Qed.
Lemma idx_bound w h x y : (x < w)%nat -> (y < h)%nat -> (x * h + y < w * h)%nat.
Proof. intros. assert (x * h + h <= w * h)%nat by nia. lia. Qed.
Lemma idx_bound' w h x y : (x < w)%nat -> (y < h)%nat -> (y * w + x < w * h)%nat.
Proof. intros. rewrite Nat.mul_comm with (n := w). now apply idx_bound. Qed.

Lemma good_upd w h inp out x y : length out = (w * h)%nat -> (x < w)%nat -> (y < h)%nat ->
  forall x' y', (x' < w)%nat -> (y' < h)%nat ->
  good w h inp out x' y' \/ (x' = x /\ y' = y) -> good w h inp (upd out (x * h + y) (px w inp x y)) x' y'.
Proof.
  intros Hl Hx Hy x' y' Hx' Hy' H. unfold good in *.
  destruct (Nat.eq_dec (x' * h + y') (x * h + y)) as [E|E].
  - apply idx_inj in E as [-> ->]; [|easy|easy]. apply upd_nth_same. rewrite Hl. now apply idx_bound.
  - rewrite upd_nth_other by lia. destruct H as [H|[-> ->]]; [easy|lia].
Qed.

Lemma good_put w h inp out x y0 n : length out = (w * h)%nat -> (x < w)%nat -> (y0 + n <= h)%nat ->
  let out' := put out (x * h + y0) (map (fun k => px w inp x (y0 + k)) (seq 0 n)) in
  length out' = (w * h)%nat /\
  forall x' y', (x' < w)%nat -> (y' < h)%nat ->
  good w h inp out x' y' \/ (x' = x /\ (y0 <= y' < y0 + n)%nat) -> good w h inp out' x' y'.
Proof.
  intros Hl Hx Hy out'.
  assert (Hb : (x * h + y0 + n <= w * h)%nat) by nia.
  split; [unfold out'; rewrite put_length; [easy|]; rewrite map_length, seq_length; lia|].
  intros x' y' Hx' Hy' H. unfold good, out' in *. rewrite put_nth by (rewrite map_length, seq_length; lia).
  rewrite map_length, seq_length.
  destruct ((x * h + y0 <=? x' * h + y') && (x' * h + y' <? x * h + y0 + n))%nat eqn:E.
  - assert (Ei : (x' * h + y' = x * h + (y0 + (x' * h + y' - (x * h + y0))))%nat) by lia.
    assert (x' = x /\ y' = (y0 + (x' * h + y' - (x * h + y0))))%nat as [Ex Ey] by (apply (idx_inj h); [easy|lia|lia]).
    subst x'. rewrite (map_nth_in _ _ _ O 0) by (rewrite seq_length; lia). rewrite seq_nth by lia. f_equal. lia.
  - destruct H as [H|[-> H]]; [easy|lia].
Qed.

Lemma tile_spec w h i j inp out : length inp = (w * h)%nat -> length out = (w * h)%nat ->
  (8 * i + 8 <= h)%nat -> (8 * j + 8 <= w)%nat ->
  exists out', tile w h i j inp out = Ok out' /\ length out' = (w * h)%nat /\
    forall x y, (x < w)%nat -> (y < h)%nat ->
      good w h inp out x y \/ ((8 * j <= x < 8 * j + 8)%nat /\ (8 * i <= y < 8 * i + 8)%nat) -> good w h inp out' x y.
Proof.
  intros Hi Ho Hih Hjw. unfold tile.
  destruct (for_range_inv (fun k t => length t = 64%nat /\ forall l k', (l < 8)%nat -> (k' < k)%nat -> (k' < 8)%nat ->
      nth (l * 8 + k') t 0 = px w inp (8 * j + l) (8 * i + k')) 0 8
      (fun k t => for_range 0 8 (fun l t => do v <- get_at inp (i * (8 * w) + j * 8 + k * w + l) ; set_at t (l * 8 + k) v) t)
      (repeat 0 64)) as (tmp & -> & Lt & Nt).
  - lia.
  - split; [apply repeat_length|]. intros. lia.
  - intros k t Hk [Lt Nt].
    destruct (for_range_inv (fun l t' => length t' = 64%nat /\
        (forall l' k', (l' < 8)%nat -> (k' < k)%nat -> (k' < 8)%nat -> nth (l' * 8 + k') t' 0 = px w inp (8 * j + l') (8 * i + k')) /\
        (forall l', (l' < l)%nat -> (l' < 8)%nat -> nth (l' * 8 + k) t' 0 = px w inp (8 * j + l') (8 * i + k))) 0 8
        (fun l t => do v <- get_at inp (i * (8 * w) + j * 8 + k * w + l) ; set_at t (l * 8 + k) v) t) as (t' & -> & Lt' & A & B).
    + lia.
    + split; [easy|]. split; [easy|]. intros. lia.
    + intros l s Hl (Ls & A & B).
      assert (Hidx : (i * (8 * w) + j * 8 + k * w + l = (8 * i + k) * w + (8 * j + l))%nat) by lia.
      rewrite Hidx. rewrite (get_at_ok inp _ 0) by (rewrite Hi; apply idx_bound'; lia). cbn [bind].
      rewrite set_at_ok by lia. eexists. split; [reflexivity|]. split; [now rewrite upd_length|]. split.
      * intros l' k' Hl' Hk' Hk8. rewrite upd_nth_other by lia. now apply A.
      * intros l' Hl' Hl8. destruct (Nat.eq_dec l' l) as [->|N].
        -- rewrite upd_nth_same by lia. reflexivity.
        -- rewrite upd_nth_other by lia. apply B; lia.
    + exists t'. split; [easy|]. split; [easy|]. intros l k' Hl Hk' Hk8.
      destruct (Nat.eq_dec k' k) as [->|N]; [apply B; lia|apply A; lia].
  - cbn [bind].
    destruct (for_range_inv (fun l o => length o = (w * h)%nat /\ forall x y, (x < w)%nat -> (y < h)%nat ->
        good w h inp out x y \/ ((8 * j <= x < 8 * j + l)%nat /\ (8 * i <= y < 8 * i + 8)%nat) -> good w h inp o x y) 0 8
        (fun l o => do row <- get_slice tmp (l * 8) 8 ; put_slice o (j * h * 8 + i * 8 + l * h) row) out) as (o & E & Lo & No).
    + lia.
    + split; [easy|]. intros x y Hx Hy [H|H]; [easy|lia].
    + intros l o Hl (Lo & No). rewrite get_slice_ok by lia. cbn [bind].
      assert (Hs : slice tmp (l * 8) 8 = map (fun k => px w inp (8 * j + l) (8 * i + k)) (seq 0 8)).
      { apply (list_eq_nth 0); [rewrite slice_length by lia; now rewrite map_length, seq_length|].
        intros q Hq. rewrite slice_length in Hq by lia. rewrite slice_nth by easy.
        rewrite (map_nth_in _ _ _ O 0) by (rewrite seq_length; lia). rewrite seq_nth by lia. apply Nt; lia. }
      rewrite Hs. assert (Hidx : (j * h * 8 + i * 8 + l * h = (8 * j + l) * h + 8 * i)%nat) by lia. rewrite Hidx.
      rewrite put_slice_ok.
      2:{ rewrite map_length, seq_length, Lo. assert ((8 * j + l) * h + h <= w * h)%nat by nia. lia. }
      destruct (good_put w h inp o (8 * j + l) (8 * i) 8 Lo ltac:(lia) ltac:(lia)) as [L' G'].
      eexists. split; [reflexivity|]. split; [exact L'|].
      intros x y Hx Hy H. apply G'; [easy|easy|]. destruct H as [H|[H1 H2]]; [left; apply No; auto|].
      destruct (Nat.eq_dec x (8 * j + l)) as [->|N]; [right; split; [easy|lia]|]. left. apply No; auto. right. split; lia.
    + exists o. split; [exact E|]. now split.
Qed.

Lemma tiles_spec w h inp out : (0 < w)%nat -> length inp = (w * h)%nat -> length out = (w * h)%nat ->
  exists out', for_range 0 (length inp / (8 * w)) (fun i o => for_range 0 (w / 8) (fun j o => tile w h i j inp o) o) out = Ok out' /\
    length out' = (w * h)%nat /\
    forall x y, (x < w)%nat -> (y < h)%nat -> (x < 8 * (w / 8))%nat -> (y < 8 * (h / 8))%nat -> good w h inp out' x y.
Proof.
  intros Hw Hi Ho.
  assert (Hn : (length inp / (8 * w) = h / 8)%nat).
  { rewrite Hi, (Nat.mul_comm 8 w). apply Nat.div_mul_cancel_l; lia. }
  rewrite Hn. assert (Hw8 : (8 * (w / 8) <= w)%nat) by lia. assert (Hh8 : (8 * (h / 8) <= h)%nat) by lia.
  set (a := (w / 8)%nat) in *. set (b := (h / 8)%nat) in *. clearbody a b.
  destruct (for_range_inv (fun i o => length o = (w * h)%nat /\
      forall x y, (x < w)%nat -> (y < h)%nat -> (x < 8 * a)%nat -> (y < 8 * i)%nat -> good w h inp o x y) 0 b
      (fun i o => for_range 0 a (fun j o => tile w h i j inp o) o) out) as (o & E & L & G).
  - lia.
  - split; [easy|]. intros. lia.
  - intros i o Hb (L & G).
    destruct (for_range_inv (fun j o' => length o' = (w * h)%nat /\
        forall x y, (x < w)%nat -> (y < h)%nat -> (x < 8 * a)%nat ->
          ((y < 8 * i)%nat \/ ((y < 8 * i + 8)%nat /\ (x < 8 * j)%nat)) -> good w h inp o' x y) 0 a
        (fun j o => tile w h i j inp o) o) as (o' & E & L' & G').
    + lia.
    + split; [easy|]. intros x y Hx Hy Hxa [H|H]; [now apply G|lia].
    + intros j s Hj (Ls & Gs). destruct (tile_spec w h i j inp s Hi Ls ltac:(lia) ltac:(lia)) as (s' & Es & Ls' & Gs').
      exists s'. split; [easy|]. split; [easy|]. intros x y Hx Hy Hxa H. apply Gs'; [easy|easy|].
      destruct (Nat.lt_ge_cases y (8 * i)) as [Hl|Hl]; [left; apply Gs; auto|].
      destruct (Nat.lt_ge_cases x (8 * j)) as [Hl2|Hl2]; [left; apply Gs; auto; right; lia|]. right. lia.
    + exists o'. split; [easy|]. split; [easy|]. intros x y Hx Hy Hxa Hyi. apply G'; auto. destruct (Nat.lt_ge_cases y (8 * i)); [now left|right; lia].
  - exists o. split; [exact E|]. split; [exact L|]. intros. now apply G.
Qed.

Lemma rest_rows w h inp out r : length inp = (w * h)%nat -> length out = (w * h)%nat -> (r <= h)%nat ->
  exists out', for_range r h (fun i o => for_range 0 w (fun j o => do v <- get_at inp (i * w + j) ; set_at o (j * h + i) v) o) out = Ok out' /\
    length out' = (w * h)%nat /\
    forall x y, (x < w)%nat -> (y < h)%nat -> good w h inp out x y \/ (r <= y)%nat -> good w h inp out' x y.
Proof.
  intros Hi Ho Hr.
  destruct (for_range_inv (fun i o => length o = (w * h)%nat /\
      forall x y, (x < w)%nat -> (y < h)%nat -> good w h inp out x y \/ (r <= y < i)%nat -> good w h inp o x y) r h
      (fun i o => for_range 0 w (fun j o => do v <- get_at inp (i * w + j) ; set_at o (j * h + i) v) o) out) as (o & E & L & G).
  - easy.
  - split; [easy|]. intros x y Hx Hy [H|H]; [easy|lia].
  - intros i o Hir (L & G).
    destruct (for_range_inv (fun j o' => length o' = (w * h)%nat /\
      forall x y, (x < w)%nat -> (y < h)%nat -> good w h inp o x y \/ (y = i /\ (x < j)%nat) -> good w h inp o' x y) 0 w
      (fun j o => do v <- get_at inp (i * w + j) ; set_at o (j * h + i) v) o) as (o' & E & L' & G').
    + lia.
    + split; [easy|]. intros x y Hx Hy [H|H]; [easy|lia].
    + intros j s Hj (Ls & Gs). rewrite (get_at_ok inp _ 0) by (rewrite Hi; apply idx_bound'; lia). cbn [bind].
      rewrite set_at_ok by (rewrite Ls; apply idx_bound; lia). eexists. split; [reflexivity|]. split; [now rewrite upd_length|].
      intros x y Hx Hy H. change (nth (i * w + j) inp 0) with (px w inp j i). apply good_upd; try easy; try lia.
      destruct H as [H|[-> H]]; [left; apply Gs; auto|].
      destruct (Nat.eq_dec x j) as [->|N]; [now right|]. left. apply Gs; auto. right. split; [easy|lia].
    + exists o'. split; [easy|]. split; [easy|]. intros x y Hx Hy H. apply G'; auto.
      destruct H as [H|H]; [left; apply G; auto|]. destruct (Nat.eq_dec y i); [right; lia|left; apply G; auto; right; lia].
  - exists o. split; [exact E|]. split; [easy|]. intros x y Hx Hy [H|H]; apply G; auto.
Qed.

Lemma rest_cols w h inp out r : length inp = (w * h)%nat -> length out = (w * h)%nat -> (r <= w)%nat ->
  exists out', for_range r w (fun i o => for_range 0 h (fun j o => do v <- get_at inp (j * w + i) ; set_at o (i * h + j) v) o) out = Ok out' /\
    length out' = (w * h)%nat /\
    forall x y, (x < w)%nat -> (y < h)%nat -> good w h inp out x y \/ (r <= x)%nat -> good w h inp out' x y.
Proof.
  intros Hi Ho Hr.
  destruct (for_range_inv (fun i o => length o = (w * h)%nat /\
      forall x y, (x < w)%nat -> (y < h)%nat -> good w h inp out x y \/ (r <= x < i)%nat -> good w h inp o x y) r w
      (fun i o => for_range 0 h (fun j o => do v <- get_at inp (j * w + i) ; set_at o (i * h + j) v) o) out) as (o & E & L & G).
  - easy.
  - split; [easy|]. intros x y Hx Hy [H|H]; [easy|lia].
  - intros i o Hir (L & G).
    destruct (for_range_inv (fun j o' => length o' = (w * h)%nat /\
      forall x y, (x < w)%nat -> (y < h)%nat -> good w h inp o x y \/ (x = i /\ (y < j)%nat) -> good w h inp o' x y) 0 h
      (fun j o => do v <- get_at inp (j * w + i) ; set_at o (i * h + j) v) o) as (o' & E & L' & G').
    + lia.
    + split; [easy|]. intros x y Hx Hy [H|H]; [easy|lia].
    + intros j s Hj (Ls & Gs). rewrite (get_at_ok inp _ 0) by (rewrite Hi; apply idx_bound'; lia). cbn [bind].
      rewrite set_at_ok by (rewrite Ls; apply idx_bound; lia). eexists. split; [reflexivity|]. split; [now rewrite upd_length|].
      intros x y Hx Hy H. change (nth (j * w + i) inp 0) with (px w inp i j). apply good_upd; try easy; try lia.
      destruct H as [H|[-> H]]; [left; apply Gs; auto|].
      destruct (Nat.eq_dec y j) as [->|N]; [now right|]. left. apply Gs; auto. right. split; [easy|lia].
    + exists o'. split; [easy|]. split; [easy|]. intros x y Hx Hy H. apply G'; auto.
      destruct H as [H|H]; [left; apply G; auto|]. destruct (Nat.eq_dec x i); [right; lia|left; apply G; auto; right; lia].
  - exists o. split; [exact E|]. split; [easy|]. intros x y Hx Hy [H|H]; apply G; auto.
Qed.

Lemma transpose_spec checked w h inp out : (8 <= w)%nat -> (8 <= h)%nat -> length inp = (w * h)%nat -> length out = (w * h)%nat ->
  exists out', transpose checked w h inp out = Ok out' /\ is_image h w out' (fun x y => px w inp y x).
Proof.
  intros Hw Hh Hi Ho. unfold transpose.
  replace (length inp =? w * h)%nat with true by lia. replace (length out =? w * h)%nat with true by lia. cbn [negb]. replace (8 * w =? 0)%nat with false by lia.
  destruct (tiles_spec w h inp out ltac:(lia) Hi Ho) as (o1 & -> & L1 & G1). cbn [bind].
  unfold rem_start. replace (w <? 8)%nat with false by lia. replace (h <? 8)%nat with false by lia. cbn [bind].
  destruct (rest_rows w h inp o1 (h - h mod 8 - 1) Hi L1 ltac:(lia)) as (o2 & -> & L2 & G2). cbn [bind].
  destruct (rest_cols w h inp o2 (w - w mod 8 - 1) Hi L2 ltac:(lia)) as (o3 & -> & L3 & G3).
  exists o3. split; [easy|]. split; [lia|]. intros x y Hx Hy. unfold px at 1.
  change (good w h inp o3 y x). apply G3; [easy|easy|].
  destruct (Nat.lt_ge_cases y (w - w mod 8 - 1)) as [A|A]; [left|right; lia]. apply G2; [easy|easy|].
  destruct (Nat.lt_ge_cases x (h - h mod 8 - 1)) as [B|B]; [left|right; lia]. apply G1; lia.
Qed.

(** ** Rotation *)

Lemma rotate_90_spec w h inp out : (0 < w)%nat -> length inp = (w * h)%nat -> length out = (w * h)%nat ->
  exists out', rotate_90 w h inp out = Ok out' /\ is_image h w out' (fun x y => px w inp y (h - 1 - x)).
Proof.
  intros Hw Hi Ho. unfold rotate_90. replace (w =? 0)%nat with false by lia.
  replace (length inp / w)%nat with h by (rewrite Hi, Nat.mul_comm, Nat.div_mul; lia).
  destruct (for_range_inv (fun y o => length o = (w * h)%nat /\ forall x' y', (x' < w)%nat -> (y' < y)%nat -> (y' < h)%nat ->
      nth (x' * h + (h - y' - 1)) o 0 = px w inp x' y') 0 h
      (fun y o => if (h <? y + 1)%nat then Panic else
        for_range 0 w (fun x o => do v <- get_at inp (y * w + x) ; Ok (set_opt o (x * h + (h - y - 1)) v)) o) out) as (o & -> & L & N).
  - lia.
  - split; [easy|]. intros. lia.
  - intros y o Hy (L & N). replace (h <? y + 1)%nat with false by lia.
    destruct (for_range_inv (fun x o' => length o' = (w * h)%nat /\
       (forall x' y', (x' < w)%nat -> (y' < y)%nat -> (y' < h)%nat -> nth (x' * h + (h - y' - 1)) o' 0 = px w inp x' y') /\
       (forall x', (x' < x)%nat -> (x' < w)%nat -> nth (x' * h + (h - y - 1)) o' 0 = px w inp x' y)) 0 w
       (fun x o => do v <- get_at inp (y * w + x) ; Ok (set_opt o (x * h + (h - y - 1)) v)) o) as (o' & -> & L' & A & B).
    + lia.
    + split; [easy|]. split; [easy|]. intros. lia.
    + intros x s Hx (Ls & A & B). rewrite (get_at_ok inp _ 0) by (rewrite Hi; apply idx_bound'; lia). cbn [bind].
      eexists. split; [reflexivity|]. unfold set_opt. split; [now rewrite upd_length|].
      assert (Hb : (x * h + (h - y - 1) < w * h)%nat) by (apply idx_bound; lia). split.
      * intros x' y' Hx' Hy' Hyh. rewrite upd_nth_other; [now apply A|]. intros E. apply idx_inj in E; lia.
      * intros x' Hx' Hw'. destruct (Nat.eq_dec x' x) as [->|Ne]; [rewrite upd_nth_same by lia; reflexivity|].
        rewrite upd_nth_other; [apply B; lia|]. intros E. apply idx_inj in E; lia.
    + exists o'. split; [easy|]. split; [easy|]. intros x' y' Hx' Hy' Hyh.
      destruct (Nat.eq_dec y' y) as [->|Ne]; [apply B; lia|apply A; lia].
  - exists o. split; [easy|]. split; [lia|]. intros x y Hx Hy. unfold px at 1.
    rewrite <- (N y (h - 1 - x)%nat) by lia. f_equal. lia.
Qed.

Lemma rotate_270_spec w h inp out : (0 < w)%nat -> length inp = (w * h)%nat -> length out = (w * h)%nat ->
  exists out', rotate_270 w h inp out = Ok out' /\ is_image h w out' (fun x y => px w inp (w - 1 - y) x).
Proof.
  intros Hw Hi Ho. unfold rotate_270. replace (w =? 0)%nat with false by lia.
  replace (length inp / w)%nat with h by (rewrite Hi, Nat.mul_comm, Nat.div_mul; lia).
  destruct (for_range_inv (fun y o => length o = (w * h)%nat /\ forall x' y', (x' < w)%nat -> (y' < y)%nat -> (y' < h)%nat ->
      nth ((w - x' - 1) * h + y') o 0 = px w inp x' y') 0 h
      (fun y o => for_range 0 w (fun x o => do v <- get_at inp (y * w + x) ; Ok (set_opt o ((w - x - 1) * h + y) v)) o) out) as (o & -> & L & N).
  - lia.
  - split; [easy|]. intros. lia.
  - intros y o Hy (L & N).
    destruct (for_range_inv (fun x o' => length o' = (w * h)%nat /\
       (forall x' y', (x' < w)%nat -> (y' < y)%nat -> (y' < h)%nat -> nth ((w - x' - 1) * h + y') o' 0 = px w inp x' y') /\
       (forall x', (x' < x)%nat -> (x' < w)%nat -> nth ((w - x' - 1) * h + y) o' 0 = px w inp x' y)) 0 w
       (fun x o => do v <- get_at inp (y * w + x) ; Ok (set_opt o ((w - x - 1) * h + y) v)) o) as (o' & -> & L' & A & B).
    + lia.
    + split; [easy|]. split; [easy|]. intros. lia.
    + intros x s Hx (Ls & A & B). rewrite (get_at_ok inp _ 0) by (rewrite Hi; apply idx_bound'; lia). cbn [bind].
      eexists. split; [reflexivity|]. unfold set_opt. split; [now rewrite upd_length|].
      assert (Hb : ((w - x - 1) * h + y < w * h)%nat) by (apply idx_bound; lia). split.
      * intros x' y' Hx' Hy' Hyh. rewrite upd_nth_other; [now apply A|]. intros E. apply idx_inj in E; lia.
      * intros x' Hx' Hw'. destruct (Nat.eq_dec x' x) as [->|Ne]; [rewrite upd_nth_same by lia; reflexivity|].
        rewrite upd_nth_other; [apply B; lia|]. intros E. apply idx_inj in E; lia.
    + exists o'. split; [easy|]. split; [easy|]. intros x' y' Hx' Hy' Hyh.
      destruct (Nat.eq_dec y' y) as [->|Ne]; [apply B; lia|apply A; lia].
  - exists o. split; [easy|]. split; [lia|]. intros x y Hx Hy. unfold px at 1.
    rewrite <- (N (w - 1 - y)%nat x) by lia. f_equal. f_equal. f_equal. lia.
Qed.

(** What [rotate_180] really does to images with an even number of rows: it reverses the order of the rows only. *)
Lemma rotate_180_even w m l : (0 < w)%nat -> length l = (w * (2 * m))%nat ->
  exists out, rotate_180 w l = Ok out /\ is_image w (2 * m) out (fun x y => px w l x (2 * m - 1 - y)).
Proof.
  intros Hw Hl. unfold rotate_180. replace (w =? 0)%nat with false by lia.
  replace (length l / 2)%nat with (m * w)%nat by (rewrite Hl; replace (w * (2 * m))%nat with (m * w * 2)%nat by lia; now rewrite Nat.div_mul).
  replace (length l - m * w)%nat with (m * w)%nat by lia. rewrite Nat.div_mul by lia. rewrite Nat.min_id.
  set (h := (2 * m)%nat) in *.
  destruct (for_range_inv (fun k o => length o = (w * h)%nat /\ forall x y, (x < w)%nat -> (y < h)%nat ->
      nth (y * w + x) o 0 = if ((y <? k) || (h - k <=? y))%nat then px w l x (h - 1 - y) else px w l x y) 0 m
      (fun k o => for_range 0 w (fun x o => swap_at o (k * w + x) (m * w + (m - 1 - k) * w + x)) o) l) as (o & -> & L & N).
  - lia.
  - split; [easy|]. intros x y Hx Hy. replace ((y <? 0) || (h - 0 <=? y))%nat with false by lia. reflexivity.
  - intros k o Hk (L & N).
    destruct (for_range_inv (fun c o' => length o' = (w * h)%nat /\ forall x y, (x < w)%nat -> (y < h)%nat ->
        nth (y * w + x) o' 0 = if ((y <? k) || (h - k <=? y) || ((x <? c) && ((y =? k) || (y =? h - 1 - k))))%nat then px w l x (h - 1 - y) else px w l x y) 0 w
        (fun x o => swap_at o (k * w + x) (m * w + (m - 1 - k) * w + x)) o) as (o' & -> & L' & N').
    + lia.
    + split; [easy|]. intros x y Hx Hy. rewrite N by easy.
      replace ((x <? 0)%nat && _) with false by lia. now rewrite orb_false_r.
    + intros c s Hc (Ls & Ns).
      assert (Hidx : (m * w + (m - 1 - k) * w + c = (h - 1 - k) * w + c)%nat).
      { rewrite <- Nat.mul_add_distr_r. f_equal. f_equal. lia. }
      rewrite Hidx. assert (B1 : (k * w + c < w * h)%nat) by (apply idx_bound'; lia).
      assert (B2 : ((h - 1 - k) * w + c < w * h)%nat) by (apply idx_bound'; lia).
      rewrite swap_at_ok by lia. eexists. split; [reflexivity|]. split; [now rewrite !upd_length|].
      intros x y Hx Hy. 
      destruct (Nat.eq_dec (y * w + x) ((h - 1 - k) * w + c)) as [E|E].
      * assert (y = h - 1 - k /\ x = c)%nat as [-> ->] by (apply (idx_inj w); lia).
        rewrite upd_nth_same by (rewrite upd_length; lia). rewrite Ns by lia.
        replace ((k <? k) || (h - k <=? k) || ((c <? c) && ((k =? k) || (k =? h - 1 - k))))%nat with false by lia.
        replace ((h - 1 - k <? k) || (h - k <=? h - 1 - k) || ((c <? S c) && ((h - 1 - k =? k) || (h - 1 - k =? h - 1 - k))))%nat with true by lia.
        f_equal. lia.
      * rewrite upd_nth_other by lia. destruct (Nat.eq_dec (y * w + x) (k * w + c)) as [E'|E'].
        -- assert (y = k /\ x = c)%nat as [-> ->] by (apply (idx_inj w); lia).
           rewrite upd_nth_same by lia. rewrite Ns by lia.
           replace ((h - 1 - k <? k) || (h - k <=? h - 1 - k) || ((c <? c) && ((h - 1 - k =? k) || (h - 1 - k =? h - 1 - k))))%nat with false by lia.
           replace ((k <? k) || (h - k <=? k) || ((c <? S c) && ((k =? k) || (k =? h - 1 - k))))%nat with true by lia. easy.
        -- rewrite upd_nth_other by lia. rewrite Ns by easy.
           assert (NE : ~ (x = c /\ (y = k \/ y = h - 1 - k)%nat)) by (intros [-> [-> | ->]]; lia).
           match goal with |- (if ?b1 then _ else _) = (if ?b2 then _ else _) => replace b2 with b1; [easy|] end.
           clear - NE. destruct (y <? k)%nat, (h - k <=? y)%nat; cbn [orb]; try reflexivity.
           destruct ((y =? k) || (y =? h - 1 - k))%nat eqn:E; rewrite ?andb_true_r, ?andb_false_r; [|reflexivity].
           lia.
    + exists o'. split; [easy|]. split; [easy|]. intros x y Hx Hy. rewrite N' by easy.
      replace (x <? w)%nat with true by lia. cbn [andb].
      match goal with |- (if ?b1 then _ else _) = (if ?b2 then _ else _) => replace b2 with b1; [easy|lia] end.
  - exists o. split; [easy|]. split; [easy|]. intros x y Hx Hy. unfold px at 1. rewrite N by easy.
    destruct ((y <? m) || (h - m <=? y))%nat eqn:E; [easy|lia].
Qed.

(** ** Crop *)

Lemma crop_rows_length ow x ins outs : length (crop_rows ow x ins outs) = length outs.
Proof. revert outs. induction ins as [|i ins IH]; intros [|o outs]; cbn [crop_rows length]; auto. Qed.
Lemma crop_rows_nth ow x ins outs j : (j < length outs)%nat ->
  nth j (crop_rows ow x ins outs) [] =
  if ((j <? length ins) && (x + ow <=? length (nth j ins [])))%nat then slice (nth j ins []) x ow else nth j outs [].
Proof.
  revert outs j. induction ins as [|i ins IH]; intros [|o outs] j Hj; cbn [length] in Hj; try lia; [reflexivity|].
  destruct j as [|j]; cbn [crop_rows nth length].
  - change (0 <? S (length ins))%nat with true. reflexivity.
  - rewrite IH by lia. reflexivity.
Qed.

Lemma crop_spec iw ih inp ow oh out x y : (0 < iw)%nat -> (0 < ow)%nat -> length inp = (iw * ih)%nat -> length out = (ow * oh)%nat ->
  is_image ow oh (crop inp iw out ow oh x y)
    (fun i j => if ((x + ow <=? iw) && (y + j <? ih))%nat then px iw inp (x + i) (y + j) else px ow out i j).
Proof.
  intros Hiw How Hi Ho. unfold crop. replace ((iw =? 0) || (ow =? 0))%nat with false by lia.
  destruct (rows_of iw ih inp Hiw Hi) as (A1 & B1 & C1). destruct (rows_of ow oh out How Ho) as (A2 & B2 & C2).
  rewrite (skipn_all2 out) by (rewrite A2, Ho; lia). rewrite app_nil_r.
  set (ins := firstn oh (skipn y (chunks_exact iw inp))).
  assert (Li : length ins = Nat.min oh (ih - y)) by (unfold ins; rewrite firstn_length, skipn_length; lia).
  assert (Fi : forall j, (j < length ins)%nat -> length (nth j ins []) = iw /\ nth j ins [] = nth (y + j) (chunks_exact iw inp) []).
  { intros j Hj. unfold ins. rewrite nth_firstn, nth_skipn by lia.
    split; [|easy]. rewrite Forall_forall in B1. apply B1, nth_In. lia. }
  assert (Hrow : forall j, (j < oh)%nat -> nth j (crop_rows ow x ins (chunks_exact ow out)) [] =
     if ((j <? length ins) && (x + ow <=? iw))%nat then slice (nth (y + j) (chunks_exact iw inp) []) x ow else nth j (chunks_exact ow out) []).
  { intros j Hj. rewrite crop_rows_nth by lia. destruct (Nat.ltb_spec j (length ins)) as [L|L]; cbn [andb]; [|easy].
    destruct (Fi j L) as [E1 E2]. rewrite E1. now rewrite E2. }
  apply is_image_rows.
  - now rewrite crop_rows_length.
  - apply Forall_forall. intros r Hr. apply (In_nth _ _ []) in Hr as (j & Hj & <-). rewrite crop_rows_length, A2 in Hj.
    rewrite Hrow by easy. destruct ((j <? length ins) && (x + ow <=? iw))%nat eqn:E.
    + rewrite slice_length; [easy|]. rewrite <- (proj2 (Fi j ltac:(lia))), (proj1 (Fi j ltac:(lia))). lia.
    + rewrite Forall_forall in B2. apply B2, nth_In. lia.
  - intros i j Hi' Hj. rewrite Hrow by easy. replace (j <? length ins)%nat with (y + j <? ih)%nat by lia.
    rewrite andb_comm. destruct ((x + ow <=? iw) && (y + j <? ih))%nat eqn:E.
    + rewrite slice_nth by easy. apply (row_nth iw ih); lia.
    + apply (row_nth ow oh); lia.
Qed.

(** ** Pad *)

Lemma blank_rows pw ph : (0 < pw)%nat -> chunks_exact pw (repeat 0 (ph * pw)) = repeat (repeat 0 pw) ph.
Proof.
  intros H. rewrite <- (chunks_exact_of_concat pw (repeat (repeat 0 pw) ph)).
  - f_equal. induction ph as [|ph IH]; cbn [repeat Nat.mul concat]; [easy|]. now rewrite repeat_app, IH.
  - easy.
  - apply Forall_forall. intros r Hr. apply repeat_spec in Hr as ->. apply repeat_length.
Qed.

Lemma pad_rows_ok pw px w f g outs ins : length outs = length ins ->
  (forall o i, In o outs -> In i ins -> f o i = Ok (g i)) -> pad_rows pw px w f outs ins = Ok (map g ins).
Proof.
  revert ins. induction outs as [|o outs IH]; intros [|i ins] Hl Hf; try (cbn [length] in Hl; lia); [reflexivity|].
  cbn [pad_rows map]. rewrite Hf by now left. cbn [bind]. rewrite IH.
  - reflexivity.
  - cbn [length] in Hl. lia.
  - intros. apply Hf; now right.
Qed.

Definition padded (a b : Z) (p : nat) (i : list Z) : list Z := repeat a p ++ i ++ repeat b p.

Lemma padded_length a b p i : length (padded a b p i) = (length i + p * 2)%nat.
Proof. unfold padded. rewrite !app_length, !repeat_length. lia. Qed.

Lemma fill_mid_ok p w i : length i = w -> fill_mid p w (repeat 0 (w + p * 2)) i = Ok (padded 0 0 p i).
Proof.
  intros Hi. unfold fill_mid. replace (length i =? w)%nat with true by lia. cbn [negb].
  rewrite put_slice_ok by (rewrite repeat_length; lia). f_equal. unfold padded.
  replace (w + p * 2)%nat with (p + (w + p))%nat by lia. rewrite !repeat_app.
  pose proof (put_at (repeat 0 p) (repeat 0 w) (repeat 0 p) i) as E. rewrite !repeat_length in E.
  apply E. lia.
Qed.

Lemma fill_row_ok p w o i : (0 < w)%nat -> length i = w -> length o = (w + p * 2)%nat ->
  fill_row p w o i = Ok (padded (nth 0 i 0) (last i 0) p i).
Proof.
  intros Hw Hi Ho. unfold fill_row. rewrite (get_at_ok i 0 0) by lia. cbn [bind].
  rewrite put_slice_ok by (rewrite repeat_length; lia). cbn [bind]. unfold fill_mid.
  replace (length i =? w)%nat with true by lia. cbn [negb].
  assert (L1 : length (put o 0 (repeat (nth 0 i 0) p)) = (w + p * 2)%nat) by (rewrite put_length; [easy|rewrite repeat_length; lia]).
  rewrite put_slice_ok by lia. cbn [bind].
  assert (L2 : length (put (put o 0 (repeat (nth 0 i 0) p)) p i) = (w + p * 2)%nat) by (rewrite put_length; lia).
  rewrite L2. replace (w + p * 2 - (p + w))%nat with p by lia.
  rewrite put_slice_ok by (rewrite repeat_length; lia). f_equal.
  apply (list_eq_nth 0); [rewrite put_length, padded_length; [lia|rewrite repeat_length; lia]|].
  intros j Hj. rewrite put_length in Hj by (rewrite repeat_length; lia). rewrite L2 in Hj.
  rewrite put_nth by (rewrite repeat_length; lia). rewrite repeat_length. unfold padded.
  destruct ((p + w <=? j) && (j <? p + w + p))%nat eqn:E1.
  - rewrite app_nth2, app_nth2 by (rewrite !repeat_length; lia).
    rewrite nth_repeat_lt, nth_repeat_lt; [easy|rewrite repeat_length; lia|lia].
  - rewrite put_nth by lia. destruct ((p <=? j) && (j <? p + length i))%nat eqn:E2.
    + rewrite app_nth2, app_nth1 by (rewrite ?repeat_length; lia). now rewrite repeat_length.
    + rewrite put_nth by (rewrite repeat_length; lia). rewrite repeat_length.
      replace ((0 <=? j) && (j <? 0 + p))%nat with true by lia.
      rewrite app_nth1 by (rewrite repeat_length; lia). f_equal. lia.
Qed.

Lemma padded_nth a b p i x : (x < length i + p * 2)%nat ->
  nth x (padded a b p i) 0 = if (x <? p)%nat then a else if (x <? p + length i)%nat then nth (x - p) i 0 else b.
Proof.
  intros Hx. unfold padded. destruct (Nat.ltb_spec x p).
  - rewrite app_nth1 by (rewrite repeat_length; lia). now apply nth_repeat_lt.
  - rewrite app_nth2 by (rewrite repeat_length; lia). rewrite repeat_length. destruct (Nat.ltb_spec x (p + length i)).
    + rewrite app_nth1 by lia. easy.
    + rewrite app_nth2 by lia. apply nth_repeat_lt. lia.
Qed.

(** Rows above, rows of the image, rows below. *)
Lemma stack_nth {A} (a b : A) p (m : list A) y d : (y < length m + p * 2)%nat ->
  nth y (repeat a p ++ m ++ repeat b p) d = if (y <? p)%nat then a else if (y <? p + length m)%nat then nth (y - p) m d else b.
Proof.
  intros Hy. destruct (Nat.ltb_spec y p).
  - rewrite app_nth1 by (rewrite repeat_length; lia). now apply nth_repeat_lt.
  - rewrite app_nth2 by (rewrite repeat_length; lia). rewrite repeat_length. destruct (Nat.ltb_spec y (p + length m)).
    + rewrite app_nth1 by lia. easy.
    + rewrite app_nth2 by lia. apply nth_repeat_lt. lia.
Qed.

Lemma stack_lengths w p (a b : list Z) m : length a = w -> length b = w -> Forall (fun r => length r = w) m ->
  Forall (fun r => length r = w) (repeat a p ++ m ++ repeat b p).
Proof.
  intros Ha Hb Hm. apply Forall_app. split; [|apply Forall_app; split; [easy|]];
    apply Forall_forall; intros r Hr; apply repeat_spec in Hr; now subst r.
Qed.

Lemma pad_constant_spec l w h pdx pdy : (0 < w)%nat -> length l = (w * h)%nat ->
  exists out, pad_constant l w h pdx pdy = Ok out /\
    is_image (w + pdx * 2) (h + pdy * 2) out (fun x y =>
      if ((pdx <=? x) && (x <? pdx + w) && (pdy <=? y) && (y <? pdy + h))%nat then px w l (x - pdx) (y - pdy) else 0).
Proof.
  intros Hw Hl. unfold pad_constant. replace ((w + pdx * 2 =? 0) || (w =? 0))%nat with false by lia.
  rewrite blank_rows by lia. destruct (rows_of w h l Hw Hl) as (A & B & C).
  replace (repeat (repeat 0 (w + pdx * 2)) (h + pdy * 2)) with
    (repeat (repeat 0 (w + pdx * 2)) pdy ++ repeat (repeat 0 (w + pdx * 2)) h ++ repeat (repeat 0 (w + pdx * 2)) pdy)
    by (rewrite <- !repeat_app; f_equal; lia).
  rewrite (skipn_app_exact (repeat _ pdy) _ pdy) by apply repeat_length.
  rewrite (firstn_app_exact (repeat _ h) _ h) by apply repeat_length.
  rewrite (pad_rows_ok _ _ _ _ (padded 0 0 pdx)).
  - cbn [bind]. eexists. split; [reflexivity|].
    rewrite (firstn_app_exact (repeat _ pdy) _ pdy) by apply repeat_length.
    rewrite (app_assoc (repeat _ pdy) (repeat _ h)), skipn_app_exact by (rewrite app_length, !repeat_length; lia).
    apply is_image_rows.
    + rewrite !app_length, !repeat_length, map_length. lia.
    + apply stack_lengths; [apply repeat_length|apply repeat_length|]. apply Forall_forall. intros r Hr.
      apply in_map_iff in Hr as (i & <- & Hi). rewrite padded_length. rewrite Forall_forall in B. now rewrite B.
    + intros x y Hx Hy. rewrite stack_nth by (rewrite map_length; lia). rewrite map_length, A.
      destruct (Nat.ltb_spec y pdy).
      * rewrite nth_repeat_lt by lia. now replace ((pdx <=? x) && (x <? pdx + w) && (pdy <=? y) && (y <? pdy + h))%nat with false by lia.
      * destruct (Nat.ltb_spec y (pdy + h)).
        -- rewrite (map_nth_in _ _ _ [] []) by lia.
           assert (HL : length (nth (y - pdy) (chunks_exact w l) []) = w) by (rewrite Forall_forall in B; apply B, nth_In; lia).
           rewrite padded_nth by lia. rewrite HL. destruct (Nat.ltb_spec x pdx).
           ++ now replace ((pdx <=? x) && (x <? pdx + w) && (pdy <=? y) && true)%nat with false by lia.
           ++ destruct (Nat.ltb_spec x (pdx + w)).
              ** replace ((pdx <=? x) && true && (pdy <=? y) && true)%nat with true by lia. apply (row_nth w h); lia.
              ** now rewrite andb_false_r.
        -- rewrite nth_repeat_lt by lia. now rewrite andb_false_r.
  - rewrite repeat_length. easy.
  - intros o i Ho Hi. apply repeat_spec in Ho as ->. apply fill_mid_ok. rewrite Forall_forall in B. auto.
Qed.

Lemma nth_last' (l : list Z) : nth (length l - 1) l 0 = last l 0.
Proof.
  induction l as [|a l IH]; [easy|]. destruct l as [|b l]; [easy|].
  change (last (a :: b :: l) 0) with (last (b :: l) 0). rewrite <- IH. cbn [length].
  replace (S (S (length l)) - 1)%nat with (S (S (length l) - 1)) by lia. reflexivity.
Qed.

Lemma pad_replicate_spec l w h pdx pdy : (0 < w)%nat -> (0 < h)%nat -> length l = (w * h)%nat ->
  exists out, pad_replicate l w h pdx pdy = Ok out /\
    is_image (w + pdx * 2) (h + pdy * 2) out (fun x y => px w l (clamp w pdx x) (clamp h pdy y)).
Proof.
  intros Hw Hh Hl. unfold pad_replicate. assert (Hwh : (w <= w * h)%nat) by nia.
  rewrite get_slice_ok by lia. cbn [bind]. replace (w + pdx * 2 =? 0)%nat with false by lia.
  rewrite blank_rows by lia. destruct (rows_of w h l Hw Hl) as (A & B & C).
  assert (HR : forall y, (y < h)%nat -> length (nth y (chunks_exact w l) []) = w) by (intros; rewrite Forall_forall in B; apply B, nth_In; lia).
  assert (F0 : slice l 0 w = nth 0 (chunks_exact w l) []).
  { apply (list_eq_nth 0); [rewrite slice_length by lia; now rewrite HR|]. intros j Hj. rewrite slice_length in Hj by lia.
    rewrite slice_nth by easy. rewrite (row_nth w h) by lia. reflexivity. }
  assert (F1 : skipn (length l - w) l = nth (h - 1) (chunks_exact w l) []).
  { apply (list_eq_nth 0); [rewrite skipn_length, HR; lia|]. intros j Hj. rewrite skipn_length in Hj.
    rewrite nth_skipn. rewrite (row_nth w h) by lia. unfold px. f_equal. rewrite Hl.
    assert ((h - 1) * w + w = w * h)%nat by nia. lia. }
  rewrite F0, F1. set (g := fun i => padded (nth 0 i 0) (last i 0) pdx i).
  set (r0 := nth 0 (chunks_exact w l) []) in *. set (r1 := nth (h - 1) (chunks_exact w l) []) in *.
  assert (L0 : length r0 = w) by (apply HR; lia). assert (L1 : length r1 = w) by (apply HR; lia).
  assert (Lg : forall i, length i = w -> length (g i) = (w + pdx * 2)%nat) by (intros i Hi; unfold g; rewrite padded_length; lia).
  replace (repeat (repeat 0 (w + pdx * 2)) (h + pdy * 2)) with
    (repeat (repeat 0 (w + pdx * 2)) pdy ++ repeat (repeat 0 (w + pdx * 2)) h ++ repeat (repeat 0 (w + pdx * 2)) pdy)
    by (rewrite <- !repeat_app; f_equal; lia).
  rewrite (firstn_app_exact (repeat _ pdy)) by apply repeat_length.
  rewrite (mapM_ok _ (fun _ => g r0)).
  2:{ intros o Ho. apply repeat_spec in Ho as ->. apply fill_row_ok; [easy|easy|apply repeat_length]. }
  cbn [bind]. rewrite (skipn_app_exact (repeat (repeat 0 _) pdy) _ pdy) by apply repeat_length.
  assert (EM : map (fun _ => g r0) (repeat (repeat 0 (w + pdx * 2)) pdy) = repeat (g r0) pdy).
  { clear. induction pdy as [|n IH]; cbn [repeat map]; [easy|now rewrite IH]. }
  rewrite EM. replace (w =? 0)%nat with false by lia.
  rewrite (skipn_app_exact (repeat (g r0) pdy)) by apply repeat_length.
  rewrite (firstn_app_exact (repeat _ h)) by apply repeat_length.
  rewrite (pad_rows_ok _ _ _ _ g).
  2:{ now rewrite repeat_length. }
  2:{ intros o i Ho Hi. apply repeat_spec in Ho as ->. apply fill_row_ok; [easy| |apply repeat_length].
      rewrite Forall_forall in B. auto. }
  cbn [bind]. replace (length l <? w)%nat with false by lia.
  rewrite (firstn_app_exact (repeat (g r0) pdy)) by apply repeat_length.
  rewrite (app_assoc (repeat (g r0) pdy) (repeat _ h)).
  rewrite (skipn_app_exact (repeat (g r0) pdy ++ repeat _ h) _ (pdy + h)) by (rewrite app_length, !repeat_length; lia).
  set (mid := map g (chunks_exact w l)). assert (Lm : length mid = h) by (unfold mid; now rewrite map_length).
  assert (LO : length (repeat (g r0) pdy ++ mid ++ repeat (repeat 0 (w + pdx * 2)) pdy) = (pdy + h + pdy)%nat)
    by (rewrite !app_length, !repeat_length; lia).
  rewrite LO. replace (pdy + h + pdy - pdy)%nat with (pdy + h)%nat by lia.
  rewrite (app_assoc (repeat (g r0) pdy) mid).
  rewrite skipn_app_exact by (rewrite app_length, repeat_length; lia).
  rewrite firstn_app_exact by (rewrite app_length, repeat_length; lia).
  rewrite (mapM_ok _ (fun _ => g r1)).
  2:{ intros o Ho. apply repeat_spec in Ho as ->. apply fill_row_ok; [easy|easy|apply repeat_length]. }
  cbn [bind].
  assert (EM1 : map (fun _ => g r1) (repeat (repeat 0 (w + pdx * 2)) pdy) = repeat (g r1) pdy).
  { clear. induction pdy as [|n IH]; cbn [repeat map]; [easy|now rewrite IH]. }
  rewrite EM1, <- app_assoc. eexists. split; [reflexivity|].
  apply is_image_rows.
  - rewrite !app_length, !repeat_length. lia.
  - apply stack_lengths; [now apply Lg|now apply Lg|]. apply Forall_forall. intros r Hr. unfold mid in Hr.
    apply in_map_iff in Hr as (i & <- & Hi). apply Lg. rewrite Forall_forall in B. auto.
  - assert (G : forall x y, (x < w + pdx * 2)%nat -> (y < h)%nat -> nth x (g (nth y (chunks_exact w l) [])) 0 = px w l (clamp w pdx x) y).
    { intros x y Hx Hy. unfold g. rewrite padded_nth by (rewrite HR; lia). rewrite HR by easy. unfold clamp.
      rewrite <- (row_nth w h) by lia. destruct (Nat.ltb_spec x pdx).
      - f_equal. lia.
      - destruct (Nat.ltb_spec x (pdx + w)); [f_equal; lia|].
        rewrite <- nth_last', HR by easy. f_equal. lia. }
    intros x y Hx Hy. rewrite stack_nth by lia. rewrite Lm. destruct (Nat.ltb_spec y pdy).
    + unfold r0. rewrite G by lia. f_equal. unfold clamp. lia.
    + destruct (Nat.ltb_spec y (pdy + h)).
      * unfold mid. rewrite (map_nth_in _ _ _ [] []) by lia. rewrite G by lia. f_equal. unfold clamp. lia.
      * unfold r1. rewrite G by lia. f_equal. unfold clamp. lia.
Qed.

(** ** Mirror *)

Lemma for_loop_ext {S} (f g : nat -> S -> res S) n : forall lo s,
  (forall k s, (lo <= k < lo + n)%nat -> f k s = g k s) -> for_loop n lo f s = for_loop n lo g s.
Proof.
  induction n as [|n IH]; intros lo s H; cbn [for_loop]; [easy|]. rewrite H by lia.
  destruct (g lo s); cbn [bind]; try easy. apply IH. intros. apply H. lia.
Qed.

Lemma mirror_row_spec m row : m = East \/ m = West ->
  exists out, mirror_row m row = Ok out /\ length out = length row /\
    forall x, (x < length row)%nat ->
      nth x out 0 = nth (match m with West => Nat.min x (length row - 1 - x) | _ => Nat.max x (length row - 1 - x) end) row 0.
Proof.
  intros Hm. unfold mirror_row. set (n := length row).
  destruct (for_range_inv (fun k s => length s = n /\ forall x, (x < n)%nat ->
      nth x s 0 = nth (if ((match m with West => n - 1 - x | _ => x end) <? k)%nat then n - 1 - x else x) row 0)
      0 (Nat.min (n / 2) (n - n / 2)) (fun k s => match m with
         | West => do v <- get_at s k ; set_at s (n - 1 - k) v
         | East => do v <- get_at s (n - 1 - k) ; set_at s k v
         | _ => Ok s end) row) as (s & -> & L & N).
  - lia.
  - split; [easy|]. intros x Hx. now rewrite (proj2 (Nat.ltb_ge _ 0)) by lia.
  - intros k s Hk (L & N). destruct Hm as [-> | ->].
    + rewrite (get_at_ok s _ 0) by lia. cbn [bind]. rewrite set_at_ok by lia. eexists. split; [reflexivity|].
      split; [now rewrite upd_length|]. intros x Hx. destruct (Nat.eq_dec x k) as [->|Ne].
      * rewrite upd_nth_same by lia. rewrite N by lia. replace (n - 1 - k <? k)%nat with false by lia.
        now replace (k <? S k)%nat with true by lia.
      * rewrite upd_nth_other by lia. rewrite N by easy. now replace (x <? S k)%nat with (x <? k)%nat by lia.
    + rewrite (get_at_ok s _ 0) by lia. cbn [bind]. rewrite set_at_ok by lia. eexists. split; [reflexivity|].
      split; [now rewrite upd_length|]. intros x Hx. destruct (Nat.eq_dec x (n - 1 - k)) as [->|Ne].
      * rewrite upd_nth_same by lia. rewrite N by lia. replace (n - 1 - k <? k)%nat with false by lia.
        replace (n - 1 - (n - 1 - k) <? S k)%nat with true by lia. f_equal. lia.
      * rewrite upd_nth_other by lia. rewrite N by easy. now replace (n - 1 - x <? S k)%nat with (n - 1 - x <? k)%nat by lia.
  - exists s. split; [easy|]. split; [easy|]. intros x Hx. rewrite N by easy.
    destruct Hm as [-> | ->].
    + destruct (Nat.ltb_spec x (Nat.min (n / 2) (n - n / 2))); f_equal; lia.
    + destruct (Nat.ltb_spec (n - 1 - x) (Nat.min (n / 2) (n - n / 2))); f_equal; lia.
Qed.

(** Side really kept by each mode. *)
Definition kept (m : mirror_mode) : side :=
  match m with North => Top | South => Bottom | East => RightHalf | West => LeftHalf end.

Lemma mapM_exists {A B} (f : A -> res B) (l : list A) : (forall a, In a l -> exists b, f a = Ok b) ->
  exists bs, mapM f l = Ok bs /\ length bs = length l /\
    forall k (da : A) (db : B), (k < length l)%nat -> f (nth k l da) = Ok (nth k bs db).
Proof.
  induction l as [|a l IH]; intros H.
  - exists []. split; [easy|]. split; [easy|]. cbn [length]. intros. lia.
  - destruct (H a (or_introl eq_refl)) as [b Eb]. destruct IH as (bs & E & L & N); [intros; apply H; now right|].
    exists (b :: bs). cbn [mapM]. rewrite Eb. cbn [bind]. rewrite E. split; [easy|]. split; [cbn [length]; lia|].
    intros [|k] da db Hk; cbn [nth length] in *; [easy|]. apply N. lia.
Qed.

Lemma mirror_spec m w h l : (0 < w)%nat -> length l = (w * h)%nat ->
  exists out, mirror m w h l = Ok out /\ is_image w h out (reflect (kept m) w h (px w l)).
Proof.
  intros Hw Hl. destruct (rows_of w h l Hw Hl) as (A & B & C).
  assert (HR : forall y, (y < h)%nat -> length (nth y (chunks_exact w l) []) = w) by (intros; rewrite Forall_forall in B; apply B, nth_In; lia).
  assert (NS : forall m', m' = North \/ m' = South -> exists out, mirror m' w h l = Ok out /\ is_image w h out (reflect (kept m') w h (px w l))).
  { intros m' Hm. assert (Hh2 : (2 * (h / 2) <= h)%nat) by lia.
    assert (EQ : mirror m' w h l = for_range 0 (h / 2) (fun k o =>
        match m' with
        | North => do r <- get_slice o (k * w) w ; put_slice o ((h - 1 - k) * w) r
        | _ => do r <- get_slice o ((h - 1 - k) * w) w ; put_slice o (k * w) r
        end) l).
    { unfold mirror. destruct Hm as [-> | ->].
      all: replace (length l <? w * (h / 2))%nat with false by nia.
      all: replace (w =? 0)%nat with false by lia.
      all: rewrite Hl; replace (w * h - w * (h / 2))%nat with ((h - h / 2) * w)%nat by (rewrite Nat.mul_sub_distr_r; lia);
           rewrite (Nat.mul_comm w (h / 2)), !Nat.div_mul by lia; rewrite Nat.min_l by lia.
      all: unfold for_range; apply for_loop_ext; intros k s Hk;
           replace (w * h - (k + 1) * w)%nat with ((h - 1 - k) * w)%nat by (rewrite !Nat.mul_sub_distr_r; lia); reflexivity. }
    rewrite EQ. clear EQ.
    destruct (for_range_inv (fun k o => length o = (w * h)%nat /\ forall x y, (x < w)%nat -> (y < h)%nat ->
        px w o x y = px w l x (if ((match m' with North => h - 1 - y | _ => y end) <? k)%nat then h - 1 - y else y)) 0 (h / 2)
        (fun k o => match m' with
        | North => do r <- get_slice o (k * w) w ; put_slice o ((h - 1 - k) * w) r
        | _ => do r <- get_slice o ((h - 1 - k) * w) w ; put_slice o (k * w) r
        end) l) as (o & E & L & N).
    - lia.
    - split; [easy|]. intros x y Hx Hy. now rewrite (proj2 (Nat.ltb_ge _ 0)) by lia.
    - intros k o Hk (L & N).
      assert (B1 : (k * w + w <= w * h)%nat) by nia. assert (B2 : ((h - 1 - k) * w + w <= w * h)%nat) by nia.
      assert (P : forall a b, (a < h)%nat -> (b < h)%nat -> (a * w + w <= w * h)%nat -> (b * w + w <= w * h)%nat ->
         exists o', (do r <- get_slice o (a * w) w ; put_slice o (b * w) r) = Ok o' /\ length o' = (w * h)%nat /\
           forall x y, (x < w)%nat -> (y < h)%nat -> px w o' x y = px w o x (if (y =? b)%nat then a else y)).
      { intros a b Ha Hb Ba Bb. rewrite get_slice_ok by lia. cbn [bind].
        rewrite put_slice_ok by (rewrite slice_length; lia). eexists. split; [reflexivity|].
        split; [rewrite put_length; [easy|rewrite slice_length; lia]|].
        intros x y Hx Hy. unfold px. rewrite put_nth by (rewrite slice_length; lia). rewrite slice_length by lia.
        destruct (Nat.eqb_spec y b) as [->|Ne].
        - replace ((b * w <=? b * w + x) && (b * w + x <? b * w + w))%nat with true by lia.
          rewrite slice_nth by lia. f_equal. lia.
        - replace ((b * w <=? y * w + x) && (y * w + x <? b * w + w))%nat with false; [easy|].
          symmetry. apply Bool.not_true_is_false. intros H. assert (y * w + x = b * w + (y * w + x - b * w))%nat as E by lia.
          apply idx_inj in E; lia. }
      destruct Hm as [-> | ->].
      + destruct (P k (h - 1 - k)%nat) as (o' & E & L' & N'); [lia..|]. exists o'. split; [easy|]. split; [easy|].
        intros x y Hx Hy. rewrite N' by easy. destruct (Nat.eqb_spec y (h - 1 - k)) as [->|Ne].
        * rewrite N by lia. f_equal. replace (h - 1 - k <? k)%nat with false by lia.
          replace (h - 1 - (h - 1 - k) <? S k)%nat with true by lia. lia.
        * rewrite N by lia. now replace (h - 1 - y <? S k)%nat with (h - 1 - y <? k)%nat by lia.
      + destruct (P (h - 1 - k)%nat k) as (o' & E & L' & N'); [lia..|]. exists o'. split; [easy|]. split; [easy|].
        intros x y Hx Hy. rewrite N' by easy. destruct (Nat.eqb_spec y k) as [->|Ne].
        * rewrite N by lia. f_equal. replace (h - 1 - k <? k)%nat with false by lia.
          replace (k <? S k)%nat with true by lia. lia.
        * rewrite N by lia. now replace (y <? S k)%nat with (y <? k)%nat by lia.
    - exists o. split; [exact E|]. split; [easy|]. intros x y Hx Hy. rewrite N by easy.
      destruct Hm as [-> | ->]; cbn [kept reflect].
      + destruct (Nat.ltb_spec (h - 1 - y) (h / 2)); f_equal; lia.
      + destruct (Nat.ltb_spec y (h / 2)); f_equal; lia. }
  assert (EW : forall m', m' = East \/ m' = West -> exists out, mirror m' w h l = Ok out /\ is_image w h out (reflect (kept m') w h (px w l))).
  { intros m' Hm.
    assert (EQ : mirror m' w h l = (do out <- mapM (mirror_row m') (chunks_exact w l) ; Ok (concat out ++ skipn (length (chunks_exact w l) * w) l))).
    { unfold mirror. destruct Hm as [-> | ->]; now replace (w =? 0)%nat with false by lia. }
    rewrite EQ, A, skipn_all2 by lia.
    destruct (mapM_exists (mirror_row m') (chunks_exact w l)) as (rows & E & Lr & N).
    { intros r _. destruct (mirror_row_spec m' r Hm) as (out & E & _). now exists out. }
    rewrite E. cbn [bind]. eexists. split; [reflexivity|]. rewrite app_nil_r.
    assert (RN : forall y, (y < h)%nat -> length (nth y rows []) = w /\ forall x, (x < w)%nat ->
        nth x (nth y rows []) 0 = reflect (kept m') w h (px w l) x y).
    { intros y Hy. destruct (mirror_row_spec m' (nth y (chunks_exact w l) []) Hm) as (out & E1 & L1 & N1).
      rewrite (N y [] []) in E1 by lia. injection E1 as <-. rewrite HR in * by easy. split; [easy|].
      intros x Hx. rewrite N1 by easy. destruct Hm as [-> | ->]; cbn [kept reflect]; apply (row_nth w h); lia. }
    apply is_image_rows.
    - lia.
    - apply Forall_forall. intros r Hr. apply (In_nth _ _ []) in Hr as (y & Hy & <-). apply RN. lia.
    - intros x y Hx Hy. now apply RN. }
  destruct m; [apply NS|apply NS|apply EW|apply EW]; auto.
Qed.

(** A column of samples: here the half-turn is right for every height. *)
Lemma rotate_180_narrow h l : length l = (1 * h)%nat ->
  exists out, rotate_180 1 l = Ok out /\ is_image 1 h out (fun x y => px 1 l (1 - 1 - x) (h - 1 - y)).
Proof.
  intros Hl. destruct (flip_spec 1 h l ltac:(lia) Hl) as (out & E & I). exists out. split; [|exact I].
  rewrite <- E. unfold rotate_180, flip, flip_list. cbn [Nat.eqb].
  rewrite !Nat.div_1_r. unfold for_range. apply for_loop_ext. intros k s Hk.
  cbn [Nat.sub for_loop]. replace (k * 1 + 0)%nat with k by lia.
  replace (length l / 2 + (length l - length l / 2 - 1 - k) * 1 + 0)%nat with (length l - 1 - k)%nat by lia.
  now destruct (swap_at s k (length l - 1 - k)).
Qed.
