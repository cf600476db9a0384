(** From rows of blocks to the whole image. *)
From Verif Require Import Base BaseProof Loops Slices JpegSimd JpegColorProof JpegUpsampleModel JpegUpsampleSpec JpegUpsampleProof JpegUpsampleRows.

(** A component before the first row of blocks *)
Definition fresh (d : desc) (c : comp) : Prop := exists bug, (1 <= bug)%nat /\ c = new_comp (d_ratio d) (d_w d) (d_vs d) bug.

Lemma map2_Forall2 {D A B C} (P : D -> A -> Prop) (Q : D -> C -> Prop) (f : A -> B -> C) (g : D -> B) : forall ds xs,
  (forall d x, P d x -> Q d (f x (g d))) -> Forall2 P ds xs -> Forall2 Q ds (map2 f xs (map g ds)).
Proof. intros ds xs H F. induction F; cbn [map map2]; constructor; auto. Qed.
Lemma Forall2_map_eq {D A B} (P : D -> A -> Prop) (f : A -> B) (g : D -> B) : forall ds xs,
  (forall d x, In d ds -> P d x -> f x = g d) -> Forall2 P ds xs -> map f xs = map g ds.
Proof.
  intros ds xs H F. induction F as [|d x ds xs Hp F IH]; [reflexivity|]. cbn [map]. f_equal; [apply H; [now left|exact Hp]|].
  apply IH. intros. apply H; [now right|assumption].
Qed.
Lemma Forall2_In {D A} (P : D -> A -> Prop) : forall ds xs, Forall2 P ds xs -> forall x, In x xs -> exists d, In d ds /\ P d x.
Proof.
  intros ds xs F. induction F as [|d x ds xs Hp F IH]; intros y Hy; [destruct Hy|]. destruct Hy as [<-|Hy].
  - exists d. split; [now left|exact Hp].
  - destruct (IH y Hy) as (d' & Hd & Hp'). exists d'. split; [now right|exact Hp'].
Qed.
Lemma Forall2_weaken {D A} (P Q : D -> A -> Prop) : forall ds xs, (forall d x, In d ds -> P d x -> Q d x) -> Forall2 P ds xs -> Forall2 Q ds xs.
Proof.
  intros ds xs H F. induction F as [|d x ds xs Hp F IH]; constructor; [apply H; [now left|exact Hp]|]. apply IH. intros. apply H; [now right|assumption].
Qed.
Lemma existsb_ratio (ds : list desc) : forall cs, Forall2 (fun d c => c_ratio c = d_ratio d) ds cs ->
  existsb (fun c => is_vert (c_ratio c)) cs = existsb (fun d => is_vert (d_ratio d)) ds.
Proof. intros cs F. induction F as [|d c ds cs E F IH]; [reflexivity|]. cbn [existsb]. now rewrite E, IH. Qed.

Section Image.
  Variable convert : list (list Z) -> list Z -> res (list Z).
  Variables (pw n h m : nat) (avx : bool) (ds : list desc) (orig : list Z).
  Hypothesis P0 : (0 < pw)%nat.
  Hypothesis N0 : (0 < n)%nat.
  Hypothesis Lorig : length orig = (h * n)%nat.
  Hypothesis Hh : (h <= 16 * m)%nat.
  Hypothesis LG : forall d, In d ds -> legal pw m d.
  Hypothesis VT : existsb (fun d => is_vert (d_ratio d)) ds = true.
  Let rows_at (k : nat) : list (list Z) := map (fun d => pl d k) ds.
  Hypothesis CV : forall k o, (k < h)%nat -> length o = n -> exists o', convert (rows_at k) o = Ok o' /\ length o' = n.
  Definition start_row (i : nat) : nat := if (i =? 0)%nat then 0%nat else Nat.min h (16 * i - 2).
  Lemma start_row_le i : (start_row i <= h)%nat.
  Proof. unfold start_row. destruct (i =? 0)%nat; lia. Qed.
  Lemma post_step i cs px : (i < m)%nat -> Forall2 (inv pw i) ds cs -> done convert n h rows_at orig (start_row i) px ->
    exists cs' px' R, post_process convert pw n avx pw 2 m i (map2 set_raw cs (map (fun d => part_of d i) ds)) px (start_row i * n) = Ok (cs', px', (R * n)%nat) /\
      done convert n h rows_at orig R px' /\ ((i < m - 1)%nat -> Forall2 (inv pw (i + 1)) ds cs' /\ R = start_row (i + 1)) /\ (i = (m - 1)%nat -> R = h).
  Proof.
    intros Hi F HD. unfold post_process.
    assert (VE : existsb (fun c => is_vert (c_ratio c)) (map2 set_raw cs (map (fun d => part_of d i) ds)) = true).
    { rewrite <- VT. apply existsb_ratio. apply (map2_Forall2 (inv pw i)); [|exact F]. intros d c (E & _). exact E. }
    rewrite VE. clear VE.
    destruct (mapM_Forall2 (fun d x => exists c, x = set_raw c (part_of d i) /\ inv pw i d c) (upped pw m i) (upsample avx pw m i true)
      ds (map2 set_raw cs (map (fun d => part_of d i) ds))) as (us & -> & FU).
    { intros d x Hd (c & -> & Hc). apply upsample_any; [exact P0|now apply LG|exact Hi|exact Hc]. }
    { apply (map2_Forall2 (inv pw i)); [|exact F]. intros d c Hc. eauto. }
    cbn [bind].
    assert (X1 : exists px1, (if (0 <? i)%nat then conv_rows convert pw n 2 0 (map first_dest us) px (start_row i * n) else Ok (px, (start_row i * n)%nat)) =
      Ok (px1, (Nat.min h (16 * i) * n)%nat) /\ done convert n h rows_at orig (Nat.min h (16 * i)) px1).
    { destruct (Nat.ltb_spec 0 i) as [H0|H0].
      - destruct (conv_rows_done convert pw n h rows_at orig Lorig CV (map first_dest us) N0 2 0 (start_row i) px) as (px1 & E & D1).
        + apply start_row_le.
        + exact HD.
        + intros s Hs. apply in_map_iff in Hs. destruct Hs as (c & <- & Hc). destruct (Forall2_In _ _ _ FU c Hc) as (d & _ & U).
          destruct U as (_ & _ & _ & -> & _). lia.
        + intros t Ht Hr. rewrite map_map. unfold rows_at. eapply Forall2_map_eq; [|exact FU]. intros d c Hd U. cbv beta.
          destruct U as (_ & _ & _ & Lf & _ & PF & _). rewrite (PF H0). unfold start_row in *. replace (i =? 0)%nat with false in * by lia.
          rewrite slice_two by (first [exact Ht|apply (pl_ok pw m d (LG d Hd) P0); lia]).
          cbn [Nat.add]. destruct t as [|[|t]]; [f_equal; lia|f_equal; lia|lia].
        + assert (E2 : Nat.min h (start_row i + 2) = Nat.min h (16 * i)) by (unfold start_row; replace (i =? 0)%nat with false by lia; lia).
          rewrite E2 in *. exists px1. split; [exact E|exact D1].
      - exists px. assert (i = 0)%nat by lia. subst i. unfold start_row in *. cbn [Nat.eqb Nat.mul] in *. rewrite Nat.min_0_r. split; [reflexivity|exact HD]. }
    destruct X1 as (px1 & -> & D1). cbn [bind].
    destruct (mapM_Forall2 (upped pw m i) (fun d c' => exists c, upped pw m i d c /\ samples_of c' = samples_of c /\ ((i < m - 1)%nat -> inv pw (i + 1) d c')) keep_last
      ds us) as (ks & -> & FK).
    { intros d c Hd U. destruct (keep_any pw m P0 i d c (LG d Hd) Hi U) as (c' & E & S' & I'). exists c'. split; [exact E|]. exists c. auto. }
    { exact FU. }
    cbn [bind andb].
    change (map (fun c => if is_none (c_ratio c) then raw c else dest c) ks) with (map samples_of ks).
    replace ((8 - (if negb (i =? m - 1)%nat then 1 else 0)) * 2)%nat with (count m i) by (unfold count; destruct (i =? m - 1)%nat; reflexivity).
    destruct (conv_rows_done convert pw n h rows_at orig Lorig CV (map samples_of ks) N0 (count m i) 0 (Nat.min h (16 * i)) px1) as (px2 & -> & D2).
    + lia.
    + exact D1.
    + intros s Hs. apply in_map_iff in Hs. destruct Hs as (c' & <- & Hc). destruct (Forall2_In _ _ _ FK c' Hc) as (d & _ & c & U & -> & _).
      destruct U as (_ & _ & _ & _ & _ & _ & Ls & _). apply Nat.le_trans with (2 := Ls). apply Nat.mul_le_mono_r. unfold count. destruct (i =? m - 1)%nat; lia.
    + intros t Ht Hr. rewrite map_map. unfold rows_at. eapply Forall2_map_eq; [|exact FK]. intros d c' Hd U. cbv beta in U |- *.
      destruct U as (c & U & -> & _). destruct U as (_ & _ & _ & _ & _ & _ & _ & T & _). cbn [Nat.add]. rewrite (T t Ht). f_equal. lia.
    + cbn [bind]. exists ks, px2, (Nat.min h (Nat.min h (16 * i) + count m i)). split; [reflexivity|]. split; [exact D2|]. split.
      * intros Hl. split; [eapply Forall2_weaken; [|exact FK]; intros d c' _ (c & _ & _ & I'); now apply I'|].
        unfold start_row, count. replace (i =? m - 1)%nat with false by lia. replace (i + 1 =? 0)%nat with false by lia. lia.
      * intros ->. unfold count. rewrite Nat.eqb_refl. lia.
  Qed.
  Lemma image_step : forall k i cs px, (i + k = m)%nat -> (0 < m)%nat -> (k <> 0%nat -> Forall2 (inv pw i) ds cs /\ done convert n h rows_at orig (start_row i) px) ->
    (k = 0%nat -> done convert n h rows_at orig h px) -> forall pos, (k <> 0%nat -> pos = (start_row i * n)%nat) ->
    exists out, image_rows convert pw n avx pw 2 m i (map (fun i => map (fun d => part_of d i) ds) (seq i k)) cs px pos = Ok out /\
      done convert n h rows_at orig h out.
  Proof.
    induction k as [|k IH]; intros i cs px Hk Hm H1 H2 pos Hp; cbn [seq map image_rows]; [exists px; auto|].
    destruct H1 as (F & HD); [discriminate|]. rewrite Hp by discriminate.
    destruct (post_step i cs px ltac:(lia) F HD) as (cs' & px' & R & -> & HD' & HN & HL). cbn [bind].
    replace (i + 1)%nat with (S i) in * by lia. apply IH; [lia|exact Hm|..].
    - intros Hk0. destruct HN as (F' & ->); [lia|]. auto.
    - intros ->. rewrite HL in HD' by lia. exact HD'.
    - intros Hk0. destruct HN as (_ & ->); [lia|reflexivity].
  Qed.
  Lemma fresh_inv d c : legal pw m d -> fresh d c -> inv pw 0 d c.
  Proof.
    intros L (bug & Hb & ->). unfold inv, new_comp. cbn [c_ratio c_w c_vs raw row row_up first_dest dest]. do 3 (split; [reflexivity|]).
    rewrite repeat_length. destruct (is_vert (d_ratio d)) eqn:E.
    - pose proof (vs1 d E) as Hv. pose proof (sb_pw pw m d L P0 E) as Hsb. rewrite !repeat_length, Hv.
      split; [lia|]. split; [rewrite Hsb; clear -Hb; nia|]. split; [lia|]. split; [lia|]. lia.
    - destruct L as (_ & _ & H). unfold d_vs. destruct (d_ratio d); try discriminate E; try contradiction. cbn [sample_of]. split; lia.
  Qed.
  Lemma image_vertical cs : (0 < m)%nat -> Forall2 fresh ds cs ->
    exists out, image_rows convert pw n avx pw 2 m 0 (map (fun i => map (fun d => part_of d i) ds) (seq 0 m)) cs orig 0 = Ok out /\
      length out = (h * n)%nat /\
      forall r, (r < h)%nat -> convert (rows_at r) (slice orig (r * n) n) = Ok (slice out (r * n) n).
  Proof.
    intros Hm F. destruct (image_step m 0 cs orig) with (pos := 0%nat) as (out & E & Lo & _ & HG).
    - lia.
    - exact Hm.
    - intros _. split; [eapply Forall2_weaken; [|exact F]; intros d c Hd; apply fresh_inv, LG, Hd|].
      unfold start_row. cbn [Nat.eqb]. split; [exact Lorig|]. split; [reflexivity|lia].
    - lia.
    - reflexivity.
    - exists out. split; [exact E|]. split; [exact Lo|]. intros r Hr. now apply HG.
  Qed.
End Image.

(** ** Images without vertical upsampling *)

Lemma put_row pw (F : nat -> list Z) T (l xs : list Z) : (forall t, (t < T)%nat -> slice l (t * pw) pw = F t) -> xs = F T -> length xs = pw ->
  ((T + 1) * pw <= length l)%nat ->
  put_slice l (T * pw) xs = Ok (put l (T * pw) xs) /\ length (put l (T * pw) xs) = length l /\
  forall t, (t < T + 1)%nat -> slice (put l (T * pw) xs) (t * pw) pw = F t.
Proof.
  intros H E Lx HL. assert (B : (T * pw + length xs <= length l)%nat) by (rewrite Lx; replace (T * pw + pw)%nat with ((T + 1) * pw)%nat by ring; exact HL).
  split; [now apply put_slice_ok|]. split; [now apply put_length|]. intros t Ht. destruct (Nat.eq_dec t T) as [->|Ne].
  - replace (T * pw)%nat with (T * pw + 0)%nat at 2 by lia. rewrite slice_put_in by lia. rewrite slice_all by exact Lx. exact E.
  - rewrite slice_put_before; [apply H; lia| |lia]. replace (t * pw + pw)%nat with ((t + 1) * pw)%nat by ring. apply Nat.mul_le_mono_r. lia.
Qed.
Lemma fill_chunks_all h : (0 < h)%nat -> forall xs out, length out = (length xs * h)%nat -> fill_chunks h xs out = flat_map (fun x => repeat x h) xs.
Proof.
  intros Hh. induction xs as [|x xs IH]; intros out L; cbn [fill_chunks flat_map length Nat.mul] in *.
  - destruct out; [reflexivity|discriminate L].
  - replace (h <=? length out)%nat with true by lia. rewrite IH; [reflexivity|]. rewrite skipn_length. lia.
Qed.
Lemma spread_length h (xs : list Z) : length (flat_map (fun x => repeat x h) xs) = (length xs * h)%nat.
Proof. induction xs as [|x xs IH]; [reflexivity|]. cbn [flat_map length Nat.mul]. rewrite app_length, repeat_length, IH. reflexivity. Qed.
Lemma generic_value h xs out : (0 < h)%nat -> (0 < length xs)%nat -> length out = (length xs * h)%nat ->
  generic xs out = Ok (flat_map (fun x => repeat x h) xs).
Proof.
  intros Hh Hx L. unfold generic. replace (length xs =? 0)%nat with false by lia. rewrite L, Nat.mul_comm, Nat.div_mul by lia.
  replace (0 <? h)%nat with true by lia. rewrite fill_chunks_all by (first [assumption|lia]). reflexivity.
Qed.
Lemma nth_repeated {A} (f : list Z -> A) d0 v : (0 < v)%nat -> forall rows k j, (k < length rows)%nat -> (j < v)%nat ->
  nth (k * v + j) (flat_map (fun row => repeat (f row) v) rows) d0 = f (nth k rows []).
Proof.
  intros Hv. induction rows as [|r rows IH]; intros k j Hk Hj; cbn [length] in Hk; [lia|]. cbn [flat_map]. destruct k as [|k].
  - cbn [Nat.mul Nat.add nth]. rewrite app_nth1 by (rewrite repeat_length; exact Hj).
    clear -Hj. revert j Hj. induction v as [|v IHv]; intros j Hj; [lia|]. destruct j as [|j]; cbn [repeat nth]; [reflexivity|apply IHv; lia].
  - rewrite app_nth2 by (rewrite repeat_length; cbn [Nat.mul]; lia). rewrite repeat_length.
    replace (S k * v + j - v)%nat with (k * v + j)%nat by (cbn [Nat.mul]; lia). cbn [nth]. apply IH; lia.
Qed.

Section Flat.
  Variables (pw m vm : nat) (avx : bool).
  Hypothesis P0 : (0 < pw)%nat.
  Hypothesis V0 : (0 < vm)%nat.
  Definition f_vs (d : desc) : nat := match d_ratio d with RGen _ _ => 1 | _ => vm end.
  Definition f_mcu (d : desc) : nat := (8 * f_vs d * d_w d)%nat.
  Definition f_part (d : desc) (i : nat) : list Z := slice (d_all d) (i * f_mcu d) (f_mcu d).
  Definition legal_flat (d : desc) : Prop :=
    Forall sample (d_all d) /\ length (d_all d) = (m * f_mcu d)%nat /\
    match d_ratio d with
    | RNone => d_w d = pw
    | RH => (2 * d_w d)%nat = pw /\ (2 < d_w d)%nat
    | RGen h v => (d_w d * h)%nat = pw /\ v = vm
    | _ => False
    end.
  Definition f_fresh (d : desc) (c : comp) : Prop := exists bug, (1 <= bug)%nat /\ c = new_comp (d_ratio d) (d_w d) (f_vs d) bug.
  Definition finv (d : desc) (c : comp) : Prop :=
    c_ratio c = d_ratio d /\ c_w c = d_w d /\
    match d_ratio d with RGen _ _ => (8 * vm * pw <= length (dest c))%nat | _ => True end.
  Definition fupped (i : nat) (d : desc) (c : comp) : Prop :=
    finv d c /\ (8 * vm * pw <= length (samples_of c))%nat /\
    forall t, (t < 8 * vm)%nat -> slice (samples_of c) (t * pw) pw = pl d (8 * vm * i + t).

  Section One.
    Variable d : desc.
    Hypothesis L : legal_flat d.
    Let w := d_w d.
    Lemma fw_pos : (0 < w)%nat.
    Proof. destruct L as (_ & _ & H). unfold w. destruct (d_ratio d); try contradiction; try lia. Qed.
    Lemma f_rows : (length (d_all d) / w = 8 * f_vs d * m)%nat.
    Proof.
      destruct L as (_ & -> & _). unfold f_mcu. fold w. pose proof fw_pos.
      replace (m * (8 * f_vs d * w))%nat with (8 * f_vs d * m * w)%nat by ring. apply Nat.div_mul. lia.
    Qed.
    Lemma f_crow_ok g : (g < 8 * f_vs d * m)%nat -> row_ok w (crow d g).
    Proof.
      intros H. split; [|apply slice_sample, L]. apply slice_length. destruct L as (_ & -> & _). unfold f_mcu. fold w.
      replace (m * (8 * f_vs d * w))%nat with (8 * f_vs d * m * w)%nat by ring.
      replace (g * w + w)%nat with ((g + 1) * w)%nat by ring. apply Nat.mul_le_mono_r. lia.
    Qed.
    Lemma f_part_row i p : (p < 8 * f_vs d)%nat -> slice (f_part d i) (p * w) w = crow d (8 * f_vs d * i + p).
    Proof.
      intros H. unfold f_part, crow, f_mcu. fold w. rewrite slice_slice.
      - f_equal. ring.
      - replace (p * w + w)%nat with ((p + 1) * w)%nat by ring. apply Nat.mul_le_mono_r. lia.
    Qed.
    Lemma f_part_length i : (i < m)%nat -> length (f_part d i) = (8 * f_vs d * w)%nat.
    Proof.
      intros H. unfold f_part. change (8 * f_vs d * w)%nat with (f_mcu d). apply slice_length. destruct L as (_ & -> & _). replace (i * f_mcu d + f_mcu d)%nat with ((i + 1) * f_mcu d)%nat by ring.
      apply Nat.mul_le_mono_r. lia.
    Qed.
    Lemma f_rows_nth g : (g < 8 * f_vs d * m)%nat -> nth g (rows_of w (d_all d)) [] = crow d g.
    Proof.
      intros H. unfold rows_of. rewrite f_rows. rewrite (map_nth_in _ _ _ 0%nat) by (now rewrite seq_length). now rewrite seq_nth.
    Qed.
    Lemma f_rows_count : length (rows_of w (d_all d)) = (8 * f_vs d * m)%nat.
    Proof. unfold rows_of. now rewrite map_length, seq_length, f_rows. Qed.
    Lemma f_pl_none k : d_ratio d = RNone -> (k < 8 * vm * m)%nat -> pl d k = crow d k.
    Proof. intros E H. unfold pl. rewrite E. cbn [plane]. apply f_rows_nth. unfold f_vs. now rewrite E. Qed.
    Lemma f_pl_h k : d_ratio d = RH -> (k < 8 * vm * m)%nat -> pl d k = wide (crow d k).
    Proof.
      intros E H. assert (Hv : f_vs d = vm) by (unfold f_vs; now rewrite E). unfold pl. rewrite E. cbn [plane]. fold w.
      rewrite (map_nth_in _ _ _ []) by (rewrite f_rows_count, Hv; exact H). f_equal. apply f_rows_nth. now rewrite Hv.
    Qed.
    Lemma f_pl_gen a b k j : d_ratio d = RGen a b -> (k < 8 * m)%nat -> (j < vm)%nat -> pl d (k * vm + j) = flat_map (fun x => repeat x a) (crow d k).
    Proof.
      intros E H Hj. assert (Hv : f_vs d = 1%nat) by (unfold f_vs; now rewrite E).
      assert (Hb : b = vm) by (destruct L as (_ & _ & Q); rewrite E in Q; now destruct Q). subst b.
      unfold pl. rewrite E. cbn [plane]. fold w. rewrite (nth_repeated (flat_map (fun x => repeat x a))) by (first [assumption|rewrite f_rows_count, Hv; lia]).
      f_equal. apply f_rows_nth. rewrite Hv. lia.
    Qed.
    Lemma f_pl_ok k : (k < 8 * vm * m)%nat -> row_ok pw (pl d k).
    Proof.
      intros H. pose proof L as (S0 & _ & Hr). destruct (d_ratio d) eqn:E; try contradiction.
      - rewrite f_pl_h by assumption. assert (A : row_ok w (crow d k)) by (apply f_crow_ok; unfold f_vs; rewrite E; lia). destruct A as [LA SA].
        split; [rewrite wide_length, LA; unfold w; lia|now apply wide_sample].
      - destruct Hr as [Hr Hv]. assert (Q : exists k' j, (k = k' * vm + j /\ j < vm /\ k' < 8 * m)%nat).
        { exists (k / vm)%nat, (k mod vm)%nat. pose proof (Nat.div_mod k vm ltac:(lia)). pose proof (Nat.mod_upper_bound k vm ltac:(lia)).
          split; [lia|]. split; [lia|]. apply Nat.div_lt_upper_bound; lia. }
        destruct Q as (k' & j & -> & Hj & Hk'). rewrite (f_pl_gen h v) by assumption.
        assert (A : row_ok w (crow d k')) by (apply f_crow_ok; unfold f_vs; rewrite E; lia). destruct A as [LA SA]. split; [rewrite spread_length, LA; unfold w; lia|].
        apply Forall_forall. intros x Hx. apply in_flat_map in Hx. destruct Hx as (y & Hy & Hx). apply repeat_spec in Hx. subst x.
        exact (proj1 (Forall_forall _ _) SA y Hy).
      - rewrite f_pl_none by assumption. rewrite <- Hr. apply f_crow_ok. unfold f_vs. rewrite E. lia.
    Qed.
    Lemma f_get i p : (i < m)%nat -> (p < 8 * f_vs d)%nat -> get_slice (f_part d i) (p * w) w = Ok (crow d (8 * f_vs d * i + p)).
    Proof.
      intros Hi Hp. rewrite get_slice_ok; [now rewrite f_part_row|]. rewrite f_part_length by exact Hi.
      replace (p * w + w)%nat with ((p + 1) * w)%nat by ring. apply Nat.mul_le_mono_r. lia.
    Qed.
    Lemma f_row_in i p : (i < m)%nat -> (p < 8 * f_vs d)%nat -> (8 * f_vs d * i + p < 8 * f_vs d * m)%nat.
    Proof. intros Hi Hp. assert ((8 * f_vs d) * (i + 1) <= 8 * f_vs d * m)%nat by (apply Nat.mul_le_mono_l; lia). lia. Qed.
    Lemma upsample_flat sc mh i c : (i < m)%nat -> finv d c ->
      exists c', upsample avx sc mh i false (set_raw c (f_part d i)) = Ok c' /\ fupped i d c'.
    Proof.
      intros Hi (Er & Ew & HD). pose proof fw_pos as Hw. pose proof L as (S0 & _ & Hr). pose proof (f_part_length i Hi) as Lp.
      unfold upsample, set_raw. cbn [c_ratio c_w c_vs raw row row_up first_dest dest]. rewrite Er, Ew. fold w.
      unfold fupped, finv, samples_of. destruct (d_ratio d) eqn:E; try contradiction.
      - (* H *)
        assert (Hv : f_vs d = vm) by (unfold f_vs; now rewrite E). rewrite Hv in Lp.
        set (o0 := resize (dest c) (length (f_part d i) * 2) 0).
        assert (L0 : length o0 = (8 * vm * pw)%nat) by (unfold o0; rewrite resize_length, Lp; destruct Hr as [<- _]; fold w; lia).
        assert (EK : Nat.min (length (f_part d i) / w) (length o0 / (w * 2)) = (8 * vm)%nat).
        { rewrite L0, Lp. destruct Hr as [<- _]. fold w. rewrite Nat.div_mul by lia.
          replace (8 * vm * (2 * w))%nat with (8 * vm * (w * 2))%nat by lia. rewrite Nat.div_mul by lia. lia. }
        cbn [bind]. rewrite EK. destruct (for_range_inv (fun k o => length o = (8 * vm * pw)%nat /\ forall t, (t < k)%nat -> slice o (t * pw) pw = pl d (8 * vm * i + t)) 0 (8 * vm)
          (fun k d0 => do x <- get_slice (f_part d i) (k * w) w ; do o <- get_slice d0 (k * (w * 2)) (w * 2) ;
                            do u <- up_sampler avx RH x [] [] 0 o ; put_slice d0 (k * (w * 2)) u) o0) as (o & -> & Lo & To).
        { lia. }
        { split; [exact L0|lia]. }
        { intros k o Hk (Lo & To). rewrite f_get by (rewrite ?Hv; lia). cbn [bind]. rewrite Hv.
          replace (w * 2)%nat with pw by (destruct Hr as [<- _]; fold w; lia).
          assert (HB : ((k + 1) * pw <= length o)%nat) by (rewrite Lo; apply Nat.mul_le_mono_r; lia).
          rewrite get_slice_ok by (replace (k * pw + pw)%nat with ((k + 1) * pw)%nat by ring; exact HB). cbn [bind].
          assert (A : row_ok w (crow d (8 * vm * i + k))).
          { apply f_crow_ok. rewrite <- Hv. apply f_row_in; [exact Hi|rewrite Hv; lia]. } destruct A as [LA SA].
          assert (EU : up_sampler avx RH (crow d (8 * vm * i + k)) [] [] 0 (slice o (k * pw) pw) = Ok (wide (crow d (8 * vm * i + k)))).
          { cbn [up_sampler]. assert (Ls : length (slice o (k * pw) pw) = (2 * length (crow d (8 * vm * i + k)))%nat).
            { rewrite slice_length by (replace (k * pw + pw)%nat with ((k + 1) * pw)%nat by ring; exact HB). rewrite LA. destruct Hr as [<- _]. reflexivity. }
            destruct Hr as [_ Hw2]. fold w in Hw2. destruct avx; [apply horizontal_avx2_wide|apply horizontal_wide]; first [assumption|rewrite LA; exact Hw2]. }
          rewrite EU. cbn [bind].
          destruct (put_row pw (fun t => pl d (8 * vm * i + t)) k o (wide (crow d (8 * vm * i + k)))) as (-> & Lq & Tq).
          - exact To.
          - symmetry. apply f_pl_h; [exact E|]. rewrite <- Hv. apply f_row_in; [exact Hi|rewrite Hv; lia].
          - rewrite wide_length, LA. destruct Hr as [<- _]. reflexivity.
          - exact HB.
          - eexists. split; [reflexivity|]. split; [now rewrite Lq|]. now replace (S k) with (k + 1)%nat by lia. }
        cbn [bind]. eexists. split; [reflexivity|]. cbn [c_ratio c_w raw dest is_none]. split; [auto|]. split; [lia|exact To].
      - (* unusual factors *)
        destruct Hr as [Hr ->]. assert (Hv : f_vs d = 1%nat) by (unfold f_vs; now rewrite E). rewrite Hv in Lp.
        assert (EK : Nat.min (length (f_part d i) / w) (length (dest c) / (w * h * vm)) = 8%nat).
        { rewrite Lp. rewrite Nat.div_mul by lia. fold w in Hr. rewrite Hr. apply Nat.min_l. apply Nat.div_le_lower_bound; lia. }
        rewrite EK.
        assert (Hh : (0 < h)%nat) by (destruct h; lia).
        destruct (for_range_inv (fun k o => length o = length (dest c) /\ forall t, (t < k * vm)%nat -> slice o (t * pw) pw = pl d (8 * vm * i + t)) 0 8
          (fun k d0 => do x <- get_slice (f_part d i) (k * w) w ;
                   for_range 0 vm (fun j d0 => do o <- get_slice d0 (k * (w * h * vm) + j * (w * h)) (w * h) ;
                                             do u <- generic x o ; put_slice d0 (k * (w * h * vm) + j * (w * h)) u) d0) (dest c)) as (o & -> & Lo & To).
        { lia. }
        { split; [reflexivity|lia]. }
        { intros k o (_ & Hk) (Lo & To). rewrite f_get by (rewrite ?Hv; lia). cbn [bind]. rewrite Hv.
          assert (A : row_ok w (crow d (8 * 1 * i + k))) by (apply f_crow_ok; rewrite Hv; lia). destruct A as [LA SA].
          destruct (for_range_inv (fun j o => length o = length (dest c) /\ forall t, (t < k * vm + j)%nat -> slice o (t * pw) pw = pl d (8 * vm * i + t)) 0 vm
             (fun j d0 => do o <- get_slice d0 (k * (w * h * vm) + j * (w * h)) (w * h) ;
                                             do u <- generic (crow d (8 * 1 * i + k)) o ; put_slice d0 (k * (w * h * vm) + j * (w * h)) u) o) as (o' & E' & Lo' & To').
          - lia.
          - split; [exact Lo|]. intros t Ht. apply To. lia.
          - intros j o1 (_ & Hj) (Lo1 & To1). fold w in Hr. rewrite Hr.
            replace (k * (pw * vm) + j * pw)%nat with ((k * vm + j) * pw)%nat by ring.
            assert (HT : (k * vm + j + 1 <= 8 * vm)%nat).
            { assert ((k + 1) * vm <= 8 * vm)%nat by (apply Nat.mul_le_mono_r; lia). lia. }
            assert (HB : ((k * vm + j + 1) * pw <= length o1)%nat).
            { rewrite Lo1. apply Nat.le_trans with (2 := HD). apply Nat.mul_le_mono_r. exact HT. }
            rewrite get_slice_ok by (replace ((k * vm + j) * pw + pw)%nat with ((k * vm + j + 1) * pw)%nat by ring; exact HB). cbn [bind].
            rewrite (generic_value h) by (first [exact Hh|rewrite LA; exact Hw|rewrite slice_length, LA, Hr by (replace ((k * vm + j) * pw + pw)%nat with ((k * vm + j + 1) * pw)%nat by ring; exact HB); reflexivity]).
            cbn [bind].
            destruct (put_row pw (fun t => pl d (8 * vm * i + t)) (k * vm + j) o1 (flat_map (fun x => repeat x h) (crow d (8 * 1 * i + k)))) as (-> & Lq & Tq).
            + exact To1.
            + replace (8 * vm * i + (k * vm + j))%nat with ((8 * 1 * i + k) * vm + j)%nat by ring. symmetry. apply (f_pl_gen h vm); [exact E|lia|exact Hj].
            + rewrite spread_length, LA. exact Hr.
            + exact HB.
            + eexists. split; [reflexivity|]. split; [now rewrite Lq|]. now replace (k * vm + S j)%nat with (k * vm + j + 1)%nat by lia.
          - exists o'. split; [exact E'|]. split; [exact Lo'|]. now replace (S k * vm)%nat with (k * vm + vm)%nat by (cbn [Nat.mul]; lia). }
        cbn [bind]. eexists. split; [reflexivity|]. cbn [c_ratio c_w raw dest is_none].
        split; [split; [reflexivity|]; split; [reflexivity|]; rewrite Lo; exact HD|]. split; [rewrite Lo; exact HD|]. exact To.
      - eexists. split; [reflexivity|]. cbn [c_ratio c_w raw dest]. cbn [is_none].
        assert (Hv : f_vs d = vm) by (unfold f_vs; now rewrite E). rewrite Hv in Lp. fold w in Hr.
        split; [auto|]. split; [rewrite Lp, Hr; lia|]. intros t Ht. rewrite <- Hr. rewrite f_part_row by (rewrite Hv; lia). rewrite Hv.
        symmetry. apply f_pl_none; [exact E|]. rewrite <- Hv. apply f_row_in; [exact Hi|rewrite Hv; lia].
    Qed.
  End One.
End Flat.

Section FlatImage.
  Variable convert : list (list Z) -> list Z -> res (list Z).
  Variables (pw n h m vm sc : nat) (avx : bool) (ds : list desc) (orig : list Z).
  Hypothesis P0 : (0 < pw)%nat.
  Hypothesis V0 : (0 < vm)%nat.
  Hypothesis N0 : (0 < n)%nat.
  Hypothesis Lorig : length orig = (h * n)%nat.
  Hypothesis Hh : (h <= 8 * vm * m)%nat.
  Hypothesis LG : forall d, In d ds -> legal_flat pw m vm d.
  Let rows_at (k : nat) : list (list Z) := map (fun d => pl d k) ds.
  Hypothesis CV : forall k o, (k < h)%nat -> length o = n -> exists o', convert (rows_at k) o = Ok o' /\ length o' = n.
  Lemma flat_no_vert : existsb (fun d => is_vert (d_ratio d)) ds = false.
  Proof.
    clear CV. induction ds as [|d l IH]; [reflexivity|]. cbn [existsb]. rewrite IH by (intros; apply LG; now right).
    destruct (LG d (or_introl eq_refl)) as (_ & _ & H). destruct (d_ratio d); try contradiction; reflexivity.
  Qed.
  Lemma flat_step i cs px : (i < m)%nat -> Forall2 (finv pw vm) ds cs -> done convert n h rows_at orig (Nat.min h (8 * vm * i)) px ->
    exists cs' px', post_process convert pw n avx sc vm m i (map2 set_raw cs (map (fun d => f_part vm d i) ds)) px (Nat.min h (8 * vm * i) * n) =
        Ok (cs', px', (Nat.min h (8 * vm * (i + 1)) * n)%nat) /\
      done convert n h rows_at orig (Nat.min h (8 * vm * (i + 1))) px' /\ Forall2 (finv pw vm) ds cs'.
  Proof.
    intros Hi F HD. unfold post_process.
    assert (VE : existsb (fun c => is_vert (c_ratio c)) (map2 set_raw cs (map (fun d => f_part vm d i) ds)) = false).
    { rewrite <- flat_no_vert. apply existsb_ratio. apply (map2_Forall2 (finv pw vm)); [|exact F]. intros d c (E & _). exact E. }
    rewrite VE. clear VE.
    destruct (mapM_Forall2 (fun d x => exists c, x = set_raw c (f_part vm d i) /\ finv pw vm d c) (fupped pw vm i) (upsample avx sc m i false)
      ds (map2 set_raw cs (map (fun d => f_part vm d i) ds))) as (us & -> & FU).
    { intros d x Hd (c & -> & Hc). apply (upsample_flat pw m vm avx P0 V0 d (LG d Hd)); [exact Hi|exact Hc]. }
    { apply (map2_Forall2 (finv pw vm)); [|exact F]. intros d c Hc. eauto. }
    cbn [bind andb]. rewrite Nat.sub_0_r. change (map (fun c => if is_none (c_ratio c) then raw c else dest c) us) with (map samples_of us).
    destruct (conv_rows_done convert pw n h rows_at orig Lorig CV (map samples_of us) N0 (8 * vm) 0 (Nat.min h (8 * vm * i)) px) as (px2 & -> & D2).
    + lia.
    + exact HD.
    + intros s Hs. apply in_map_iff in Hs. destruct Hs as (c & <- & Hc). destruct (Forall2_In _ _ _ FU c Hc) as (d & _ & U).
      destruct U as (_ & Ls & _). exact Ls.
    + intros t Ht Hr. rewrite map_map. unfold rows_at. eapply Forall2_map_eq; [|exact FU]. intros d c Hd U. cbv beta.
      destruct U as (_ & _ & T). cbn [Nat.add]. rewrite (T t Ht). f_equal. lia.
    + cbn [bind]. assert (E : Nat.min h (Nat.min h (8 * vm * i) + 8 * vm) = Nat.min h (8 * vm * (i + 1))) by lia. rewrite E in *.
      exists us, px2. split; [reflexivity|]. split; [exact D2|]. eapply Forall2_weaken; [|exact FU]. intros d c _ U. apply U.
  Qed.
  Lemma flat_steps : forall k i cs px, (i + k = m)%nat -> Forall2 (finv pw vm) ds cs -> done convert n h rows_at orig (Nat.min h (8 * vm * i)) px ->
    exists out, image_rows convert pw n avx sc vm m i (map (fun i => map (fun d => f_part vm d i) ds) (seq i k)) cs px (Nat.min h (8 * vm * i) * n) = Ok out /\
      done convert n h rows_at orig h out.
  Proof.
    induction k as [|k IH]; intros i cs px Hk F HD; cbn [seq map image_rows].
    - exists px. split; [reflexivity|]. replace (Nat.min h (8 * vm * i)) with h in HD by (replace i with m by lia; lia). exact HD.
    - destruct (flat_step i cs px ltac:(lia) F HD) as (cs' & px' & -> & HD' & F'). cbn [bind].
      replace (i + 1)%nat with (S i) in * by lia. apply IH; [lia|exact F'|exact HD'].
  Qed.
  Lemma image_flat cs : Forall2 (f_fresh vm) ds cs ->
    exists out, image_rows convert pw n avx sc vm m 0 (map (fun i => map (fun d => f_part vm d i) ds) (seq 0 m)) cs orig 0 = Ok out /\
      length out = (h * n)%nat /\
      forall r, (r < h)%nat -> convert (rows_at r) (slice orig (r * n) n) = Ok (slice out (r * n) n).
  Proof.
    intros F. destruct (flat_steps m 0 cs orig) as (out & E & Lo & _ & HG).
    - lia.
    - eapply Forall2_weaken; [|exact F]. intros d c Hd (bug & Hb & ->). unfold finv, new_comp. cbn [c_ratio c_w dest].
      split; [reflexivity|]. split; [reflexivity|]. pose proof (LG d Hd) as (_ & _ & Q). destruct (d_ratio d); try exact I.
      destruct Q as [Q ->]. cbn [sample_of]. rewrite repeat_length. rewrite Nat.mul_assoc, Q. clear -Hb. nia.
    - rewrite Nat.mul_0_r, Nat.min_0_r. split; [exact Lorig|]. split; [reflexivity|lia].
    - rewrite Nat.mul_0_r, Nat.min_0_r in E. cbn [Nat.mul] in E. exists out. split; [exact E|]. split; [exact Lo|]. intros r Hr. now apply HG.
  Qed.
End FlatImage.
