(** Proofs about upsampling over the rows of blocks of an image. *)
From Verif Require Import Base BaseProof Loops Slices JpegSimd JpegColorProof JpegUpsampleModel JpegUpsampleSpec JpegUpsampleProof.

Definition widen (r : ratio) (l : list Z) : list Z := match r with RHV => wide l | _ => l end.
Definition row_ok (w : nat) (l : list Z) : Prop := length l = w /\ Forall sample l.

Lemma hv_value v h a near far out w :
  (forall x y z o, row_ok w x -> row_ok w y -> row_ok w z -> length o = (2 * w)%nat -> v x y z o = Ok (mix x y ++ mix x z)) ->
  (forall x o, row_ok w x -> length o = (2 * w)%nat -> h x o = Ok (wide x)) ->
  row_ok w a -> row_ok w near -> row_ok w far -> length out = (4 * w)%nat ->
  hv_with v h a near far (2 * w) out = Ok (wide (mix a near) ++ wide (mix a far)).
Proof.
  intros Hv Hh Ha Hn Hf Lo. pose proof (proj1 Ha) as La. pose proof (proj1 Hn) as Ln. pose proof (proj1 Hf) as Lf. unfold hv_with. rewrite La, Lo.
  replace (w * 4 =? 4 * w)%nat with true by lia. replace (w * 2 =? 2 * w)%nat with true by lia. cbn [andb negb].
  rewrite Hv by (first [assumption|apply repeat_length]). cbn [bind].
  rewrite app_length, !mix_length, La. replace ((w + w) / 2)%nat with w by (symmetry; rewrite <- (half_even w); f_equal; lia).
  replace (4 * w / 2)%nat with (2 * w)%nat by (symmetry; rewrite <- (half_even (2 * w)); f_equal; lia).
  rewrite firstn_app_exact, skipn_app_exact by (now rewrite mix_length).
  rewrite !Hh; [reflexivity|..]; try (rewrite ?firstn_length, ?skipn_length, Lo; lia);
    (split; [now rewrite mix_length|apply mix_sample; [apply Ha|first [apply Hn|apply Hf]|lia]]).
Qed.
(** [w]: width of a row of the component; for HV a row of four samples at least *)
Lemma up_value avx r a near far w sc d : is_vert r = true -> (r = RHV -> sc = 2 * w /\ 2 < w)%nat ->
  row_ok w a -> row_ok w near -> row_ok w far -> length d = (w * sample_of r)%nat ->
  up_sampler avx r a near far sc d = Ok (widen r (mix a near) ++ widen r (mix a far)).
Proof.
  intros Hr Hw Ha Hn Hf Ld. pose proof (proj1 Ha) as La. pose proof (proj1 Hn) as Ln. pose proof (proj1 Hf) as Lf.
  destruct r; try discriminate Hr; cbn [sample_of widen up_sampler] in *.
  - destruct (Hw eq_refl) as [-> Hw']. destruct avx; (apply hv_value; try assumption; [| |lia]); intros;
      repeat match goal with H : row_ok _ _ |- _ => destruct H end;
      first [apply vertical_avx2_mix|apply vertical_mix|apply horizontal_avx2_wide|apply horizontal_wide]; try assumption; lia.
  - destruct Ha, Hn, Hf. destruct avx; [apply vertical_avx2_mix|apply vertical_mix]; try assumption; lia.
Qed.
Lemma widen_length r l : is_vert r = true -> length (widen r l) = (length l * sample_of r / 2)%nat.
Proof.
  intros H. destruct r; try discriminate H; cbn [widen sample_of].
  - rewrite wide_length. symmetry. rewrite <- (half_even (2 * length l)). f_equal. lia.
  - symmetry. rewrite Nat.div_mul; lia.
Qed.

(** ** A component and all its samples *)
Record desc : Set := Desc { d_ratio : ratio; d_w : nat; d_all : list Z }.
(** Rows of the component in one row of blocks: twice as many without vertical upsampling. *)
Definition d_vs (d : desc) : nat := match d_ratio d with RNone => 2 | _ => 1 end.
(** Samples handed over for one row of blocks *)
Definition mcu (d : desc) : nat := (8 * d_vs d * d_w d)%nat.
Definition part_of (d : desc) (i : nat) : list Z := slice (d_all d) (i * mcu d) (mcu d).
(** Legal for an image of [m] rows of blocks of width [pw] *)
Definition legal (pw m : nat) (d : desc) : Prop :=
  Forall sample (d_all d) /\ length (d_all d) = (m * mcu d)%nat /\
  match d_ratio d with
  | RNone | RV => d_w d = pw
  | RHV => (2 * d_w d)%nat = pw /\ (2 < d_w d)%nat
  | _ => False
  end.
Definition crow (d : desc) (g : nat) : list Z := slice (d_all d) (g * d_w d) (d_w d).
Definition pl (d : desc) (k : nat) : list Z := nth k (plane (d_ratio d) (d_w d) (d_all d)) [].

Lemma slice_slice {A} (l : list A) i n j m : (j + m <= n)%nat -> slice (slice l i n) j m = slice l (i + j) m.
Proof.
  intros H. unfold slice. rewrite skipn_firstn_comm, firstn_firstn, Nat.min_l by lia. now rewrite skipn_skipn'.
Qed.

Section Comp.
  Variables (pw m : nat) (d : desc).
  Hypothesis L : legal pw m d.
  Hypothesis P0 : (0 < pw)%nat.
  Let w := d_w d.
  Lemma w_pos : (0 < w)%nat.
  Proof. destruct L as (_ & _ & H). unfold w. destruct (d_ratio d); lia. Qed.
  Lemma all_rows : (length (d_all d) / w = 8 * d_vs d * m)%nat.
  Proof.
    destruct L as (_ & -> & _). unfold mcu. fold w. pose proof w_pos.
    replace (m * (8 * d_vs d * w))%nat with (8 * d_vs d * m * w)%nat by ring. apply Nat.div_mul. lia.
  Qed.
  Lemma crow_ok g : (g < 8 * d_vs d * m)%nat -> row_ok w (crow d g).
  Proof.
    intros H. split; [|apply slice_sample, L]. apply slice_length. destruct L as (_ & -> & _). unfold mcu. fold w.
    replace (m * (8 * d_vs d * w))%nat with (8 * d_vs d * m * w)%nat by ring.
    replace (g * w + w)%nat with ((g + 1) * w)%nat by ring. apply Nat.mul_le_mono_r. lia.
  Qed.
  Lemma part_row i p : (p < 8 * d_vs d)%nat -> slice (part_of d i) (p * w) w = crow d (8 * d_vs d * i + p).
  Proof.
    intros H. unfold part_of, crow, mcu. fold w. rewrite slice_slice.
    - f_equal. ring.
    - replace (p * w + w)%nat with ((p + 1) * w)%nat by ring. apply Nat.mul_le_mono_r. lia.
  Qed.
  Lemma part_length i : (i < m)%nat -> length (part_of d i) = (8 * d_vs d * w)%nat.
  Proof.
    intros H. unfold part_of. change (8 * d_vs d * w)%nat with (mcu d). apply slice_length. destruct L as (_ & -> & _). replace (i * mcu d + mcu d)%nat with ((i + 1) * mcu d)%nat by ring.
    apply Nat.mul_le_mono_r. lia.
  Qed.
  Lemma rows_nth g : (g < 8 * d_vs d * m)%nat -> nth g (rows_of w (d_all d)) [] = crow d g.
  Proof.
    intros H. unfold rows_of. rewrite all_rows. rewrite (map_nth_in _ _ _ 0%nat) by (now rewrite seq_length). now rewrite seq_nth.
  Qed.
  Lemma rows_count : length (rows_of w (d_all d)) = (8 * d_vs d * m)%nat.
  Proof. unfold rows_of. now rewrite map_length, seq_length, all_rows. Qed.
  Lemma pl_none k : d_ratio d = RNone -> (k < 16 * m)%nat -> pl d k = crow d k.
  Proof. intros E H. unfold pl. rewrite E. cbn [plane]. apply rows_nth. unfold d_vs. rewrite E. lia. Qed.
  Lemma pl_vert k : is_vert (d_ratio d) = true -> (k < 16 * m)%nat ->
    pl d k = widen (d_ratio d) (mix (crow d (k / 2)) (crow d (neighbour (8 * m) k))).
  Proof.
    intros E H. assert (Hv : d_vs d = 1%nat) by (unfold d_vs; destruct (d_ratio d); try discriminate E; reflexivity).
    assert (T : (k < 2 * length (rows_of w (d_all d)))%nat) by (rewrite rows_count, Hv; lia).
    assert (Q : nth k (tall (rows_of w (d_all d))) [] = mix (crow d (k / 2)) (crow d (neighbour (8 * m) k))).
    { unfold tall. rewrite (map_nth_in _ _ _ 0%nat) by (rewrite seq_length; exact T). rewrite seq_nth by exact T. cbn [Nat.add].
      rewrite rows_count, Hv. replace (8 * 1 * m)%nat with (8 * m)%nat by lia. rewrite !rows_nth; [reflexivity|..]; rewrite Hv.
      - unfold neighbour. destruct (Nat.even k); lia.
      - lia. }
    unfold pl. fold w. destruct (d_ratio d); try discriminate E; cbn [plane widen]; [|exact Q].
    rewrite (map_nth_in _ _ _ []) by (unfold tall; rewrite map_length, seq_length; exact T). now rewrite Q.
  Qed.
  Lemma pl_ok k : (k < 16 * m)%nat -> row_ok pw (pl d k).
  Proof.
    intros H. destruct L as (S0 & _ & Hr). destruct (is_vert (d_ratio d)) eqn:E.
    - rewrite pl_vert by assumption. assert (Hv : d_vs d = 1%nat) by (unfold d_vs; destruct (d_ratio d); try discriminate E; reflexivity).
      assert (A : row_ok w (crow d (k / 2))) by (apply crow_ok; rewrite Hv; lia).
      assert (B : row_ok w (crow d (neighbour (8 * m) k))) by (apply crow_ok; rewrite Hv; unfold neighbour; destruct (Nat.even k); lia).
      destruct A as [LA SA], B as [LB SB].
      assert (M : Forall sample (mix (crow d (k / 2)) (crow d (neighbour (8 * m) k)))) by (apply mix_sample; [assumption..|lia]).
      split; destruct (d_ratio d); try discriminate E; cbn [widen].
      + rewrite wide_length, mix_length, LA. fold w in Hr. lia.
      + rewrite mix_length, LA. exact Hr.
      + now apply wide_sample.
      + exact M.
    - destruct (d_ratio d) eqn:E'; try discriminate E; try contradiction. rewrite pl_none by assumption. rewrite <- Hr. apply crow_ok.
      unfold d_vs. rewrite E'. lia.
  Qed.

  (** ** One row of blocks *)
  Variable avx : bool.
  Hypothesis V : is_vert (d_ratio d) = true.
  Lemma vs1 : d_vs d = 1%nat.
  Proof. unfold d_vs. destruct (d_ratio d); try discriminate V; reflexivity. Qed.
  Lemma sb_pw : (w * sample_of (d_ratio d) = 2 * pw)%nat.
  Proof. destruct L as (_ & _ & H). unfold w. destruct (d_ratio d); try discriminate V; cbn [sample_of]; lia. Qed.
  Lemma hv3 : d_ratio d = RHV -> (pw = 2 * w /\ 2 < w)%nat.
  Proof. destruct L as (_ & _ & H). unfold w. intros E. rewrite E in H. lia. Qed.
  (** Two rows of the plane come from row [g] *)
  Lemma two_rows g up down buf : (g < 8 * m)%nat -> up = crow d (g - 1) -> down = crow d (Nat.min (g + 1) (8 * m - 1)) -> length buf = (2 * pw)%nat ->
    up_sampler avx (d_ratio d) (crow d g) up down pw buf = Ok (pl d (2 * g) ++ pl d (2 * g + 1)).
  Proof.
    intros Hg -> -> Lb. pose proof vs1 as Hv.
    rewrite (up_value avx (d_ratio d) _ _ _ w pw); [|exact V|apply hv3|apply crow_ok; rewrite Hv; lia..|rewrite sb_pw; exact Lb].
    rewrite !pl_vert by (first [assumption|lia]). rewrite half_even, half_odd. unfold neighbour. rewrite half_even, half_odd.
    replace (Nat.even (2 * g)) with true by (now rewrite Nat.even_mul).
    replace (Nat.even (2 * g + 1)) with false by (rewrite Nat.even_add, Nat.even_mul; reflexivity). reflexivity.
  Qed.
End Comp.

Lemma slice_put_before {A} (l : list A) q xs a n : (a + n <= q)%nat -> (q <= length l)%nat -> slice (put l q xs) a n = slice l a n.
Proof.
  intros H Hq. unfold put, slice. rewrite skipn_app, firstn_app, skipn_length, firstn_length.
  replace (n - (Nat.min q (length l) - a))%nat with 0%nat by lia. rewrite firstn_O, app_nil_r.
  rewrite skipn_firstn_comm, firstn_firstn. now rewrite Nat.min_l by lia.
Qed.
Lemma slice_put_in {A} (l : list A) q xs a n : (a + n <= length xs)%nat -> (q <= length l)%nat -> slice (put l q xs) (q + a) n = slice xs a n.
Proof.
  intros H Hq. unfold put, slice. rewrite skipn_app. rewrite skipn_all2 by (rewrite firstn_length; lia). cbn [app]. rewrite firstn_length.
  replace (q + a - Nat.min q (length l))%nat with a by lia. rewrite skipn_app, firstn_app, skipn_length.
  replace (n - (length xs - a))%nat with 0%nat by lia. now rewrite firstn_O, app_nil_r.
Qed.
Lemma slice_all {A} (l : list A) n : length l = n -> slice l 0 n = l.
Proof. intros <-. unfold slice. cbn [skipn]. apply firstn_all. Qed.
Lemma slice_two {A} (a b : list A) n t : length a = n -> length b = n -> (t < 2)%nat ->
  slice (a ++ b) (t * n) n = match t with O => a | _ => b end.
Proof.
  intros La Lb Ht. unfold slice. destruct t as [|[|t]]; [| |lia].
  - cbn [Nat.mul skipn]. now apply firstn_app_exact.
  - rewrite Nat.mul_1_l, skipn_app_exact by exact La. rewrite <- Lb. apply firstn_all.
Qed.

Section Rows.
  Variables (pw m : nat) (avx : bool).
  Hypothesis P0 : (0 < pw)%nat.
  (** Before row [i] of blocks *)
  Definition inv (i : nat) (d : desc) (c : comp) : Prop :=
    c_ratio c = d_ratio d /\ c_w c = d_w d /\ c_vs c = d_vs d /\ length (first_dest c) = (2 * pw)%nat /\
    if is_vert (d_ratio d)
    then (16 * pw <= length (dest c))%nat /\ length (row c) = d_w d /\ length (row_up c) = d_w d /\
         ((0 < i)%nat -> row c = crow d (8 * i - 1) /\ row_up c = crow d (8 * i - 2))
    else (0 < i)%nat -> first_dest c = crow d (16 * i - 2) ++ crow d (16 * i - 1).
  (** Number of rows of the plane that can be made from row [i] of blocks *)
  Definition count (i : nat) : nat := if (i =? m - 1)%nat then 16 else 14.
  Definition samples_of (c : comp) : list Z := if is_none (c_ratio c) then raw c else dest c.
  (** After upsampling *)
  Definition upped (i : nat) (d : desc) (c : comp) : Prop :=
    c_ratio c = d_ratio d /\ c_w c = d_w d /\ c_vs c = d_vs d /\ length (first_dest c) = (2 * pw)%nat /\ raw c = part_of d i /\
    ((0 < i)%nat -> first_dest c = pl d (16 * i - 2) ++ pl d (16 * i - 1)) /\
    (16 * pw <= length (samples_of c))%nat /\
    (forall t, (t < count i)%nat -> slice (samples_of c) (t * pw) pw = pl d (16 * i + t)) /\
    (is_vert (d_ratio d) = true -> length (row c) = d_w d /\ length (row_up c) = d_w d /\
       ((i < m - 1)%nat -> row c = crow d (8 * i + 7) /\ row_up c = crow d (8 * i + 6))).

  Definition loop_inv (i : nat) (d : desc) (r0 ru0 : list Z) (D : nat) (pos : nat) (st : list Z * nat * list Z * list Z) : Prop :=
    let '(dst, start, r, ru) := st in
    length dst = D /\
    ((pos < 8)%nat -> start = (pos * (2 * pw))%nat /\ r = r0 /\ ru = ru0 /\
        forall t, (t < 2 * pos)%nat -> slice dst (t * pw) pw = pl d (16 * i + t)) /\
    (pos = 8%nat -> (forall t, (t < count i)%nat -> slice dst (t * pw) pw = pl d (16 * i + t)) /\
        length r = d_w d /\ length ru = d_w d /\ ((i < m - 1)%nat -> r = crow d (8 * i + 7) /\ ru = crow d (8 * i + 6))).

  Lemma up_row_step i d r0 ru0 D pos st : legal pw m d -> is_vert (d_ratio d) = true -> (i < m)%nat -> (pos < 8)%nat ->
    (16 * pw <= D)%nat -> length r0 = d_w d -> length ru0 = d_w d -> ((0 < i)%nat -> r0 = crow d (8 * i - 1)) ->
    loop_inv i d r0 ru0 D pos st ->
    exists st', up_row avx pw m i (d_ratio d) (d_w d) (d_w d) 8 (2 * pw) (part_of d i) pos st = Ok st' /\ loop_inv i d r0 ru0 D (S pos) st'.
  Proof.
    intros L V Hi Hpos HD Lr Lru R0 HI. destruct st as [[[dst start] r] ru]. destruct HI as (Ld & H8 & _).
    destruct (H8 Hpos) as (-> & -> & -> & HT). clear H8. pose proof (vs1 d V) as Hv.
    assert (Lp : length (part_of d i) = (8 * d_w d)%nat) by (rewrite (part_length pw m d L P0 i Hi), Hv; lia).
    assert (GS : forall p, (p < 8)%nat -> get_slice (part_of d i) (p * d_w d) (d_w d) = Ok (crow d (8 * i + p))).
    { intros p Hp. rewrite get_slice_ok.
      - f_equal. rewrite (part_row pw d P0 i p) by (rewrite Hv; lia). now rewrite Hv.
      - rewrite Lp. replace (p * d_w d + d_w d)%nat with ((p + 1) * d_w d)%nat by ring. apply Nat.mul_le_mono_r. lia. }
    assert (HB : (pos * (2 * pw) + 2 * pw <= D)%nat).
    { replace (pos * (2 * pw) + 2 * pw)%nat with ((pos + 1) * (2 * pw))%nat by ring.
      apply Nat.le_trans with (8 * (2 * pw))%nat; [apply Nat.mul_le_mono_r; lia|lia]. }
    assert (GO : forall up down, up = crow d (8 * i + pos - 1) -> down = crow d (Nat.min (8 * i + pos + 1) (8 * m - 1)) ->
      exists dst', (do b <- get_slice dst (pos * (2 * pw)) (2 * pw) ;
         do u <- up_sampler avx (d_ratio d) (crow d (8 * i + pos)) up down pw b ;
         do dst <- put_slice dst (pos * (2 * pw)) u ; Ok (dst, (pos * (2 * pw) + 2 * pw)%nat, r0, ru0)) = Ok (dst', (S pos * (2 * pw))%nat, r0, ru0) /\
        length dst' = D /\ forall t, (t < 2 * S pos)%nat -> slice dst' (t * pw) pw = pl d (16 * i + t)).
    { intros up down Eu Ed. rewrite get_slice_ok by lia. cbn [bind].
      rewrite (two_rows pw m d L P0 avx V (8 * i + pos) up down _) by (first [assumption|lia|rewrite slice_length; [lia|rewrite Ld; exact HB]]).
      cbn [bind]. set (xs := pl d _ ++ pl d _).
      assert (A0 : row_ok pw (pl d (2 * (8 * i + pos)))) by (apply (pl_ok pw m d L P0); lia).
      assert (A1 : row_ok pw (pl d (2 * (8 * i + pos) + 1))) by (apply (pl_ok pw m d L P0); lia).
      assert (Lx : length xs = (2 * pw)%nat) by (unfold xs; rewrite app_length, (proj1 A0), (proj1 A1); lia).
      rewrite put_slice_ok by (rewrite Lx, Ld; exact HB). cbn [bind]. eexists. split; [do 4 f_equal; cbn [Nat.mul]; lia|].
      split; [rewrite put_length; [exact Ld|rewrite Lx, Ld; exact HB]|].
      intros t Ht. destruct (Nat.lt_ge_cases t (2 * pos)) as [Hlt|Hge].
      - rewrite slice_put_before; [now apply HT| |rewrite Ld; lia].
        replace (t * pw + pw)%nat with ((t + 1) * pw)%nat by ring. replace (pos * (2 * pw))%nat with (2 * pos * pw)%nat by ring.
        apply Nat.mul_le_mono_r. lia.
      - assert (E : exists b, (t = 2 * pos + b /\ b < 2)%nat) by (exists (t - 2 * pos)%nat; lia). destruct E as (b & -> & Hb).
        replace ((2 * pos + b) * pw)%nat with (pos * (2 * pw) + b * pw)%nat by ring.
        rewrite slice_put_in; [| |rewrite Ld; lia].
        2:{ rewrite Lx. replace (b * pw + pw)%nat with ((b + 1) * pw)%nat by ring. apply Nat.mul_le_mono_r. lia. }
        unfold xs. rewrite slice_two by (first [apply A0|apply A1|exact Hb]).
        destruct b as [|[|b]]; [f_equal; lia|f_equal; lia|lia]. }
    unfold up_row. rewrite (GS pos Hpos). cbn [bind].
    assert (FIN : forall dst', length dst' = D -> (forall t, (t < 2 * S pos)%nat -> slice dst' (t * pw) pw = pl d (16 * i + t)) -> (pos = 7%nat -> i = (m - 1)%nat) ->
      loop_inv i d r0 ru0 D (S pos) (dst', (S pos * (2 * pw))%nat, r0, ru0)).
    { intros dst' L' T' Hlast. unfold loop_inv. split; [exact L'|]. split.
      - intros _. split; [reflexivity|]. split; [reflexivity|]. split; [reflexivity|exact T'].
      - intros E. assert (E7 : pos = 7%nat) by lia. specialize (Hlast E7). split.
        + intros t Ht. apply T'. unfold count in Ht. destruct (i =? m - 1)%nat; lia.
        + split; [exact Lr|]. split; [exact Lru|]. intros; lia. }
    destruct (Nat.eqb_spec i 0) as [Ei|Ei]; destruct (Nat.eqb_spec pos 0) as [Ep|Ep]; cbn [andb].
    - subst i pos. rewrite (GS (0 + 1)%nat) by lia. cbn [bind].
      destruct (GO (crow d (8 * 0 + 0)) (crow d (8 * 0 + (0 + 1)))) as (dst' & E & L' & T'); [f_equal; lia|f_equal; lia|]. rewrite E.
      eexists. split; [reflexivity|]. apply FIN; [exact L'|exact T'|lia].
    - replace (0 <? i)%nat with false by lia. cbn [andb].
      destruct (Nat.eqb_spec i (m - 1)) as [Em|Em]; destruct (Nat.eqb_spec pos (8 - 1)) as [E7|E7]; cbn [andb].
      + rewrite (GS (pos - 1)%nat) by lia. cbn [bind].
        edestruct GO as (dst' & E & L' & T'); [| |rewrite E; eexists; split; [reflexivity|apply FIN; [exact L'|exact T'|lia]]]; f_equal; lia.
      + replace ((0 <? pos) && (pos <? 8 - 1))%nat with true by lia. rewrite (GS (pos - 1)%nat), (GS (pos + 1)%nat) by lia. cbn [bind].
        edestruct GO as (dst' & E & L' & T'); [| |rewrite E; eexists; split; [reflexivity|apply FIN; [exact L'|exact T'|lia]]]; f_equal; lia.
      + replace ((0 <? pos) && (pos <? 8 - 1))%nat with false by lia. rewrite (GS (pos - 1)%nat) by lia. cbn [bind].
        assert (C1 : row_ok (d_w d) (crow d (8 * i + (pos - 1)))) by (apply (crow_ok pw m d L P0); rewrite Hv; lia).
        assert (C2 : row_ok (d_w d) (crow d (8 * i + pos))) by (apply (crow_ok pw m d L P0); rewrite Hv; lia).
        rewrite (proj1 C1), (proj1 C2), Lr, Lru, Nat.eqb_refl. cbn [andb negb]. eexists. split; [reflexivity|].
        unfold loop_inv. split; [exact Ld|]. split; [lia|]. intros _. split.
        * intros t Ht. apply HT. unfold count in Ht. replace (i =? m - 1)%nat with false in Ht by lia. lia.
        * split; [apply C2|]. split; [apply C1|]. intros _. split; f_equal; lia.
      + replace ((0 <? pos) && (pos <? 8 - 1))%nat with true by lia. rewrite (GS (pos - 1)%nat), (GS (pos + 1)%nat) by lia. cbn [bind].
        edestruct GO as (dst' & E & L' & T'); [| |rewrite E; eexists; split; [reflexivity|apply FIN; [exact L'|exact T'|lia]]]; f_equal; lia.
    - replace (0 <? i)%nat with true by lia. cbn [andb]. rewrite (GS (pos + 1)%nat) by lia. cbn [bind].
      edestruct (GO r0) as (dst' & E & L' & T'); [| |rewrite E; eexists; split; [reflexivity|apply FIN; [exact L'|exact T'|lia]]]; [|f_equal; lia].
      rewrite R0 by lia. f_equal. lia.
    - replace (0 <? i)%nat with true by lia. cbn [andb].
      destruct (Nat.eqb_spec i (m - 1)) as [Em|Em]; destruct (Nat.eqb_spec pos (8 - 1)) as [E7|E7]; cbn [andb].
      + rewrite (GS (pos - 1)%nat) by lia. cbn [bind].
        edestruct GO as (dst' & E & L' & T'); [| |rewrite E; eexists; split; [reflexivity|apply FIN; [exact L'|exact T'|lia]]]; f_equal; lia.
      + replace ((0 <? pos) && (pos <? 8 - 1))%nat with true by lia. rewrite (GS (pos - 1)%nat), (GS (pos + 1)%nat) by lia. cbn [bind].
        edestruct GO as (dst' & E & L' & T'); [| |rewrite E; eexists; split; [reflexivity|apply FIN; [exact L'|exact T'|lia]]]; f_equal; lia.
      + replace ((0 <? pos) && (pos <? 8 - 1))%nat with false by lia. rewrite (GS (pos - 1)%nat) by lia. cbn [bind].
        assert (C1 : row_ok (d_w d) (crow d (8 * i + (pos - 1)))) by (apply (crow_ok pw m d L P0); rewrite Hv; lia).
        assert (C2 : row_ok (d_w d) (crow d (8 * i + pos))) by (apply (crow_ok pw m d L P0); rewrite Hv; lia).
        rewrite (proj1 C1), (proj1 C2), Lr, Lru, Nat.eqb_refl. cbn [andb negb]. eexists. split; [reflexivity|].
        unfold loop_inv. split; [exact Ld|]. split; [lia|]. intros _. split.
        * intros t Ht. apply HT. unfold count in Ht. replace (i =? m - 1)%nat with false in Ht by lia. lia.
        * split; [apply C2|]. split; [apply C1|]. intros _. split; f_equal; lia.
      + replace ((0 <? pos) && (pos <? 8 - 1))%nat with true by lia. rewrite (GS (pos - 1)%nat), (GS (pos + 1)%nat) by lia. cbn [bind].
        edestruct GO as (dst' & E & L' & T'); [| |rewrite E; eexists; split; [reflexivity|apply FIN; [exact L'|exact T'|lia]]]; f_equal; lia.
  Qed.

  Lemma vert_not_none d : is_vert (d_ratio d) = true -> is_none (d_ratio d) = false.
  Proof. intros H. destruct (d_ratio d); try discriminate H; reflexivity. Qed.
  Lemma first_two i d : legal pw m d -> (0 < i)%nat -> (i < m)%nat -> is_vert (d_ratio d) = true ->
    (2 * (8 * i - 1) = 16 * i - 2)%nat /\ (2 * (8 * i - 1) + 1 = 16 * i - 1)%nat.
  Proof. intros. lia. Qed.
  Lemma upsample_vert i d c vt : legal pw m d -> is_vert (d_ratio d) = true -> (i < m)%nat -> inv i d c ->
    exists c', upsample avx pw m i vt (set_raw c (part_of d i)) = Ok c' /\ upped i d c'.
  Proof.
    intros L V Hi (Er & Ew & Ev & Lf & HI). rewrite V in HI. destruct HI as (Ld & Lr & Lru & HR). pose proof (vs1 d V) as Hv.
    assert (Lp : length (part_of d i) = (8 * d_w d)%nat) by (rewrite (part_length pw m d L P0 i Hi), Hv; lia).
    pose proof (w_pos pw m d L P0) as Hw. pose proof (sb_pw pw m d L P0 V) as Hsb.
    assert (F : exists first, (if (0 <? i)%nat then
                     do b <- get_slice (first_dest c) 0 (2 * pw) ;
                     do down <- get_slice (part_of d i) 0 (d_w d) ;
                     do u <- up_sampler avx (d_ratio d) (row c) (row_up c) down pw b ;
                     put_slice (first_dest c) 0 u
                   else Ok (first_dest c)) = Ok first /\ length first = (2 * pw)%nat /\
                   ((0 < i)%nat -> first = pl d (16 * i - 2) ++ pl d (16 * i - 1))).
    { destruct (Nat.ltb_spec 0 i) as [H0|H0]; [|exists (first_dest c); split; [reflexivity|]; split; [exact Lf|lia]].
      destruct (HR H0) as [-> ->]. rewrite !get_slice_ok by lia. cbn [bind].
      assert (Q0 : slice (part_of d i) 0 (d_w d) = crow d (8 * i)).
      { change 0%nat with (0 * d_w d)%nat. rewrite (part_row pw d P0 i 0) by (rewrite Hv; lia). rewrite Hv. f_equal. lia. }
      rewrite Q0.
      rewrite (two_rows pw m d L P0 avx V (8 * i - 1)) by (first [lia|f_equal; lia|rewrite slice_length; lia]). cbn [bind].
      replace (2 * (8 * i - 1))%nat with (16 * i - 2)%nat by lia. replace (16 * i - 2 + 1)%nat with (16 * i - 1)%nat by lia.
      assert (A0 : row_ok pw (pl d (16 * i - 2))) by (apply (pl_ok pw m d L P0); lia).
      assert (A1 : row_ok pw (pl d (16 * i - 1))) by (apply (pl_ok pw m d L P0); lia).
      assert (Lx : length (pl d (16 * i - 2) ++ pl d (16 * i - 1)) = (2 * pw)%nat) by (rewrite app_length, (proj1 A0), (proj1 A1); lia).
      rewrite put_slice_ok by (rewrite Lx; lia). eexists. split; [reflexivity|]. split; [rewrite put_length; [exact Lf|rewrite Lx; lia]|].
      intros _. unfold put. cbn [firstn app Nat.add]. rewrite skipn_all2 by (rewrite Lx; lia). apply app_nil_r. }
    destruct F as (first & EF & LF & PF).
    destruct (for_range_inv (loop_inv i d (row c) (row_up c) (length (dest c))) 0 8
      (up_row avx pw m i (d_ratio d) (d_w d) (d_w d) 8 (2 * pw) (part_of d i)) (dest c, 0%nat, row c, row_up c)) as (st & ES & IS).
    { lia. }
    { split; [reflexivity|]. split; [|lia]. intros _. split; [reflexivity|]. split; [reflexivity|]. split; [reflexivity|lia]. }
    { intros pos st (_ & Hpos) HI. apply (up_row_step i d); try assumption. intros H0. now destruct (HR H0). }
    destruct st as [[[d' s'] r'] ru']. destruct IS as (L' & _ & I8). destruct (I8 eq_refl) as (T' & Lr' & Lru' & R').
    exists (Comp (d_ratio d) (d_w d) (d_vs d) (part_of d i) r' ru' first d'). split.
    - unfold upsample, set_raw. cbn [c_ratio c_w c_vs raw row row_up first_dest dest]. rewrite Er, Ew, Ev, Hv, Hsb, Nat.mul_1_r, Lp.
      rewrite Nat.div_mul by lia. rewrite EF. cbn [bind]. rewrite Nat.eqb_refl. cbn [negb]. rewrite ES. cbn [bind].
      destruct (d_ratio d); try discriminate V; reflexivity.
    - unfold upped, samples_of. cbn [c_ratio c_w c_vs raw row row_up first_dest dest]. rewrite (vert_not_none d V).
      do 3 (split; [reflexivity|]). split; [exact LF|]. split; [reflexivity|]. split; [exact PF|]. split; [lia|]. split; [exact T'|]. intros _. auto.
  Qed.
  Lemma upsample_none i d c vt : legal pw m d -> d_ratio d = RNone -> (i < m)%nat -> inv i d c ->
    exists c', upsample avx pw m i vt (set_raw c (part_of d i)) = Ok c' /\ upped i d c'.
  Proof.
    intros L N Hi (Er & Ew & Ev & Lf & HI). rewrite N in HI. cbn [is_vert] in HI.
    assert (Hv : d_vs d = 2%nat) by (unfold d_vs; now rewrite N).
    assert (Hw : d_w d = pw) by (destruct L as (_ & _ & H); now rewrite N in H).
    assert (Lp : length (part_of d i) = (16 * pw)%nat) by (rewrite (part_length pw m d L P0 i Hi), Hv, Hw; lia).
    exists (set_raw c (part_of d i)). split; [unfold upsample, set_raw; cbn [c_ratio]; now rewrite Er, N|].
    unfold upped, samples_of, set_raw. cbn [c_ratio c_w c_vs raw row row_up first_dest dest]. rewrite Er, N. cbn [is_none is_vert].
    do 2 (split; [easy|]). split; [easy|]. split; [exact Lf|]. split; [reflexivity|].
    split; [intros H0; rewrite !(pl_none pw m d L P0) by (first [assumption|lia]); now apply HI|]. split; [lia|]. split; [|discriminate].
    intros t Ht. rewrite (pl_none pw m d L P0) by (first [assumption|unfold count in Ht; destruct (i =? m - 1)%nat; lia]).
    rewrite <- Hw. rewrite (part_row pw d P0 i t) by (rewrite Hv; unfold count in Ht; destruct (i =? m - 1)%nat; lia). rewrite Hv. reflexivity.
  Qed.
  Lemma upsample_any i d c vt : legal pw m d -> (i < m)%nat -> inv i d c ->
    exists c', upsample avx pw m i vt (set_raw c (part_of d i)) = Ok c' /\ upped i d c'.
  Proof.
    intros L. destruct (is_vert (d_ratio d)) eqn:E; [now apply upsample_vert|]. apply upsample_none; [exact L|].
    destruct L as (_ & _ & H). destruct (d_ratio d); try discriminate E; try contradiction; reflexivity.
  Qed.
  (** Keeping the last rows *)
  Lemma keep_any i d c : legal pw m d -> (i < m)%nat -> upped i d c ->
    exists c', keep_last c = Ok c' /\ samples_of c' = samples_of c /\ ((i < m - 1)%nat -> inv (i + 1) d c').
  Proof.
    intros L Hi (Er & Ew & Ev & Lf & Eraw & PF & Ls & T & HV). unfold keep_last. rewrite Er, Ew, Ev, Eraw.
    rewrite (part_length pw m d L P0 i Hi). pose proof (w_pos pw m d L P0) as Hw.
    destruct (is_vert (d_ratio d)) eqn:E.
    - pose proof (vs1 d E) as Hv. pose proof (sb_pw pw m d L P0 E) as Hsb. rewrite Hv, Nat.mul_1_l, Hsb.
      replace (is_h (d_ratio d)) with false by (destruct (d_ratio d); try discriminate E; reflexivity).
      replace (2 * pw =? 0)%nat with false by lia.
      assert (H4 : (sample_of (d_ratio d) <= 4)%nat) by (destruct (d_ratio d); try discriminate E; cbn [sample_of]; lia).
      assert (H8 : (2 * pw <= 8 * 1 * d_w d)%nat) by (rewrite <- Hsb; clear -H4 Hw; nia).
      replace (8 * 1 * d_w d <? 2 * pw)%nat with false by lia. rewrite Lf, Nat.eqb_refl. cbn [orb negb].
      eexists. split; [reflexivity|]. unfold samples_of in *. cbn [c_ratio raw dest]. rewrite Er in *. rewrite (vert_not_none d E) in *.
      split; [reflexivity|]. intros Hlast. destruct (HV eq_refl) as (R1 & R2 & R3). destruct (R3 Hlast) as (R4 & R5).
      unfold inv. cbn [c_ratio c_w c_vs raw row row_up first_dest dest]. rewrite E. do 3 (split; [easy|]).
      split; [rewrite skipn_length, (part_length pw m d L P0 i Hi), Hv; lia|]. split; [lia|]. split; [exact R1|]. split; [exact R2|].
      intros _. rewrite R4, R5. split; f_equal; lia.
    - assert (N : d_ratio d = RNone) by (destruct L as (_ & _ & H); destruct (d_ratio d); try discriminate E; try contradiction; reflexivity).
      assert (Hv : d_vs d = 2%nat) by (unfold d_vs; now rewrite N).
      assert (Hpw : d_w d = pw) by (destruct L as (_ & _ & H); now rewrite N in H).
      rewrite N, Hv, Hpw. cbn [is_h sample_of]. replace (2 * pw * 1)%nat with (2 * pw)%nat by lia.
      replace (2 * pw =? 0)%nat with false by lia. replace (8 * 2 * pw <? 2 * pw)%nat with false by lia. rewrite Lf, Nat.eqb_refl. cbn [orb negb].
      eexists. split; [reflexivity|]. unfold samples_of. cbn [c_ratio raw]. rewrite Er, N. cbn [is_none]. split; [now rewrite Eraw|].
      intros Hlast. unfold inv. cbn [c_ratio c_w c_vs raw row row_up first_dest dest]. rewrite N. cbn [is_vert].
      do 3 (split; [easy|]). split; [rewrite skipn_length, (part_length pw m d L P0 i Hi), Hv, Hpw; lia|]. intros _.
      assert (Lp : length (part_of d i) = (16 * pw)%nat) by (rewrite (part_length pw m d L P0 i Hi), Hv, Hpw; lia).
      pose proof (part_row pw d P0 i 14) as Q14. pose proof (part_row pw d P0 i 15) as Q15. rewrite Hv, Hpw in Q14, Q15.
      specialize (Q14 ltac:(lia)). specialize (Q15 ltac:(lia)).
      replace (16 * (i + 1) - 2)%nat with (8 * 2 * i + 14)%nat by lia. replace (16 * (i + 1) - 1)%nat with (8 * 2 * i + 15)%nat by lia.
      rewrite <- Q14, <- Q15. replace (8 * 2 * pw - 2 * pw)%nat with (14 * pw)%nat by lia. unfold slice.
      rewrite <- (firstn_skipn pw (skipn (14 * pw) (part_of d i))) at 1. f_equal.
      rewrite skipn_skipn'. replace (14 * pw + pw)%nat with (15 * pw)%nat by lia. symmetry. apply firstn_all2. rewrite skipn_length. lia.
  Qed.
End Rows.

(** ** Rows of pixels *)
Lemma mapM_Forall2 {D A B} (P : D -> A -> Prop) (Q : D -> B -> Prop) (f : A -> res B) : forall ds xs,
  (forall d x, In d ds -> P d x -> exists y, f x = Ok y /\ Q d y) -> Forall2 P ds xs -> exists ys, mapM f xs = Ok ys /\ Forall2 Q ds ys.
Proof.
  intros ds xs H F. induction F as [|d x ds xs Hp F IH]; [exists []; split; [reflexivity|constructor]|].
  destruct (H d x) as (y & Ey & Qy); [now left|exact Hp|]. destruct IH as (ys & Eys & Qys); [intros; apply H; [now right|assumption]|].
  exists (y :: ys). cbn [mapM]. rewrite Ey, Eys. split; [reflexivity|now constructor].
Qed.

Section Pixels.
  Variable convert : list (list Z) -> list Z -> res (list Z).
  Variables (pw n h : nat) (rows_at : nat -> list (list Z)) (orig : list Z).
  Hypothesis Lorig : length orig = (h * n)%nat.
  Hypothesis CV : forall k o, (k < h)%nat -> length o = n -> exists o', convert (rows_at k) o = Ok o' /\ length o' = n.
  (** The first [k] rows of pixels are done, the others untouched *)
  Definition done (k : nat) (px : list Z) : Prop :=
    length px = (h * n)%nat /\ (forall r, (r < h)%nat -> (k <= r)%nat -> slice px (r * n) n = slice orig (r * n) n) /\
    (forall r, (r < h)%nat -> (r < k)%nat -> convert (rows_at r) (slice orig (r * n) n) = Ok (slice px (r * n) n)).
  Lemma slice_put_after {A} (l : list A) q xs a m : (q + length xs <= a)%nat -> (a <= length l)%nat -> slice (put l q xs) a m = slice l a m.
  Proof.
    intros H Ha. unfold put, slice. f_equal. rewrite skipn_app. rewrite skipn_all2 by (rewrite firstn_length; lia). cbn [app].
    rewrite firstn_length, skipn_app. rewrite skipn_all2 by lia. cbn [app]. rewrite skipn_skipn'. f_equal. lia.
  Qed.
  Lemma row_in r : (r < h)%nat -> (r * n + n <= h * n)%nat.
  Proof. intros H. replace (r * n + n)%nat with ((r + 1) * n)%nat by ring. apply Nat.mul_le_mono_r. lia. Qed.
  Lemma conv_rows_done samples : (0 < n)%nat -> forall iters pos R px, (R <= h)%nat -> done R px ->
    (forall s, In s samples -> ((pos + iters) * pw <= length s)%nat) ->
    (forall t, (t < iters)%nat -> (R + t < h)%nat -> map (fun s => slice s ((pos + t) * pw) pw) samples = rows_at (R + t)) ->
    exists px', conv_rows convert pw n iters pos samples px (R * n) = Ok (px', (Nat.min h (R + iters) * n)%nat) /\ done (Nat.min h (R + iters)) px'.
  Proof.
    intros Hn iters. induction iters as [|iters IH]; intros pos R px HR HD HL HS; cbn [conv_rows].
    - rewrite Nat.add_0_r, Nat.min_r by exact HR. eauto.
    - destruct HD as (Lp & HU & HG). rewrite Lp. destruct (Nat.leb_spec (R * n + n) (h * n)) as [Hle|Hgt].
      + assert (HRh : (R < h)%nat) by (clear -Hle Hn; nia).
        assert (EM : mapM (fun s : list Z => if ((pos + 1) * pw <=? length s)%nat then Ok (slice s (pos * pw) pw) else Err EOther) samples = Ok (rows_at R)).
        { specialize (HS 0%nat ltac:(lia) ltac:(lia)). rewrite !Nat.add_0_r in HS. rewrite <- HS. clear -HL.
          induction samples as [|s ss IHs]; [reflexivity|]. cbn [mapM map].
          assert (H : ((pos + S iters) * pw <= length s)%nat) by (apply HL; now left).
          replace ((pos + 1) * pw <=? length s)%nat with true by (symmetry; apply Nat.leb_le; apply Nat.le_trans with (2 := H); apply Nat.mul_le_mono_r; lia).
          cbn [bind]. rewrite IHs by (intros; apply HL; now right). reflexivity. }
        rewrite EM. cbn [bind]. rewrite HU by lia.
        destruct (CV R (slice orig (R * n) n)) as (o & Eo & Lo); [exact HRh|apply slice_length; rewrite Lorig; now apply row_in|].
        rewrite Eo. cbn [bind]. rewrite put_slice_ok by (rewrite Lo, Lp; exact Hle). cbn [bind].
        replace (R * n + n)%nat with (S R * n)%nat by (cbn [Nat.mul]; lia). replace (R + S iters)%nat with (S R + iters)%nat by lia.
        apply IH.
        * lia.
        * split; [rewrite put_length; [exact Lp|rewrite Lo, Lp; exact Hle]|]. split.
          -- intros r Hr Hge. rewrite slice_put_after; [apply HU; lia| |rewrite Lp; pose proof (row_in r Hr); lia].
             rewrite Lo. replace (R * n + n)%nat with (S R * n)%nat by (cbn [Nat.mul]; lia). now apply Nat.mul_le_mono_r.
          -- intros r Hr Hlt. destruct (Nat.eq_dec r R) as [->|Ne].
             ++ rewrite Eo. f_equal. replace (R * n)%nat with (R * n + 0)%nat at 2 by lia. rewrite slice_put_in by (rewrite ?Lo, ?Lp; lia).
                rewrite slice_all by exact Lo. reflexivity.
             ++ rewrite slice_put_before; [apply HG; lia| |rewrite Lp; lia].
                replace (r * n + n)%nat with ((r + 1) * n)%nat by ring. apply Nat.mul_le_mono_r. lia.
        * intros s Hs. specialize (HL s Hs). now replace (pos + 1 + iters)%nat with (pos + S iters)%nat by lia.
        * intros t Ht Hth. specialize (HS (S t) ltac:(lia) ltac:(lia)). replace (pos + 1 + t)%nat with (pos + S t)%nat by lia.
          replace (S R + t)%nat with (R + S t)%nat by lia. exact HS.
      + assert (E : R = h) by (clear -Hgt HR Hn; nia). subst R. rewrite Nat.min_l by lia. exists px. split; [reflexivity|]. split; [exact Lp|]. auto.
  Qed.
End Pixels.
