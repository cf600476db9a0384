(** From the bytes of a scan to pixels: baseline JPEG pictures with three components. *)
From Verif Require Import Base BaseProof Loops Slices DeintModel JpegColorModel JpegColorSpec JpegColorProof JpegColorProps JpegIdctModel JpegIdctSpec JpegIdctProof JpegIdctProps
  JpegUpsampleModel JpegUpsampleSpec JpegUpsampleRows JpegUpsampleImage JpegUpsampleProps
  JpegHuffModel JpegHuffSpec JpegHuffProps JpegScanModel JpegScanSpec JpegScanProof JpegAny JpegScanProps.

(** Sampling factors of the first component: 4:4:4, 4:2:2, 4:4:0, 4:2:0 *)
Definition layouts : list (nat * nat) := [(1, 1); (2, 1); (1, 2); (2, 2)]%nat.
Definition chroma (yh yv : nat) : ratio :=
  match yh, yv with 1%nat, 1%nat => RNone | 2%nat, 1%nat => RH | 1%nat, _ => RV | _, _ => RHV end.
(** The samples of a component: [vs] rows of blocks in each of [H] MCU rows, [hs] blocks of each of [W] MCUs *)
Definition plane_holds (W H : nat) (p : part) (blk : nat -> nat -> nat -> Z * list Z) (w : nat) (all : list Z) : Prop :=
  forall i j v h, (i < H)%nat -> (j < W)%nat -> (v < p_vs p)%nat -> (h < p_hs p)%nat ->
    exists sq, alone (p_qt p) (blk (i * W + j)%nat v h) sq /\ square w (i * p_vs p + v) (j * p_hs p + h) all sq.

Lemma concat_slice {A} n : forall (ls : list (list A)) i, Forall (fun l => length l = n) ls -> (i < length ls)%nat -> slice (concat ls) (i * n) n = nth i ls [].
Proof.
  induction ls as [|l ls IH]; intros i F Hi; cbn [length] in Hi; [lia|]. inversion F as [|x y F1 F2]; subst x y. cbn [concat].
  destruct i as [|i]; cbn [nth].
  - unfold slice. cbn [Nat.mul skipn]. rewrite firstn_app, F1, Nat.sub_diag. cbn [firstn]. rewrite app_nil_r. apply firstn_all2. lia.
  - rewrite <- (IH i F2) by lia. unfold slice. cbn [Nat.mul]. f_equal. rewrite skipn_app, F1, skipn_all2 by lia. cbn [app]. f_equal. lia.
Qed.
Lemma concat_len {A} n (ls : list (list A)) : Forall (fun l => length l = n) ls -> length (concat ls) = (length ls * n)%nat.
Proof. induction 1 as [|l ls E F IH]; [reflexivity|]. cbn [concat length Nat.mul]. now rewrite app_length, E, IH. Qed.
Lemma alone_bytes q x sq : alone q x sq -> bytes sq.
Proof.
  intros (b & (L & _) & E).
  destruct (idct_any false 64 b (repeat 0 64) 0 8 L ltac:(intros k Hk; lia) ltac:(lia)) as (o & t & E' & _ & _ & B); [rewrite repeat_length; lia| |].
  - apply Forall_forall. intros y Hy. apply repeat_spec in Hy. subst y. unfold is_byte. lia.
  - unfold idct_block in E'. cbn [Nat.leb skipn firstn app] in E', B. rewrite E' in E. cbn [samples bind] in E. congruence.
Qed.
Lemma alone_length q x sq : alone q x sq -> length sq = 64%nat.
Proof.
  intros (b & (L & _) & E).
  destruct (idct_any false 64 b (repeat 0 64) 0 8 L ltac:(intros k Hk; lia) ltac:(lia)) as (o & t & E' & _ & Lo & _); [rewrite repeat_length; lia| |].
  - apply Forall_forall. intros y Hy. apply repeat_spec in Hy. subst y. unfold is_byte. lia.
  - unfold idct_block in E'. cbn [Nat.leb skipn firstn app] in E', Lo. rewrite E' in E. cbn [samples bind] in E. rewrite repeat_length in Lo. congruence.
Qed.
(** Squares cover a row of MCUs. *)
Lemma covered W (p : part) blk w ch : w = (8 * (W * p_hs p))%nat -> (0 < p_hs p)%nat -> length ch = (w * (8 * p_vs p))%nat ->
  (forall j v h, (j < W)%nat -> (v < p_vs p)%nat -> (h < p_hs p)%nat -> exists sq, alone (p_qt p) (blk j v h) sq /\ square w v (j * p_hs p + h) ch sq) -> Forall sample ch.
Proof.
  intros Ew H0 L Sq. apply Forall_forall. intros x Hx. destruct (In_nth _ _ 0 Hx) as (i & Hi & <-).
  assert (Hw : (0 < w)%nat) by (destruct w; lia).
  set (r := (i / w)%nat). set (c := (i mod w)%nat). assert (Hc : (c < w)%nat) by (apply Nat.mod_upper_bound; lia).
  assert (Ei : i = (r * w + c)%nat) by (unfold r, c; pose proof (Nat.div_mod i w ltac:(lia)); lia).
  assert (Hr : (r < 8 * p_vs p)%nat) by (apply Nat.div_lt_upper_bound; lia). clearbody r c.
  set (b := (c / 8)%nat). assert (Hb : (b < W * p_hs p)%nat) by (apply Nat.div_lt_upper_bound; lia).
  assert (Ec : c = (8 * b + c mod 8)%nat) by (unfold b; pose proof (Nat.div_mod c 8 ltac:(lia)); lia).
  assert (Er : r = (8 * (r / 8) + r mod 8)%nat) by (pose proof (Nat.div_mod r 8 ltac:(lia)); lia).
  assert (Eb : b = (b / p_hs p * p_hs p + b mod p_hs p)%nat) by (pose proof (Nat.div_mod b (p_hs p) ltac:(lia)); lia).
  destruct (Sq (b / p_hs p) (r / 8) (b mod p_hs p))%nat as (sq & A & S).
  - apply Nat.div_lt_upper_bound; lia.
  - apply Nat.div_lt_upper_bound; lia.
  - apply Nat.mod_upper_bound; lia.
  - specialize (S (r mod 8) (c mod 8) (Nat.mod_upper_bound _ 8 ltac:(lia)) (Nat.mod_upper_bound _ 8 ltac:(lia)))%nat.
    rewrite <- Eb, <- Er in S. replace (r * w + 8 * b + c mod 8)%nat with i in S by lia. rewrite S.
    pose proof (alone_bytes _ _ _ A) as B. pose proof (alone_length _ _ _ A) as La. unfold bytes in B. rewrite Forall_forall in B. apply B, nth_In.
    pose proof (Nat.mod_upper_bound r 8 ltac:(lia)). pose proof (Nat.mod_upper_bound c 8 ltac:(lia)). lia.
Qed.

Section Picture.
  Variables (parts : nat -> part) (blk : nat -> nat -> nat -> nat -> Z * list Z) (yh yv W H : nat).
  Hypothesis Lay : In (yh, yv) layouts.
  Hypothesis PY : p_hs (parts 0%nat) = yh /\ p_vs (parts 0%nat) = yv.
  Hypothesis PC : forall k, k = 1%nat \/ k = 2%nat -> p_hs (parts k) = 1%nat /\ p_vs (parts k) = 1%nat.
  Definition width_of (k : nat) : nat := (8 * (W * p_hs (parts k)))%nat.
  Variable out : list (list (list Z)).
  Hypothesis RR : rows_right parts [0; 1; 2]%nat blk (fun _ => true) width_of 3 W H out.

  Definition all_of (k : nat) : list Z := concat (map (fun chs => nth k chs []) out).
  Definition plane_of (k : nat) : desc := Desc (if (k =? 0)%nat then RNone else chroma yh yv) (width_of k) (all_of k).
  Let n k := (width_of k * (8 * p_vs (parts k)))%nat.

  Lemma row_at i k : (i < H)%nat -> (k < 3)%nat -> exists ch, nth k (nth i out []) [] = ch /\ length ch = n k /\ length (nth i out []) = 3%nat /\
    forall j v h, (j < W)%nat -> (v < p_vs (parts k))%nat -> (h < p_hs (parts k))%nat ->
        exists sq, alone (p_qt (parts k)) (blk (i * W + j)%nat k v h) sq /\ square (width_of k) v (j * p_hs (parts k) + h) ch sq.
  Proof.
    destruct RR as (L & C). intros Hi Hk. destruct (nth_error out i) as [chs|] eqn:E; [|apply nth_error_None in E; lia].
    rewrite (nth_error_nth _ _ [] E). destruct (C i chs E) as (Lc & Ck). destruct (nth_error chs k) as [ch|] eqn:Ek; [|apply nth_error_None in Ek; lia].
    exists ch. split; [now apply nth_error_nth|]. destruct (Ck k ch) as (A & B); [cbn; lia|reflexivity|exact Ek|]. split; [exact A|]. split; [exact Lc|exact B].
  Qed.
  Lemma pieces k : (k < 3)%nat -> Forall (fun l => length l = n k) (map (fun chs => nth k chs []) out).
  Proof.
    intros Hk. apply Forall_forall. intros l Hl. apply in_map_iff in Hl. destruct Hl as (chs & <- & Hc). destruct (In_nth _ _ [] Hc) as (i & Hi & <-).
    destruct RR as (L & _). destruct (row_at i k) as (ch & -> & Lc & _); [lia|exact Hk|exact Lc].
  Qed.
  Lemma piece i k : (i < H)%nat -> (k < 3)%nat -> slice (all_of k) (i * n k) (n k) = nth k (nth i out []) [].
  Proof.
    intros Hi Hk. destruct RR as (L & _). unfold all_of. rewrite concat_slice; [|now apply pieces|rewrite map_length; lia].
    apply (map_nth_in (fun chs => nth k chs []) out i [] []). lia.
  Qed.
  Lemma all_len k : (k < 3)%nat -> length (all_of k) = (H * n k)%nat.
  Proof. intros Hk. unfold all_of. rewrite (concat_len (n k)) by now apply pieces. rewrite map_length. now destruct RR as (-> & _). Qed.
  Lemma hs_pos k : (k < 3)%nat -> (0 < p_hs (parts k))%nat.
  Proof.
    intros Hk. assert (k = 0 \/ (k = 1 \/ k = 2))%nat as [->|X] by lia.
    - destruct PY as (-> & _). cbn in Lay. destruct Lay as [E|[E|[E|[E|[]]]]]; injection E as <- <-; lia.
    - destruct (PC k X) as (-> & _). lia.
  Qed.
  Lemma all_samples k : (k < 3)%nat -> Forall sample (all_of k).
  Proof.
    intros Hk. apply Forall_concat. apply Forall_forall. intros l Hl. apply in_map_iff in Hl. destruct Hl as (chs & <- & Hc). destruct (In_nth _ _ [] Hc) as (i & Hi & <-).
    destruct RR as (L & _). destruct (row_at i k) as (ch & -> & Lc & _ & Sq); [lia|exact Hk|].
    apply (covered W (parts k) (fun j v h => blk (i * W + j)%nat k v h) (width_of k)); [reflexivity|now apply hs_pos|exact Lc|exact Sq].
  Qed.
  Lemma all_holds k : (k < 3)%nat -> plane_holds W H (parts k) (fun m v h => blk m k v h) (width_of k) (all_of k).
  Proof.
    intros Hk i j v h Hi Hj Hv Hh. destruct (row_at i k Hi Hk) as (ch & E & Lc & _ & Sq). destruct (Sq j v h Hj Hv Hh) as (sq & A & S). exists sq. split; [exact A|].
    intros a b Ha Hb. rewrite <- (S a b Ha Hb), <- E, <- (piece i k Hi Hk). pose proof (hs_pos k Hk) as Hp.
    assert (X : (8 * (j * p_hs (parts k) + h) + b < width_of k)%nat) by (unfold width_of; assert (j * p_hs (parts k) + h < W * p_hs (parts k))%nat by nia; lia).
    rewrite slice_nth; [f_equal; unfold n; set (w := width_of k) in *; set (V := p_vs (parts k)); clearbody w V; nia|].
    unfold n. set (w := width_of k) in *. set (V := p_vs (parts k)) in *. clearbody w V. assert ((8 * v + a) * w + w <= w * (8 * V))%nat by nia. lia.
  Qed.
  Lemma rows_out (f : desc -> nat -> list Z) : (forall k i, (k < 3)%nat -> f (plane_of k) i = slice (all_of k) (i * n k) (n k)) ->
    out = map (fun i => map (fun d => f d i) [plane_of 0; plane_of 1; plane_of 2]%nat) (seq 0 H).
  Proof.
    intros F. destruct RR as (L & _). apply (nth_ext _ _ [] (map (fun d => f d 0%nat) [])); [now rewrite map_length, seq_length|]. rewrite L. intros i Hi.
    rewrite (map_nth_in _ _ _ 0%nat) by (rewrite seq_length; exact Hi). rewrite seq_nth by exact Hi. cbn [map Nat.add]. rewrite !F by lia. rewrite !piece by (assumption || lia).
    destruct (row_at i 0%nat Hi ltac:(lia)) as (_ & _ & _ & L3 & _). destruct (nth i out []) as [|a [|b [|c [|d l]]]]; cbn in L3; try lia. reflexivity.
  Qed.
End Picture.

(** From rows of samples to pixels *)
Lemma picture_rows avx parts blk yh yv W H rows c width h b0 b1 b2 pixels :
  In (yh, yv) layouts -> p_hs (parts 0%nat) = yh /\ p_vs (parts 0%nat) = yv ->
  (forall k, k = 1%nat \/ k = 2%nat -> p_hs (parts k) = 1%nat /\ p_vs (parts k) = 1%nat) -> (0 < W)%nat -> (0 < H)%nat ->
  rows_right parts [0; 1; 2]%nat blk (fun _ => true) (width_of parts W) 3 W H rows ->
  In c [RGB; RGBA; BGR; BGRA] -> (1 <= width <= 8 * (W * yh))%nat -> (h <= 8 * yv * H)%nat ->
  (1 <= b0)%nat -> (1 <= b1)%nat -> (1 <= b2)%nat -> length pixels = (h * (width * num_components c))%nat ->
  exists dy db dr out,
    decode avx c (8 * (W * yh)) width yv H rows [new_comp RNone (8 * (W * yh)) yv b0; new_comp (chroma yh yv) (8 * W) 1 b1; new_comp (chroma yh yv) (8 * W) 1 b2] pixels = Ok out /\
    length out = length pixels /\ pixels_right c dy db dr width h out /\
    d_ratio dy = RNone /\ d_ratio db = chroma yh yv /\ d_ratio dr = chroma yh yv /\
    d_w dy = (8 * (W * yh))%nat /\ d_w db = (8 * W)%nat /\ d_w dr = (8 * W)%nat /\
    plane_holds W H (parts 0%nat) (fun m v h => blk m 0%nat v h) (8 * (W * yh)) (d_all dy) /\
    plane_holds W H (parts 1%nat) (fun m v h => blk m 1%nat v h) (8 * W) (d_all db) /\
    plane_holds W H (parts 2%nat) (fun m v h => blk m 2%nat v h) (8 * W) (d_all dr).
Proof.
  intros Lay PY PC W0 H0 RR Hc Hw Hh B0 B1 B2 Lp.
  assert (Wy : width_of parts W 0 = (8 * (W * yh))%nat) by (unfold width_of; now rewrite (proj1 PY)).
  assert (Wc : forall k, k = 1%nat \/ k = 2%nat -> width_of parts W k = (8 * W)%nat) by (intros k Hk; unfold width_of; rewrite (proj1 (PC k Hk)); lia).
  pose proof (Wc 1%nat ltac:(now left)) as Wb. pose proof (Wc 2%nat ltac:(now right)) as Wr. clear Wc.
  pose proof (proj2 PY) as Vy. pose proof (proj2 (PC 1%nat ltac:(now left))) as Vb. pose proof (proj2 (PC 2%nat ltac:(now right))) as Vr.
  set (dy := plane_of parts yh yv W rows 0). set (db := plane_of parts yh yv W rows 1). set (dr := plane_of parts yh yv W rows 2).
  pose proof (all_samples parts blk yh yv W H Lay PY PC rows RR) as Sa. assert (La : forall k, (k < 3)%nat -> length (all_of rows k) = (H * (width_of parts W k * (8 * p_vs (parts k))))%nat) by (intros k Hk; eapply all_len; eassumption).
  exists dy, db, dr.
  assert (HH : forall k, (k < 3)%nat -> plane_holds W H (parts k) (fun m v h => blk m k v h) (width_of parts W k) (all_of rows k)).
  { intros k Hk. eapply (all_holds parts blk yh yv W H); eassumption. }
  assert (Main : exists out, decode avx c (8 * (W * yh)) width yv H rows [new_comp RNone (8 * (W * yh)) yv b0; new_comp (chroma yh yv) (8 * W) 1 b1; new_comp (chroma yh yv) (8 * W) 1 b2] pixels = Ok out /\
    length out = length pixels /\ pixels_right c dy db dr width h out).
  { pose proof (Sa 0 ltac:(lia))%nat as S0. pose proof (Sa 1 ltac:(lia))%nat as S1. pose proof (Sa 2 ltac:(lia))%nat as S2.
    pose proof (La 0 ltac:(lia))%nat as L0. pose proof (La 1 ltac:(lia))%nat as L1. pose proof (La 2 ltac:(lia))%nat as L2.
    rewrite Wy, Vy in L0. rewrite Wb, Vb in L1. rewrite Wr, Vr in L2.
    destruct (Nat.eq_dec yv 2) as [V2|V2].
    - assert (Y : yh = 1%nat \/ yh = 2%nat) by (cbn in Lay; destruct Lay as [X|[X|[X|[X|[]]]]]; injection X as <- <-; lia).
      assert (Ch : chroma yh yv = RV /\ yh = 1%nat \/ chroma yh yv = RHV /\ yh = 2%nat) by (rewrite V2; destruct Y as [-> | ->]; [left|right]; now split).
      assert (Er : rows = handed H [dy; db; dr]).
      { unfold handed. eapply (rows_out parts blk yh yv W H) with (f := part_of); try eassumption. intros k i Hk. unfold part_of, mcu, plane_of, d_vs. cbn [d_all d_w d_ratio].
        assert (k = 0 \/ k = 1 \/ k = 2)%nat as [->|[->| ->]] by lia; cbn [Nat.eqb].
        - rewrite Vy, V2. f_equal; lia.
        - rewrite Vb. destruct Ch as [(-> & _)|(-> & _)]; f_equal; lia.
        - rewrite Vr. destruct Ch as [(-> & _)|(-> & _)]; f_equal; lia. }
      rewrite Er, V2. apply subsampled_image; try assumption; try lia.
      + split; [exact S0|]. unfold mcu, d_vs, dy, plane_of. cbn [d_all d_w d_ratio Nat.eqb]. rewrite Wy. split; lia.
      + split; [exact S1|]. unfold mcu, d_vs, db, plane_of. cbn [d_all d_w d_ratio Nat.eqb]. rewrite Wb. destruct Ch as [(-> & Ey)|(-> & Ey)]; (split; [lia|]); rewrite Ey; lia.
      + split; [exact S2|]. unfold mcu, d_vs, dr, plane_of. cbn [d_all d_w d_ratio Nat.eqb]. rewrite Wr. destruct Ch as [(-> & Ey)|(-> & Ey)]; (split; [lia|]); rewrite Ey; lia.
      + unfold dy, db, dr, plane_of. cbn [existsb d_ratio Nat.eqb]. destruct Ch as [(-> & _)|(-> & _)]; reflexivity.
      + constructor; [|constructor; [|constructor; [|constructor]]].
        * exists b0. split; [exact B0|]. unfold dy, plane_of, d_vs. cbn [d_ratio d_w Nat.eqb]. now rewrite Wy.
        * exists b1. split; [exact B1|]. unfold d_vs, db, plane_of. cbn [d_ratio d_w Nat.eqb]. rewrite Wb, <- V2. destruct Ch as [(-> & _)|(-> & _)]; reflexivity.
        * exists b2. split; [exact B2|]. unfold d_vs, dr, plane_of. cbn [d_ratio d_w Nat.eqb]. rewrite Wr, <- V2. destruct Ch as [(-> & _)|(-> & _)]; reflexivity.
    - assert (V1 : yv = 1%nat) by (cbn in Lay; destruct Lay as [X|[X|[X|[X|[]]]]]; injection X as <- <-; lia).
      assert (Y : yh = 1%nat \/ yh = 2%nat) by (cbn in Lay; destruct Lay as [X|[X|[X|[X|[]]]]]; injection X as <- <-; lia).
      assert (Ch : chroma yh yv = RNone /\ yh = 1%nat \/ chroma yh yv = RH /\ yh = 2%nat) by (rewrite V1; destruct Y as [-> | ->]; [left|right]; now split).
      assert (Er : rows = handed_flat 1 H [dy; db; dr]).
      { unfold handed_flat. eapply (rows_out parts blk yh yv W H) with (f := f_part 1); try eassumption. intros k i Hk. unfold f_part, f_mcu, f_vs, plane_of. cbn [d_all d_w d_ratio].
        assert (k = 0 \/ k = 1 \/ k = 2)%nat as [->|[->| ->]] by lia; cbn [Nat.eqb].
        - rewrite Vy, V1. f_equal; lia.
        - rewrite Vb. destruct Ch as [(-> & _)|(-> & _)]; f_equal; lia.
        - rewrite Vr. destruct Ch as [(-> & _)|(-> & _)]; f_equal; lia. }
      rewrite Er, V1. apply flat_image; try assumption; try lia.
      + split; [exact S0|]. unfold f_mcu, f_vs, dy, plane_of. cbn [d_all d_w d_ratio Nat.eqb]. rewrite Wy. split; lia.
      + split; [exact S1|]. unfold f_mcu, f_vs, db, plane_of. cbn [d_all d_w d_ratio Nat.eqb]. rewrite Wb. destruct Ch as [(-> & Ey)|(-> & Ey)]; (split; [lia|]); rewrite Ey; lia.
      + split; [exact S2|]. unfold f_mcu, f_vs, dr, plane_of. cbn [d_all d_w d_ratio Nat.eqb]. rewrite Wr. destruct Ch as [(-> & Ey)|(-> & Ey)]; (split; [lia|]); rewrite Ey; lia.
      + constructor; [|constructor; [|constructor; [|constructor]]].
        * exists b0. split; [exact B0|]. unfold f_vs, dy, plane_of. cbn [d_ratio d_w Nat.eqb]. now rewrite Wy.
        * exists b1. split; [exact B1|]. unfold f_vs, db, plane_of. cbn [d_ratio d_w Nat.eqb]. rewrite Wb, <- V1 at 1. destruct Ch as [(-> & _)|(-> & _)]; reflexivity.
        * exists b2. split; [exact B2|]. unfold f_vs, dr, plane_of. cbn [d_ratio d_w Nat.eqb]. rewrite Wr, <- V1 at 1. destruct Ch as [(-> & _)|(-> & _)]; reflexivity. }
  destruct Main as (out & E2 & Lo & Px). exists out. split; [exact E2|]. split; [exact Lo|]. split; [exact Px|].
  split; [reflexivity|]. split; [reflexivity|]. split; [reflexivity|]. unfold dy, db, dr, plane_of. cbn [d_w d_all]. split; [exact Wy|]. split; [exact Wb|]. split; [exact Wr|].
  rewrite <- Wy. split; [apply HH; lia|]. split; [rewrite <- Wb; apply HH; lia|rewrite <- Wr; apply HH; lia].
Qed.

(** A valid baseline picture with luminance and two colour components (4:4:4, 4:2:2, 4:4:0 or 4:2:0), from the bytes of the scan to
    the pixels: there are planes of samples, made of the blocks of the file in their places, and every pixel has the colour of these
    planes (brought to the full size) at its place. *)
Theorem picture_decoded debug avx strict sampled parts blk yh yv W H R file cs chs dri c width h b0 b1 b2 pixels :
  In (yh, yv) layouts -> p_hs (parts 0%nat) = yh /\ p_vs (parts 0%nat) = yv ->
  (forall k, k = 1%nat \/ k = 2%nat -> p_hs (parts k) = 1%nat /\ p_vs (parts k) = 1%nat) -> (sampled = false -> yh = 1%nat /\ yv = 1%nat) ->
  (forall k, (k < 3)%nat -> part_ok (parts k)) -> (0 < W)%nat -> (0 < H)%nat -> Z.of_nat (W * H) < 2 ^ 31 ->
  made_scan parts [0; 1; 2]%nat (fun _ => true) (width_of parts W) 3 cs chs ->
  (forall n k v h, (k < 3)%nat -> (v < p_vs (parts k))%nat -> (h < p_hs (parts k))%nat -> moderate (p_qt (parts k)) (blk n k v h)) ->
  bytes file -> Z.of_nat R < 2 ^ 16 -> scan_bytes parts [0; 1; 2]%nat blk R 0 0 (W * H) file -> match dri with None => R = 0%nat | Some d => d = Z.of_nat R end ->
  In c [RGB; RGBA; BGR; BGRA] -> (1 <= width <= 8 * (W * yh))%nat -> (h <= 8 * yv * H)%nat ->
  (1 <= b0)%nat -> (1 <= b1)%nat -> (1 <= b2)%nat -> length pixels = (h * (width * num_components c))%nat ->
  exists rows s dy db dr out,
    run_scan debug avx false strict sampled [0; 1; 2]%nat W H (start_scan file cs chs dri) = Ok (AllRows, rows, s) /\
    decode avx c (8 * (W * yh)) width yv H rows [new_comp RNone (8 * (W * yh)) yv b0; new_comp (chroma yh yv) (8 * W) 1 b1; new_comp (chroma yh yv) (8 * W) 1 b2] pixels = Ok out /\
    length out = length pixels /\ pixels_right c dy db dr width h out /\
    d_ratio dy = RNone /\ d_ratio db = chroma yh yv /\ d_ratio dr = chroma yh yv /\
    d_w dy = (8 * (W * yh))%nat /\ d_w db = (8 * W)%nat /\ d_w dr = (8 * W)%nat /\
    plane_holds W H (parts 0%nat) (fun m v h => blk m 0%nat v h) (8 * (W * yh)) (d_all dy) /\
    plane_holds W H (parts 1%nat) (fun m v h => blk m 1%nat v h) (8 * W) (d_all db) /\
    plane_holds W H (parts 2%nat) (fun m v h => blk m 2%nat v h) (8 * W) (d_all dr).
Proof.
  intros Lay PY PC Smp PO W0 H0 Tot Ms Mod B R16 Sb Ed Hc Hw Hh B0 B1 B2 Lp.
  assert (K3 : forall k, In k [0; 1; 2]%nat -> (k < 3)%nat) by (intros k [<-|[<-|[<-|[]]]]; lia).
  destruct (scan_decoded_partial debug avx strict sampled parts [0; 1; 2]%nat blk (fun _ => true) (width_of parts W) 3 W H R file cs chs dri) as (rows & s & E & RR); try assumption.
  { split; [|split; [discriminate|split; [exact W0|split; [exact H0|exact Tot]]]]. intros k Hk. pose proof (K3 k Hk) as Hk3. split; [exact Hk3|]. split; [now apply PO|].
    split; [|intros _; unfold width_of; lia]. intros Es. assert (k = 0 \/ (k = 1 \/ k = 2))%nat as [->|X] by lia; [|now apply PC]. destruct PY as (-> & ->). now apply Smp. }
  { intros m k v h' Hk. now apply Mod, K3. }
  destruct (picture_rows avx parts blk yh yv W H rows c width h b0 b1 b2 pixels Lay PY PC W0 H0 RR Hc Hw Hh B0 B1 B2 Lp) as (dy & db & dr & out & X).
  exists rows, s, dy, db, dr, out. split; [exact E|exact X].
Qed.
Print Assumptions picture_decoded.
(** One MCU of a 4:2:0 picture: 01 101 00, three times 00 00; 00 00; 01 101 00; two ones; EOI. *)
Definition pic_parts (k : nat) : part := match k with O => demo_part 2 2 | _ => demo_part 1 1 end.
Definition pic_blk (n k v h : nat) : Z * list Z := (match k with 1%nat => 0 | _ => 5 end, repeat 0 63).
Definition pic_file : list Z := [104; 0; 0; 211; 255; 217].
Definition pic_comps : list comp := [demo_comp 2 2 16; demo_comp 1 1 8; demo_comp 1 1 8].
Example picture_demo :
  In (2, 2)%nat layouts /\ (forall k, (k < 3)%nat -> part_ok (pic_parts k)) /\
  made_scan pic_parts [0; 1; 2]%nat (fun _ => true) (width_of pic_parts 1) 3 pic_comps [repeat 0 256; repeat 0 64; repeat 0 64] /\
  (forall n k v h, moderate (p_qt (pic_parts k)) (pic_blk n k v h)) /\ bytes pic_file /\ scan_bytes pic_parts [0; 1; 2]%nat pic_blk 0 0 0 (1 * 1) pic_file /\
  (do (e, rows, s) <- run_scan true true false true true [0; 1; 2]%nat 1 1 (start_scan pic_file pic_comps [repeat 0 256; repeat 0 64; repeat 0 64] None) ;
   decode true RGB 16 3 2 1 rows [new_comp RNone 16 2 1; new_comp (chroma 2 2) 8 1 1; new_comp (chroma 2 2) 8 1 1] (repeat 0 18))
  = Ok [130; 128; 129; 130; 128; 129; 130; 128; 129; 130; 128; 129; 130; 128; 129; 130; 128; 129].
Proof.
  split; [cbn; tauto|]. split; [|split; [|split; [|split; [|split]]]].
  - intros [|k] _; apply demo_part_ok; lia.
  - split; [reflexivity|]. split; [reflexivity|]. split.
    + intros k c [<-|[<-|[<-|[]]]] E; injection E as <-; apply demo_made.
    + intros k ch [<-|[<-|[<-|[]]]] _ E; injection E as <-; reflexivity.
  - intros n k v h. replace (p_qt (pic_parts k)) with demo_qt by (now destruct k). apply demo_moderate. destruct k as [|[|k]]; lia.
  - repeat constructor; lia.
  - apply (last_segment _ _ _ 0 0 0 1 [104; 0; 0; 211] 0 []); [now left|].
    eexists. exists [true; true]. split; [repeat constructor; lia|]. split; [|split; [cbn; lia|]].
    2: { exists (msb 2 1 ++ extra_bits 3 5 ++ msb 2 0). eexists. split; [reflexivity|]. split; [apply (demo_three 5); lia|].
      exists (msb 2 0 ++ msb 2 0). eexists. split; [reflexivity|]. split; [exact demo_zero|].
      exists (msb 2 0 ++ msb 2 0). eexists. split; [reflexivity|]. split; [exact demo_zero|].
      exists (msb 2 0 ++ msb 2 0). eexists. split; [reflexivity|]. split; [exact demo_zero|].
      exists (msb 2 0 ++ msb 2 0). eexists. split; [reflexivity|]. split; [exact demo_zero|].
      exists (msb 2 1 ++ extra_bits 3 5 ++ msb 2 0). eexists. split; [reflexivity|]. split; [apply (demo_three 5); lia|reflexivity]. }
    vm_compute. reflexivity.
  - vm_compute. reflexivity.
Qed.
