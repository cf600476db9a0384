(** JPEG images with subsampled colour: property theorems. *)
From Verif Require Import Base BaseProof Loops Slices DeintModel JpegSimd JpegColorModel JpegColorSpec JpegColorProof JpegColorProps
  JpegUpsampleModel JpegUpsampleSpec JpegUpsampleProof JpegUpsampleRows JpegUpsampleImage.

(** ** Single rows *)

(** A row is doubled by the filter of the specification, with and without AVX2, whatever its length (at least 3; rows of a
    JPEG component are multiples of 8). *)
Theorem row_doubled r out : Forall sample r -> (2 < length r)%nat -> length out = (2 * length r)%nat ->
  horizontal r out = Ok (wide r) /\ horizontal_avx2 r out = Ok (wide r) /\ Forall sample (wide r).
Proof. intros H1 H2 H3. split; [now apply horizontal_wide|]. split; [now apply horizontal_avx2_wide|now apply wide_sample]. Qed.
Print Assumptions row_doubled.
Theorem rows_blended a near far out : Forall sample a -> Forall sample near -> Forall sample far ->
  length near = length a -> length far = length a -> length out = (2 * length a)%nat ->
  vertical a near far out = Ok (mix a near ++ mix a far) /\ vertical_avx2 a near far out = Ok (mix a near ++ mix a far).
Proof. intros. split; [now apply vertical_mix|now apply vertical_avx2_mix]. Qed.
Print Assumptions rows_blended.
Definition demo_r : list Z := map (fun i => Z.of_nat (i * i mod 251)) (seq 0 37).
Example doubled_demo : Forall sample demo_r /\ (2 < length demo_r)%nat /\ firstn 7 (wide demo_r) = [0; 0; 1; 2; 3; 5; 8] /\
  horizontal_avx2 demo_r (repeat 0 74) = Ok (wide demo_r).
Proof.
  assert (S : Forall sample demo_r).
  { apply Forall_forall. intros x Hx. apply in_map_iff in Hx. destruct Hx as (i & <- & _). unfold sample.
    pose proof (Nat.mod_upper_bound (i * i) 251 ltac:(discriminate)). lia. }
  split; [exact S|]. split; [unfold demo_r; rewrite map_length, seq_length; lia|]. split; vm_compute; reflexivity.
Qed.

(** ** Whole images *)

(** The sample of the full-size plane of a component at row [k], column [x] *)
Definition at_ (d : desc) (k x : nat) : Z := nth x (nth k (plane (d_ratio d) (d_w d) (d_all d)) []) 0.
Definition pixels_right (c : colorspace) (dy db dr : desc) (width h : nat) (out : list Z) : Prop :=
  forall k, (k < h)%nat ->
    each_of (num_components c) width (slice out (k * (width * num_components c)) (width * num_components c)) (fun x px => exists r g b,
      px = match c with RGB => [r; g; b] | RGBA => [r; g; b; 255] | BGR => [b; g; r] | _ => [b; g; r; 255] end /\
      near r (exact_red (at_ dy k x) (at_ db k x) (at_ dr k x)) /\
      near g (exact_green (at_ dy k x) (at_ db k x) (at_ dr k x)) /\
      near b (exact_blue (at_ dy k x) (at_ db k x) (at_ dr k x))).

Lemma each_of_unique_length n w row P : each_of n w row P -> length row = (w * n)%nat.
Proof. intros (L & _). rewrite L. lia. Qed.

Lemma row_inside r h n : (r < h)%nat -> (r * n + n <= h * n)%nat.
Proof. intros H. replace (r * n + n)%nat with ((r + 1) * n)%nat by ring. apply Nat.mul_le_mono_r. lia. Qed.

Section Convert.
  Variables (c : colorspace) (dy db dr : desc) (width pw h : nat).
  Hypothesis Hc : In c [RGB; RGBA; BGR; BGRA].
  Hypothesis Hw : (1 <= width <= pw)%nat.
  Hypothesis OK : forall k, (k < h)%nat -> row_ok pw (pl dy k) /\ row_ok pw (pl db k) /\ row_ok pw (pl dr k).
  Let n := (width * num_components c)%nat.
  Let conv avx := fun rows o => convert_row avx YCbCr c rows width o.
  Let rows_at k := map (fun d => pl d k) [dy; db; dr].
  Lemma conv_ok avx : forall k o, (k < h)%nat -> length o = n -> exists o', conv avx (rows_at k) o = Ok o' /\ length o' = n.
  Proof.
    intros k o Hk Lo. destruct (OK k Hk) as ((Ly & Sy) & (Lb & Sb) & (Lr & Sr)).
    destruct (ycbcr_row_colours avx c (pl dy k) (pl db k) (pl dr k) width o) as (row & E & EO); try assumption; try lia.
    exists row. split; [exact E|]. apply each_of_unique_length in EO. exact EO.
  Qed.
  Lemma conv_right avx orig out : length orig = (h * n)%nat ->
    (forall k, (k < h)%nat -> conv avx (rows_at k) (slice orig (k * n) n) = Ok (slice out (k * n) n)) ->
    pixels_right c dy db dr width h out.
  Proof.
    intros Lo H k Hk. specialize (H k Hk). destruct (OK k Hk) as ((Ly & Sy) & (Lb & Sb) & (Lr & Sr)).
    destruct (ycbcr_row_colours avx c (pl dy k) (pl db k) (pl dr k) width (slice orig (k * n) n)) as (row & E & EO); try assumption; try lia.
    { apply slice_length. rewrite Lo. now apply row_inside. }
    unfold conv, rows_at in H. cbn [map] in H. rewrite E in H. assert (Q : row = slice out (k * n) n) by congruence. rewrite Q in EO. exact EO.
  Qed.
  Lemma conv_same avx avx' orig out out' : length orig = (h * n)%nat -> length out = (h * n)%nat -> length out' = (h * n)%nat ->
    (forall k, (k < h)%nat -> conv avx (rows_at k) (slice orig (k * n) n) = Ok (slice out (k * n) n)) ->
    (forall k, (k < h)%nat -> conv avx' (rows_at k) (slice orig (k * n) n) = Ok (slice out' (k * n) n)) -> out = out'.
  Proof.
    intros Lo L1 L2 H1 H2.
    assert (S : forall k, (k < h)%nat -> slice out (k * n) n = slice out' (k * n) n).
    { intros k Hk. destruct (OK k Hk) as ((Ly & Sy) & (Lb & Sb) & (Lr & Sr)). specialize (H1 k Hk). specialize (H2 k Hk).
      assert (E : conv avx (rows_at k) (slice orig (k * n) n) = conv avx' (rows_at k) (slice orig (k * n) n)).
      { apply ycbcr_row_same; try assumption; try lia. apply slice_length. rewrite Lo. now apply row_inside. }
      congruence. }
    assert (N0 : (0 < n)%nat) by (unfold n; cbn [In] in Hc; intuition (subst; cbn [num_components]; lia)).
    clear -S L1 L2 N0. clearbody n. apply (list_eq_nth 0); [congruence|]. intros j Hj. rewrite L1 in Hj.
    assert (Hk : (j / n < h)%nat) by (apply Nat.div_lt_upper_bound; lia).
    pose proof (Nat.div_mod j n ltac:(lia)) as DM. pose proof (Nat.mod_upper_bound j n ltac:(lia)) as MB.
    specialize (S _ Hk). apply (f_equal (fun l => nth (j mod n) l 0)) in S. rewrite !slice_nth in S by exact MB.
    replace (j / n * n + j mod n)%nat with j in S by lia. exact S.
  Qed.
End Convert.

(** The components as [setup_upsample_scanline] leaves them, and the samples handed over row of blocks by row of blocks
    (each component [8 * vertical sampling] rows at a time). *)
Definition handed (m : nat) (ds : list desc) : list (list (list Z)) := map (fun i => map (fun d => part_of d i) ds) (seq 0 m).
Definition decode (avx : bool) (c : colorspace) (pw width v_max m : nat) (todo : list (list (list Z))) (cs : list comp) (pixels : list Z) : res (list Z) :=
  image_rows (fun rows o => convert_row avx YCbCr c rows width o) pw (width * num_components c) avx pw v_max m 0 todo cs pixels 0.

(** Vertically subsampled images (4:2:0, 4:4:0): every pixel of the picture has the colour of the full-size planes at its place,
    across all borders between rows of blocks, for any width and height. *)
Theorem subsampled_image avx c dy db dr pw width h m cs pixels :
  In c [RGB; RGBA; BGR; BGRA] -> (1 <= width <= pw)%nat -> (h <= 16 * m)%nat -> (0 < m)%nat ->
  legal pw m dy -> legal pw m db -> legal pw m dr -> existsb (fun d => is_vert (d_ratio d)) [dy; db; dr] = true ->
  Forall2 fresh [dy; db; dr] cs -> length pixels = (h * (width * num_components c))%nat ->
  exists out, decode avx c pw width 2 m (handed m [dy; db; dr]) cs pixels = Ok out /\
    length out = length pixels /\ pixels_right c dy db dr width h out.
Proof.
  intros Hc Hw Hh Hm Ly Lb Lr VT F Lo.
  assert (OK : forall k, (k < h)%nat -> row_ok pw (pl dy k) /\ row_ok pw (pl db k) /\ row_ok pw (pl dr k)).
  { intros k Hk. split; [|split]; apply (pl_ok pw m); first [assumption|lia]. }
  destruct (image_vertical (fun rows o => convert_row avx YCbCr c rows width o) pw (width * num_components c) h m avx [dy; db; dr] pixels) with (cs := cs)
    as (out & E & L1 & HG).
  - lia.
  - cbn [In] in Hc; intuition (subst; cbn [num_components]; lia).
  - exact Lo.
  - exact Hh.
  - intros d [<-|[<-|[<-|[]]]]; assumption.
  - exact VT.
  - now apply (conv_ok c dy db dr width pw h).
  - exact Hm.
  - exact F.
  - exists out. split; [exact E|]. split; [lia|]. exact (conv_right c dy db dr width pw h Hc Hw OK avx pixels out Lo HG).
Qed.
Print Assumptions subsampled_image.
(** Without vertical subsampling (4:4:4, 4:2:2, 4:1:1) or with unusual factors (4:1:0) *)
Definition handed_flat (vm m : nat) (ds : list desc) : list (list (list Z)) := map (fun i => map (fun d => f_part vm d i) ds) (seq 0 m).
Theorem flat_image avx c dy db dr pw width h m vm cs pixels :
  In c [RGB; RGBA; BGR; BGRA] -> (1 <= width <= pw)%nat -> (0 < vm)%nat -> (h <= 8 * vm * m)%nat ->
  legal_flat pw m vm dy -> legal_flat pw m vm db -> legal_flat pw m vm dr ->
  Forall2 (f_fresh vm) [dy; db; dr] cs -> length pixels = (h * (width * num_components c))%nat ->
  exists out, decode avx c pw width vm m (handed_flat vm m [dy; db; dr]) cs pixels = Ok out /\
    length out = length pixels /\ pixels_right c dy db dr width h out.
Proof.
  intros Hc Hw Hv Hh Ly Lb Lr F Lo.
  assert (P0 : (0 < pw)%nat) by lia.
  assert (OK : forall k, (k < h)%nat -> row_ok pw (pl dy k) /\ row_ok pw (pl db k) /\ row_ok pw (pl dr k)).
  { intros k Hk. split; [|split]; apply (f_pl_ok pw m vm); first [assumption|lia]. }
  destruct (image_flat (fun rows o => convert_row avx YCbCr c rows width o) pw (width * num_components c) h m vm pw avx [dy; db; dr] pixels) with (cs := cs)
    as (out & E & L1 & HG).
  - exact P0.
  - exact Hv.
  - cbn [In] in Hc; intuition (subst; cbn [num_components]; lia).
  - exact Lo.
  - exact Hh.
  - intros d [<-|[<-|[<-|[]]]]; assumption.
  - now apply (conv_ok c dy db dr width pw h).
  - exact F.
  - exists out. split; [exact E|]. split; [lia|]. exact (conv_right c dy db dr width pw h Hc Hw OK avx pixels out Lo HG).
Qed.
Print Assumptions flat_image.
(** The bytes do not depend on the processor. *)
Theorem image_same_bytes avx avx' c dy db dr pw width h m cs pixels :
  In c [RGB; RGBA; BGR; BGRA] -> (1 <= width <= pw)%nat -> (h <= 16 * m)%nat -> (0 < m)%nat ->
  legal pw m dy -> legal pw m db -> legal pw m dr -> existsb (fun d => is_vert (d_ratio d)) [dy; db; dr] = true ->
  Forall2 fresh [dy; db; dr] cs -> length pixels = (h * (width * num_components c))%nat ->
  decode avx c pw width 2 m (handed m [dy; db; dr]) cs pixels = decode avx' c pw width 2 m (handed m [dy; db; dr]) cs pixels.
Proof.
  intros Hc Hw Hh Hm Ly Lb Lr VT F Lo.
  assert (OK : forall k, (k < h)%nat -> row_ok pw (pl dy k) /\ row_ok pw (pl db k) /\ row_ok pw (pl dr k)).
  { intros k Hk. split; [|split]; apply (pl_ok pw m); first [assumption|lia]. }
  assert (R : forall a, exists out, decode a c pw width 2 m (handed m [dy; db; dr]) cs pixels = Ok out /\
      length out = (h * (width * num_components c))%nat /\
      forall r, (r < h)%nat -> convert_row a YCbCr c (map (fun d => pl d r) [dy; db; dr]) width (slice pixels (r * (width * num_components c)) (width * num_components c)) =
        Ok (slice out (r * (width * num_components c)) (width * num_components c))).
  { intros a. apply (image_vertical (fun rows o => convert_row a YCbCr c rows width o) pw (width * num_components c) h m a [dy; db; dr] pixels).
    - lia.
    - cbn [In] in Hc; intuition (subst; cbn [num_components]; lia).
    - exact Lo.
    - exact Hh.
    - intros d [<-|[<-|[<-|[]]]]; assumption.
    - exact VT.
    - now apply (conv_ok c dy db dr width pw h).
    - exact Hm.
    - exact F. }
  destruct (R avx) as (o1 & -> & L1 & G1), (R avx') as (o2 & -> & L2 & G2). f_equal.
  exact (conv_same c dy db dr width pw h Hc Hw OK avx avx' pixels o1 o2 Lo L1 L2 G1 G2).
Qed.
Print Assumptions image_same_bytes.

(** A 4:2:0 picture of 13 x 30 pixels: two rows of blocks, one column *)
Definition ramp (a b n : nat) : list Z := map (fun i => Z.of_nat ((i * a + b) mod 256)) (seq 0 n).
Definition demo_dy : desc := Desc RNone 16 (ramp 7 3 512).
Definition demo_db : desc := Desc RHV 8 (ramp 29 100 128).
Definition demo_dr : desc := Desc RHV 8 (ramp 53 9 128).
Lemma ramp_samples a b n : Forall sample (ramp a b n).
Proof.
  apply Forall_forall. intros x Hx. apply in_map_iff in Hx. destruct Hx as (i & <- & _). unfold sample.
  pose proof (Nat.mod_upper_bound (i * a + b) 256 ltac:(discriminate)). lia.
Qed.
Definition demo_cs : list comp := [new_comp RNone 16 2 1; new_comp RHV 8 1 2; new_comp RHV 8 1 2].
Example image_demo : legal 16 2 demo_dy /\ legal 16 2 demo_db /\ legal 16 2 demo_dr /\ Forall2 fresh [demo_dy; demo_db; demo_dr] demo_cs /\
  existsb (fun d => is_vert (d_ratio d)) [demo_dy; demo_db; demo_dr] = true /\
  decode true RGB 16 13 2 2 (handed 2 [demo_dy; demo_db; demo_dr]) demo_cs (repeat 0 (30 * (13 * 3))) =
  decode false RGB 16 13 2 2 (handed 2 [demo_dy; demo_db; demo_dr]) demo_cs (repeat 0 (30 * (13 * 3))) /\
  (map (at_ demo_db 15) [0; 1; 2]%nat, map (at_ demo_db 16) [0; 1; 2]%nat) = ([182; 189; 204], [170; 177; 192]).
Proof.
  split; [|split; [|split; [|split; [|split; [|split]]]]].
  - split; [apply ramp_samples|]. split; reflexivity.
  - split; [apply ramp_samples|]. split; [reflexivity|]. split; [reflexivity|cbn; lia].
  - split; [apply ramp_samples|]. split; [reflexivity|]. split; [reflexivity|cbn; lia].
  - constructor; [exists 1%nat; split; [lia|reflexivity]|]. constructor; [exists 2%nat; split; [lia|reflexivity]|].
    constructor; [exists 2%nat; split; [lia|reflexivity]|]. constructor.
  - reflexivity.
  - vm_compute. reflexivity.
  - vm_compute. reflexivity.
Qed.
