(** Whole progressive JPEG files: the order of the blocks, and scan after scan *)
From Verif Require Import Base BaseProof Loops Slices Bits JpegSimd JpegHuffModel JpegIdctSpec JpegHuffSpec JpegHuffTable JpegHuffBits JpegHuffBlock JpegHuffRun JpegHuffProps JpegScanModel JpegProgModel JpegProgSpec JpegProgBits JpegProgBlock JpegProgScan.
From Coq Require Import Permutation.

(** * Lists *)
Lemma concat_flat_map {A B} (g : A -> list (list B)) l : concat (flat_map g l) = flat_map (fun x => concat (g x)) l.
Proof. induction l as [|x l IH]; [reflexivity|]. cbn [flat_map]. now rewrite concat_app, IH. Qed.
Lemma concat_map_flat {A B} (g : A -> list B) l : concat (map g l) = flat_map g l.
Proof. symmetry. apply flat_map_concat_map. Qed.
Lemma NoDup_app_ {A} (a b : list A) : NoDup a -> NoDup b -> (forall x, In x a -> In x b -> False) -> NoDup (a ++ b).
Proof.
  induction a as [|x a IH]; intros Na Nb D; [exact Nb|]. inversion Na as [|y l H1 H2]. subst y l. cbn [app]. constructor.
  - intros I. apply in_app_or in I. destruct I as [I|I]; [contradiction|]. apply (D x); [now left|exact I].
  - apply IH; [exact H2|exact Nb|]. intros y I1 I2. apply (D y); [now right|exact I2].
Qed.
Lemma NoDup_flat_map {A B} (g : A -> list B) l : NoDup l -> (forall x, In x l -> NoDup (g x)) -> (forall x y b, In x l -> In y l -> In b (g x) -> In b (g y) -> x = y) -> NoDup (flat_map g l).
Proof.
  induction l as [|x l IH]; intros N G D; [constructor|]. inversion N as [|y l' H1 H2]. subst y l'. cbn [flat_map]. apply NoDup_app_.
  - apply G. now left.
  - apply IH; [exact H2|intros y I; apply G; now right|]. intros y z b I1 I2. apply D; now right.
  - intros b I1 I2. apply in_flat_map in I2. destruct I2 as (y & Iy & I2). apply H1. rewrite (D x y b); [exact Iy|now left|now right|exact I1|exact I2].
Qed.
Lemma NoDup_map_ {A B} (g : A -> B) l : NoDup l -> (forall x y, In x l -> In y l -> g x = g y -> x = y) -> NoDup (map g l).
Proof.
  intros N D. induction l as [|x l IH]; [constructor|]. inversion N as [|y l' H1 H2]. subst y l'. cbn [map]. constructor.
  - intros I. apply in_map_iff in I. destruct I as (y & E & I). apply H1. rewrite (D x y); [exact I|now left|now right|congruence].
  - apply IH; [exact H2|]. intros y z I1 I2. apply D; now right.
Qed.
Lemma digits a b a' b' n : (b < n)%nat -> (b' < n)%nat -> (a * n + b = a' * n + b')%nat -> a = a' /\ b = b'.
Proof.
  intros H1 H2 E. assert (a = a') as -> by nia. lia.
Qed.

(** * Rounding up *)
Lemma ceil_le a b m : (0 < b)%nat -> (ceil_div a b <= m)%nat <-> (a <= b * m)%nat.
Proof.
  intros H. unfold ceil_div. pose proof (Nat.div_mod (a + b - 1) b ltac:(lia)) as D. pose proof (Nat.mod_upper_bound (a + b - 1) b ltac:(lia)) as U.
  set (q := ((a + b - 1) / b)%nat) in *. set (r := ((a + b - 1) mod b)%nat) in *. clearbody q r. split; intros G; nia.
Qed.
Lemma ceil_unique a b : (forall m : nat, a <= m <-> b <= m)%nat -> a = b.
Proof. intros H. pose proof (proj1 (H a) ltac:(lia)). pose proof (proj2 (H b) ltac:(lia)). lia. Qed.
Lemma ceil_ceil a b c : (0 < b)%nat -> (0 < c)%nat -> ceil_div (ceil_div a b) c = ceil_div a (c * b).
Proof. intros Hb Hc. apply ceil_unique. intros m. rewrite !ceil_le by nia. replace (c * b * m)%nat with (b * (c * m))%nat by lia. reflexivity. Qed.
Lemma ceil_scaled a b : (0 < b)%nat -> ceil_div (a * b) b = a.
Proof. intros Hb. apply ceil_unique. intros m. rewrite ceil_le by exact Hb. nia. Qed.
Lemma ceil_pos a b : (0 < a)%nat -> (0 < b)%nat -> (0 < ceil_div a b)%nat.
Proof. intros Ha Hb. pose proof (proj1 (ceil_le a b (ceil_div a b) Hb) ltac:(lia)). nia. Qed.

(** * Blocks of a frame *)
Lemma max_in (l : list nat) x : In x l -> (x <= fold_right Nat.max 1 l)%nat.
Proof. induction l as [|y l IH]; intros []; cbn [fold_right]; [lia|]. specialize (IH H). lia. Qed.
Lemma max_pos (l : list nat) : (1 <= fold_right Nat.max 1 l)%nat.
Proof. induction l; cbn [fold_right]; lia. Qed.

Definition frame_ok (f : pframe) : Prop := (0 < f_x f)%nat /\ (0 < f_y f)%nat /\ Forall (fun s => 0 < fst s /\ 0 < snd s)%nat (f_samp f).
Definition nblocks (f : pframe) (k : nat) : nat := (across f k * down f k)%nat.
Section Units.
  Variable f : pframe.
  Hypothesis fok : frame_ok f.
  Lemma samp_pos k : (0 < hs_of f k)%nat /\ (0 < vs_of f k)%nat.
  Proof.
    unfold hs_of, vs_of. destruct (Nat.lt_ge_cases k (length (f_samp f))) as [H|H]; [|rewrite nth_overflow by exact H; cbn; lia].
    destruct fok as (_ & _ & F). rewrite Forall_forall in F. apply F. now apply nth_In.
  Qed.
  Lemma hmax_pos : (0 < hmax f)%nat. Proof. unfold hmax. pose proof (max_pos (map fst (f_samp f))). lia. Qed.
  Lemma vmax_pos : (0 < vmax f)%nat. Proof. unfold vmax. pose proof (max_pos (map snd (f_samp f))). lia. Qed.
  Lemma real_le k : (real_x f k <= across f k)%nat /\ (real_y f k <= down f k)%nat.
  Proof.
    pose proof hmax_pos. pose proof vmax_pos. unfold real_x, real_y, across, down. rewrite !ceil_le by lia.
    pose proof (proj1 (ceil_le (f_x f) (8 * hmax f) (mcus_x f) ltac:(lia)) (Nat.le_refl _)). pose proof (proj1 (ceil_le (f_y f) (8 * vmax f) (mcus_y f) ltac:(lia)) (Nat.le_refl _)). split; nia.
  Qed.
  Lemma real_pos k : (0 < real_x f k)%nat /\ (0 < real_y f k)%nat.
  Proof.
    destruct (samp_pos k). destruct fok as (Hx & Hy & _). pose proof hmax_pos. pose proof vmax_pos. unfold real_x, real_y. split; apply ceil_pos; try lia; apply ceil_pos; nia.
  Qed.
  Lemma mcus_pos : (0 < mcus_x f)%nat /\ (0 < mcus_y f)%nat.
  Proof. destruct fok as (Hx & Hy & _). pose proof hmax_pos. pose proof vmax_pos. unfold mcus_x, mcus_y. split; apply ceil_pos; lia. Qed.

  (** the blocks of a scan in order *)
  Definition many (order : list nat) : list (list (nat * nat)) :=
    flat_map (fun i => map (fun j =>
        flat_map (fun k => flat_map (fun v => map (fun h => (k, ((i * vs_of f k + v) * across f k + (j * hs_of f k + h))%nat))
          (seq 0 (hs_of f k))) (seq 0 (vs_of f k))) order) (seq 0 (mcus_x f))) (seq 0 (mcus_y f)).
  Definition one (k : nat) : list (list (nat * nat)) := flat_map (fun i => map (fun j => [(k, (i * across f k + j)%nat)]) (seq 0 (real_x f k))) (seq 0 (real_y f k)).
  Lemma units_cases order : (exists k, order = [k] /\ scan_units f order = one k) \/ (length order <> 1%nat /\ scan_units f order = many order).
  Proof. destruct order as [|k [|k' l]]; [right; split; [discriminate|reflexivity]|left; now exists k|right; split; [discriminate|reflexivity]]. Qed.
  Lemma one_blocks k : concat (one k) = flat_map (fun i => map (fun j => (k, (i * across f k + j)%nat)) (seq 0 (real_x f k))) (seq 0 (real_y f k)).
  Proof.
    unfold one. rewrite concat_flat_map. apply flat_map_ext. intros i. induction (seq 0 (real_x f k)) as [|j l IH]; [reflexivity|]. cbn [map concat app]. now rewrite IH.
  Qed.
  Lemma many_blocks order : concat (many order) = flat_map (fun i => flat_map (fun j =>
    flat_map (fun k => flat_map (fun v => map (fun h => (k, ((i * vs_of f k + v) * across f k + (j * hs_of f k + h))%nat))
          (seq 0 (hs_of f k))) (seq 0 (vs_of f k))) order) (seq 0 (mcus_x f))) (seq 0 (mcus_y f)).
  Proof. unfold many. rewrite concat_flat_map. apply flat_map_ext. intros i. apply concat_map_flat. Qed.
  Lemma one_in k k' b : In (k', b) (concat (one k)) -> k' = k /\ (b < nblocks f k)%nat.
  Proof.
    rewrite one_blocks. intros I. apply in_flat_map in I. destruct I as (i & Ii & I). apply in_map_iff in I. destruct I as (j & E & Ij). injection E as <- <-. apply in_seq in Ii, Ij.
    split; [reflexivity|]. destruct (real_le k). unfold nblocks. nia.
  Qed.
  Lemma cell_in order i j k' b : In (k', b) (flat_map (fun k => flat_map (fun v => map (fun h => (k, ((i * vs_of f k + v) * across f k + (j * hs_of f k + h))%nat))
          (seq 0 (hs_of f k))) (seq 0 (vs_of f k))) order) -> In k' order /\ exists v h, (v < vs_of f k')%nat /\ (h < hs_of f k')%nat /\ b = ((i * vs_of f k' + v) * across f k' + (j * hs_of f k' + h))%nat.
  Proof.
    intros I. apply in_flat_map in I. destruct I as (k & Ik & I). apply in_flat_map in I. destruct I as (v & Iv & I). apply in_map_iff in I. destruct I as (h & E & Ih). injection E as <- <-. apply in_seq in Iv, Ih.
    split; [exact Ik|]. exists v, h. split; [lia|]. split; [lia|reflexivity].
  Qed.
  Lemma many_in order k b : In (k, b) (concat (many order)) -> In k order /\ (b < nblocks f k)%nat.
  Proof.
    rewrite many_blocks. intros I. apply in_flat_map in I. destruct I as (i & Ii & I). apply in_flat_map in I. destruct I as (j & Ij & I). destruct (cell_in _ _ _ _ _ I) as (Ik & v & h & Hv & Hh & ->).
    apply in_seq in Ii, Ij. split; [exact Ik|]. unfold nblocks. assert (j * hs_of f k + h < across f k)%nat by (unfold across; nia). assert (i * vs_of f k + v < down f k)%nat by (unfold down; nia). nia.
  Qed.
  Lemma units_in order k b : In (k, b) (concat (scan_units f order)) -> In k order /\ (b < nblocks f k)%nat.
  Proof.
    destruct (units_cases order) as [(k' & -> & ->)|(_ & ->)]; intros I; [|now apply many_in]. apply one_in in I. destruct I as (-> & I). split; [now left|exact I].
  Qed.
  Lemma units_nodup order : NoDup order -> NoDup (concat (scan_units f order)).
  Proof.
    intros No. destruct (units_cases order) as [(k & -> & ->)|(_ & ->)].
    - rewrite one_blocks. destruct (real_le k) as (Hx & _). apply NoDup_flat_map; [apply seq_NoDup| |].
      + intros i _. apply NoDup_map_; [apply seq_NoDup|]. intros j j' I1 I2 E. injection E as E. lia.
      + intros i i' b _ _ I1 I2. apply in_map_iff in I1, I2. destruct I1 as (j & <- & J1). destruct I2 as (j' & E & J2). injection E as E. apply in_seq in J1, J2. symmetry. apply (digits i' j' i j (across f k)); [lia|lia|exact E].
    - rewrite many_blocks.
      assert (Cell : forall i j i' j' b order, (j < mcus_x f)%nat -> (j' < mcus_x f)%nat ->
        In b (flat_map (fun k => flat_map (fun v => map (fun h => (k, ((i * vs_of f k + v) * across f k + (j * hs_of f k + h))%nat)) (seq 0 (hs_of f k))) (seq 0 (vs_of f k))) order) ->
        In b (flat_map (fun k => flat_map (fun v => map (fun h => (k, ((i' * vs_of f k + v) * across f k + (j' * hs_of f k + h))%nat)) (seq 0 (hs_of f k))) (seq 0 (vs_of f k))) order) -> i = i' /\ j = j').
      { intros i j i' j' [k b] o Hj Hj' I1 I2. destruct (cell_in _ _ _ _ _ I1) as (_ & v & h & Hv & Hh & E). destruct (cell_in _ _ _ _ _ I2) as (_ & v' & h' & Hv' & Hh' & E'). rewrite E in E'.
        apply digits in E'; [|unfold across; nia|unfold across; nia]. destruct E' as (E1 & E2).
        destruct (digits i v i' v' (vs_of f k) Hv Hv' E1) as (-> & _). destruct (digits j h j' h' (hs_of f k) Hh Hh' E2) as (-> & _). now split. }
      apply NoDup_flat_map; [apply seq_NoDup| |].
      + intros i _. apply NoDup_flat_map; [apply seq_NoDup| |].
        * intros j Ij. apply in_seq in Ij. apply NoDup_flat_map; [exact No| |].
          -- intros k Ik. apply NoDup_flat_map; [apply seq_NoDup| |].
             ++ intros v _. apply NoDup_map_; [apply seq_NoDup|]. intros h h' _ _ E. injection E as E. lia.
             ++ intros v v' b Iv Iv' I1 I2. apply in_map_iff in I1, I2. destruct I1 as (h & <- & J1). destruct I2 as (h' & E & J2). injection E as E. apply in_seq in J1, J2.
                apply digits in E; [|unfold across; nia|unfold across; nia]. lia.
          -- intros k k' b _ _ I1 I2. apply in_flat_map in I1, I2. destruct I1 as (v & _ & I1). destruct I2 as (v' & _ & I2). apply in_map_iff in I1, I2. destruct I1 as (h & <- & _). destruct I2 as (h' & E & _). now injection E.
        * intros j j' b Ij Ij' I1 I2. apply in_seq in Ij, Ij'. apply (Cell i j i j' b order); [lia|lia|exact I1|exact I2].
      + intros i i' b _ _ I1 I2. apply in_flat_map in I1, I2. destruct I1 as (j & Ij & I1). destruct I2 as (j' & Ij' & I2). apply in_seq in Ij, Ij'. apply (Cell i j i' j' b order); [lia|lia|exact I1|exact I2].
  Qed.
  Lemma seq_cons n : (0 < n)%nat -> seq 0 n = 0%nat :: seq 1 (n - 1).
  Proof. intros H. destruct n; [lia|]. cbn [seq]. now rewrite Nat.sub_succ, Nat.sub_0_r. Qed.
  Lemma units_full order : order <> [] -> Forall (fun u => u <> []) (scan_units f order) /\ scan_units f order <> [].
  Proof.
    intros No. destruct (units_cases order) as [(k & -> & ->)|(_ & ->)].
    - split.
      + apply Forall_forall. intros u I. apply in_flat_map in I. destruct I as (i & _ & I). apply in_map_iff in I. destruct I as (j & <- & _). discriminate.
      + destruct (real_pos k). unfold one. rewrite (seq_cons (real_x f k)), (seq_cons (real_y f k)) by lia. discriminate.
    - split.
      + apply Forall_forall. intros u I. apply in_flat_map in I. destruct I as (i & _ & I). apply in_map_iff in I. destruct I as (j & <- & _).
        destruct order as [|k l]; [congruence|]. destruct (samp_pos k). cbn [flat_map]. rewrite (seq_cons (hs_of f k)), (seq_cons (vs_of f k)) by lia. discriminate.
      + destruct mcus_pos. unfold many. rewrite (seq_cons (mcus_x f)), (seq_cons (mcus_y f)) by lia. discriminate.
  Qed.
  Lemma map_len {A B} (g : A -> list B) c l : (forall x, In x l -> length (g x) = c) -> length (flat_map g l) = (length l * c)%nat.
  Proof. induction l as [|x l IH]; intros H; [reflexivity|]. cbn [flat_map length]. rewrite app_length, (H x (or_introl eq_refl)), IH; [lia|]. intros y I. apply H. now right. Qed.
  Lemma units_length order : length (scan_units f order) = match order with [k] => (real_y f k * real_x f k)%nat | _ => (mcus_y f * mcus_x f)%nat end.
  Proof.
    destruct order as [|k [|k' l]]; unfold scan_units.
    - rewrite (map_len _ (mcus_x f)); [now rewrite seq_length|]. intros i _. now rewrite map_length, seq_length.
    - rewrite (map_len _ (real_x f k)); [now rewrite seq_length|]. intros i _. now rewrite map_length, seq_length.
    - rewrite (map_len _ (mcus_x f)); [now rewrite seq_length|]. intros i _. now rewrite map_length, seq_length.
  Qed.
  Lemma units_small order : Z.of_nat (f_x f) < 2 ^ 16 -> Z.of_nat (f_y f) < 2 ^ 16 -> Z.of_nat (length (scan_units f order)) < 2 ^ 64 - 1.
  Proof.
    intros Hx Hy. pose proof hmax_pos. pose proof vmax_pos. rewrite units_length.
    assert (Bx : (mcus_x f <= f_x f)%nat) by (apply ceil_le; nia). assert (By : (mcus_y f <= f_y f)%nat) by (apply ceil_le; nia).
    assert (Rx : forall k, (real_x f k <= f_x f)%nat).
    { intros k. apply ceil_le; [lia|]. apply ceil_le; [lia|]. assert (hs_of f k <= hmax f)%nat; [|nia]. unfold hs_of, hmax. destruct (Nat.lt_ge_cases k (length (f_samp f))) as [L|L].
      - apply max_in. apply in_map. now apply nth_In.
      - rewrite nth_overflow by exact L. apply max_pos. }
    assert (Ry : forall k, (real_y f k <= f_y f)%nat).
    { intros k. apply ceil_le; [lia|]. apply ceil_le; [lia|]. assert (vs_of f k <= vmax f)%nat; [|nia]. unfold vs_of, vmax. destruct (Nat.lt_ge_cases k (length (f_samp f))) as [L|L].
      - apply max_in. apply in_map. now apply nth_In.
      - rewrite nth_overflow by exact L. apply max_pos. }
    change (2 ^ 16) with 65536 in *. change (2 ^ 64) with 18446744073709551616. destruct order as [|k [|k' l]]; [nia| |nia]. specialize (Rx k). specialize (Ry k). nia.
  Qed.
End Units.

(** * The frame of the decoder *)
Definition frame_for (fr : frame) (f : pframe) : Prop :=
  bw fr = ceil_div (f_x f) 8 /\ bh fr = ceil_div (f_y f) 8 /\ inter fr = (negb (hmax f =? 1)%nat || negb (vmax f =? 1)%nat) /\
  (inter fr = true \/ (1 < length (f_samp f))%nat -> mx fr = mcus_x f /\ my fr = mcus_y f) /\ length (geos fr) = length (f_samp f) /\
  forall k g, nth_error (geos fr) k = Some g -> ghs g = hs_of f k /\ gvs g = vs_of f k /\ gstride g = (8 * across f k)%nat.
(** components that are not subsampled, or have one block in an MCU *)
Definition plain_layout (f : pframe) : Prop := Forall (fun s => s = (1, 1) \/ s = (hmax f, vmax f))%nat (f_samp f).
Lemma place_one k b : place [(k, b)] = [(k, 64 * b)%nat]. Proof. reflexivity. Qed.
Lemma units_model fr f order : frame_ok f -> frame_for fr f -> plain_layout f -> Forall (fun k => k < length (f_samp f))%nat order -> NoDup order -> order <> [] ->
  match order with
  | [k] => exists g, nth_error (geos fr) k = Some g /\ single_units fr k g = map place (scan_units f [k])
  | _ => inter_units fr order = map place (scan_units f order)
  end.
Proof.
  intros Fo (Ew & Eh & Ei & Em & Lg & Eg) Pl Fk Nd Ne. pose proof (hmax_pos f) as Hh. pose proof (vmax_pos f) as Hv.
  assert (Many : (1 < length (f_samp f))%nat -> inter_units fr order = map place (many f order)).
  { intros L. destruct (Em (or_intror L)) as (E1 & E2). unfold inter_units, many. rewrite E1, E2. rewrite !flat_map_concat_map, concat_map. f_equal. rewrite map_map. apply map_ext. intros i. rewrite map_map. apply map_ext. intros j.
    clear - Eg Fk Lg. induction order as [|k l IH]; [reflexivity|]. inversion Fk as [|x l' Hk Fk']. subst x l'. specialize (IH Fk'). cbn [flat_map]. rewrite IH. unfold place at 2. rewrite map_app. fold (place (flat_map (fun k => flat_map (fun v => map (fun h => (k, ((i * vs_of f k + v) * across f k + (j * hs_of f k + h))%nat)) (seq 0 (hs_of f k))) (seq 0 (vs_of f k))) l)). f_equal.
    destruct (nth_error (geos fr) k) as [g|] eqn:E; [|apply nth_error_None in E; lia]. destruct (Eg k g E) as (-> & -> & ->).
    rewrite !flat_map_concat_map, concat_map. f_equal. rewrite map_map. apply map_ext. intros v. rewrite map_map. apply map_ext. intros h. cbn [fst snd]. f_equal.
    replace ((i * vs_of f k + v) * (8 * across f k))%nat with ((i * vs_of f k + v) * across f k * 8)%nat by lia. rewrite Nat.div_mul by discriminate. lia. }
  destruct order as [|k [|k' l]]; [congruence| |].
  - inversion Fk as [|x l Hk _]. subst x l. destruct (nth_error (geos fr) k) as [g|] eqn:E; [|apply nth_error_None in E; lia]. exists g. split; [reflexivity|].
    destruct (Eg k g E) as (E1 & E2 & E3). destruct (samp_pos f Fo k) as (P1 & P2). unfold single_units.
    assert (Wh : (if negb (gvs g =? 1)%nat || negb (ghs g =? 1)%nat || negb (inter fr) then (bw fr, bh fr) else (mx fr, my fr)) = (real_x f k, real_y f k)).
    { rewrite E1, E2, Ei, Ew, Eh.
      assert (Full : hs_of f k = hmax f -> vs_of f k = vmax f -> (ceil_div (f_x f) 8, ceil_div (f_y f) 8) = (real_x f k, real_y f k)).
      { intros H1 H2. unfold real_x, real_y. now rewrite H1, H2, !ceil_scaled by assumption. }
      assert (Ps : (hs_of f k, vs_of f k) = (1, 1)%nat \/ (hs_of f k, vs_of f k) = (hmax f, vmax f)).
      { unfold plain_layout in Pl. rewrite Forall_forall in Pl. unfold hs_of, vs_of. rewrite <- surjective_pairing. apply Pl. now apply nth_In. }
      destruct (negb (vs_of f k =? 1)%nat || negb (hs_of f k =? 1)%nat || negb (negb (hmax f =? 1)%nat || negb (vmax f =? 1)%nat)) eqn:C.
      - destruct Ps as [Ps|Ps]; injection Ps as H1 H2; [|now apply Full]. rewrite H1, H2 in C. cbn [Nat.eqb negb orb] in C.
        apply negb_true_iff, orb_false_iff in C. destruct C as (C1 & C2). apply negb_false_iff, Nat.eqb_eq in C1, C2. apply Full; congruence.
      - apply orb_false_iff in C. destruct C as (C & C3). apply orb_false_iff in C. destruct C as (C1 & C2). apply negb_false_iff in C1, C2. apply Nat.eqb_eq in C1, C2. apply negb_false_iff in C3.
        destruct (Em (or_introl (eq_trans Ei C3))) as (-> & ->). unfold mcus_x, mcus_y, real_x, real_y. rewrite C1, C2, !Nat.mul_1_r, !ceil_ceil by lia. reflexivity. }
    rewrite Wh. rewrite E3. replace (8 * across f k / 8)%nat with (across f k) by (rewrite Nat.mul_comm, Nat.div_mul; [reflexivity|discriminate]).
    unfold scan_units. rewrite !flat_map_concat_map, concat_map. f_equal. rewrite map_map. apply map_ext. intros i. rewrite map_map. apply map_ext. intros j. rewrite place_one. do 2 f_equal. lia.
  - apply Many. inversion Nd as [|x t N1 _]. subst x t. inversion Fk as [|x t K1 Fk']. subst x t. inversion Fk' as [|x t K2 _]. subst x t. assert (k <> k') by (intros ->; apply N1; now left). lia.
Qed.

(** * What a scan tells *)
Lemma learn_fold s bl p k b i : fold_left (learn s) bl p k b i = if existsb (fun x => here (fst x) (snd x) k b) bl && ((s_ss s <=? i)%nat && (i <=? s_se s)%nat) then Some (s_al s) else p k b i.
Proof.
  revert p. induction bl as [|x bl IH]; intros p; [reflexivity|]. cbn [fold_left existsb]. rewrite IH. unfold learn. destruct (here (fst x) (snd x) k b); cbn [orb andb]; [|reflexivity].
  destruct ((s_ss s <=? i)%nat && (i <=? s_se s)%nat); [now destruct (existsb _ bl)|now rewrite andb_false_r].
Qed.
Lemma here_in bl k b : existsb (fun x => here (fst x) (snd x) k b) bl = true <-> In (k, b) bl.
Proof.
  rewrite existsb_exists. unfold here. split.
  - intros ([k' b'] & I & E). apply andb_prop in E. destruct E as (E1 & E2). apply Nat.eqb_eq in E1, E2. cbn [fst snd] in *. congruence.
  - intros I. exists (k, b). split; [exact I|]. cbn [fst snd]. now rewrite !Nat.eqb_refl.
Qed.
Lemma learns_fold f s p p' : learns f s p p' -> forall k b i, fold_left (learn s) (concat (scan_units f (s_order s))) p k b i = p' k b i.
Proof.
  intros L k b i. rewrite learn_fold. destruct (L k b i) as (L1 & L2). destruct (existsb _ _ && _) eqn:E.
  - symmetry. apply L1. apply andb_prop in E. destruct E as (E1 & E2). apply here_in in E1. apply andb_prop in E2. destruct E2 as (E2 & E3). apply Nat.leb_le in E2, E3. split; [exact E1|lia].
  - symmetry. apply L2. intros (I & H). assert (existsb (fun x => here (fst x) (snd x) k b) (concat (scan_units f (s_order s))) = true) as Ei by now apply here_in. rewrite Ei in E. cbn [andb] in E.
    apply andb_false_iff in E. destruct E as [E|E]; apply Nat.leb_gt in E; lia.
Qed.

(** * A scan *)
(** A header that announces the scan [s], with tables made from those of [s]. The decoder wants a DC table also where none is used. *)
Definition head_for (s : pscan) (interval : nat) (h : head) : Prop :=
  order h = s_order s /\ ss h = s_ss s /\ se h = s_se s /\ ah h = Z.of_nat (s_ah s) /\ al h = Z.of_nat (s_al s) /\ dri h = Z.of_nat interval /\ Z.of_nat interval < 2 ^ 16 /\
  forall k, In k (s_order s) ->
    if (s_ss s =? 0)%nat then exists t, nth_error (dctab h) k = Some (Some t) /\ (s_ah s = 0%nat -> table_ok (s_dcn s k) (s_dcv s k) /\ new_table true (s_dcn s k) (s_dcv s k) = Ok t)
    else exists t, nth_error (actab h) k = Some (Some t) /\ table_ok (s_acn s k) (s_acv s k) /\ new_table false (s_acn s k) (s_acv s k) = Ok t.
Section File.
  Variables (debug strict : bool) (coef : nat -> nat -> list Z) (f : pframe) (fr : frame).
  Hypothesis fok : frame_ok f.
  Hypothesis ffor : frame_for fr f.
  Hypothesis fplain : plain_layout f.
  Hypothesis fx : Z.of_nat (f_x f) < 2 ^ 16.
  Hypothesis fy : Z.of_nat (f_y f) < 2 ^ 16.
  Let n := length (f_samp f).
  Hypothesis coef_ok : forall k b, (k < n)%nat -> (b < nblocks f k)%nat -> length (coef k b) = 64%nat /\ Forall small (coef k b).
  Definition right (p : knowledge) (bufs : list (list Z)) : Prop := bufs_ok coef n (nblocks f) p bufs.
  (** the restart interval does not divide the number of MCUs, or it is the last scan *)
  Definition restarts_fine (s : pscan) (interval : nat) (m : Z) : Prop :=
    interval = 0%nat \/ (length (scan_units f (s_order s)) mod interval)%nat <> 0%nat \/ m = 217.
  Definition short (s : pscan) : Prop := s_ah s = 0%nat /\ forall k sym code, In k (s_order s) -> code_of (s_dcn s k) (s_dcv s k) sym code -> Z.of_nat (length code) + sym <= 24.
  Lemma scan_step s interval h p p' bufs b mk rest : head_for s interval h -> in_turn f s p -> learns f s p p' -> right p bufs -> over b = 0 -> eoi b = false -> bytes (rd b) ->
    scan_bytes coef s interval 0 (scan_units f (s_order s)) (rd b) mk rest -> restarts_fine s interval mk ->
    exists bufs' st', scan_data debug fr h bufs b = (bufs', Ok st') /\ right p' bufs' /\ ended (pb st') mk rest /\ (s_ss s = 0%nat -> short s -> marker (pb st') <> None).
  Proof.
    intros (Ho & Hss & Hse & Hah & Hal & Hdri & Rs & Ht) (Lg & Nd & Fk & Ex & Dc) Le Bk O0 Eo By Sb Rf.
    assert (Lgeo : length (geos fr) = n) by apply ffor.
    assert (ord : forall k, In k (s_order s) -> (k < n)%nat) by (intros k Ik; rewrite Forall_forall in Fk; now apply Fk).
    assert (tables : forall k, In k (s_order s) -> if (s_ss s =? 0)%nat then exists t, nth_error (dctab h) k = Some (Some t) /\ (s_ah s = 0%nat -> dc_table (s_dcn s k) (s_dcv s k) t)
      else exists t a, nth_error (actab h) k = Some (Some t) /\ ac_table (s_acn s k) (s_acv s k) t a).
    { intros k Ik. specialize (Ht k Ik). destruct (s_ss s =? 0)%nat.
      - destruct Ht as (t & T1 & T2). exists t. split; [exact T1|]. intros A0. destruct (T2 A0) as (T3 & T4). now apply dc_made.
      - destruct Ht as (t & T1 & T2 & T3). destruct (ac_made _ _ _ T2 T3) as (a & T4). exists t, a. now split. }
    pose proof Lg as (Ne & _).
    destruct (units_full f fok (s_order s) Ne) as (Fu & Nu).
    destruct (scan_ok debug coef s h n (nblocks f) interval Lg coef_ok Ho Hss Hse Hah Hal Hdri tables ord 0 (scan_units f (s_order s)) (rd b) mk rest Sb p bufs By Fu Nu (units_small f (s_order s) fx fy) Bk)
      as (bufs' & st' & E1 & E2 & E3 & E4); [|exact Rf|].
    { split; [now apply units_nodup|]. apply Forall_forall. intros [k b'] I. cbn [fst snd]. destruct (units_in f (s_order s) k b' I) as (I1 & I2). split; [exact I1|]. split; [exact I2|].
      intros i Hi. apply Ex. now split. }
    assert (Fr : PSt (reset b) 0 (repeat 0 n) (if dri h =? 0 then 2 ^ 64 - 1 else dri h) = fresh n (rd b) (if dri h =? 0 then 2 ^ 64 - 1 else dri h)).
    { unfold fresh, reset. now rewrite O0, Eo. }
    exists bufs', st'. split; [|split; [|split; [exact E3|]]].
    - unfold scan_data. rewrite Lgeo, Fr, Ho. pose proof (units_model fr f (s_order s) fok ffor fplain Fk Nd Ne) as Um.
      assert (Lo : (length (s_order s) <= n)%nat).
      { rewrite <- (seq_length n 0). apply NoDup_incl_length; [exact Nd|]. intros k Ik. apply in_seq. specialize (ord k Ik). lia. }
      replace (n <? length (s_order s))%nat with false by (symmetry; apply Nat.ltb_ge; exact Lo).
      unfold step_block, single in E1. destruct (s_order s) as [|k [|k' l]] eqn:Eord; [congruence| |].
      + destruct Um as (g & G1 & G2). rewrite G1. rewrite Hss, Hse. replace (negb (s_se s =? 0)%nat && (s_ss s =? 0)%nat) with false; [rewrite G2; exact E1|].
        destruct Lg as (_ & _ & _ & [(L1 & L2)|((L1 & L2) & _)]); [now rewrite L2|]. replace (s_ss s =? 0)%nat with false by (symmetry; apply Nat.eqb_neq; lia). now rewrite andb_false_r.
      + destruct Lg as (_ & _ & _ & [(L1 & L2)|(_ & _ & k0 & L2)]); [|rewrite Eord in L2; discriminate L2]. rewrite Hse, L2. cbn [Nat.eqb negb].
        replace (existsb _ _) with false; [rewrite Um; exact E1|]. symmetry. apply not_true_is_false. intros C. apply existsb_exists in C. destruct C as (k0 & I0 & C).
        destruct (nth_error (geos fr) k0) eqn:Eg; [|apply nth_error_None in Eg; specialize (ord k0 I0); lia]. specialize (tables k0 I0). rewrite L1 in tables. cbn [Nat.eqb] in tables. destruct tables as (t & T1 & _). rewrite T1 in C. discriminate C.
    - apply (bufs_ext _ _ _ (fold_left (learn s) (concat (scan_units f (s_order s))) p)); [|exact E2]. intros k b' i _ _ _. now apply learns_fold.
    - intros S0 (A0 & Sh). apply E4. split; [exact S0|]. split; [exact A0|exact Sh].
  Qed.

  (** * Scan after scan *)
  Variable D : Type.
  Variable headers : D -> Z -> list Z -> res (option (D * head * list Z)).
  Variable max_scans : nat.
  (** The rest of a file after the marker [m]: [c] scans, and what is known before and after. [headers] finds the scan headers. *)
  Inductive scans_follow : nat -> D -> knowledge -> Z -> list Z -> knowledge -> Prop :=
  | no_more d p rest : scans_follow 0 d p 217 rest p
  | one_more c d d' p p1 p2 m rest h data s interval m' rest' : m <> 217 -> headers d m rest = Ok (Some (d', h, data)) -> bytes data -> head_for s interval h -> in_turn f s p -> learns f s p p1 ->
      scan_bytes coef s interval 0 (scan_units f (s_order s)) data m' rest' -> restarts_fine s interval m' -> scans_follow c d' p1 m' rest' p2 -> scans_follow (S c) d p m rest p2.
  Lemma follow_ok : forall c d p m rest p', scans_follow c d p m rest p' -> forall fuel seen b bufs, (c < fuel)%nat -> (seen + c <= max_scans)%nat -> right p bufs -> over b = 0 -> eoi b = false -> rd b = rest ->
    exists bufs', more_scans headers debug strict fr max_scans fuel seen d m b bufs = Ok bufs' /\ right p' bufs'.
  Proof.
    intros c d p m rest p' Sf. induction Sf as [d p rest|c d d' p p1 p2 m rest h data s interval m' rest' N217 Eh By Hf It Le Sb Rf Sf IH]; intros fuel seen b bufs Fu Mx Bk O0 Eo Er.
    - destruct fuel as [|fuel]; [lia|]. exists bufs. split; [reflexivity|exact Bk].
    - destruct fuel as [|fuel]; [lia|]. cbn [more_scans]. replace (m =? 217) with false by (symmetry; apply Z.eqb_neq; exact N217). rewrite Er, Eh. cbn [bind]. cbv zeta.
      destruct (scan_step s interval h p p1 bufs (Bits (buffer b) (aligned b) (left b) (marker b) (over b) (eoi b) data) m' rest' Hf It Le Bk O0 Eo By Sb Rf) as (bufs1 & st & E1 & E2 & (E3 & E4 & E5) & _).
      rewrite E1. destruct E5 as [(M1 & M2)|(M1 & M2)].
      + rewrite M1. replace (max_scans <? seen + 1)%nat with false by (symmetry; apply Nat.ltb_ge; lia). apply IH; [lia|lia|exact E2| | |]; unfold reset; assumption.
      + rewrite M1, M2. replace (max_scans <? seen + 1)%nat with false by (symmetry; apply Nat.ltb_ge; lia). apply IH; [lia|lia|exact E2| | |]; unfold reset; [exact E3|exact E4|reflexivity].
  Qed.
  Definition nothing : knowledge := fun _ _ _ => None.
  Lemma zero_slice m i : (i + 64 <= m)%nat -> slice (repeat 0 m) i 64 = repeat 0 64.
  Proof.
    intros H. apply (list_eq_nth 0); [rewrite slice_length, repeat_length; [reflexivity|rewrite repeat_length; lia]|]. intros j Hj. rewrite slice_length in Hj by (rewrite repeat_length; lia).
    rewrite slice_nth by exact Hj. now rewrite !nth_repeat.
  Qed.
  Lemma right_new : right nothing (new_bufs fr).
  Proof.
    destruct ffor as (Ew & Eh & Ei & Em & Lg & Eg). unfold new_bufs.
    set (wh := if inter fr then (mx fr, my fr) else (bw fr, bh fr)).
    assert (Bl : forall k, (fst wh * 64 * vs_of f k * hs_of f k * snd wh)%nat = (64 * nblocks f k)%nat).
    { intros k. unfold nblocks, across, down, wh. destruct (inter fr) eqn:C; cbn [fst snd].
      - destruct (Em (or_introl eq_refl)) as (-> & ->). nia.
      - symmetry in Ei. apply orb_false_iff in Ei. destruct Ei as (C1 & C2). apply negb_false_iff, Nat.eqb_eq in C1, C2. unfold mcus_x, mcus_y. rewrite C1, C2, !Nat.mul_1_r, Ew, Eh. nia. }
    rewrite (surjective_pairing wh).
    split; [now rewrite map_length|]. intros k buf E. rewrite nth_error_map in E. destruct (nth_error (geos fr) k) as [g|] eqn:G; [|discriminate E]. cbn [option_map] in E. injection E as <-. destruct (Eg k g G) as (-> & -> & _). rewrite Bl.
    split; [apply repeat_length|]. intros b Hb. rewrite zero_slice by lia. unfold shown, nothing. cbn [known].
    apply (list_eq_nth 0); [unfold view; rewrite !map_length, zz_length, seq_length; reflexivity|]. intros i Hi. unfold view in *. rewrite map_length, zz_length in Hi. rewrite (map_nth_in _ _ _ 0%nat), (map_nth_in _ _ _ 0%nat) by (rewrite ?zz_length, ?seq_length; exact Hi). now rewrite nth_repeat.
  Qed.
  (** A whole file: the first scan, of DC coefficients, and the others *)
  Lemma file_ok c d p1 p2 s interval h file m rest fuel : head_for s interval h -> in_turn f s nothing -> learns f s nothing p1 -> bytes file -> short s ->
    scan_bytes coef s interval 0 (scan_units f (s_order s)) file m rest -> restarts_fine s interval m -> scans_follow c d p1 m rest p2 -> (c < fuel)%nat -> (1 + c <= max_scans)%nat ->
    exists bufs, coefficients headers debug strict fr max_scans fuel d h file (new_bufs fr) = Ok bufs /\ right p2 bufs.
  Proof.
    intros Hf It Le By Sh Sb Rf Sf Fu Mx.
    destruct (scan_step s interval h nothing p1 (new_bufs fr) (Bits 0 0 0 None 0 false file) m rest Hf It Le right_new eq_refl eq_refl By Sb Rf) as (bufs1 & st & E1 & E2 & (E3 & E4 & E5) & E6).
    assert (S0 : s_ss s = 0%nat).
    { destruct (Nat.eq_dec (s_ss s) 0) as [E|N]; [exact E|exfalso]. destruct It as ((Ne & _) & _ & _ & _ & Dc). destruct (units_full f fok (s_order s) Ne) as (Fu' & Nu).
      destruct (scan_units f (s_order s)) as [|[|[k b] u] us] eqn:Eu; [congruence|inversion Fu'; congruence|]. apply (Dc N k b); [now left|reflexivity]. }
    unfold coefficients. rewrite E1. specialize (E6 S0 Sh). destruct E5 as [(M1 & M2)|(M1 & _)]; [|congruence]. rewrite M1.
    apply (follow_ok c d p1 m rest p2 Sf); [exact Fu|exact Mx|exact E2|exact E3|exact E4|exact M2].
  Qed.
End File.
