From Verif Require Import Base BaseProof Loops Slices PngFilterModel PngFilterSpec PngFilterProof PngFilterProps PngRowModel PngSpec.

(** * Bit strings *)
Lemma be_val_app a b : be_val (a ++ b) = be_val a * 256 ^ Z.of_nat (length b) + be_val b.
Proof.
  unfold be_val. rewrite rev_app_distr. rewrite <- (rev_length b). generalize (rev a) as y. induction (rev b) as [|v x IH]; intros y.
  - cbn [app le_val length]. change (256 ^ Z.of_nat 0) with 1. lia.
  - cbn [app le_val length]. rewrite IH, pow256_S. ring.
Qed.
Lemma be_val_one v : be_val [v] = v.
Proof. unfold be_val. cbn. lia. Qed.
Lemma pow_256 n : 256 ^ Z.of_nat n = 2 ^ (8 * Z.of_nat n).
Proof. change 256 with (2 ^ 8). rewrite <- Z.pow_mul_r by lia. reflexivity. Qed.

(** Byte [q] of the row as bits of the whole number *)
Lemma be_val_byte row q : bytes row -> (q < length row)%nat ->
  be_val row / 2 ^ (8 * (Z.of_nat (length row) - 1 - Z.of_nat q)) mod 256 = nth q row 0.
Proof.
  intros Hb Hq. pose proof (bytes_nth row q Hb) as B.
  assert (E : row = firstn q row ++ [nth q row 0] ++ skipn (S q) row).
  { rewrite <- (firstn_skipn q row) at 1. f_equal. clear -Hq. revert q Hq. induction row as [|v r IH]; intros q H; [cbn in H; lia|].
    destruct q as [|q]; [reflexivity|]. cbn [skipn nth]. cbn [length] in H. apply (IH q). lia. }
  set (v := nth q row 0) in *. set (a := firstn q row) in *. set (c := skipn (S q) row) in *.
  assert (Lc : Z.of_nat (length row) - 1 - Z.of_nat q = Z.of_nat (length c)) by (unfold c; rewrite skipn_length; lia).
  rewrite Lc. assert (Bc : bytes c) by (rewrite E in Hb; apply bytes_app in Hb as [_ Hb]; now apply bytes_app in Hb as [_ Hb]).
  rewrite E, !be_val_app, be_val_one. rewrite app_length. cbn [length]. rewrite <- pow_256.
  pose proof (be_val_bound c Bc) as Bd. set (P := 256 ^ Z.of_nat (length c)) in *.
  replace (256 ^ Z.of_nat (1 + length c)) with (256 * P) by (unfold P; rewrite <- pow256_S; reflexivity).
  replace (be_val a * (256 * P) + (v * P + be_val c)) with (be_val c + (be_val a * 256 + v) * P) by ring.
  rewrite Z.div_add by lia. rewrite (Z.div_small (be_val c)) by lia. unfold is_byte in B. clear -B. rewrite Z.add_0_l, Z.add_comm, Z.mod_add by lia. now apply Z.mod_small.
Qed.

Lemma div_mod_small X s d : 0 <= s -> 0 <= d -> s + d <= 8 -> X / 2 ^ s mod 2 ^ d = (X mod 256) / 2 ^ s mod 2 ^ d.
Proof.
  intros Hs Hd H. apply Z.bits_inj'. intros i Hi.
  destruct (Z.ltb_spec i d).
  - rewrite !Z.mod_pow2_bits_low, !Z.div_pow2_bits by lia. change 256 with (2 ^ 8). rewrite Z.mod_pow2_bits_low by lia. reflexivity.
  - now rewrite !Z.mod_pow2_bits_high by lia.
Qed.

(** A sample as bits of one byte, or two bytes *)
Definition bits (d : nat) (row : list Z) (k : nat) : Z :=
  nth (k * d / 8) row 0 / 2 ^ (8 - Z.of_nat d - Z.of_nat (k * d mod 8)) mod 2 ^ Z.of_nat d.

Lemma sample_bits d row k : In d [1; 2; 4; 8]%nat -> bytes row -> (k * d / 8 < length row)%nat -> sample d row k = bits d row k.
Proof.
  intros Hd Hb Hk. unfold sample, bits.
  assert (M : (k * d mod 8 + d <= 8)%nat) by (destruct Hd as [<-|[<-|[<-|[<-|[]]]]]; lia).
  assert (DM : (k * d = 8 * (k * d / 8) + k * d mod 8)%nat) by (apply Nat.div_mod; lia).
  rewrite <- (be_val_byte row _ Hb Hk). set (q := (k * d / 8)%nat) in *. set (m := (k * d mod 8)%nat) in *. clearbody q m.
  assert (0 < d)%nat by (cbn in Hd; lia).
  replace (8 * Z.of_nat (length row) - Z.of_nat d * (Z.of_nat k + 1)) with
    (8 * (Z.of_nat (length row) - 1 - Z.of_nat q) + (8 - Z.of_nat d - Z.of_nat m)).
  2:{ assert (Z.of_nat k * Z.of_nat d = 8 * Z.of_nat q + Z.of_nat m) by (rewrite <- Nat2Z.inj_mul, DM; lia).
      set (kd := Z.of_nat k * Z.of_nat d) in *. replace (Z.of_nat d * (Z.of_nat k + 1)) with (kd + Z.of_nat d) by (unfold kd; ring). lia. }
  rewrite Z.pow_add_r by lia. rewrite <- Z.div_div by lia. apply div_mod_small; lia.
Qed.
Lemma sample_8 row k : bytes row -> (k < length row)%nat -> sample 8 row k = nth k row 0.
Proof.
  intros Hb Hk. assert (E : (k * 8 / 8 = k)%nat) by (apply Nat.div_mul; lia).
  rewrite sample_bits; [|cbn; auto|exact Hb|now rewrite E]. unfold bits. rewrite E, Nat.mod_mul by lia.
  pose proof (bytes_nth row k Hb) as B. unfold is_byte in B. change (8 - Z.of_nat 8 - Z.of_nat 0) with 0. change (2 ^ 0) with 1. change (2 ^ Z.of_nat 8) with 256.
  rewrite Z.div_1_r. now apply Z.mod_small.
Qed.
Lemma sample_16 row k : bytes row -> (2 * k + 1 < length row)%nat -> sample 16 row k = nth (2 * k) row 0 * 256 + nth (2 * k + 1) row 0.
Proof.
  intros Hb Hk. unfold sample.
  pose proof (be_val_byte row (2 * k) Hb ltac:(lia)) as E0. pose proof (be_val_byte row (2 * k + 1) Hb Hk) as E1.
  rewrite <- E0, <- E1. clear E0 E1. set (X := be_val row). clearbody X.
  replace (8 * Z.of_nat (length row) - Z.of_nat 16 * (Z.of_nat k + 1)) with (8 * (Z.of_nat (length row) - 1 - Z.of_nat (2 * k + 1))) by lia.
  replace (8 * (Z.of_nat (length row) - 1 - Z.of_nat (2 * k))) with (8 * (Z.of_nat (length row) - 1 - Z.of_nat (2 * k + 1)) + 8) by lia.
  rewrite Z.pow_add_r by lia. rewrite <- Z.div_div by lia. set (Y := X / 2 ^ _). clearbody Y. clear.
  change (2 ^ Z.of_nat 16) with 65536. change (2 ^ 8) with 256. lia.
Qed.

(** * Expanding *)
Lemma nth_concat_const {A} (ls : list (list A)) n k d : (0 < n)%nat -> Forall (fun c => length c = n) ls -> (k < length ls * n)%nat ->
  nth k (concat ls) d = nth (k mod n) (nth (k / n) ls []) d.
Proof.
  intros Hn F. revert k. induction F as [|c ls Hc F IH]; intros k Hk; [cbn in Hk; lia|]. cbn [concat length] in *.
  destruct (Nat.lt_ge_cases k n) as [L|L].
  - rewrite app_nth1 by lia. rewrite Nat.div_small, Nat.mod_small by lia. reflexivity.
  - rewrite app_nth2 by lia. rewrite Hc. rewrite IH by lia.
    assert (Ek : (k = (k - n) + 1 * n)%nat) by lia. rewrite Ek at 3 4. rewrite Nat.div_add, Nat.mod_add by lia. rewrite Nat.add_1_r. reflexivity.
Qed.

Definition scale_for (plte : bool) (d : nat) : Z := if plte then 1 else match d with 1%nat => 255 | 2%nat => 85 | _ => 17 end.
Lemma land_low a d : Z.land a (2 ^ Z.of_nat d - 1) = a mod 2 ^ Z.of_nat d.
Proof. replace (2 ^ Z.of_nat d - 1) with (Z.ones (Z.of_nat d)) by (rewrite Z.ones_equiv; lia). now rewrite Z.land_ones by lia. Qed.

Lemma unpack_eq d plte v : In d [1; 2; 4]%nat ->
  unpack d (scale_for plte d) v = map (fun j => scale_for plte d * (v / 2 ^ (8 - Z.of_nat d - Z.of_nat (j * d)) mod 2 ^ Z.of_nat d)) (seq 0 (8 / d)).
Proof.
  intros Hd. unfold unpack.
  assert (E : forall s, 0 <= s -> u8 (scale_for plte d * Z.land (Z.shiftr v s) (2 ^ Z.of_nat d - 1)) = scale_for plte d * (v / 2 ^ s mod 2 ^ Z.of_nat d)).
  { intros s Hs. rewrite land_low, Z.shiftr_div_pow2 by lia. unfold u8. apply Z.mod_small.
    assert (0 < 2 ^ s) by (apply Z.pow_pos_nonneg; lia). set (x := v / 2 ^ s). clearbody x.
    pose proof (Z.mod_pos_bound x 2 ltac:(lia)). pose proof (Z.mod_pos_bound x 4 ltac:(lia)). pose proof (Z.mod_pos_bound x 16 ltac:(lia)).
    destruct Hd as [<-|[<-|[<-|[]]]], plte; cbn [scale_for]; change (2 ^ Z.of_nat 1) with 2; change (2 ^ Z.of_nat 2) with 4; change (2 ^ Z.of_nat 4) with 16; lia. }
  destruct Hd as [<-|[<-|[<-|[]]]]; cbn [shifts seq map Nat.div Nat.divmod fst Nat.mul Nat.add]; rewrite !E by lia; reflexivity.
Qed.

Lemma expand_bits_ok d plte w n input out : In d [1; 2; 4]%nat -> ((w * n * d + 7) / 8 <= length input)%nat -> (w * n <= length out)%nat ->
  expand_bits w d n plte input out = Ok (map (fun k => scale_for plte d * bits d input k) (seq 0 (w * n)) ++ skipn (w * n) out).
Proof.
  intros Hd Hi Ho. unfold expand_bits. rewrite (proj2 (Nat.ltb_ge _ _) Ho).
  change (if plte then 1 else match d with 1%nat => 255 | 2%nat => 85 | _ => 17 end) with (scale_for plte d).
  set (N := (w * n)%nat) in *. clearbody N. cbv zeta.
  assert (Lp : length (shifts d) = (8 / d)%nat) by (destruct Hd as [<-|[<-|[<-|[]]]]; reflexivity). rewrite Lp.
  set (per := (8 / d)%nat). assert (Hper : (0 < per)%nat /\ (per * d = 8)%nat) by (unfold per; destruct Hd as [<-|[<-|[<-|[]]]]; cbn; lia).
  destruct Hper as [P0 P8]. clearbody per.
  assert (DM : (N = per * (N / per) + N mod per)%nat) by (apply Nat.div_mod; lia).
  assert (ML : (N mod per < per)%nat) by (apply Nat.mod_upper_bound; lia).
  set (f := (N / per)%nat) in *. set (r := (N mod per)%nat) in *. clearbody f r.
  assert (Fi : (f <= length input)%nat /\ (r <> 0 -> f < length input)%nat).
  { destruct Hd as [<-|[<-|[<-|[]]]]; [replace per with 8%nat in * by lia|replace per with 4%nat in * by lia|replace per with 2%nat in * by lia]; lia. }
  destruct Fi as [Fi1 Fi2]. rewrite (Nat.min_l f) by lia.
  set (U := unpack d (scale_for plte d)).
  assert (LU : forall v, length (U v) = per) by (intros; unfold U, unpack; rewrite map_length, Lp; destruct Hd as [<-|[<-|[<-|[]]]]; cbn in *; lia).
  set (part := match nth_error input f with Some v => firstn r (U v) | None => [] end).
  assert (Lpart : length part = r).
  { unfold part. destruct (nth_error input f) as [v|] eqn:E; [rewrite firstn_length, LU; lia|]. apply nth_error_None in E. cbn. lia. }
  assert (FW : Forall (fun c => length c = per) (map U (firstn f input))) by (apply Forall_forall; intros c Hc; apply in_map_iff in Hc as (v & <- & _); apply LU).
  assert (LW : length (concat (map U (firstn f input))) = (f * per)%nat) by (rewrite (concat_length_const per) by exact FW; rewrite map_length, firstn_length; f_equal; lia).
  rewrite LW, Lpart. replace (f * per + r)%nat with N by lia. rewrite app_assoc. f_equal. f_equal.
  apply (list_eq_nth 0); [rewrite app_length, LW, Lpart, map_length, seq_length; lia|]. intros k Hk. rewrite app_length, LW, Lpart in Hk.
  rewrite (map_nth_in _ _ _ 0%nat) by (rewrite seq_length; lia). rewrite seq_nth by lia. cbn [Nat.add].
  assert (KD : (k * d / 8 = k / per)%nat /\ (k * d mod 8 = (k mod per) * d)%nat).
  { rewrite <- P8. assert (0 < d)%nat by (cbn in Hd; lia). rewrite Nat.div_mul_cancel_r, Nat.mul_mod_distr_r by lia. auto. }
  unfold bits. destruct KD as [-> ->].
  assert (NU : forall v j, (j < per)%nat -> nth j (U v) 0 = scale_for plte d * (v / 2 ^ (8 - Z.of_nat d - Z.of_nat (j * d)) mod 2 ^ Z.of_nat d)).
  { intros v j Hj. unfold U. rewrite unpack_eq by exact Hd. assert (E8 : (8 / d = per)%nat) by (clear -Hd P8; destruct Hd as [<-|[<-|[<-|[]]]]; lia).
    rewrite E8. rewrite (map_nth_in _ _ _ 0%nat) by (rewrite seq_length; lia). now rewrite seq_nth by lia. }
  destruct (Nat.lt_ge_cases k (f * per)) as [L|L].
  - rewrite app_nth1 by lia. rewrite (nth_concat_const _ per) by (auto; rewrite map_length, firstn_length, (Nat.min_l f) by lia; exact L).
    assert (k / per < f)%nat by (apply Nat.div_lt_upper_bound; lia).
    rewrite (map_nth_in _ _ _ 0) by (rewrite firstn_length; lia). rewrite nth_firstn by lia. apply NU. apply Nat.mod_upper_bound. lia.
  - rewrite app_nth2 by lia. rewrite LW.
    assert (KQ : (k / per = f)%nat) by (symmetry; apply (Nat.div_unique k per f (k - f * per)); lia).
    assert (KM : (k mod per = k - f * per)%nat) by (symmetry; apply (Nat.mod_unique k per f (k - f * per)); lia).
    rewrite KQ, KM. unfold part. rewrite (nth_error_nth' input 0) by lia. rewrite nth_firstn by lia. apply NU. lia.
Qed.

(** * Pixel-wise maps *)
Lemma slice_map (l : list Z) i n : (i + n <= length l)%nat -> slice l i n = map (fun c => nth (i + c) l 0) (seq 0 n).
Proof.
  intros H. apply (list_eq_nth 0); [rewrite slice_length, map_length, seq_length by lia; reflexivity|]. rewrite slice_length by lia. intros k Hk.
  rewrite slice_nth by lia. rewrite (map_nth_in _ _ _ 0%nat) by (rewrite seq_length; lia). now rewrite seq_nth by lia.
Qed.
Lemma chunks_slices {A} (l : list A) k w : (0 < k)%nat -> (w * k <= length l)%nat ->
  firstn w (chunks_exact k l) = map (fun i => slice l (i * k) k) (seq 0 w).
Proof.
  intros Hk. revert l. induction w as [|w IH]; intros l H; [reflexivity|]. cbn [seq map].
  rewrite <- (firstn_skipn k l) at 1. rewrite chunks_exact_cons by (rewrite ?firstn_length; lia). cbn [firstn]. f_equal.
  rewrite <- seq_shift, map_map. rewrite IH by (rewrite skipn_length; lia). apply map_ext. intros i. unfold slice. rewrite skipn_skipn'. repeat (f_equal; try lia).
Qed.
Lemma map_px_ok ki ko f l out w : (0 < ki)%nat -> (0 < ko)%nat -> (w * ki <= length l)%nat -> length out = (w * ko)%nat ->
  map_px ki ko f l out = concat (map (fun i => f (slice l (i * ki) ki)) (seq 0 w)).
Proof.
  intros Hi Ho Hl E. unfold map_px. rewrite E, Nat.div_mul by lia.
  assert (w <= length l / ki)%nat by (apply Nat.div_le_lower_bound; lia). rewrite Nat.min_r by lia.
  rewrite chunks_slices by lia. rewrite map_map. rewrite skipn_all2 by lia. apply app_nil_r.
Qed.

(** * What the decoder's settings mean *)
(** The transparent colour: only the low [depth] bits of the values of the tRNS chunk count *)
Definition key_of (x : pix) : list Z :=
  map (fun t => t mod 2 ^ Z.of_nat (depth x)) (firstn (color_comps (col x)) (trns x)).
Definition look_of (x : pix) : look :=
  mkLook (depth x) (color_comps (col x)) (if is_palette (col x) then Some (palette x) else None)
    (if seen_trns x && negb (is_palette (col x)) then Some (key_of x) else None)
    (seen_trns x || want_alpha x) (adds_alpha x).
(** Colour types and depths PNG allows *)
Definition legal (d : nat) (c : color) : Prop :=
  match c with CLuma => In d [1; 2; 4; 8; 16]%nat | CPalette => In d [1; 2; 4; 8]%nat | _ => In d [8; 16]%nat end.
Definition entry_ok (e : entry) : Prop := let '(r, g, b, a) := e in bytes [r; g; b; a].
(** Settings for which the pixels come out right *)
Definition supported (x : pix) : Prop :=
  legal (depth x) (col x) /\ length (trns x) = 4%nat /\
  (col x = CPalette -> seen_plte x = true /\ (256 <= length (palette x))%nat) /\
  (seen_trns x = true -> col x <> CPalette -> (col x = CLuma \/ col x = CRGB) /\ depth x <> 16%nat /\ want_alpha x = false) /\
  (col x = CLuma -> (depth x < 8)%nat -> seen_plte x = false /\ want_alpha x = false) /\
  Forall entry_ok (palette x).

Lemma concat_ext {A} (f g : nat -> list A) n : (forall i, (i < n)%nat -> f i = g i) -> concat (map f (seq 0 n)) = concat (map g (seq 0 n)).
Proof. intros H. f_equal. apply map_ext_in. intros i Hi. apply in_seq in Hi. apply H. lia. Qed.
Lemma concat_slices {A} (l : list A) k n : (0 < k)%nat -> length l = (n * k)%nat -> concat (map (fun i => slice l (i * k) k) (seq 0 n)) = l.
Proof.
  intros Hk H. rewrite <- chunks_slices by lia. rewrite <- (chunks_exact_concat k l) at 2 by (rewrite ?H, ?Nat.mod_mul; lia).
  f_equal. apply firstn_all2. rewrite chunks_exact_length, H, Nat.div_mul by lia. lia.
Qed.
Lemma slice_app_l {A} (p r : list A) a k : (a + k <= length p)%nat -> slice (p ++ r) a k = slice p a k.
Proof.
  intros H. unfold slice. rewrite skipn_app, firstn_app, skipn_length. replace (k - (length p - a))%nat with O by lia. cbn [firstn]. apply app_nil_r.
Qed.
Lemma full8 s : full 8 s = [s].
Proof. unfold full. change (8 =? 16)%nat with false. cbv iota. f_equal. change (2 ^ Z.of_nat 8 - 1) with 255. apply Z.div_mul. lia. Qed.
Lemma pixel8 n p w i : bytes p -> length p = (w * n)%nat -> (i < w)%nat -> concat (map (full 8) (samples 8 n p i)) = slice p (i * n) n.
Proof.
  intros Hb L Hi. assert (A : (i * n + n <= w * n)%nat) by (replace (i * n + n)%nat with (S i * n)%nat by lia; apply Nat.mul_le_mono_r; lia).
  rewrite slice_map by lia. unfold samples. rewrite map_map.
  rewrite (map_ext_in _ (fun c => [nth (i * n + c) p 0])).
  - generalize (seq 0 n) as l. induction l as [|c l IH]; [reflexivity|]. cbn [map concat app]. now rewrite IH.
  - intros c Hc. apply in_seq in Hc. rewrite full8, sample_8 by (auto; lia). reflexivity.
Qed.
Lemma samples8 n p w i : bytes p -> length p = (w * n)%nat -> (i < w)%nat -> samples 8 n p i = slice p (i * n) n.
Proof.
  intros Hb L Hi. rewrite <- (pixel8 n p w i) by auto. generalize (samples 8 n p i) as l. induction l as [|s l IH]; [reflexivity|].
  cbn [map concat]. rewrite full8. cbn [app]. now rewrite <- IH.
Qed.
Lemma full16 a b : is_byte a -> is_byte b -> full 16 (a * 256 + b) = [a; b].
Proof.
  unfold is_byte. intros Ha Hb. unfold full. change (16 =? 16)%nat with true. cbv iota. unfold be_bytes. cbn [le_bytes rev app].
  f_equal; [|f_equal]; lia.
Qed.
Lemma concat_pairs (f : nat -> Z) a n : concat (map (fun c => [f (2 * (a + c))%nat; f (2 * (a + c) + 1)%nat]) (seq 0 n)) = map (fun c => f (2 * a + c)%nat) (seq 0 (2 * n)).
Proof.
  induction n as [|n IH]; [reflexivity|]. replace (2 * S n)%nat with (2 * n + 2)%nat by lia. rewrite seq_S, seq_app, !map_app, concat_app, IH.
  f_equal. cbn [map concat app seq Nat.add]. f_equal; [f_equal; lia|f_equal]. f_equal. lia.
Qed.
Lemma pixel16 n p w i : bytes p -> length p = (w * (2 * n))%nat -> (i < w)%nat -> concat (map (full 16) (samples 16 n p i)) = slice p (i * (2 * n)) (2 * n).
Proof.
  intros Hb L Hi. assert (A : (i * (2 * n) + 2 * n <= w * (2 * n))%nat) by (replace (i * (2 * n) + 2 * n)%nat with (S i * (2 * n))%nat by lia; apply Nat.mul_le_mono_r; lia).
  rewrite slice_map by lia. unfold samples. rewrite map_map.
  rewrite (map_ext_in _ (fun c => [nth (2 * (i * n + c)) p 0; nth (2 * (i * n + c) + 1) p 0])).
  - rewrite (concat_pairs (fun k => nth k p 0)). apply map_ext. intros c. f_equal. lia.
  - intros c Hc. apply in_seq in Hc. assert (2 * (i * n + c) + 1 < length p)%nat by lia. rewrite sample_16 by auto. apply full16; now apply bytes_nth.
Qed.
Lemma bits_app d p r k : (k * d / 8 < length p)%nat -> bits d (p ++ r) k = bits d p k.
Proof. intros H. unfold bits. now rewrite app_nth1. Qed.
Lemma sample_bound d p k : (0 <= sample d p k < 2 ^ Z.of_nat d)%Z.
Proof. unfold sample. apply Z.mod_pos_bound. lia. Qed.
Lemma full_low d s : In d [1; 2; 4]%nat -> full d s = [scale_for false d * s].
Proof.
  intros [<-|[<-|[<-|[]]]]; unfold full; cbn [Nat.eqb scale_for]; f_equal.
  - change (2 ^ Z.of_nat 1 - 1) with 1. lia.
  - change (2 ^ Z.of_nat 2 - 1) with 3. lia.
  - change (2 ^ Z.of_nat 4 - 1) with 15. lia.
Qed.
Lemma zlist_eqb_spec a b : zlist_eqb a b = true <-> a = b.
Proof. unfold zlist_eqb. destruct (list_eq_dec Z.eq_dec a b); split; congruence. Qed.
Lemma trns8_low d t : In d [1; 2; 4; 8]%nat -> trns8 d t = (if (d =? 8)%nat then 1 else scale_for false d) * (t mod 2 ^ Z.of_nat d).
Proof.
  intros Hd. unfold trns8. change 255 with (2 ^ Z.of_nat 8 - 1) at 1. rewrite !land_low. change (2 ^ Z.of_nat 8) with 256.
  destruct Hd as [<-|[<-|[<-|[<-|[]]]]]; unfold u8, scale_of; cbn [nth Nat.eqb scale_for].
  - change (2 ^ Z.of_nat 1) with 2. lia.
  - change (2 ^ Z.of_nat 2) with 4. lia.
  - change (2 ^ Z.of_nat 4) with 16. lia.
  - change (2 ^ Z.of_nat 8) with 256. lia.
Qed.
Lemma same_mark {A} (p q : list Z) (a b : A) : (if zlist_eqb p q then a else b) = if list_eq_dec Z.eq_dec p q then a else b.
Proof. unfold zlist_eqb. now destruct (list_eq_dec Z.eq_dec p q). Qed.
Lemma mark_iff {A} (p q p' q' : list Z) (a b : A) : (p = q <-> p' = q') -> (if zlist_eqb p q then a else b) = if list_eq_dec Z.eq_dec p' q' then a else b.
Proof. intros H. rewrite same_mark. destruct (list_eq_dec Z.eq_dec p q), (list_eq_dec Z.eq_dec p' q'); tauto. Qed.

(** * One row *)
Lemma packed_rows x w : packed_len x w = row_bytes (depth x) (color_comps (col x)) w.
Proof. reflexivity. Qed.
Lemma packed8 x w : depth x = 8%nat -> packed_len x w = (w * color_comps (col x))%nat.
Proof. intros E. unfold packed_len. rewrite E. set (a := (w * color_comps (col x))%nat). clearbody a. lia. Qed.
Lemma packed16 x w : depth x = 16%nat -> packed_len x w = (w * (2 * color_comps (col x)))%nat.
Proof. intros E. unfold packed_len. rewrite E. replace (w * (2 * color_comps (col x)))%nat with (2 * (w * color_comps (col x)))%nat by lia. set (a := (w * color_comps (col x))%nat). clearbody a. lia. Qed.

Lemma save_ok (p junk stride : list Z) n : length p = n -> (n <= length stride)%nat ->
  bind (get_slice (p ++ junk) 0 n) (fun r => put_slice stride 0 r) = Ok (p ++ skipn n stride).
Proof.
  intros L H. rewrite get_slice_ok by (rewrite app_length; lia). cbn [bind]. replace (slice (p ++ junk) 0 n) with p.
  - rewrite put_slice_ok by lia. f_equal. unfold put. cbn [Nat.add firstn app]. now rewrite L.
  - unfold slice. cbn [skipn]. symmetry. now apply firstn_app_exact.
Qed.
Lemma low_expand d plte w p junk out : In d [1; 2; 4]%nat -> bytes p -> length p = row_bytes d 1 w -> (w <= length out)%nat ->
  expand_bits w d 1 plte (p ++ junk) out = Ok (map (fun k => scale_for plte d * sample d p k) (seq 0 w) ++ skipn w out).
Proof.
  intros Hd Hb L Ho. unfold row_bytes in L. rewrite expand_bits_ok by (auto; rewrite ?app_length; lia). rewrite Nat.mul_1_r. f_equal. f_equal.
  apply map_ext_in. intros k Hk. apply in_seq in Hk.
  assert (B : (k * d / 8 < length p)%nat).
  { rewrite L, Nat.mul_1_r. clear -Hd Hk. destruct Hd as [<-|[<-|[<-|[]]]]; lia. }
  rewrite bits_app by exact B. rewrite sample_bits; auto. cbn in Hd |- *. tauto.
Qed.
Lemma slice_one (f : nat -> Z) w r i : (i < w)%nat -> slice (map f (seq 0 w) ++ r) (i * 1) 1 = [f i].
Proof.
  intros H. rewrite Nat.mul_1_r. rewrite slice_app_l by (rewrite map_length, seq_length; lia). rewrite slice_map by (rewrite map_length, seq_length; lia).
  cbn [seq map]. rewrite Nat.add_0_r. rewrite (map_nth_in _ _ _ 0%nat) by (rewrite seq_length; lia). now rewrite seq_nth by lia.
Qed.
Lemma nth_px n l i : (0 < n)%nat -> (i * n + n <= length l)%nat -> nth 0 (slice l (i * n) n) 0 = nth (i * n) l 0.
Proof. intros. rewrite slice_nth by lia. f_equal. lia. Qed.

(** The palette: entry of the first sample *)
Lemma lookup_show x s : is_palette (col x) = true -> 0 <= nth 0 s 0 < 256 ->
  lookup (palette x) (if seen_trns x || adds_alpha x then 4 else 3) s = show (look_of x) s.
Proof.
  intros P B. unfold lookup, show, look_of. rewrite P. cbn [l_pal l_pal_alpha]. rewrite Z.mod_small by lia.
  assert (A : adds_alpha x = want_alpha x) by (unfold adds_alpha; destruct (col x); cbn in *; try discriminate; now rewrite andb_true_r). rewrite A.
  change colour_entry with entry. destruct (@nth entry _ _ _) as [[[r g] b] a]. now destruct (seen_trns x || want_alpha x).
Qed.

Lemma row_len_ge x w : supported x -> (packed_len x w <= row_len x w)%nat.
Proof.
  intros (Lg & _). unfold packed_len, row_len, sample_bytes.
  assert (C : (color_comps (col x) <= out_comps x)%nat) by (unfold out_comps; destruct (want_alpha x), (seen_trns x), (col x); cbn; lia).
  assert (M : (w * color_comps (col x) <= w * out_comps x)%nat) by (apply Nat.mul_le_mono_l; lia).
  set (a := (w * color_comps (col x))%nat) in *. set (b := (w * out_comps x)%nat) in *. clearbody a b.
  assert (D : In (depth x) [1; 2; 4; 8; 16]%nat) by (unfold legal in Lg; destruct (col x); cbn in *; tauto). clear -M D.
  destruct D as [E|[E|[E|[E|[E|[]]]]]]; rewrite <- E; cbn [Nat.eqb]; lia.
Qed.

Lemma give (a a' s : list Z) n : a = a' -> length s = n -> exists s', @Ok (list Z * list Z) (a, s) = Ok (a', s') /\ length s' = n.
Proof. intros -> <-. eauto. Qed.

Lemma post_low_gray x last w p junk stride : supported x -> In (depth x) [1; 2; 4]%nat -> col x = CLuma -> bytes p -> length p = packed_len x w ->
  length (p ++ junk) = row_len x w -> (row_len x w <= length stride)%nat ->
  exists stride', post_row x last w (p ++ junk) stride = Ok (shown (look_of x) w p, stride') /\ length stride' = length stride.
Proof.
  intros S Hd C Hb Lp Lr Ls. pose proof (row_len_ge x w S) as GE. destruct S as (_ & Lt & _ & ST & SL & _).
  assert (D8 : (depth x <? 8)%nat = true) by (apply Nat.ltb_lt; cbn in Hd; lia).
  assert (D16 : (depth x =? 16)%nat = false) by (apply Nat.eqb_neq; cbn in Hd; lia).
  destruct (SL C ltac:(cbn in Hd; lia)) as [SP WA].
  assert (RL : row_len x w = if seen_trns x then (w * 2)%nat else w).
  { unfold row_len, sample_bytes, out_comps. rewrite WA, C, D16. destruct (seen_trns x); cbn [color_comps]; lia. }
  rewrite packed_rows, C in Lp, GE. cbn [color_comps] in Lp, GE. rewrite RL in *. clear RL.
  unfold post_row. rewrite packed_rows, D8, D16, SP, C. unfold adds_alpha. rewrite WA. cbn [andb orb negb is_palette color_comps color_alpha]. rewrite !andb_false_r.
  unfold shown, look_of. rewrite C, D8 || rewrite C. cbn [is_palette color_comps l_depth l_comps]. unfold adds_alpha. rewrite WA. cbn [andb]. unfold key_of. rewrite C. cbn [color_comps].
  destruct (seen_trns x) eqn:T; cbn [andb orb].
  - rewrite (low_expand (depth x) false w p junk stride) by (auto; lia). cbn [bind andb negb expand_trns].
    rewrite (map_px_ok 1 2 _ _ _ w) by (rewrite ?app_length, ?map_length, ?seq_length in *; lia). cbn [bind].
    apply give; [|rewrite app_length, map_length, seq_length, skipn_length; lia]. apply concat_ext. intros i Hi.
    rewrite slice_one by exact Hi. unfold show, samples. cbn [l_pal l_depth l_key seq map]. rewrite Nat.mul_1_r, Nat.add_0_r.
    rewrite full_low by exact Hd. cbn [concat app]. f_equal. unfold opaque, clear. rewrite D16. apply mark_iff.
    destruct (trns x) as [|t0 tr]; [discriminate|]. cbn [firstn map getz nth]. unfold getz. cbn [nth]. rewrite trns8_low by (cbn in Hd |- *; tauto).
    assert (E8 : (depth x =? 8)%nat = false) by (apply Nat.eqb_neq; cbn in Hd; lia). rewrite E8.
    assert (SC : 0 < scale_for false (depth x)) by (destruct Hd as [<-|[<-|[<-|[]]]]; cbn; lia).
    split; intros H; injection H as H; f_equal; [apply (Z.mul_reg_l _ _ (scale_for false (depth x))); [clear -SC; lia|exact H]|now rewrite H].
  - rewrite save_ok by (auto; lia). cbn [bind].
    rewrite (low_expand (depth x) false w p (skipn _ stride) (p ++ junk)) by (auto; lia). cbn [bind].
    apply give; [|rewrite app_length, skipn_length, Lp; lia]. rewrite skipn_all2 by lia. rewrite app_nil_r.
    unfold show, samples. cbn [l_pal l_depth l_key l_add seq map]. 
    rewrite (concat_ext _ (fun i => [scale_for false (depth x) * sample (depth x) p i])).
    + generalize (seq 0 w) as l. induction l as [|i l IH]; [reflexivity|]. cbn [map concat app]. now rewrite IH.
    + intros i Hi. rewrite full_low by exact Hd. cbn [concat app]. now rewrite Nat.mul_1_r, Nat.add_0_r.
Qed.

Lemma post_palette x last w p junk stride : supported x -> col x = CPalette -> bytes p -> length p = packed_len x w ->
  length (p ++ junk) = row_len x w -> (row_len x w <= length stride)%nat ->
  exists stride', post_row x last w (p ++ junk) stride = Ok (shown (look_of x) w p, stride') /\ length stride' = length stride.
Proof.
  intros S C Hb Lp Lr Ls. pose proof (row_len_ge x w S) as GE. destruct S as (Lg & Lt & SC & _ & _). destruct (SC C) as [SP PL].
  rewrite C in Lg. cbn [legal] in Lg.
  assert (D16 : (depth x =? 16)%nat = false) by (apply Nat.eqb_neq; cbn in Lg; lia).
  assert (A : adds_alpha x = want_alpha x) by (unfold adds_alpha; rewrite C; apply andb_true_r).
  set (n := if seen_trns x || adds_alpha x then 4%nat else 3%nat).
  assert (Hn : (3 <= n <= 4)%nat) by (unfold n; destruct (_ || _); lia).
  assert (RL : row_len x w = (w * n)%nat).
  { unfold row_len, sample_bytes, out_comps, n. rewrite A, C, D16. destruct (seen_trns x), (want_alpha x); cbn [orb]; lia. }
  assert (WN : (w <= w * n)%nat) by (rewrite <- (Nat.mul_1_r w) at 1; apply Nat.mul_le_mono_l; lia).
  rewrite packed_rows, C in Lp, GE. cbn [color_comps] in Lp, GE. rewrite RL in *. clear RL.
  unfold post_row. rewrite packed_rows, D16, SP, C. cbn [orb andb negb is_palette color_comps]. rewrite !andb_false_r. rewrite (proj2 (Nat.ltb_ge _ _) PL).
  assert (PZ : (length (palette x) =? 0)%nat = false) by (apply Nat.eqb_neq; lia). rewrite PZ. unfold expand_palette. fold n.
  unfold shown. replace (l_depth (look_of x)) with (depth x) by reflexivity. replace (l_comps (look_of x)) with 1%nat by (unfold look_of; now rewrite C).
  assert (D : (depth x = 8%nat) \/ In (depth x) [1; 2; 4]%nat) by (cbn in Lg |- *; lia). destruct D as [D|D].
  - rewrite D in *. cbn [Nat.ltb Nat.leb]. rewrite save_ok by (auto; lia). cbn [bind].
    assert (LP : length p = (w * 1)%nat) by (rewrite Lp; unfold row_bytes; lia).
    rewrite (map_px_ok 1 n _ _ _ w) by (rewrite ?app_length in *; lia).
    apply give; [|rewrite app_length, skipn_length; lia]. apply concat_ext. intros i Hi.
    rewrite slice_app_l by lia. rewrite <- (samples8 1 p w i) by auto. apply lookup_show; [now rewrite C|].
    unfold samples. cbn [seq map nth]. pose proof (sample_bound 8 p (i * 1 + 0)). change (2 ^ Z.of_nat 8) with 256 in *. lia.
  - assert (D8 : (depth x <? 8)%nat = true) by (apply Nat.ltb_lt; cbn in D; lia). rewrite D8.
    rewrite (low_expand (depth x) true w p junk stride) by (auto; lia). cbn [bind].
    rewrite (map_px_ok 1 n _ _ _ w) by (rewrite ?app_length, ?map_length, ?seq_length in *; lia).
    apply give; [|rewrite app_length, map_length, seq_length, skipn_length; lia]. apply concat_ext. intros i Hi.
    rewrite slice_one by exact Hi. unfold samples. cbn [seq map scale_for]. rewrite Z.mul_1_l, Nat.mul_1_r, Nat.add_0_r. apply lookup_show; [now rewrite C|].
    cbn [nth]. pose proof (sample_bound (depth x) p i) as SB. assert (2 ^ Z.of_nat (depth x) <= 16) by (destruct D as [<-|[<-|[<-|[]]]]; reflexivity || (cbn; lia)). lia.
Qed.

(** Bytes of a pixel before and after, whole-byte depths *)
Lemma pixel_wide x w p i : In (depth x) [8; 16]%nat -> bytes p -> length p = packed_len x w -> (i < w)%nat ->
  concat (map (full (depth x)) (samples (depth x) (color_comps (col x)) p i)) =
  slice p (i * (color_comps (col x) * sample_bytes x)) (color_comps (col x) * sample_bytes x).
Proof.
  intros [D|[D|[]]] Hb Lp Hi; unfold sample_bytes; rewrite <- D.
  - cbn [Nat.eqb]. rewrite Nat.mul_1_r. rewrite packed8 in Lp by auto. now apply (pixel8 _ p w).
  - cbn [Nat.eqb]. rewrite (Nat.mul_comm _ 2). rewrite packed16 in Lp by auto. now apply (pixel16 _ p w).
Qed.
Lemma packed_wide x w : In (depth x) [8; 16]%nat -> packed_len x w = (w * (color_comps (col x) * sample_bytes x))%nat.
Proof. intros [D|[D|[]]]; [rewrite packed8 by auto|rewrite packed16 by auto]; unfold sample_bytes; rewrite <- D; cbn [Nat.eqb]; lia. Qed.

Lemma shown_plain x w p : In (depth x) [8; 16]%nat -> bytes p -> length p = packed_len x w ->
  l_pal (look_of x) = None -> l_key (look_of x) = None -> l_add (look_of x) = false -> shown (look_of x) w p = p.
Proof.
  intros D Hb Lp P K A. unfold shown. assert (0 < color_comps (col x) * sample_bytes x)%nat by (unfold sample_bytes; destruct (_ =? _)%nat, (col x); cbn; lia).
  rewrite (concat_ext _ (fun i => slice p (i * (color_comps (col x) * sample_bytes x)) (color_comps (col x) * sample_bytes x))).
  - apply concat_slices; [lia|]. now rewrite packed_wide in Lp.
  - intros i Hi. unfold show. rewrite P, K, A, app_nil_r. cbn [look_of l_depth l_comps]. now apply (pixel_wide x w).
Qed.

Lemma post_wide x last w p junk stride : supported x -> In (depth x) [8; 16]%nat -> col x <> CPalette -> bytes p -> length p = packed_len x w ->
  length (p ++ junk) = row_len x w -> (row_len x w <= length stride)%nat ->
  exists stride', post_row x last w (p ++ junk) stride = Ok (shown (look_of x) w p, stride') /\ length stride' = length stride.
Proof.
  intros S D C Hb Lp Lr Ls. pose proof (row_len_ge x w S) as GE. destruct S as (Lg & Lt & _ & ST & _).
  assert (D8 : (depth x <? 8)%nat = false) by (apply Nat.ltb_ge; cbn in D; lia).
  assert (P : is_palette (col x) = false) by (destruct (col x); try reflexivity; congruence).
  assert (LPal : l_pal (look_of x) = None) by (unfold look_of; now rewrite P).
  unfold post_row. rewrite D8. rewrite save_ok by (auto; lia). cbn [bind]. rewrite P, !andb_false_r. cbn [negb]. rewrite andb_true_r.
  pose proof (packed_wide x w D) as PW. pose proof (fun i Hi => pixel_wide x w p i D Hb Lp Hi) as PX.
  destruct (seen_trns x) eqn:T.
  - destruct (ST eq_refl C) as (CC & DN & WA). assert (DD : depth x = 8%nat) by (cbn in D; lia).
    assert (A : adds_alpha x = false) by (unfold adds_alpha; now rewrite WA). rewrite A. rewrite DD. cbn [Nat.eqb].
    assert (SB : sample_bytes x = 1%nat) by (unfold sample_bytes; now rewrite DD). rewrite SB in *. rewrite !Nat.mul_1_r in *.
    destruct (trns x) as [|t0 [|t1 [|t2 tr]]] eqn:ET; try discriminate.
    assert (K : l_key (look_of x) = Some (key_of x)) by (unfold look_of; now rewrite T, P).
    assert (E8 : forall t, trns8 8 t = t mod 256) by (intros t; rewrite trns8_low by (cbn; auto); cbn [Nat.eqb]; change (2 ^ Z.of_nat 8) with 256; lia).
    unfold row_len, out_comps in *. rewrite WA, T, SB in *. rewrite Nat.mul_1_r in *. rewrite DD in PX.
    destruct CC as [CC|CC]; rewrite CC in *; cbn [expand_trns bind color_comps] in *.
    all: rewrite (map_px_ok _ _ _ _ _ w) by (rewrite ?app_length in *; lia); cbn [bind].
    all: apply give; [|rewrite app_length, skipn_length, Lp; lia]; unfold shown; apply concat_ext; intros i Hi.
    all: rewrite slice_app_l by lia; unfold show; rewrite LPal, K; cbn [look_of l_depth l_comps]; rewrite CC, DD; cbn [color_comps]; rewrite PX by exact Hi.
    all: f_equal; unfold clear, opaque; cbn [Nat.eqb]; apply mark_iff; rewrite <- (samples8 _ p w i) by (auto; lia).
    all: unfold key_of; rewrite CC, ET, DD; cbn [color_comps firstn map]; unfold getz; cbn [nth]; rewrite !E8; change (2 ^ Z.of_nat 8) with 256; reflexivity.
  - cbn [bind]. assert (K : l_key (look_of x) = None) by (unfold look_of; now rewrite T).
    destruct (adds_alpha x) eqn:A.
    + assert (LA : l_add (look_of x) = true) by exact A. unfold adds_alpha in A. apply andb_true_iff in A as [WA CA].
      unfold row_len, out_comps, sample_bytes in *. rewrite WA in *.
      destruct (col x) eqn:CC; try discriminate; try congruence; cbn [color_comps] in *.
      all: destruct D as [D|[D|[]]]; rewrite <- D in *; cbn [Nat.eqb Nat.mul Nat.add add_alpha bind] in *.
      all: rewrite (map_px_ok _ _ _ _ _ w) by (rewrite ?app_length in *; lia); cbn [bind].
      all: apply give; [|rewrite app_length, skipn_length, Lp; lia]; unfold shown; apply concat_ext; intros i Hi.
      all: rewrite slice_app_l by lia; unfold show; rewrite LPal, K, LA; cbn [look_of l_depth l_comps]; rewrite CC, <- D; cbn [color_comps]; rewrite PX by exact Hi; reflexivity.
    + cbn [bind]. assert (LA : l_add (look_of x) = false) by exact A.
      assert (OC : out_comps x = color_comps (col x)).
      { unfold out_comps. rewrite T. unfold adds_alpha in A. destruct (want_alpha x), (col x); cbn in *; congruence. }
      assert (J : junk = []) by (rewrite app_length in Lr; unfold row_len in Lr; rewrite OC in Lr; destruct junk; [reflexivity|cbn [length] in Lr; rewrite PW in Lp; lia]).
      rewrite J, app_nil_r. apply give; [|rewrite app_length, skipn_length, Lp; lia]. symmetry. now apply shown_plain.
Qed.

Lemma post_row_ok x last w p junk stride : supported x -> bytes p -> length p = packed_len x w ->
  length (p ++ junk) = row_len x w -> (row_len x w <= length stride)%nat ->
  exists stride', post_row x last w (p ++ junk) stride = Ok (shown (look_of x) w p, stride') /\ length stride' = length stride.
Proof.
  intros S Hb Lp Lr Ls. pose proof S as (Lg & _). destruct (col x) eqn:C; cbn [legal] in Lg.
  - assert (D : In (depth x) [1; 2; 4]%nat \/ In (depth x) [8; 16]%nat) by (cbn in Lg |- *; tauto).
    destruct D; [now apply post_low_gray|apply post_wide; auto; congruence].
  - apply post_wide; auto; congruence.
  - now apply post_palette.
  - apply post_wide; auto; congruence.
  - apply post_wide; auto; congruence.
Qed.
Lemma no_post x w p junk : supported x -> post_processes x = false -> bytes p -> length p = packed_len x w ->
  length (p ++ junk) = row_len x w -> p ++ junk = shown (look_of x) w p.
Proof.
  intros (Lg & _ & SC & _) NP Hb Lp Lr. unfold post_processes in NP. apply orb_false_iff in NP as [NP A]. apply orb_false_iff in NP as [NP D8].
  apply orb_false_iff in NP as [T SP]. apply Nat.ltb_ge in D8.
  assert (C : col x <> CPalette) by (intros C; destruct (SC C); congruence).
  assert (D : In (depth x) [8; 16]%nat) by (unfold legal in Lg; destruct (col x); cbn in Lg |- *; lia).
  assert (OC : out_comps x = color_comps (col x)).
  { unfold out_comps. rewrite T. unfold adds_alpha in A. destruct (want_alpha x), (col x); cbn in *; congruence. }
  assert (J : junk = []).
  { pose proof (packed_wide x w D) as PW. rewrite app_length in Lr. unfold row_len in Lr. rewrite OC in Lr. destruct junk; [reflexivity|cbn [length] in Lr; rewrite PW in Lp; lia]. }
  rewrite J, app_nil_r. symmetry. apply shown_plain; auto; unfold look_of; cbn [l_pal l_key l_add]; rewrite ?T; [|reflexivity].
  destruct (col x); try reflexivity; congruence.
Qed.
