(** The bit reader of zune-jpeg *)
From Verif Require Import Base BaseProof Loops Slices Bits JpegSimd JpegHuffModel JpegIdctSpec JpegHuffSpec JpegHuffTable.

(** * Bit strings as numbers *)
Fixpoint val (l : list bool) : Z := match l with [] => 0 | b :: l' => (if b then 2 ^ Z.of_nat (length l') else 0) + val l' end.
Lemma val_bound l : 0 <= val l < 2 ^ Z.of_nat (length l).
Proof.
  induction l as [|b l IH]; cbn [val length]; [cbn; lia|]. replace (Z.of_nat (S (length l))) with (1 + Z.of_nat (length l)) by lia.
  rewrite Z.pow_add_r by lia. destruct b; lia.
Qed.
Lemma val_app a b : val (a ++ b) = val a * 2 ^ Z.of_nat (length b) + val b.
Proof.
  induction a as [|x a IH]; cbn [val app]; [lia|]. rewrite IH, app_length, Nat2Z.inj_add, Z.pow_add_r by lia. destruct x; lia.
Qed.
Lemma msb_length n v : length (msb n v) = n.
Proof. induction n; cbn [msb length]; congruence. Qed.
Lemma val_msb n v : val (msb n v) = v mod 2 ^ Z.of_nat n.
Proof.
  induction n as [|n IH]; cbn [msb val]; [now rewrite Z.mod_1_r|]. rewrite msb_length, IH.
  replace (Z.of_nat (S n)) with (Z.of_nat n + 1) by lia. rewrite Z.pow_add_r by lia. rewrite Z.rem_mul_r by lia.
  pose proof (Z.testbit_spec' v (Z.of_nat n) ltac:(lia)) as T. change (2 ^ 1) with 2. rewrite <- T.
  destruct (Z.testbit v (Z.of_nat n)); cbn [Z.b2z]; lia.
Qed.
Lemma val_repeat_false n : val (repeat false n) = 0.
Proof. induction n; cbn [repeat val]; lia. Qed.
Lemma data_bits_length d : length (data_bits d) = (8 * length d)%nat.
Proof. induction d as [|b d IH]; [reflexivity|]. unfold data_bits in *. cbn [map concat length]. rewrite app_length, IH, msb_length. lia. Qed.

(** * The words of the reader *)
Record held (s : bits) (u : list bool) : Prop := Held {
  h_left : left s = Z.of_nat (length u); h_max : (length u <= 63)%nat;
  h_al : 0 <= aligned s < 2 ^ 64; h_alv : aligned s / 2 ^ (64 - Z.of_nat (length u)) = val u;
  h_buf : 0 <= buffer s < 2 ^ 64; h_bufv : buffer s mod 2 ^ Z.of_nat (length u) = val u }.
(** only the lower word is up to date *)
Record half_held (s : bits) (u : list bool) : Prop := HalfHeld {
  hh_left : left s = Z.of_nat (length u); hh_al : 0 <= aligned s < 2 ^ 64;
  hh_buf : 0 <= buffer s < 2 ^ 64; hh_bufv : buffer s mod 2 ^ Z.of_nat (length u) = val u }.
Lemma pow2_pos k : 0 <= k -> 0 < 2 ^ k.
Proof. intros. apply Z.pow_pos_nonneg; lia. Qed.
Lemma u64_bound x : 0 <= u64 x < 2 ^ 64.
Proof. apply Z.mod_pos_bound. reflexivity. Qed.
(** the upper word made from the lower one *)
Lemma align_ok b n v : 0 <= n <= 63 -> b mod 2 ^ n = v -> u64 (Z.shiftl b (64 - n)) / 2 ^ (64 - n) = v.
Proof.
  intros H E. unfold u64. rewrite Z.shiftl_mul_pow2 by lia.
  replace (2 ^ 64) with (2 ^ n * 2 ^ (64 - n)) by (rewrite <- Z.pow_add_r by lia; f_equal; lia).
  rewrite Zmult_mod_distr_r. rewrite Z.div_mul by (apply Z.pow_nonzero; lia). exact E.
Qed.
Lemma align s u m o e r : half_held s u -> (length u <= 63)%nat ->
  held (Bits (buffer s) (u64 (Z.shiftl (buffer s) (64 - left s))) (left s) m o e r) u.
Proof.
  intros [L Al B V] H. constructor; cbn [left buffer aligned]; auto using u64_bound. rewrite L. apply align_ok; [lia|exact V].
Qed.
Lemma held_half s u : held s u -> half_held s u.
Proof. intros []. now constructor. Qed.
(** appending [k] bits to the lower word *)
Lemma append_ok b n k v x : 0 <= n -> 0 <= k -> n + k <= 64 -> b mod 2 ^ n = v -> 0 <= x < 2 ^ k ->
  u64 (Z.lor (Z.shiftl b k) x) mod 2 ^ (n + k) = v * 2 ^ k + x.
Proof.
  intros Hn Hk Hm E Hx. rewrite lor_shiftl_add by lia. unfold u64.
  replace (2 ^ 64) with (2 ^ (n + k) * 2 ^ (64 - (n + k))) by (rewrite <- Z.pow_add_r by lia; f_equal; lia).
  pose proof (pow2_pos (n + k) ltac:(lia)). pose proof (pow2_pos (64 - (n + k)) ltac:(lia)).
  rewrite Z.rem_mul_r by lia. rewrite Z.mul_comm with (n := 2 ^ (n + k)). rewrite Z.mod_add by lia. rewrite Z.mod_mod by lia.
  rewrite Z.pow_add_r by lia. rewrite (Z.mul_comm (2 ^ n)). pose proof (pow2_pos n Hn). pose proof (pow2_pos k Hk).
  rewrite Z.rem_mul_r by lia. rewrite (Z.mul_comm (2 ^ k) b), Z.mod_add by lia. rewrite Z.mod_small by lia.
  rewrite Z.div_add by lia. rewrite Z.div_small by lia. rewrite Z.add_0_l, E. lia.
Qed.
Lemma half_append s u k x m al o e r : half_held s u -> 0 <= al < 2 ^ 64 -> (length u + k <= 64)%nat -> 0 <= x < 2 ^ Z.of_nat k ->
  half_held (Bits (u64 (Z.lor (Z.shiftl (buffer s) (Z.of_nat k)) x)) al (left s + Z.of_nat k) m o e r) (u ++ msb k x).
Proof.
  intros [L Al B V] Hal H Hx. constructor; cbn [left buffer aligned].
  - rewrite app_length, msb_length, L. lia.
  - exact Hal.
  - apply u64_bound.
  - rewrite app_length, msb_length, Nat2Z.inj_add. rewrite (append_ok _ _ _ (val u)); [|lia|lia|lia|exact V|exact Hx].
    rewrite val_app, msb_length, val_msb, Z.mod_small by exact Hx. reflexivity.
Qed.

(** * Reading off the top *)
Lemma peek_bound n s u : held s u -> 0 <= n <= 64 -> 0 <= peek n s < 2 ^ n.
Proof.
  intros [] H. unfold peek. rewrite Z.shiftr_div_pow2 by lia. pose proof (pow2_pos (64 - n) ltac:(lia)).
  split; [apply Z.div_pos; lia|]. apply Z.div_lt_upper_bound; [lia|]. rewrite <- Z.pow_add_r by lia. replace (64 - n + n) with 64 by lia. lia.
Qed.
Lemma val_div a b : val (a ++ b) / 2 ^ Z.of_nat (length b) = val a.
Proof. rewrite val_app. pose proof (val_bound b). rewrite Z.div_add_l by lia. rewrite Z.div_small by lia. lia. Qed.
Lemma aligned_top s a u : held s (a ++ u) -> aligned s / 2 ^ (64 - Z.of_nat (length a)) = val a.
Proof.
  intros [L M Al V B W]. rewrite <- (val_div a u), <- V. rewrite app_length in *.
  rewrite Z.div_div by (try apply Z.pow_nonzero; try apply pow2_pos; lia). rewrite <- Z.pow_add_r by lia. f_equal. f_equal. lia.
Qed.
Lemma peek_top n s a u : held s (a ++ u) -> Z.of_nat (length a) <= n <= 64 -> peek n s / 2 ^ (n - Z.of_nat (length a)) = val a.
Proof.
  intros H Hn. unfold peek. rewrite Z.shiftr_div_pow2 by lia. rewrite Z.div_div by (try apply Z.pow_nonzero; try apply pow2_pos; lia).
  rewrite <- Z.pow_add_r by lia. rewrite <- (aligned_top s a u H). f_equal. f_equal. lia.
Qed.
Lemma top_rest al n k v a : 0 <= n -> 0 <= k -> n + k <= 64 -> 0 <= al < 2 ^ 64 -> al / 2 ^ (64 - (n + k)) = a * 2 ^ k + v -> 0 <= v < 2 ^ k ->
  u64 (Z.shiftl al n) / 2 ^ (64 - k) = v.
Proof.
  intros Hn Hk Hm Ha E Hv. unfold u64. rewrite Z.shiftl_mul_pow2 by lia.
  replace (2 ^ 64) with (2 ^ (64 - n) * 2 ^ n) by (rewrite <- Z.pow_add_r by lia; f_equal; lia).
  rewrite Zmult_mod_distr_r.
  replace (2 ^ (64 - k)) with (2 ^ n * 2 ^ (64 - (n + k))) by (rewrite <- Z.pow_add_r by lia; f_equal; lia).
  pose proof (pow2_pos n Hn). pose proof (pow2_pos (64 - (n + k)) ltac:(lia)).
  rewrite <- Z.div_div by lia. rewrite Z.div_mul by lia.
  replace (2 ^ (64 - n)) with (2 ^ (64 - (n + k)) * 2 ^ k) by (rewrite <- Z.pow_add_r by lia; f_equal; lia).
  pose proof (pow2_pos k Hk). rewrite Z.rem_mul_r by lia.
  rewrite (Z.mul_comm (2 ^ (64 - (n + k)))), Z.div_add by lia. rewrite (Z.div_small (_ mod _)) by (apply Z.mod_pos_bound; lia).
  rewrite E, Z.add_0_l, Z.add_comm, Z.mod_add by lia. apply Z.mod_small. exact Hv.
Qed.
Lemma drop_held s a u : held s (a ++ u) -> held (drop_bits (Z.of_nat (length a)) s) u.
Proof.
  intros [L M Al V B W]. rewrite app_length in *. pose proof (val_bound u). pose proof (val_bound a). constructor; cbn [drop_bits left aligned buffer].
  - lia.
  - lia.
  - apply u64_bound.
  - apply (top_rest _ _ _ _ (val a)); try lia. rewrite <- val_app, <- V, Nat2Z.inj_add. reflexivity.
  - exact B.
  - rewrite val_app in W. pose proof (pow2_pos (Z.of_nat (length u)) ltac:(lia)) as P. pose proof (pow2_pos (Z.of_nat (length a)) ltac:(lia)) as Q.
    rewrite Nat2Z.inj_add, Z.add_comm, Z.pow_add_r, Z.rem_mul_r in W by lia.
    assert (X : (buffer s mod 2 ^ Z.of_nat (length u) + 2 ^ Z.of_nat (length u) * (buffer s / 2 ^ Z.of_nat (length u) mod 2 ^ Z.of_nat (length a))) mod 2 ^ Z.of_nat (length u)
      = (val a * 2 ^ Z.of_nat (length u) + val u) mod 2 ^ Z.of_nat (length u)) by now rewrite W.
    rewrite (Z.mul_comm (2 ^ _)), Z.mod_add, Z.mod_mod in X by lia. rewrite (Z.add_comm (val a * _)), Z.mod_add in X by lia.
    rewrite X. apply Z.mod_small. lia.
Qed.
Lemma top_part al n k v a : 0 <= n -> 0 <= k -> n + k <= 64 -> al / 2 ^ (64 - (n + k)) = a * 2 ^ k + v -> 0 <= v < 2 ^ k ->
  al / 2 ^ (64 - n) = a.
Proof.
  intros Hn Hk Hm E Hv. replace (2 ^ (64 - n)) with (2 ^ (64 - (n + k)) * 2 ^ k) by (rewrite <- Z.pow_add_r by lia; f_equal; lia).
  pose proof (pow2_pos k Hk). pose proof (pow2_pos (64 - (n + k)) ltac:(lia)). rewrite <- Z.div_div by assumption || (apply Z.pow_nonzero; lia).
  rewrite E. rewrite Z.div_add_l by (apply Z.pow_nonzero; lia). rewrite Z.div_small by assumption. apply Z.add_0_r.
Qed.
Lemma shl_multiple al n : 0 <= n <= 64 -> exists h, u64 (Z.shiftl al n) = 2 ^ n * h /\ 0 <= h < 2 ^ (64 - n).
Proof.
  intros H. unfold u64. rewrite Z.shiftl_mul_pow2 by lia. replace (2 ^ 64) with (2 ^ (64 - n) * 2 ^ n) by (rewrite <- Z.pow_add_r by lia; f_equal; lia).
  rewrite Zmult_mod_distr_r. eexists. split; [apply Z.mul_comm|]. apply Z.mod_pos_bound, pow2_pos. lia.
Qed.
Lemma rotate_ok al n k a v : 0 <= n <= 16 -> 0 <= k -> n + k <= 63 -> 0 <= al < 2 ^ 64 ->
  al / 2 ^ (64 - (n + k)) = a * 2 ^ k + v -> 0 <= v < 2 ^ k -> 0 <= a < 2 ^ n ->
  let x := Z.lor (u64 (Z.shiftl al n)) (Z.shiftr al (64 - n)) in
  Z.land x (Z.shiftl 1 n - 1) = a /\ 0 <= x < 2 ^ 64 /\ x / 2 ^ (64 - k) = v.
Proof.
  intros Hn Hk Hm Ha E Hv Hav. cbv zeta. rewrite Z.shiftr_div_pow2 by lia.
  rewrite (top_part al n k v a) by (try assumption; lia).
  pose proof (top_rest al n k v a ltac:(lia) Hk ltac:(lia) Ha E Hv) as R.
  destruct (shl_multiple al n ltac:(lia)) as (h & Eh & Hh). rewrite Eh in *. rewrite Z.lor_comm, lor_add by lia.
  rewrite Z.shiftl_mul_pow2, Z.mul_1_l by lia. rewrite land_low by lia. clear Eh E Ha.
  assert (Pn : 0 < 2 ^ n) by (apply pow2_pos; lia).
  assert (E64 : 2 ^ 64 = 2 ^ n * 2 ^ (64 - n)) by (rewrite <- Z.pow_add_r by lia; f_equal; lia).
  assert (Ek : 2 ^ (64 - k) = 2 ^ n * 2 ^ (64 - k - n)) by (rewrite <- Z.pow_add_r by lia; f_equal; lia).
  assert (Pk : 0 < 2 ^ (64 - k - n)) by (apply pow2_pos; lia).
  rewrite Ek in *. rewrite E64. set (N := 2 ^ n) in *. set (K := 2 ^ (64 - k - n)) in *. set (M := 2 ^ (64 - n)) in *. clearbody N K M.
  clear E64 Ek Hn Hk Hm Hv. rewrite <- Z.div_div in * by lia. rewrite (Z.mul_comm N h) in *. rewrite Z.div_mul in R by lia.
  rewrite Z.div_add, Z.mod_add by lia. rewrite (Z.mod_small a), (Z.div_small a) by (clear -Hav; lia). split; [reflexivity|]. split; [clear R; nia|exact R].
Qed.
Lemma get_bits_held s a u : held s (a ++ u) -> (length a <= 16)%nat -> exists s', get_bits (Z.of_nat (length a)) s = (val a, s') /\ held s' u /\
  marker s' = marker s /\ over s' = over s /\ eoi s' = eoi s /\ rd s' = rd s.
Proof.
  intros H Hl. pose proof (drop_held s a u H) as [L' M' Al' V' B' W']. destruct H as [L M Al V B W].
  cbn [drop_bits left buffer aligned] in *. unfold get_bits. cbv zeta. rewrite app_length in *. rewrite val_app, Nat2Z.inj_add in V.
  destruct (rotate_ok (aligned s) (Z.of_nat (length a)) (Z.of_nat (length u)) (val a) (val u)) as (R1 & R2 & R3);
    [clear -Hl; lia|apply Nat2Z.is_nonneg|clear -M; lia|exact Al|exact V|apply val_bound|apply val_bound|]. rewrite R1.
  eexists. split; [reflexivity|]. split; [|repeat split].
  constructor; cbn [left aligned buffer]; auto.
  rewrite L, Nat2Z.inj_add. replace (Z.of_nat (length a) + Z.of_nat (length u) - Z.of_nat (length a)) with (Z.of_nat (length u)) by lia.
  apply Z.mod_small. clear -M; lia.
Qed.

(** * Filling up *)
Lemma has_ff_false a b c d : 0 <= a < 256 -> 0 <= b < 256 -> 0 <= c < 256 -> 0 <= d < 256 ->
  has_ff (16777216 * a + 65536 * b + 256 * c + d) = false -> a <> 255 /\ b <> 255 /\ c <> 255 /\ d <> 255.
Proof.
  intros Ha Hb Hc Hd. unfold has_ff.
  assert (E : Z.lxor (16777216 * a + 65536 * b + 256 * c + d) 4294967295 = (255 - d) + 2 ^ 8 * ((255 - c) + 2 ^ 8 * ((255 - b) + 2 ^ 8 * (255 - a)))).
  { assert (X : forall x, 0 <= x < 256 -> Z.lxor x 255 = 255 - x).
    { intros x Hx. assert (A : forallb (fun x => Z.lxor x 255 =? 255 - x) (zrange 256) = true) by (vm_compute; reflexivity).
      now apply Z.eqb_eq, (sweep _ 256 A). }
    replace (16777216 * a + 65536 * b + 256 * c + d) with (d + 2 ^ 8 * (c + 2 ^ 8 * (b + 2 ^ 8 * a))) by lia.
    replace 4294967295 with (255 + 2 ^ 8 * (255 + 2 ^ 8 * (255 + 2 ^ 8 * 255))) by lia.
    rewrite !lxor_split by (try lia). now rewrite !X by lia. }
  rewrite E. clear E. assert (G : forall x, 0 <= x < 256 -> 0 <= 255 - x < 256) by (intros; lia).
  pose proof (G a Ha) as Ga. pose proof (G b Hb) as Gb. pose proof (G c Hc) as Gc. pose proof (G d Hd) as Gd. clear G.
  cut (has_zero ((255 - d) + 2 ^ 8 * ((255 - c) + 2 ^ 8 * ((255 - b) + 2 ^ 8 * (255 - a)))) = false ->
       255 - a <> 0 /\ 255 - b <> 0 /\ 255 - c <> 0 /\ 255 - d <> 0); [lia|].
  set (p := 255 - a) in *. set (q := 255 - b) in *. set (r := 255 - c) in *. set (t := 255 - d) in *. clearbody p q r t. clear a b c d Ha Hb Hc Hd.
  unfold has_zero. replace 2139062143 with (127 + 2 ^ 8 * (127 + 2 ^ 8 * (127 + 2 ^ 8 * 127))) by lia.
  rewrite !land_split by lia.
  set (m := fun x => Z.land x 127). assert (Bm : forall x, 0 <= m x < 128).
  { intros x. unfold m. change 127 with (2 ^ 7 - 1). rewrite land_low by lia. change (2 ^ 7) with 128. apply Z.mod_pos_bound. lia. }
  change (Z.land p 127) with (m p). change (Z.land q 127) with (m q). change (Z.land r 127) with (m r). change (Z.land t 127) with (m t).
  pose proof (Bm p). pose proof (Bm q). pose proof (Bm r). pose proof (Bm t).
  replace (m t + 2 ^ 8 * (m r + 2 ^ 8 * (m q + 2 ^ 8 * m p)) + (127 + 2 ^ 8 * (127 + 2 ^ 8 * (127 + 2 ^ 8 * 127))))
    with ((m t + 127) + 2 ^ 8 * ((m r + 127) + 2 ^ 8 * ((m q + 127) + 2 ^ 8 * (m p + 127)))) by lia.
  set (f := fun x => Z.lor (Z.lor (m x + 127) x) 127).
  assert (Bf : forall x, 0 <= x < 256 -> 0 <= f x < 256 /\ (f x = 255 -> x <> 0)).
  { intros x Hx. assert (A : forallb (fun x => let y := Z.lor (Z.lor (Z.land x 127 + 127) x) 127 in
        (0 <=? y) && (y <? 256) && (negb (y =? 255) || negb (x =? 0))) (zrange 256) = true) by (vm_compute; reflexivity).
    pose proof (sweep _ 256 A x ltac:(lia)) as B. cbv zeta beta in B. unfold f, m. clear A. lia. }
  assert (Bl : forall x, 0 <= x < 256 -> 0 <= Z.lor (m x + 127) x < 2 ^ 8).
  { intros x Hx. pose proof (Bm x). apply lor_bound; lia. }
  rewrite !lor_split by (try lia; try (apply Bl; lia)).
  change (Z.lor (Z.lor (m t + 127) t) 127) with (f t). change (Z.lor (Z.lor (m r + 127) r) 127) with (f r).
  change (Z.lor (Z.lor (m q + 127) q) 127) with (f q). change (Z.lor (Z.lor (m p + 127) p) 127) with (f p).
  destruct (Bf p Ga) as (F1 & F2). destruct (Bf q Gb) as (F3 & F4). destruct (Bf r Gc) as (F5 & F6). destruct (Bf t Gd) as (F7 & F8).
  intros X. apply negb_false_iff, Z.eqb_eq in X. clear -X F1 F2 F3 F4 F5 F6 F7 F8. repeat split; lia.
Qed.

(** What ends the data: a marker and what follows it, or the end of the file *)
Definition ends (tail : list Z) (fin : option (Z * list Z)) : Prop :=
  match fin with
  | None => tail = []
  | Some (m, rest) => exists n, tail = repeat 255 (S n) ++ m :: rest /\ In m markers
  end.
(** The bits [s] of the data not used yet are the bits [u] in the reader and those not read yet. After the end there are
    zeros. *)
Definition source (st : bits) (s u : list bool) (fin : option (Z * list Z)) : Prop :=
  0 <= over st /\ (0 < over st -> rd st = [] /\ fin = None) /\ bytes (rd st) /\
  match marker st, eoi st with
  | None, false => exists data tail k, rd st = stuff data ++ tail /\ ends tail fin /\ u ++ data_bits data = s ++ repeat false k /\ (fin <> None -> k = 0%nat)
  | mk, _ => exists m k, fin = Some (m, rd st) /\ In m markers /\ u = s ++ repeat false k /\ (mk = None \/ mk = Some m) /\ (eoi st = true -> m = 217)
  end.
Lemma ends_after tail fin : ends tail fin -> after_data tail.
Proof. destruct fin as [[m rest]|]; intros E; [right|now left]. destruct E as (n & -> & Hm). now exists n, m, rest. Qed.
Lemma prefix_app {A} (a b c : list A) : prefix a b -> prefix a (b ++ c).
Proof. intros (r & ->). exists (r ++ c). now rewrite app_assoc. Qed.
Lemma stuff_cons b data : stuff (b :: data) = (if b =? 255 then [255; 0] else [b]) ++ stuff data.
Proof. reflexivity. Qed.
Lemma data_bits_cons b data : data_bits (b :: data) = msb 8 b ++ data_bits data.
Proof. reflexivity. Qed.
Lemma peel x r data tail : x :: r = stuff data ++ tail -> after_data tail -> x <> 255 -> exists data', data = x :: data' /\ r = stuff data' ++ tail.
Proof.
  intros E T Hx. destruct data as [|b data].
  - cbn [stuff map concat app] in E. destruct T as [->|(n & m & rest & -> & _)]; [discriminate E|]. cbn [repeat app] in E. congruence.
  - rewrite stuff_cons in E. destruct (Z.eqb_spec b 255) as [->|Hb]; cbn [app] in E; [congruence|].
    injection E as -> ->. now exists data.
Qed.
Lemma known m : In m markers -> known_marker m = true /\ 0 < m < 255.
Proof.
  intros H. assert (A : forallb (fun m => known_marker m && (0 <? m) && (m <? 255)) markers = true) by (vm_compute; reflexivity).
  rewrite forallb_forall in A. specialize (A m H). cbv beta in A. apply andb_prop in A. destruct A as [A A3]. apply andb_prop in A. destruct A as [A1 A2]. split; [exact A1|lia].
Qed.
Lemma after_ff_fill n m rest : m <> 255 -> after_ff (repeat 255 n ++ m :: rest) = (m, rest).
Proof.
  intros H. induction n as [|n IH]; cbn [repeat app after_ff]; [now replace (m =? 255) with false by lia|exact IH].
Qed.
Lemma bytes_cons x r : bytes (x :: r) -> 0 <= x < 256 /\ bytes r.
Proof. intros H. inversion H. now split. Qed.
Lemma msb_zero n : msb n 0 = repeat false n.
Proof. induction n as [|n IH]; cbn [msb repeat]; [reflexivity|]. now rewrite Z.testbit_0_l, IH. Qed.
Lemma zeros_more (u s : list bool) k n : u = s ++ repeat false k -> u ++ repeat false n = s ++ repeat false (k + n).
Proof. intros ->. now rewrite repeat_app, app_assoc. Qed.
Lemma refill_byte_ok st s u fin : half_held st u -> source st s u fin -> marker st = None -> eoi st = false -> (length u <= 55)%nat ->
  exists st' go u', refill_byte st = Ok (st', go) /\ source st' s u' fin /\
    if (go : bool) then half_held st' u' /\ length u' = (length u + 8)%nat /\ marker st' = None /\ eoi st' = false
    else held st' u' /\ marker st' <> None.
Proof.
  intros H (O0 & Or & B & Src) Mk Eo Hu. rewrite Mk, Eo in Src. destruct Src as (data & tail & k & Er & T & Pf & K).
  unfold refill_byte. pose proof H as [L Al Bf V].
  assert (HA : forall x al o r, 0 <= x < 256 -> 0 <= al < 2 ^ 64 ->
    half_held (Bits (u64 (Z.lor (Z.shiftl (buffer st) 8) x)) al (left st + 8) None o (eoi st) r) (u ++ msb 8 x)).
  { intros x al o r Hx Hal. apply (half_append st u 8 x None al o (eoi st) r H Hal); [lia|exact Hx]. }
  destruct data as [|b data].
  - cbn [stuff map concat app] in Er. destruct fin as [[m rest]|]; cbn [ends] in T; [destruct T as (n & -> & Hm)|].
    2: { (* the end *) rewrite T in Er. rewrite Er. cbn [next_byte]. change (0 =? 255) with false. cbv iota zeta beta.
      do 3 eexists. split; [reflexivity|]. split; [|cbv iota; rewrite Mk; split; [apply HA; lia || exact Al|split; [now rewrite app_length, msb_length|split; [reflexivity|exact Eo]]]].
      unfold source. cbn [eoi over rd marker]. rewrite Mk, Eo. split; [lia|]. split; [now split|]. split; [constructor|].
      exists [], [], (k + 8)%nat. split; [reflexivity|]. split; [reflexivity|]. split; [|congruence].
      cbn [data_bits map concat] in *. rewrite app_nil_r in *. rewrite msb_zero. now apply zeros_more. }
    + destruct (known m Hm) as (Kn & Rm). rewrite Er in *. cbn [repeat app next_byte]. change (255 =? 255) with true. cbv iota.
      rewrite after_ff_fill by lia. replace (m =? 0) with false by lia. rewrite Kn. cbn [negb].
      assert (Br : bytes rest) by (cbn [repeat app] in B; apply bytes_cons in B; destruct B as (_ & B); unfold bytes in *; apply Forall_app in B; destruct B as (_ & B); now inversion B).
      assert (Pu : u = s ++ repeat false 0) by (cbn [data_bits map concat] in Pf; rewrite app_nil_r, (K ltac:(discriminate)) in Pf; exact Pf).
      assert (Q : forall bo (x : Z), (if negb bo then (0 : Z) < 0 else False) -> False) by (intros [] ? ?; cbn in *; lia). clear Q.
      assert (Hbuf : Z.shiftr (u64 (Z.lor (Z.shiftl (buffer st) 8) 255)) 8 = buffer st mod 2 ^ 56).
      { rewrite lor_shiftl_add by lia. unfold u64. rewrite Z.shiftr_div_pow2 by lia.
        replace (2 ^ 64) with (2 ^ 8 * 2 ^ 56) by reflexivity. rewrite Z.rem_mul_r by lia.
        rewrite (Z.mul_comm (2 ^ 8) (_ mod _)), Z.div_add by lia. rewrite (Z.div_small (_ mod 2 ^ 8)) by (apply Z.mod_pos_bound; lia).
        rewrite Z.add_0_l. f_equal. rewrite (Z.mul_comm (2 ^ 8)), Z.div_add by lia. reflexivity. }
      rewrite Hbuf. set (b56 := buffer st mod 2 ^ 56).
      assert (B56 : 0 <= b56 < 2 ^ 56) by (apply Z.mod_pos_bound; lia).
      assert (V56 : b56 mod 2 ^ Z.of_nat (length u) = val u).
      { rewrite <- V. unfold b56. replace (2 ^ 56) with (2 ^ Z.of_nat (length u) * 2 ^ (56 - Z.of_nat (length u))) by (rewrite <- Z.pow_add_r by lia; f_equal; lia).
        pose proof (pow2_pos (Z.of_nat (length u)) ltac:(lia)). pose proof (pow2_pos (56 - Z.of_nat (length u)) ltac:(lia)).
        rewrite Z.rem_mul_r by lia. rewrite (Z.mul_comm (2 ^ _) (_ mod _)), Z.mod_add by lia. apply Z.mod_mod. lia. }
      assert (Over : forall o, o = over st + match (repeat 255 n ++ m :: rest) with [] => 1 | _ :: _ => 0 end -> o = over st).
      { intros o ->. destruct n; cbn [repeat app]; lia. }
      set (o := over st + _). specialize (Over o eq_refl). clearbody o.
      assert (Ov : 0 < over st -> rest = [] /\ Some (m, rest) = None) by (intros X; destruct (Or X) as (Or' & _); discriminate Or').
      destruct (Z.eqb_spec m 217) as [->|H217].
      * eexists _, _, (u ++ msb 8 0). split; [reflexivity|]. split; [|split; [|cbn [marker]; discriminate]].
        -- unfold source. cbn [eoi over rd marker]. split; [lia|]. split; [rewrite Over; exact Ov|]. split; [exact Br|].
           exists 217, (0 + 8)%nat. split; [reflexivity|]. split; [exact Hm|]. split; [rewrite msb_zero; now apply zeros_more|]. split; [now right|reflexivity].
        -- assert (Hh : half_held (Bits b56 (aligned st) (left st) None 0 false []) u) by (constructor; cbn [left aligned buffer]; auto; lia).
           pose proof (half_append _ u 8 0 (Some 217) (aligned st) o (eoi st) rest Hh Al ltac:(lia) ltac:(lia)) as Hh'.
           cbn [buffer left] in Hh'. change (Z.of_nat 8) with 8 in Hh'. rewrite Z.lor_0_r in Hh'.
           apply (align _ _ (Some 217) o (eoi st) rest) in Hh'; [exact Hh'|]. rewrite app_length, msb_length. lia.
      * eexists _, _, u. split; [reflexivity|]. split; [|split; [|cbn [marker]; discriminate]].
        -- unfold source. cbn [eoi over rd marker]. split; [lia|]. split; [rewrite Over; exact Ov|]. split; [exact Br|]. exists m, 0%nat. split; [reflexivity|]. split; [exact Hm|]. split; [exact Pu|]. split; [now right|congruence].
        -- constructor; cbn [left aligned buffer]; auto.
           ++ lia.
           ++ destruct (left st =? 0); [exact Al|apply u64_bound].
           ++ destruct (Z.eqb_spec (left st) 0) as [E0|E0].
              ** replace (length u) with 0%nat by lia. replace u with (@nil bool) by (destruct u; [reflexivity|cbn [length] in *; lia]).
                 cbn [length val]. apply Z.div_small. exact Al.
              ** rewrite L. apply align_ok; [lia|exact V56].
           ++ lia.
  - rewrite data_bits_cons, app_assoc in Pf. rewrite stuff_cons in Er.
    assert (Hb : 0 <= b < 256) by (rewrite Er in B; destruct (Z.eqb_spec b 255) as [->|_]; [lia|]; cbn [app] in B; now apply bytes_cons in B).
    destruct (Z.eqb_spec b 255) as [->|Hne].
    + rewrite Er. cbn [app next_byte after_ff]. change (255 =? 255) with true. change (0 =? 255) with false. cbv iota zeta beta.
      change (0 =? 0) with true. cbv iota.
      do 3 eexists. split; [reflexivity|]. split; [|cbv iota; rewrite Mk; split; [apply HA; [lia|exact Al]|split; [now rewrite app_length, msb_length|split; [reflexivity|exact Eo]]]].
      unfold source. cbn [eoi over rd marker]. rewrite Mk, Eo. split; [lia|]. split; [intros X; exfalso; rewrite Z.add_0_r in X; destruct (Or X) as (Or' & _); rewrite Er in Or'; discriminate Or'|].
      split; [rewrite Er in B; cbn [app] in B; apply bytes_cons in B; destruct B as (_ & B); now apply bytes_cons in B|].
      exists data, tail, k. split; [reflexivity|]. split; [exact T|]. split; [exact Pf|exact K].
    + rewrite Er. cbn [app next_byte]. replace (b =? 255) with false by lia. cbv iota zeta beta.
      do 3 eexists. split; [reflexivity|]. split; [|cbv iota; rewrite Mk; split; [apply HA; [lia|exact Al]|split; [now rewrite app_length, msb_length|split; [reflexivity|exact Eo]]]].
      unfold source. cbn [eoi over rd marker]. rewrite Mk, Eo. split; [destruct (stuff data ++ tail); lia|].
      split.
      { intros X. destruct (stuff data ++ tail) eqn:Z; [split; [reflexivity|]|exfalso; rewrite Z.add_0_r in X; destruct (Or X) as (Or' & _); rewrite Er in Or'; discriminate Or'].
        apply app_eq_nil in Z. destruct Z as (_ & ->). destruct fin as [[m rest]|]; [|reflexivity]. destruct T as (n & E & _). discriminate E. }
      split; [rewrite Er in B; cbn [app] in B; now apply bytes_cons in B|].
      exists data, tail, k. split; [reflexivity|]. split; [exact T|]. split; [exact Pf|exact K].
Qed.
Lemma refill_bytes_ok n : forall st s u fin, half_held st u -> source st s u fin -> marker st = None -> eoi st = false -> (length u + 8 * n <= 63)%nat ->
  exists st' u', refill_bytes n st = Ok st' /\ source st' s u' fin /\ held st' u' /\ (marker st' <> None \/ length u' = (length u + 8 * n)%nat).
Proof.
  induction n as [|n IH]; intros st s u fin H S M Eo Hu; cbn [refill_bytes].
  - eexists _, u. split; [reflexivity|]. split; [exact S|]. split; [|right; lia].
    apply align; [exact H|lia].
  - destruct (refill_byte_ok st s u fin H S M Eo ltac:(lia)) as (st1 & go & u1 & R & S1 & G). rewrite R. cbn [bind]. destruct go.
    + destruct G as (H1 & L1 & M1 & Eo1). destruct (IH st1 s u1 fin H1 S1 M1 Eo1 ltac:(lia)) as (st' & u' & R' & S' & H' & L').
      exists st', u'. split; [exact R'|]. split; [exact S'|]. split; [exact H'|]. destruct L' as [L'|L']; [now left|right; lia].
    + destruct G as (H1 & M1). exists st1, u1. split; [reflexivity|]. split; [exact S1|]. split; [exact H1|now left].
Qed.
Lemma firstn_prefix {A} n (s u z : list A) : prefix s (u ++ z) -> (n <= length u)%nat -> prefix (firstn n s) u.
Proof.
  intros (r & E) H. exists (skipn (length (firstn n s)) u).
  assert (F : firstn n s = firstn (length (firstn n s)) u).
  { rewrite firstn_length. replace (firstn (Nat.min n (length s)) u) with (firstn (Nat.min n (length s)) (u ++ z)) by (rewrite firstn_app; replace (_ - _)%nat with 0%nat by lia; now rewrite firstn_O, app_nil_r).
    rewrite E, firstn_app. replace (Nat.min n (length s) - length s)%nat with 0%nat by lia. rewrite firstn_O, app_nil_r.
    destruct (Nat.le_ge_cases n (length s)); [now rewrite Nat.min_l by assumption|rewrite Nat.min_r by assumption; now rewrite !firstn_all2 by lia]. }
  rewrite F at 1. now rewrite firstn_skipn.
Qed.
Lemma four_bytes a b c d : 0 <= a < 256 -> 0 <= b < 256 -> 0 <= c < 256 -> 0 <= d < 256 ->
  msb 32 (16777216 * a + 65536 * b + 256 * c + d) = msb 8 a ++ msb 8 b ++ msb 8 c ++ msb 8 d.
Proof.
  intros Ha Hb Hc Hd.
  assert (G : forall n m x y, 0 <= y < 2 ^ Z.of_nat m -> msb (n + m) (x * 2 ^ Z.of_nat m + y) = msb n x ++ msb m y).
  { intros n m x y Hy. induction n as [|n IH]; cbn [Nat.add msb app].
    - assert (X : forall k, (k <= m)%nat -> msb k (x * 2 ^ Z.of_nat m + y) = msb k y).
      { induction k as [|k IHk]; intros Hk; cbn [msb]; [reflexivity|]. rewrite IHk by lia. f_equal.
        rewrite <- (Z.mod_pow2_bits_low _ (Z.of_nat m)) by lia. rewrite Z.add_comm, Z.mod_add by (apply Z.pow_nonzero; lia). now rewrite Z.mod_small. }
      now apply X.
    - rewrite IH. f_equal. rewrite Nat2Z.inj_add, Z.add_comm with (n := Z.of_nat n), <- Z.add_comm with (n := Z.of_nat n), <- Z.div_pow2_bits by lia.
      f_equal. rewrite Z.div_add_l by (apply Z.pow_nonzero; lia). rewrite Z.div_small by exact Hy. lia. }
  rewrite <- (G 8%nat 8%nat c d) by (change (2 ^ Z.of_nat 8) with 256; lia).
  change (2 ^ Z.of_nat 8) with 256. rewrite <- (G 8%nat 16%nat b) by (change (2 ^ Z.of_nat (8 + 8)) with 65536; lia).
  change (2 ^ Z.of_nat 16) with 65536. rewrite <- (G 8%nat 24%nat a) by (change (2 ^ Z.of_nat (8 + 16)) with 16777216; lia).
  change (2 ^ Z.of_nat 24) with 16777216. f_equal. lia.
Qed.
Lemma refill_ok st s u fin : held st u -> source st s u fin -> exists st' u', refill st = Ok st' /\ held st' u' /\ source st' s u' fin /\ prefix (firstn 32 s) u'.
Proof.
  intros H S. assert (Fin : forall st u, source st s u fin -> (marker st <> None \/ 32 <= length u)%nat -> prefix (firstn 32 s) u).
  { clear. intros st u (_ & _ & _ & S) ML.
    assert (P : (exists k, u = s ++ repeat false k) \/ (exists data k, (32 <= length u)%nat /\ u ++ data_bits data = s ++ repeat false k)).
    { destruct (marker st).
      - destruct S as (m & k & _ & _ & E & _). left. now exists k.
      - destruct (eoi st); [destruct S as (m & k & _ & _ & E & _); left; now exists k|]. destruct S as (data & tail & k & _ & _ & E & _). right. exists data, k.
        split; [|exact E]. destruct ML as [M|L]; [congruence|exact L]. }
    destruct P as [(k & ->)|(data & k & L & E)].
    - exists (skipn 32 s ++ repeat false k). now rewrite app_assoc, firstn_skipn.
    - eapply firstn_prefix; [exists (repeat false k); exact E|exact L]. }
  unfold refill. pose proof (h_left _ _ H) as L. destruct (Z.leb_spec 32 (left st)) as [C|C].
  { exists st, u. split; [reflexivity|]. split; [exact H|]. split; [exact S|]. apply (Fin st u S). right. lia. }
  cbv zeta. pose proof (h_al _ _ H) as Al.
  assert (Add : forall x r, 0 <= x < 2 ^ 32 -> held (Bits (u64 (Z.lor (u64 (Z.shiftl (buffer st) 32)) x))
     (u64 (Z.shiftl (u64 (Z.lor (u64 (Z.shiftl (buffer st) 32)) x)) (64 - (left st + 32)))) (left st + 32) (marker st) (over st) (eoi st) r) (u ++ msb 32 x)).
  { intros x r Hx. pose proof (half_append st u 32 x (marker st) (aligned st) (over st) (eoi st) r (held_half _ _ H) Al ltac:(lia) Hx) as Hh.
    change (Z.of_nat 32) with 32 in Hh. apply (align _ _ (marker st) (over st) (eoi st) r) in Hh; [|rewrite app_length, msb_length; lia].
    cbn [buffer left] in Hh. replace (Z.lor (u64 (Z.shiftl (buffer st) 32)) x) with (u64 (Z.lor (Z.shiftl (buffer st) 32) x)).
    - replace (u64 (u64 (Z.lor (Z.shiftl (buffer st) 32) x))) with (u64 (Z.lor (Z.shiftl (buffer st) 32) x)) by (unfold u64; rewrite Z.mod_mod by lia; reflexivity). exact Hh.
    - unfold u64. rewrite <- !Z.land_ones by lia. rewrite Z.land_lor_distr_l. f_equal. rewrite Z.land_ones by lia. apply Z.mod_small. lia. }
  pose proof S as (O0 & Or & B & Src).
  destruct ((match marker st with Some _ => true | None => false end || (0 <? over st) || eoi st)%bool) eqn:D.
  - eexists _, _. split; [reflexivity|]. split; [apply Add; lia|].
    assert (S' : source (Bits (u64 (Z.lor (u64 (Z.shiftl (buffer st) 32)) 0))
     (u64 (Z.shiftl (u64 (Z.lor (u64 (Z.shiftl (buffer st) 32)) 0)) (64 - (left st + 32)))) (left st + 32) (marker st) (over st) (eoi st) (rd st)) s (u ++ msb 32 0) fin).
    { unfold source. cbn [eoi over rd marker]. split; [exact O0|]. split; [exact Or|]. split; [exact B|]. rewrite msb_zero.
      destruct (marker st) eqn:M; [|destruct (eoi st) eqn:Eo].
      1, 2: destruct Src as (m & k & E1 & E2 & E3 & E4); exists m, (k + 32)%nat; split; [exact E1|]; split; [exact E2|]; split; [now apply zeros_more|exact E4].
      destruct (Or ltac:(lia)) as (Or' & Ef).
      destruct Src as (data & tail & k & E & T & P & K). exists [], [], (k + 32)%nat. rewrite Or' in *. split; [reflexivity|]. rewrite Ef. split; [reflexivity|].
      symmetry in E. apply app_eq_nil in E. destruct E as (E & _). destruct data as [|b data]; [|rewrite stuff_cons in E; destruct (b =? 255); discriminate E].
      cbn [data_bits map concat] in *. rewrite app_nil_r in *. split; [now apply zeros_more|congruence]. }
    split; [exact S'|]. apply (Fin _ _ S'). right. rewrite app_length, msb_length. lia.
  - assert (M : marker st = None) by (destruct (marker st); [discriminate D|reflexivity]).
    assert (Eo : eoi st = false) by (destruct (eoi st); [rewrite orb_true_r in D; discriminate D|reflexivity]). rewrite M, Eo in Src.
    assert (Slow : exists st' u', refill_bytes 4 st = Ok st' /\ held st' u' /\ source st' s u' fin /\ prefix (firstn 32 s) u').
    { destruct (refill_bytes_ok 4 st s u fin (held_half _ _ H) S M Eo ltac:(lia)) as (st' & u' & R & S' & H' & L').
      exists st', u'. split; [exact R|]. split; [exact H'|]. split; [exact S'|]. apply (Fin _ _ S'). destruct L'; [now left|right; lia]. }
    destruct (rd st) as [|a [|b [|c [|d r]]]] eqn:Er; try exact Slow.
    destruct (has_ff _) eqn:F; [exact Slow|].
    apply bytes_cons in B. destruct B as (Ba & B). apply bytes_cons in B. destruct B as (Bb & B). apply bytes_cons in B. destruct B as (Bc & B). apply bytes_cons in B. destruct B as (Bd & B).
    destruct (has_ff_false a b c d Ba Bb Bc Bd F) as (Na & Nb & Nc & Nd).
    destruct Src as (data & tail & k & E & T' & P & K). pose proof (ends_after _ _ T') as T.
    destruct (peel _ _ _ _ E T Na) as (d1 & -> & E1). destruct (peel _ _ _ _ E1 T Nb) as (d2 & -> & E2).
    destruct (peel _ _ _ _ E2 T Nc) as (d3 & -> & E3). destruct (peel _ _ _ _ E3 T Nd) as (d4 & -> & E4).
    eexists _, _. split; [reflexivity|]. split; [apply Add; lia|].
    rewrite four_bytes by assumption.
    match goal with |- source ?st' _ ?u' _ /\ _ => assert (S' : source st' s u' fin) end.
    { unfold source. cbn [eoi over rd marker]. split; [exact O0|]. split; [intros X; destruct (Or X) as (Or' & _); discriminate Or'|]. split; [exact B|].
      rewrite M, Eo. exists d4, tail, k. split; [exact E4|]. split; [exact T'|]. rewrite !data_bits_cons in P. rewrite <- !app_assoc. split; [exact P|exact K]. }
    split; [exact S'|]. apply (Fin _ _ S'). right. rewrite !app_length, !msb_length. lia.
Qed.
(** At the end of the data, filling up finds the marker. *)
Lemma refill_byte_end st s u m rest : half_held st u -> source st s u (Some (m, rest)) -> marker st = None -> eoi st = false -> (length u < 8)%nat ->
  (length s < 8)%nat -> exists st', refill_byte st = Ok (st', false) /\ marker st' = Some m /\ rd st' = rest /\ over st' = 0 /\ eoi st' = false.
Proof.
  intros H (O0 & Or & B & Src) Mk Eo Hu Hs. rewrite Mk, Eo in Src. destruct Src as (data & tail & k & Er & (n & -> & Hm) & Pf & K).
  rewrite (K ltac:(discriminate)), app_nil_r in Pf.
  assert (data = []) as ->.
  { destruct data as [|b data]; [reflexivity|]. rewrite data_bits_cons in Pf. apply (f_equal (@length bool)) in Pf. rewrite !app_length, msb_length in Pf. lia. }
  cbn [stuff map concat app] in Er. assert (Ov : over st = 0) by (destruct (Z.le_gt_cases (over st) 0); [lia|]; destruct (Or ltac:(lia)) as (E & _); rewrite Er in E; discriminate E).
  destruct (known m Hm) as (Kn & Rm). unfold refill_byte. rewrite Er. cbn [repeat app next_byte]. change (255 =? 255) with true. cbv iota.
  rewrite after_ff_fill by lia. replace (m =? 0) with false by lia. rewrite Kn. cbn [negb].
  assert (Over : over st + match (repeat 255 n ++ m :: rest) with [] => 1 | _ :: _ => 0 end = 0) by (destruct n; cbn [repeat app]; lia).
  rewrite Over. destruct (m =? 217) eqn:E; eexists; (split; [reflexivity|]); cbn [marker rd over eoi]; repeat split; try assumption; f_equal; lia.
Qed.
Lemma refill_end st s u m rest : held st u -> source st s u (Some (m, rest)) -> (length s < 8)%nat ->
  exists st', refill st = Ok st' /\ rd st' = rest /\ over st' = 0 /\ eoi st' = eoi st /\ (eoi st = true -> m = 217) /\ (marker st' = Some m \/ eoi st = true /\ marker st' = None).
Proof.
  intros H S Hs. pose proof S as (O0 & Or & B & Src).
  assert (Ov : over st = 0) by (destruct (Z.le_gt_cases (over st) 0); [lia|]; destruct (Or ltac:(lia)) as (_ & E); discriminate E).
  destruct (marker st) as [m'|] eqn:Mk; [|destruct (eoi st) eqn:Eo].
  - destruct Src as (m0 & k & E & _ & _ & Em & Ee). destruct Em as [Em|Em]; [discriminate Em|]. injection Em as ->. injection E as <- Er. unfold refill. destruct (32 <=? left st).
    + exists st. split; [reflexivity|]. split; [congruence|]. split; [exact Ov|]. split; [reflexivity|]. split; [exact Ee|now left].
    + rewrite Mk. cbn [orb]. cbv zeta. eexists. split; [reflexivity|]. cbn [rd over marker eoi]. split; [congruence|]. split; [exact Ov|]. split; [reflexivity|]. split; [exact Ee|now left].
  - destruct Src as (m0 & k & E & _ & _ & Em & Ee). injection E as <- Er. unfold refill. destruct (32 <=? left st).
    + exists st. split; [reflexivity|]. split; [congruence|]. split; [exact Ov|]. split; [exact Eo|]. split; [exact Ee|now right].
    + rewrite Mk, Eo, orb_true_r. cbv zeta. eexists. split; [reflexivity|]. cbn [rd over marker eoi]. split; [congruence|]. split; [exact Ov|]. split; [reflexivity|]. split; [exact Ee|now right].
  - assert (Lu : (length u < 8)%nat).
    { destruct Src as (data & tail & k & Er & T & Pf & K). rewrite (K ltac:(discriminate)), app_nil_r in Pf.
      apply (f_equal (@length bool)) in Pf. rewrite app_length in Pf. lia. }
    destruct (refill_byte_end st s u m rest (held_half _ _ H) S Mk Eo Lu Hs) as (st' & R & M1 & M2 & M3 & M4).
    assert (Slow : refill_bytes 4 st = Ok st') by (cbn [refill_bytes]; rewrite R; reflexivity).
    exists st'. split; [|split; [exact M2|]; split; [exact M3|]; split; [congruence|]; split; [discriminate|now left]]. unfold refill. rewrite (h_left _ _ H). replace (32 <=? Z.of_nat (length u)) with false by lia.
    rewrite Mk, Eo, Ov. change (0 <? 0) with false. cbn [orb]. cbv zeta.
    destruct (rd st) as [|a [|b [|c [|d r]]]] eqn:Er; try exact Slow.
    destruct (has_ff _) eqn:F; [exact Slow|]. exfalso.
    destruct Src as (data & tail & k & E & T & Pf & K). rewrite (K ltac:(discriminate)), app_nil_r in Pf.
    destruct data as [|x data]; [|rewrite data_bits_cons in Pf; apply (f_equal (@length bool)) in Pf; rewrite !app_length, msb_length in Pf; lia].
    destruct T as (n & -> & _). cbn [stuff map concat app repeat] in E. injection E as -> _.
    apply bytes_cons in B. destruct B as (Ba & B). apply bytes_cons in B. destruct B as (Bb & B). apply bytes_cons in B. destruct B as (Bc & B). apply bytes_cons in B. destruct B as (Bd & B).
    destruct (has_ff_false 255 b c d Ba Bb Bc Bd F) as (Na & _). now apply Na.
Qed.
