(** Blocks decoded by zune-jpeg from coded bits *)
From Verif Require Import Base BaseProof Loops Slices Bits JpegSimd JpegHuffModel JpegIdctSpec JpegHuffSpec JpegHuffTable JpegHuffBits JpegHuffBlock.

(** * The reader before coded bits *)
Definition ready (st : bits) (s : list bool) (fin : option (Z * list Z)) : Prop := exists u, held st u /\ source st s u fin.
Lemma prefix_app_inv {A} (a s u : list A) : prefix (a ++ s) u -> exists u', u = a ++ u' /\ prefix s u'.
Proof. intros (r & ->). exists (s ++ r). rewrite <- app_assoc. split; [reflexivity|]. now exists r. Qed.
Lemma app_prefix {A} (a s u : list A) : prefix (a ++ s) (a ++ u) -> prefix s u.
Proof. intros (r & E). exists r. rewrite <- app_assoc in E. now apply app_inv_head in E. Qed.
Lemma refill_ready st a s fin : ready st (a ++ s) fin -> (length a <= 32)%nat ->
  exists st' u, refill st = Ok st' /\ held st' (a ++ u) /\ source st' (a ++ s) (a ++ u) fin.
Proof.
  intros (u & H & S) La. destruct (refill_ok st _ u fin H S) as (st' & u' & R & H' & S' & P).
  assert (Pa : prefix a u').
  { destruct P as (r & E). exists (firstn (32 - length a) s ++ r). rewrite E, firstn_app, firstn_all2 by lia. now rewrite <- app_assoc. }
  destruct Pa as (r & ->). exists st', r. split; [exact R|]. split; [exact H'|exact S'].
Qed.
Lemma source_next st st' a s u fin : source st (a ++ s) (a ++ u) fin -> marker st' = marker st -> over st' = over st -> eoi st' = eoi st -> rd st' = rd st ->
  source st' s u fin.
Proof.
  intros (A & B & C & E) E1 E2 E3 E4. unfold source. rewrite E1, E2, E3, E4. split; [exact A|]. split; [exact B|]. split; [exact C|].
  assert (Q : forall k, a ++ u = (a ++ s) ++ repeat false k -> u = s ++ repeat false k) by (intros k X; rewrite <- app_assoc in X; now apply app_inv_head in X).
  destruct (marker st); [|destruct (eoi st)].
  1, 2: destruct E as (m & k & F1 & F2 & F3 & F4); exists m, k; auto.
  destruct E as (data & tail & k & F & G & P & K). exists data, tail, k. repeat split; auto. rewrite <- !app_assoc in P. now apply app_inv_head in P.
Qed.
Lemma source_drop st a s u n fin : source st (a ++ s) (a ++ u) fin -> source (drop_bits n st) s u fin.
Proof. intros H. eapply source_next; [exact H|reflexivity..]. Qed.

(** * Values *)
Lemma extend_ok s v : 1 <= s <= 15 -> category s v -> huff_extend (val (extra_bits s v)) s = v.
Proof.
  intros Hs C. unfold category in C. replace (s =? 0) with false in C by lia. destruct C as (_ & C).
  unfold extra_bits. rewrite val_msb, Z2Nat.id by lia. unfold huff_extend. rewrite !Z.shiftl_mul_pow2 by lia.
  assert (P : 2 ^ s = 2 * 2 ^ (s - 1)) by (replace s with (1 + (s - 1)) at 1 by lia; rewrite Z.pow_add_r by lia; reflexivity).
  assert (P15 : 2 ^ s <= 2 ^ 15) by (apply Z.pow_le_mono_r; lia). change (2 ^ 15) with 32768 in P15.
  set (h := 2 ^ (s - 1)) in *. assert (0 < h) by (apply pow2_pos; lia). rewrite P in *. clearbody h. clear P.
  rewrite !Z.shiftr_div_pow2 by lia. change (2 ^ 31) with 2147483648.
  destruct (Z.ltb_spec v 0) as [D|D].
  - rewrite Z.mod_small by lia. replace ((v + 2 * h - 1 - 1 * h) / 2147483648) with (-1) by lia. rewrite Z.land_m1_l. lia.
  - rewrite Z.mod_small by lia. replace ((v - 1 * h) / 2147483648) with 0 by lia. rewrite Z.land_0_l. lia.
Qed.
Lemma extra_length s v : length (extra_bits s v) = Z.to_nat s.
Proof. apply msb_length. Qed.

(** * Tables from the file *)
Definition dc_table (counts values : list Z) (t : table) : Prop :=
  table_ok counts values /\ legal counts /\ facts counts values t.
Definition ac_table (counts values : list Z) (t : table) (a : list Z) : Prop :=
  dc_table counts values t /\ ac_lookup t = Some a /\ fast_facts counts values a.
Lemma legal_sum counts values : table_ok counts values ->
  legal counts <-> start (sizes_from 1 counts) (length (sizes_from 1 counts)) < 2 ^ 16.
Proof.
  intros TO. pose proof (codes_len _ _ TO) as CL. unfold legal. set (N := length (sizes_from 1 counts)) in *.
  assert (Step : forall p s c, nth_error (codes counts) p = Some (s, c) -> (c + 1 < 2 ^ s <-> start (sizes_from 1 counts) (p + 1) < 2 ^ 16) /\ (p < N)%nat).
  { intros p s c H. destruct (codes_nth _ _ TO _ _ _ H) as (Hp & Es & Ec). split; [|exact Hp].
    pose proof (size_range _ _ TO p Hp) as Hs. rewrite <- Es in Hs.
    rewrite (start_next _ p Hp), <- Es, <- Ec. pose proof (wt_pos s ltac:(lia)).
    replace (2 ^ 16) with (2 ^ s * wt s) by (unfold wt; rewrite <- Z.pow_add_r by lia; f_equal; lia). split; intros; nia. }
  split.
  - intros F. destruct (Nat.eq_dec N 0) as [E|E]; [rewrite E; reflexivity|].
    destruct (nth_error (codes counts) (N - 1)) as [[s c]|] eqn:En; [|apply nth_error_None in En; lia].
    destruct (Step _ _ _ En) as (St & _). replace (N - 1 + 1)%nat with N in St by lia. apply St.
    rewrite Forall_forall in F. exact (F _ (nth_error_In _ _ En)).
  - intros H. apply Forall_forall. intros [s c] Hin. apply In_nth_error in Hin. destruct Hin as (p & En).
    destruct (Step _ _ _ En) as (St & Hp). apply St. pose proof (starts_mono _ _ TO (p + 1) N ltac:(lia)). lia.
Qed.
(** a code in front of the reader *)
Lemma code_front counts values t sym code b u : dc_table counts values t -> code_of counts values sym code -> held b (code ++ u) ->
  exists p, (p < length (sizes_from 1 counts))%nat /\ Z.of_nat (length code) = nth p (sizes_from 1 counts) 0 /\ nth p values 0 = sym /\ (1 <= length code <= 16)%nat /\
    start (sizes_from 1 counts) p <= peek 16 b < start (sizes_from 1 counts) (p + 1) /\
    0 <= peek 9 b < 512 /\ peek 9 b = peek 16 b / 128 /\ 0 <= sym < 256 /\
    get_at (lookup t) (Z.to_nat (peek 9 b)) = Ok (nth (Z.to_nat (peek 9 b)) (lookup t) 0) /\
    decode_huff t (nth (Z.to_nat (peek 9 b)) (lookup t) 0) b = Ok (sym, drop_bits (Z.of_nat (length code)) b).
Proof.
  intros (TO & Lg & F) (p & s & c & Ec & Ev & ->) H.
  destruct (codes_nth _ _ TO _ _ _ Ec) as (Hp & Es & Est). pose proof (size_range _ _ TO p Hp) as Hs. rewrite <- Es in Hs.
  assert (Hc : c < 2 ^ s). { unfold legal in Lg. rewrite Forall_forall in Lg. specialize (Lg _ (nth_error_In _ _ Ec)). cbv beta iota in Lg. lia. }
  pose proof (window_of _ _ TO p s c b u Ec H Hc) as W.
  destruct (decode_window _ _ TO t F b (h_al _ _ H)) as (B9 & B16 & E9 & G & D & _).
  assert (Hv : nth p values 0 = sym) by (apply nth_error_nth; exact Ev).
  exists p. rewrite msb_length, Z2Nat.id by lia. split; [exact Hp|]. split; [exact Es|]. split; [exact Hv|]. split; [lia|]. split; [exact W|].
  split; [exact B9|]. split; [exact E9|]. split; [rewrite <- Hv; apply (nth_byte _ _ TO)|]. split; [exact G|].
  rewrite (D p Hp W), <- Es, Hv. pose proof (h_left _ _ H) as L. rewrite app_length, msb_length in L.
  now replace (left b <? s) with false by lia.
Qed.
Lemma decode_dc_ok counts values t diff bs st s fin pred : dc_table counts values t -> dc_coded counts values diff bs -> ready st (bs ++ s) fin ->
  exists st', decode_dc t pred st = Ok (i32 (pred + diff), st') /\ discard_dc t st = Ok st' /\ ready st' s fin.
Proof.
  intros T (sz & code & Hsz & Cat & Co & ->) R. rewrite <- app_assoc in R.
  assert (Lc : (1 <= length code <= 16)%nat).
  { destruct T as (TO & _ & _). destruct Co as (p & s0 & c & Ec & Ev & ->). destruct (codes_nth _ _ TO _ _ _ Ec) as (Hp & Es & _).
    pose proof (size_range _ _ TO p Hp). rewrite msb_length. lia. }
  rewrite app_assoc in R. destruct (refill_ready st (code ++ extra_bits sz diff) s fin R) as (st1 & u & Rf & H & S); [rewrite app_length, extra_length; lia|].
  rewrite <- app_assoc in H. destruct (code_front _ _ _ _ _ _ _ T Co H) as (p & _ & _ & _ & _ & _ & _ & _ & _ & G & D).
  unfold decode_dc, discard_dc. rewrite Rf. cbn [bind]. rewrite G. cbn [bind]. rewrite D. cbn [bind].
  pose proof (drop_held _ _ _ H) as H1. rewrite <- !app_assoc in S.
  pose proof (source_drop _ _ _ _ (Z.of_nat (length code)) fin S) as S1.
  destruct (Z.eqb_spec sz 0) as [->|Hz].
  - unfold category in Cat. change (0 =? 0) with true in Cat. cbv iota in Cat. subst diff. eexists. split; [reflexivity|]. split; [reflexivity|].
    exists u. now split.
  - destruct (get_bits_held _ _ _ H1) as (st2 & G2 & H2 & E1 & E2 & E3 & E4); [rewrite extra_length; lia|].
    rewrite extra_length, Z2Nat.id in G2 by lia. rewrite G2. exists st2. split; [now rewrite extend_ok by (try lia; assumption)|].
    split; [reflexivity|]. exists u. split; [exact H2|]. eapply source_next; [exact S1|assumption..].
Qed.

(** * The other coefficients *)
Lemma fast_symbol counts values a p w : table_ok counts values -> fast_facts counts values a -> (p < length (sizes_from 1 counts))%nat ->
  0 <= w < 65536 -> start (sizes_from 1 counts) p <= w < start (sizes_from 1 counts) (p + 1) ->
  nth (Z.to_nat (w / 128)) a 0 = 0 \/
  nth p (sizes_from 1 counts) 0 <= 9 /\ nth (Z.to_nat (w / 128)) a 0 = fast_of (Z.to_nat (w / 128)) (nth p (sizes_from 1 counts) 0) (nth p values 0).
Proof.
  intros TO (La & Fa) Hp Hw Hr. set (j := Z.to_nat (w / 128)). destruct (Z.eq_dec (nth j a 0) 0) as [E|E]; [now left|right].
  destruct (Fa j ltac:(unfold j; lia) E) as (q & Hq & Hs & Ef). set (st := start (sizes_from 1 counts)) in *.
  assert (Hj : Z.of_nat j = w / 128) by (unfold j; lia). rewrite Hj in Hs.
  pose proof (cum_le counts 9) as CL.
  destruct (start_multiple _ _ TO 9 ltac:(lia) (q + 1) ltac:(lia)) as (m2 & E2). change (2 ^ (16 - Z.of_nat 9)) with 128 in E2. fold st in E2.
  assert (p = q).
  { destruct (Nat.lt_trichotomy p q) as [C|[C|C]]; [|exact C|].
    - pose proof (starts_mono _ _ TO (p + 1) q ltac:(lia)) as M. fold st in M. lia.
    - pose proof (starts_mono _ _ TO (q + 1) p ltac:(lia)) as M. fold st in M. lia. }
  subst q. split; [|exact Ef]. apply (size_cum counts p 9); lia.
Qed.
Lemma land_15 r s : 0 <= s < 16 -> 0 <= r < 16 -> Z.land (16 * r + s) 15 = s /\ Z.shiftr (16 * r + s) 4 = r.
Proof.
  intros Hs Hr. split.
  - change 15 with (2 ^ 4 - 1). rewrite land_low by lia. change (2 ^ 4) with 16. lia.
  - rewrite Z.shiftr_div_pow2 by lia. change (2 ^ 4) with 16. lia.
Qed.
Lemma ac_value_step counts values t a r s v code st rest fin : ac_table counts values t a -> (r <= 15)%nat -> 1 <= s <= 15 -> category s v ->
  code_of counts values (16 * Z.of_nat r + s) code -> ready st (code ++ extra_bits s v ++ rest) fin ->
  exists st1 st2 fa e, refill st = Ok st1 /\ ready st2 rest fin /\ get_at a (Z.to_nat (peek 9 st1)) = Ok fa /\ get_at (lookup t) (Z.to_nat (peek 9 st1)) = Ok e /\
    (fa <> 0 /\ Z.to_nat (Z.land (Z.shiftr fa 4) 15) = r /\ Z.shiftr fa 8 = v /\ drop_bits (Z.land fa 15) st1 = st2 \/
     fa = 0 /\ exists st3 x, decode_huff t e st1 = Ok (16 * Z.of_nat r + s, st3) /\ get_bits s st3 = (x, st2) /\ huff_extend x s = v).
Proof.
  intros (T & _ & Fa) Hr Hs Cat Co R. rewrite app_assoc in R.
  assert (Lc : (1 <= length code <= 16)%nat).
  { destruct T as (TO & _ & _). destruct Co as (p & s0 & c & Ec & Ev & ->). destruct (codes_nth _ _ TO _ _ _ Ec) as (Hp & Es & _).
    pose proof (size_range _ _ TO p Hp). rewrite msb_length. lia. }
  destruct (refill_ready st _ _ _ R) as (st1 & u & Rf & H & S); [rewrite app_length, extra_length; lia|].
  pose proof H as H'. rewrite <- app_assoc in H'. destruct (code_front _ _ _ _ _ _ _ T Co H') as (p & Hp & El & Ev & _ & W & B9 & E9 & Bs & G & D).
  pose proof T as (TO & _ & F). pose proof (h_al _ _ H) as Al. destruct (decode_window _ _ TO t F st1 Al) as (_ & B16 & _).
  destruct (land_15 (Z.of_nat r) s ltac:(lia) ltac:(lia)) as (L15 & L4).
  assert (Ga : get_at a (Z.to_nat (peek 9 st1)) = Ok (nth (Z.to_nat (peek 9 st1)) a 0)) by (destruct Fa as (La & _); apply get_at_ok; lia).
  set (fa := nth (Z.to_nat (peek 9 st1)) a 0) in *.
  destruct (Z.eq_dec fa 0) as [Ez|Ez].
  - pose proof (drop_held _ _ _ H') as H1. rewrite <- !app_assoc in S. pose proof (source_drop _ _ _ _ (Z.of_nat (length code)) fin S) as S1.
    destruct (get_bits_held _ _ _ H1) as (st2 & G2 & H2 & E1 & E2 & E3 & E4); [rewrite extra_length; lia|].
    rewrite extra_length, Z2Nat.id in G2 by lia.
    exists st1, st2, fa, (nth (Z.to_nat (peek 9 st1)) (lookup t) 0). split; [exact Rf|]. split.
    { exists u. split; [exact H2|]. eapply source_next; [exact S1|assumption..]. }
    split; [exact Ga|]. split; [exact G|]. right. split; [exact Ez|]. do 2 eexists. split; [exact D|]. split; [exact G2|]. now apply extend_ok; [lia|].
  - destruct (fast_symbol _ _ _ p _ TO Fa Hp B16 W) as [X|(H9 & X)]; [rewrite <- E9 in X; fold fa in X; contradiction|].
    rewrite <- E9 in X. fold fa in X. rewrite Ev in X. rewrite <- El in *.
    destruct (fast_of_parts (Z.to_nat (peek 9 st1)) (Z.of_nat (length code)) (16 * Z.of_nat r + s)) as (P1 & P2 & P3 & P4 & P5);
      [lia|lia|lia|congruence|]. rewrite <- X, L15, L4 in *.
    exists st1, (drop_bits (Z.land fa 15) st1), fa, (nth (Z.to_nat (peek 9 st1)) (lookup t) 0). split; [exact Rf|].
    rewrite P4. assert (En : Z.of_nat (length code) + s = Z.of_nat (length (code ++ extra_bits s v))) by (rewrite app_length, extra_length; lia).
    rewrite En. split.
    { exists u. split; [now apply drop_held|]. now apply (source_drop _ _ _ _ _ _ S). }
    split; [exact Ga|]. split; [exact G|]. left. split; [exact Ez|]. split; [lia|]. split; [|reflexivity].
    rewrite P5, Z2Nat.id by lia. rewrite <- (extend_ok s v) at 1 by (try lia; assumption). f_equal.
    pose proof (peek_top 9 _ _ _ H ltac:(lia)) as PT. rewrite val_app, extra_length, Z2Nat.id in PT by lia.
    rewrite <- En in PT. set (lc := Z.of_nat (length code)) in *. replace (9 - (lc + s)) with (9 - lc - s) in PT by lia.
    pose proof (val_bound (extra_bits s v)) as Bx. rewrite extra_length, Z2Nat.id in Bx by lia.
    pose proof (pow2_pos (9 - lc - s) ltac:(lia)) as Q1. pose proof (pow2_pos s ltac:(lia)) as Q2.
    replace (2 ^ (9 - lc)) with (2 ^ (9 - lc - s) * 2 ^ s) by (rewrite <- Z.pow_add_r by lia; f_equal; lia).
    rewrite Z.rem_mul_r by lia. rewrite (Z.mul_comm (2 ^ (9 - lc - s))), Z.div_add by lia.
    rewrite (Z.div_small (_ mod _)) by (apply Z.mod_pos_bound; lia). rewrite PT, Z.add_0_l, Z.add_comm, Z.mod_add by lia. now apply Z.mod_small.
Qed.
Lemma ac_plain_step counts values t a r code st rest fin : ac_table counts values t a -> 0 <= r <= 15 ->
  code_of counts values (16 * r) code -> ready st (code ++ rest) fin ->
  exists st1 st2 e, refill st = Ok st1 /\ ready st2 rest fin /\ get_at a (Z.to_nat (peek 9 st1)) = Ok 0 /\ get_at (lookup t) (Z.to_nat (peek 9 st1)) = Ok e /\
    decode_huff t e st1 = Ok (16 * r, st2).
Proof.
  intros (T & _ & Fa) Hr Co R.
  assert (Lc : (1 <= length code <= 16)%nat).
  { destruct T as (TO & _ & _). destruct Co as (p & s0 & c & Ec & Ev & ->). destruct (codes_nth _ _ TO _ _ _ Ec) as (Hp & Es & _).
    pose proof (size_range _ _ TO p Hp). rewrite msb_length. lia. }
  destruct (refill_ready st _ _ _ R) as (st1 & u & Rf & H & S); [lia|].
  destruct (code_front _ _ _ _ _ _ _ T Co H) as (p & Hp & El & Ev & _ & W & B9 & E9 & Bs & G & D).
  pose proof T as (TO & _ & F). destruct (decode_window _ _ TO t F st1 (h_al _ _ H)) as (_ & B16 & _).
  exists st1, (drop_bits (Z.of_nat (length code)) st1), (nth (Z.to_nat (peek 9 st1)) (lookup t) 0). split; [exact Rf|]. split.
  { exists u. split; [now apply drop_held|]. now apply (source_drop _ _ _ _ _ _ S). }
  split; [|split; [exact G|exact D]].
  pose proof Fa as (La & _). rewrite (get_at_ok _ _ 0) by lia. f_equal. rewrite E9.
  destruct (fast_symbol _ _ _ p _ TO Fa Hp B16 W) as [X|(H9 & X)]; [exact X|]. rewrite X, Ev.
  unfold fast_of. cbv zeta. replace (16 * r) with (16 * r + 0) by lia. destruct (land_15 r 0 ltac:(lia) ltac:(lia)) as (L15 & _). rewrite L15. reflexivity.
Qed.

Lemma zz_at k : (k < 64)%nat -> get_at UN_ZIGZAG k = Ok (nth k zigzag 0%nat) /\ (nth k zigzag 0 < 64)%nat.
Proof.
  intros H. assert (A : forallb (fun k => (nth k UN_ZIGZAG 0 =? nth k zigzag 0) && (nth k zigzag 0 <? 64))%nat (seq 0 64) = true) by (vm_compute; reflexivity).
  rewrite forallb_forall in A. specialize (A k). rewrite in_seq in A. specialize (A ltac:(lia)). apply andb_prop in A. destruct A as [A1 A2].
  rewrite (get_at_ok _ _ 0%nat) by (cbn; lia). apply Nat.eqb_eq in A1. rewrite A1. split; [reflexivity|]. now apply Nat.ltb_lt in A2.
Qed.
Lemma zz_inj j k : (j < 64)%nat -> (k < 64)%nat -> nth j zigzag 0%nat = nth k zigzag 0%nat -> j = k.
Proof.
  intros Hj Hk. assert (A : forallb (fun j => forallb (fun k => negb (nth j zigzag 0 =? nth k zigzag 0) || (j =? k)) (seq 0 64))%nat (seq 0 64) = true) by (vm_compute; reflexivity).
  rewrite forallb_forall in A. specialize (A j). rewrite in_seq in A. specialize (A ltac:(lia)). rewrite forallb_forall in A. specialize (A k).
  rewrite in_seq in A. specialize (A ltac:(lia)). intros E. rewrite E, Nat.eqb_refl in A. now apply Nat.eqb_eq in A.
Qed.
Definition quantiser (qt : list Z) : Prop := length qt = 64%nat /\ Forall (fun q => 0 <= q < 65536) qt.
Lemma mul_ok debug qt k v : quantiser qt -> (k < 64)%nat -> - 2 ^ 15 <= v < 2 ^ 15 -> mul_i32 debug v (nth k qt 0) = Ok (v * nth k qt 0).
Proof.
  intros (L & F) Hk Hv. rewrite Forall_forall in F. specialize (F _ (nth_In _ 0 (eq_ind_r (fun n => (k < n)%nat) Hk L))).
  unfold mul_i32. replace ((- 2 ^ 31 <=? v * nth k qt 0) && (v * nth k qt 0 <? 2 ^ 31)) with true; [reflexivity|]. symmetry.
  set (q := nth k qt 0) in *. clearbody q. apply andb_true_intro. split; [apply Z.leb_le|apply Z.ltb_lt]; nia.
Qed.
Lemma category_bound s v : 1 <= s <= 15 -> category s v -> - 2 ^ 15 <= v < 2 ^ 15.
Proof.
  intros Hs C. unfold category in C. replace (s =? 0) with false in C by lia. destruct C as (_ & C).
  pose proof (Z.pow_le_mono_r 2 s 15 ltac:(lia) ltac:(lia)). lia.
Qed.

(** what the loop leaves in the block: places before [pos] as they were, the others as coded *)
Definition filled (qt : list Z) (pos : nat) (cs block block' : list Z) : Prop :=
  length block' = 64%nat /\
  (forall k, (k < pos)%nat -> (k < 64)%nat -> nth (nth k zigzag 0%nat) block' 0 = nth (nth k zigzag 0%nat) block 0) /\
  (forall k, (pos <= k < 64)%nat -> nth (nth k zigzag 0%nat) block' 0 = nth (k - pos) cs 0 * nth (nth k zigzag 0%nat) qt 0).
Lemma filled_zero qt pos n cs block block' : filled qt (pos + n) cs block block' -> zero_from pos block -> filled qt pos (repeat 0 n ++ cs) block block'.
Proof.
  intros (L & A & B) Z0. split; [exact L|]. split; [intros; apply A; lia|]. intros k Hk.
  destruct (Nat.lt_ge_cases k (pos + n)) as [C|C].
  - rewrite A by lia. rewrite app_nth1 by (rewrite repeat_length; lia). rewrite nth_rep by lia. rewrite Z0 by lia. lia.
  - rewrite B by lia. rewrite app_nth2 by (rewrite repeat_length; lia). rewrite repeat_length. do 2 f_equal. lia.
Qed.
Lemma filled_value qt pos v cs block block' : (pos < 64)%nat -> length block = 64%nat ->
  filled qt (pos + 1) cs (upd block (nth pos zigzag 0%nat) (v * nth (nth pos zigzag 0%nat) qt 0)) block' -> filled qt pos (v :: cs) block block'.
Proof.
  intros Hp Lb (L & A & B). split; [exact L|]. destruct (zz_at pos Hp) as (_ & Hz). split.
  - intros k Hk H64. rewrite A by lia. apply upd_nth_other. intros E. apply zz_inj in E; lia.
  - intros k Hk. destruct (Nat.eq_dec k pos) as [->|Hn].
    + rewrite A by lia. rewrite Nat.sub_diag. cbn [nth]. apply upd_nth_same. lia.
    + rewrite B by lia. replace (k - pos)%nat with (S (k - (pos + 1))) by lia. reflexivity.
Qed.
Lemma zero_upd pos r x block : (pos + r < 64)%nat -> zero_from pos block -> zero_from (pos + r + 1) (upd block (nth (pos + r) zigzag 0%nat) x).
Proof. intros H Z0 k Hk. rewrite upd_nth_other; [apply Z0; lia|]. intros E. apply zz_inj in E; lia. Qed.
Lemma zero_weaken p q b : (p <= q)%nat -> zero_from p b -> zero_from q b.
Proof. intros H Z0 k Hk. apply Z0. lia. Qed.

Lemma ac_loop_ok debug counts values t a qt fin : ac_table counts values t a -> quantiser qt ->
  forall n cs bs, ac_coded counts values n cs bs -> forall fuel pos block st rest,
  (pos + n = 64)%nat -> (n < fuel)%nat -> length block = 64%nat -> zero_from pos block -> ready st (bs ++ rest) fin ->
  exists pos' block' st', ac_loop debug fuel t a qt pos block st = Ok (pos', block', st') /\ discard_loop fuel t a pos st = Ok (pos', st') /\
    ready st' rest fin /\ filled qt pos cs block block' /\ (pos' <= 64)%nat /\ zero_from pos' block'.
Proof.
  intros T Q n cs bs C. induction C as [|n code Hn Co|n cs code bs Co C IH|n cs r s v code bs Hr Hs Cat Co C IH];
    intros fuel pos block st rest Hp Hf Lb Z0 R; destruct fuel as [|f]; try lia; cbn [ac_loop discard_loop].
  - replace (64 <=? pos)%nat with true by lia. exists 64%nat, block, st. split; [reflexivity|]. split; [reflexivity|]. split; [exact R|].
    split; [|split; [lia|intros k Hk; lia]]. split; [exact Lb|]. split; [reflexivity|intros; lia].
  - replace (64 <=? pos)%nat with false by lia.
    destruct (ac_plain_step _ _ _ _ 0 _ _ _ _ T ltac:(lia) Co R) as (st1 & st2 & e & E1 & R2 & E3 & E4 & E5).
    rewrite E1. cbn [bind]. rewrite E3. cbn [bind]. rewrite E4. cbn [bind]. change (negb (0 =? 0)) with false. cbv iota.
    rewrite E5. cbn [bind]. change (Z.land (16 * 0) 15 =? 0) with true. change (Z.shiftr (16 * 0) 4 =? 15) with false. cbn [negb].
    exists pos, block, st2. split; [reflexivity|]. split; [reflexivity|]. split; [exact R2|]. split; [|split; [lia|exact Z0]].
    replace (repeat 0 n) with (repeat 0 n ++ []) by apply app_nil_r. apply filled_zero; [|exact Z0]. split; [exact Lb|]. split; [reflexivity|]. intros; lia.
  - replace (64 <=? pos)%nat with false by lia. rewrite <- app_assoc in R.
    destruct (ac_plain_step _ _ _ _ 15 _ _ _ _ T ltac:(lia) Co R) as (st1 & st2 & e & E1 & R2 & E3 & E4 & E5).
    rewrite E1. cbn [bind]. rewrite E3. cbn [bind]. rewrite E4. cbn [bind]. change (negb (0 =? 0)) with false. cbv iota.
    rewrite E5. cbn [bind]. change (Z.land (16 * 15) 15 =? 0) with true. change (Z.shiftr (16 * 15) 4 =? 15) with true. cbn [negb].
    destruct (IH f (pos + 16)%nat block st2 rest) as (pos' & block' & st' & A1 & A2 & A3 & A4 & A5); [lia|lia|exact Lb|apply (zero_weaken pos); [lia|exact Z0]|exact R2|].
    exists pos', block', st'. split; [exact A1|]. split; [exact A2|]. split; [exact A3|]. split; [now apply filled_zero|exact A5].
  - replace (64 <=? pos)%nat with false by lia. rewrite <- !app_assoc in R.
    destruct (ac_value_step _ _ _ _ _ _ _ _ _ _ _ T Hr Hs Cat Co R) as (st1 & st2 & fa & e & E1 & R2 & E3 & E4 & E5).
    rewrite E1. cbn [bind]. rewrite E3. cbn [bind]. rewrite E4. cbn [bind].
    destruct (zz_at (pos + r) ltac:(lia)) as (Zp & Zb).
    destruct (IH f (pos + r + 1)%nat (upd block (nth (pos + r) zigzag 0%nat) (v * nth (nth (pos + r) zigzag 0%nat) qt 0)) st2 rest)
      as (pos' & block' & st' & A1 & A2 & A3 & A4 & A5); [lia|lia|now rewrite upd_length|now apply zero_upd; [lia|]|exact R2|].
    assert (Fin : filled qt pos (repeat 0 r ++ [v] ++ cs) block block').
    { apply filled_zero; [|exact Z0]. cbn [app]. apply filled_value; [lia|exact Lb|exact A4]. }
    exists pos', block', st'. destruct E5 as [(Ez & P1 & P2 & P3)|(Ez & st3 & x & P1 & P2 & P3)].
    + replace (fa =? 0) with false by lia. cbn [negb]. rewrite P1, Nat.min_l by lia. rewrite Zp. cbn [bind].
      rewrite (get_at_ok qt _ 0) by (destruct Q; lia). cbn [bind]. rewrite P2, mul_ok by (try assumption; eapply category_bound; eassumption).
      cbn [bind]. rewrite set_at_ok by lia. cbn [bind]. rewrite P3. split; [exact A1|]. split; [exact A2|]. split; [exact A3|]. split; [exact Fin|exact A5].
    + rewrite Ez. change (negb (0 =? 0)) with false. cbv iota. rewrite P1. cbn [bind].
      destruct (land_15 (Z.of_nat r) s ltac:(lia) ltac:(lia)) as (L15 & L4). rewrite L15, L4, Nat2Z.id. replace (s =? 0) with false by lia. cbn [negb].
      rewrite P2. cbn [snd]. rewrite Nat.mod_small by lia. rewrite Zp. cbn [bind].
      rewrite (get_at_ok qt _ 0) by (destruct Q; lia). cbn [bind]. rewrite P3, mul_ok by (try assumption; eapply category_bound; eassumption).
      cbn [bind]. rewrite set_at_ok by lia. cbn [bind]. split; [exact A1|]. split; [exact A2|]. split; [exact A3|]. split; [exact Fin|exact A5].
Qed.

(** * Blocks *)
Lemma block_ok debug dcn dcv dct acn acv act a qt diff cs bs st rest fin pred : dc_table dcn dcv dct -> ac_table acn acv act a -> quantiser qt ->
  block_coded dcn dcv acn acv diff cs bs -> - 2 ^ 15 <= pred + diff < 2 ^ 15 -> ready st (bs ++ rest) fin ->
  exists len block st', decode_block debug dct act qt (repeat 0 64) pred st = Ok (pred + diff, len, block, st') /\
    discard_block dct act st = Ok (len, st') /\ ready st' rest fin /\ dequantised qt (pred + diff) cs block /\ (len <= 64)%nat /\ zero_from len block.
Proof.
  intros TD TA Q (b1 & b2 & D & A & ->) Hd R. rewrite <- app_assoc in R.
  unfold decode_block, discard_block. pose proof TA as (_ & Ea & _). rewrite Ea.
  destruct (decode_dc_ok _ _ _ _ _ _ _ _ pred TD D R) as (st1 & E1 & E2 & R1).
  assert (Nb : left st < 1 -> marker st <> None -> False).
  { destruct R as (u & H & S). intros L M. destruct S as (_ & _ & _ & S). destruct (marker st); [|congruence].
    destruct S as (m & k & _ & _ & Eu & _). pose proof (h_left _ _ H) as Lu. rewrite Eu, !app_length in Lu.
    destruct D as (sz & code & _ & _ & Co & ->). destruct TD as (TO & _ & _). destruct Co as (p & s0 & c & Ec & Ev & ->). destruct (codes_nth _ _ TO _ _ _ Ec) as (Hp & Es & _).
    pose proof (size_range _ _ TO p Hp). rewrite !app_length, msb_length in Lu. lia. }
  assert (Ck : (left st <? 1) && match marker st with Some _ => true | None => false end = false).
  { destruct (Z.ltb_spec (left st) 1) as [X|X]; [|reflexivity]. destruct (marker st); [exfalso; apply Nb; [exact X|discriminate]|reflexivity]. }
  rewrite Ck, E1. cbn [bind]. rewrite E2. cbn [bind].
  assert (Ei : i32 (pred + diff) = pred + diff) by (unfold i32; rewrite Z.mod_small; lia). rewrite Ei.
  rewrite (get_at_ok qt _ 0) by (destruct Q; lia). cbn [bind]. rewrite mul_ok by (try assumption; lia). cbn [bind].
  rewrite set_at_ok by (rewrite repeat_length; lia). cbn [bind]. set (b0 := upd (repeat 0 64) 0 ((pred + diff) * nth 0 qt 0)).
  destruct (ac_loop_ok debug _ _ _ _ _ fin TA Q _ _ _ A 65%nat 1%nat b0 st1 rest) as (len & block & st2 & G1 & G2 & G3 & (G4 & G5 & G6) & G7 & G8);
    [lia|lia|unfold b0; now rewrite upd_length, repeat_length| |exact R1|].
  { intros k Hk. destruct (zz_at k ltac:(lia)) as (_ & Hz). unfold b0. rewrite upd_nth_other; [now apply nth_rep|].
    intros E. change 0%nat with (nth 0 zigzag 0%nat) in E at 1. apply zz_inj in E; lia. }
  rewrite G1. cbn [bind]. exists len, block, st2. split; [reflexivity|]. split; [exact G2|]. split; [exact G3|]. split; [|split; [exact G7|exact G8]].
  split; [exact G4|]. intros k Hk. destruct k as [|k].
  - rewrite G5 by lia. reflexivity.
  - rewrite G6 by lia. replace (S k - 1)%nat with k by lia. reflexivity.
Qed.
Lemma ready_start file data tail fin bf al : file = stuff data ++ tail -> ends tail fin -> bytes file -> 0 <= bf < 2 ^ 64 -> 0 <= al < 2 ^ 64 ->
  ready (Bits bf al 0 None 0 false file) (data_bits data) fin.
Proof.
  intros E T B Hb Ha. exists []. split.
  - constructor; cbn [left aligned buffer length val]; auto; lia.
  - split; [cbn; lia|]. split; [cbn; lia|]. split; [exact B|]. cbn [marker eoi]. exists data, tail, 0%nat. split; [exact E|]. split; [exact T|].
    split; [cbn [app]; now rewrite app_nil_r|reflexivity].
Qed.
