(** Lemmas for the JPEG XL layout. *)
From Verif Require Import Base StreamModel JxlModel JxlSpec.

(** * Bits *)
Lemma vbits_length n v : length (vbits n v) = n.
Proof. unfold vbits. now rewrite map_length, seq_length. Qed.

Lemma vbits_ext n a b : (forall i, 0 <= i < Z.of_nat n -> Z.testbit a i = Z.testbit b i) -> vbits n a = vbits n b.
Proof. intros H. apply map_ext_in. intros i Hi. apply in_seq in Hi. apply H. lia. Qed.

Lemma vbits_S n v : vbits (S n) v = Z.odd v :: vbits n (v / 2).
Proof.
  unfold vbits. cbn [seq map]. f_equal.
  rewrite <- seq_shift, map_map. apply map_ext. intros i. change 2 with (2 ^ 1). rewrite Z.div_pow2_bits by lia. f_equal; lia.
Qed.

Lemma vbits_app a b v : vbits (a + b) v = vbits a v ++ vbits b (Z.shiftr v (Z.of_nat a)).
Proof.
  unfold vbits. rewrite seq_app, map_app. f_equal. rewrite Nat.add_0_l.
  replace (seq a b) with (map (fun i => (a + i)%nat) (seq 0 b)).
  - rewrite map_map. apply map_ext. intros i. rewrite Z.shiftr_spec; [f_equal; lia|lia].
  - clear. revert a. induction b as [|b IH]; intros a; [reflexivity|]. cbn [seq map]. f_equal; [lia|].
    rewrite <- seq_shift, map_map, <- (IH (S a)). apply map_ext. intros; lia.
Qed.

Lemma vbits_0 n : vbits n 0 = repeat false n.
Proof. induction n as [|n IH]; [reflexivity|]. rewrite vbits_S. change (0 / 2) with 0. rewrite IH. reflexivity. Qed.

Lemma bits_val_vbits n : forall v, bits_val (vbits n v) = v mod 2 ^ Z.of_nat n.
Proof.
  induction n as [|n IH]; intros v; [cbn; now rewrite Z.mod_1_r|].
  rewrite vbits_S. cbn [bits_val]. rewrite IH, Nat2Z.inj_succ, Z.pow_succ_r by lia.
  rewrite Z.rem_mul_r by (try lia; apply Z.pow_pos_nonneg; lia).
  rewrite Zmod_odd. destruct (Z.odd v); cbn [Z.b2z]; lia.
Qed.

Lemma u_vbits n v s : 0 <= v < 2 ^ Z.of_nat n -> u n (vbits n v ++ s) = Some (v, s).
Proof.
  intros H. unfold u. rewrite app_length, vbits_length. replace (n <=? n + length s)%nat with true by lia.
  rewrite firstn_app, skipn_app, vbits_length, Nat.sub_diag. cbn [firstn skipn].
  rewrite firstn_all2, skipn_all2 by (rewrite vbits_length; lia). cbn [app]. rewrite app_nil_r, bits_val_vbits, Z.mod_small by lia.
  reflexivity.
Qed.

Lemma bits_of_bytes_app a b : bits_of_bytes (a ++ b) = bits_of_bytes a ++ bits_of_bytes b.
Proof. apply flat_map_app. Qed.

Lemma bits_of_bytes_length l : length (bits_of_bytes l) = (8 * length l)%nat.
Proof. induction l as [|x l IH]; [reflexivity|]. cbn [bits_of_bytes flat_map]. rewrite app_length, vbits_length.
  change (flat_map (vbits 8) l) with (bits_of_bytes l). rewrite IH. cbn [length]. lia. Qed.

Lemma testbit_byte b y i : 0 <= i < 8 -> Z.testbit (b + 256 * y) i = Z.testbit b i.
Proof.
  intros H. rewrite <- (Z.mod_pow2_bits_low (b + 256 * y) 8 i), <- (Z.mod_pow2_bits_low b 8 i) by lia.
  f_equal. change (2 ^ 8) with 256. rewrite Z.mul_comm. apply Z_mod_plus_full.
Qed.

Lemma le_bytes_bits k : forall x, bits_of_bytes (le_bytes k x) = vbits (8 * k) x.
Proof.
  induction k as [|k IH]; intros x; [reflexivity|].
  cbn [le_bytes bits_of_bytes flat_map]. change (flat_map (vbits 8) ?l) with (bits_of_bytes l). rewrite IH.
  replace (8 * S k)%nat with (8 + 8 * k)%nat by lia. rewrite vbits_app. f_equal.
  - apply vbits_ext. intros i Hi. change 256 with (2 ^ 8). apply Z.mod_pow2_bits_low. lia.
  - rewrite Z.shiftr_div_pow2 by lia. reflexivity.
Qed.

Lemma le_val_bits l z : bytes l -> vbits (8 * length l) (le_val (l ++ z)) = bits_of_bytes l.
Proof.
  induction l as [|b l IH]; intros H; [reflexivity|]. inversion H as [|? ? Hb Hl]; subst. unfold is_byte in Hb.
  cbn [length app le_val bits_of_bytes flat_map]. change (flat_map (vbits 8) l) with (bits_of_bytes l).
  replace (8 * S (length l))%nat with (8 + 8 * length l)%nat by lia. rewrite vbits_app. f_equal.
  - apply vbits_ext. intros i Hi. apply testbit_byte. lia.
  - rewrite Z.shiftr_div_pow2 by lia. change (2 ^ Z.of_nat 8) with 256.
    replace ((b + 256 * le_val (l ++ z)) / 256) with (le_val (l ++ z)) by lia. now apply IH.
Qed.

Lemma firstn_le_bytes j : forall k x, (j <= k)%nat -> firstn j (le_bytes k x) = le_bytes j x.
Proof. induction j as [|j IH]; intros [|k] x H; try reflexivity; [lia|]. cbn [le_bytes firstn]. f_equal. apply IH. lia. Qed.

Lemma le_bytes_length k : forall x, length (le_bytes k x) = k.
Proof. induction k as [|k IH]; intros x; [reflexivity|]. cbn [le_bytes length]. now rewrite IH. Qed.

Lemma le_bytes_bytes k : forall x, bytes (le_bytes k x).
Proof. induction k as [|k IH]; intros x; [constructor|]. cbn [le_bytes]. constructor; [unfold is_byte; lia|apply IH]. Qed.

(** Bits above [n] are clear *)
Definition clear_above (b : Z) (n : nat) := forall i, Z.of_nat n <= i -> Z.testbit b i = false.

Lemma ones_bit n i : 0 <= i -> Z.testbit (Z.shiftl 1 (Z.of_nat n) - 1) i = (i <? Z.of_nat n).
Proof.
  intros H. rewrite Z.shiftl_1_l, Z.sub_1_r, <- Z.ones_equiv.
  destruct (i <? Z.of_nat n) eqn:E; [apply Z.ones_spec_low; lia|apply Z.ones_spec_high; lia].
Qed.

Lemma merge_bits b k n v : clear_above b k -> (k + n <= 64)%nat ->
  vbits (k + n) (merge b k n v) = vbits k b ++ vbits n v /\ clear_above (merge b k n v) (k + n).
Proof.
  intros Hb Hn. unfold merge. split.
  - rewrite vbits_app. f_equal; apply vbits_ext; intros i Hi.
    + rewrite Z.lor_spec, Z.mod_pow2_bits_low, Z.shiftl_spec_low, orb_false_r by lia. reflexivity.
    + rewrite Z.shiftr_spec, Z.lor_spec, Hb, Z.mod_pow2_bits_low, Z.shiftl_spec, Z.land_spec, ones_bit by lia.
      replace (i + Z.of_nat k - Z.of_nat k) with i by lia. replace (i <? Z.of_nat n) with true by lia. reflexivity.
  - intros i Hi. rewrite Z.lor_spec, Hb by lia. cbn [orb]. destruct (Z.lt_ge_cases i 64).
    + rewrite Z.mod_pow2_bits_low, Z.shiftl_spec, Z.land_spec, ones_bit by lia.
      replace (i - Z.of_nat k <? Z.of_nat n) with false by lia. reflexivity.
    + apply Z.mod_pow2_bits_high. lia.
Qed.

Lemma and_split n : (n < 64)%nat -> n = (and56 n + and7 n)%nat /\ (and56 n / 8 <= 7)%nat /\ (8 * (and56 n / 8) = and56 n)%nat /\ (and7 n < 8)%nat.
Proof. intros H. unfold and56, and7. lia. Qed.

Lemma flush_bits b n : (n < 64)%nat -> clear_above b n ->
  vbits n b = bits_of_bytes (le_bytes (and56 n / 8) b) ++ vbits (and7 n) (Z.shiftr b (Z.of_nat (and56 n))) /\
  clear_above (Z.shiftr b (Z.of_nat (and56 n))) (and7 n).
Proof.
  intros H Hb. destruct (and_split n H) as (E1 & E2 & E3 & E4). split.
  - rewrite E1 at 1. rewrite vbits_app, le_bytes_bits, E3. reflexivity.
  - intros i Hi. rewrite Z.shiftr_spec by lia. apply Hb. lia.
Qed.

(** * The writer with its own memory *)
Definition content (w : bwriter) : list bool := bits_of_bytes (firstn (pos w) (dest w)) ++ vbits (bib w) (buf w).
Definition okw (w : bwriter) : Prop :=
  (bib w < 64)%nat /\ clear_above (buf w) (bib w) /\ (pos w <= length (dest w))%nat /\ bytes (dest w).

Lemma content_length w : okw w -> length (content w) = wbits w.
Proof.
  intros (H1 & H2 & H3 & H4). unfold content, wbits. rewrite app_length, bits_of_bytes_length, vbits_length, firstn_length. lia.
Qed.

Lemma bytes_app a b : bytes a -> bytes b -> bytes (a ++ b).
Proof. intros; apply Forall_app; auto. Qed.
Lemma bytes_firstn n l : bytes l -> bytes (firstn n l).
Proof. intros H. rewrite <- (firstn_skipn n l) in H. apply Forall_app in H. tauto. Qed.
Lemma bytes_skipn n l : bytes l -> bytes (skipn n l).
Proof. intros H. rewrite <- (firstn_skipn n l) in H. apply Forall_app in H. tauto. Qed.

Lemma bw_flush_ok w : okw w -> (pos w + 8 <= length (dest w))%nat ->
  exists w', bw_flush w = Ok w' /\ okw w' /\ content w' = content w /\ length (dest w') = length (dest w) /\
    (bib w' < 8)%nat /\ (pos w <= pos w')%nat.
Proof.
  intros (H1 & H2 & H3 & H4) H. unfold bw_flush. replace (length (dest w) <? pos w + 8)%nat with false by lia.
  eexists; split; [reflexivity|]. destruct (and_split _ H1) as (E1 & E2 & E3 & E4).
  destruct (flush_bits _ _ H1 H2) as (F1 & F2).
  assert (HL : length (splice (dest w) (pos w) (le_bytes 8 (buf w))) = length (dest w)).
  { unfold splice. rewrite !app_length, le_bytes_length, firstn_length, skipn_length. lia. }
  split; [|split; [|split; [|split]]]; cbn [bib buf pos dest]; [|  |exact HL|exact E4|lia].
  - split; [cbn [bib]; clear - E4; lia|]. split; [exact F2|]. cbn [pos dest]. split; [rewrite HL; clear - E2 H; lia|].
    unfold splice. apply bytes_app; [now apply bytes_firstn|]. apply bytes_app; [apply le_bytes_bytes|now apply bytes_skipn].
  - unfold content. cbn [bib buf pos dest]. rewrite F1, app_assoc. f_equal. rewrite <- bits_of_bytes_app. f_equal.
    unfold splice. rewrite firstn_app, firstn_firstn, firstn_length.
    rewrite (Nat.min_r (pos w + and56 (bib w) / 8) (pos w)) by lia. f_equal.
    rewrite Nat.min_l by lia. replace (pos w + and56 (bib w) / 8 - pos w)%nat with (and56 (bib w) / 8)%nat by lia.
    rewrite firstn_app, le_bytes_length. replace (and56 (bib w) / 8 - 8)%nat with 0%nat by lia.
    cbn [firstn]. rewrite app_nil_r. apply firstn_le_bytes. lia.
Qed.

(** Room left for the bits of a writer *)
Definition room (w : bwriter) (n : nat) : Prop := (length (content w) + n + 64 <= 8 * length (dest w))%nat.

Lemma bw_put_ok w n v : okw w -> (n < 56)%nat -> room w 0 ->
  exists w', bw_put w n v = Ok w' /\ okw w' /\ content w' = content w ++ vbits n v /\ length (dest w') = length (dest w).
Proof.
  intros H Hn Hr. pose proof (content_length _ H) as HC. unfold room in Hr. rewrite HC in Hr. unfold wbits in Hr.
  unfold bw_put. replace (56 <=? n)%nat with false by lia.
  assert (G : exists w1, (if (56 <? bib w + n)%nat then bw_flush w else Ok w) = Ok w1 /\ okw w1 /\ content w1 = content w /\
                         length (dest w1) = length (dest w) /\ (n + bib w1 < 64)%nat).
  { destruct (56 <? bib w + n)%nat eqn:E.
    - destruct (bw_flush_ok w H) as (w1 & E1 & E2 & E3 & E4 & E5 & _); [clear - Hr; lia|].
      exists w1. repeat split; try assumption; try apply E2. lia.
    - exists w. repeat split; try reflexivity; try apply H. lia. }
  destruct G as (w1 & E1 & E2 & E3 & E4 & E5). rewrite E1. cbn [bind].
  replace (64 <=? n + bib w1)%nat with false by lia. eexists; split; [reflexivity|].
  destruct E2 as (A1 & A2 & A3 & A4). destruct (merge_bits (buf w1) (bib w1) n v A2 ltac:(lia)) as (M1 & M2).
  split; [|split; [|exact E4]].
  - split; [cbn [bib obib]; lia|]. split; [exact M2|]. split; [exact A3|exact A4].
  - rewrite <- E3. unfold content. cbn [bib buf pos dest]. rewrite M1. apply app_assoc.
Qed.

(** What a sequence of calls adds *)
Definition op_bits (acc : list bool) (o : op) : list bool :=
  match o with Put n v => acc ++ vbits n v | Pad => pad8 acc end.
Definition op_small (o : op) : Prop := match o with Put n _ => (n < 56)%nat | Pad => True end.
Definition op_len (o : op) : nat := match o with Put n _ => n | Pad => 7 end.

Lemma op_bits_length acc o : (length (op_bits acc o) <= length acc + op_len o)%nat.
Proof. destruct o; cbn [op_bits op_len]; [|unfold pad8]; rewrite app_length; [rewrite vbits_length|rewrite repeat_length]; lia. Qed.

Lemma bw_pad_ok w : okw w -> room w 0 ->
  exists w', bw_zero_pad w = Ok w' /\ okw w' /\ content w' = pad8 (content w) /\ length (dest w') = length (dest w).
Proof.
  intros H Hr. pose proof (content_length _ H) as HC. pose proof Hr as Hr'. unfold room in Hr. rewrite HC in Hr. unfold wbits in Hr.
  unfold bw_zero_pad. destruct (bw_flush_ok w H) as (w1 & E1 & E2 & E3 & E4 & E5 & _); [clear - Hr; lia|].
  rewrite E1. cbn [bind]. pose proof (content_length _ E2) as HC1. rewrite E3 in HC1. unfold wbits in HC1.
  assert (HM : (length (content w) mod 8 = bib w1)%nat) by (rewrite HC1; clear - E5; lia).
  unfold pad8. rewrite HM. destruct (bib w1 =? 0)%nat eqn:E.
  - exists w1. replace (bib w1) with 0%nat by lia. cbn. rewrite app_nil_r. auto.
  - destruct (bw_put_ok w1 (8 - bib w1) 0 E2) as (w2 & F1 & F2 & F3 & F4); [lia|unfold room in *; rewrite E3, E4; exact Hr'|].
    exists w2. split; [exact F1|]. split; [exact F2|]. split; [|congruence].
    rewrite F3, E3, vbits_0. do 2 f_equal. clear - E E5. lia.
Qed.

Lemma bw_step_ok w o : okw w -> op_small o -> room w 0 ->
  exists w', bw_step w o = Ok w' /\ okw w' /\ content w' = op_bits (content w) o /\ length (dest w') = length (dest w).
Proof. intros H Ho Hr. destruct o; cbn [bw_step op_bits]; [now apply bw_put_ok|now apply bw_pad_ok]. Qed.

Definition total_len (ops : list op) : nat := fold_right Nat.add 0%nat (map op_len ops).

Lemma bw_run_ok ops : forall w, okw w -> Forall op_small ops -> room w (total_len ops) ->
  exists w', bw_run w ops = Ok w' /\ okw w' /\ content w' = fold_left op_bits ops (content w) /\ length (dest w') = length (dest w).
Proof.
  induction ops as [|o ops IH]; intros w H Ho Hr; [exists w; auto|].
  inversion Ho as [|? ? Ho1 Ho2]; subst. cbn [bw_run fold_left]. unfold total_len in Hr. cbn [map fold_right] in Hr.
  fold (total_len ops) in Hr.
  destruct (bw_step_ok w o H Ho1) as (w1 & E1 & E2 & E3 & E4); [unfold room in *; clear - Hr; lia|].
  rewrite E1. cbn [bind]. destruct (IH w1 E2 Ho2) as (w2 & F1 & F2 & F3 & F4).
  - unfold room in *. pose proof (op_bits_length (content w) o). rewrite E3, E4. clear - Hr H0. lia.
  - exists w2. rewrite F1, F3, E3, F4, E4. auto.
Qed.

(** In the other direction: a writer obtained by calls that went through holds their bits. *)
Lemma bw_step_inv w o w' : okw w -> bw_step w o = Ok w' -> okw w' /\ content w' = op_bits (content w) o /\ length (dest w') = length (dest w).
Proof.
  intros H. assert (P : forall w n v w', okw w -> bw_put w n v = Ok w' -> okw w' /\ content w' = content w ++ vbits n v /\
    length (dest w') = length (dest w)).
  { clear. intros w n v w' H. unfold bw_put. destruct (56 <=? n)%nat eqn:En; [discriminate|].
    assert (G : forall w1, (if (56 <? bib w + n)%nat then bw_flush w else Ok w) = Ok w1 -> okw w1 /\ content w1 = content w /\
      length (dest w1) = length (dest w)).
    { intros w1. destruct (56 <? bib w + n)%nat; [|intros [= <-]; auto].
      destruct (le_lt_dec (pos w + 8) (length (dest w))) as [L|L].
      - destruct (bw_flush_ok w H L) as (w2 & E1 & E2 & E3 & E4 & _). rewrite E1. intros [= <-]. auto.
      - unfold bw_flush. replace (length (dest w) <? pos w + 8)%nat with true by lia. discriminate. }
    destruct (if (56 <? bib w + n)%nat then bw_flush w else Ok w) as [w1| | |]; cbn [bind]; try discriminate.
    destruct (G w1 eq_refl) as ((A1 & A2 & A3 & A4) & G2 & G3). destruct (64 <=? n + bib w1)%nat eqn:E; [discriminate|]. intros [= <-].
    destruct (merge_bits (buf w1) (bib w1) n v A2 ltac:(lia)) as (M1 & M2). split; [|split; [|exact G3]].
    - split; [cbn [bib obib]; lia|]. split; [exact M2|]. split; [exact A3|exact A4].
    - rewrite <- G2. unfold content. cbn [bib buf pos dest]. rewrite M1. apply app_assoc. }
  destruct o as [n v|]; cbn [bw_step op_bits]; [apply P; exact H|]. unfold bw_zero_pad.
  destruct (le_lt_dec (pos w + 8) (length (dest w))) as [L|L].
  - destruct (bw_flush_ok w H L) as (w1 & E1 & E2 & E3 & E4 & E5 & _). rewrite E1. cbn [bind].
    pose proof (content_length _ E2) as HC1. rewrite E3 in HC1. unfold wbits in HC1.
    assert (HM : (length (content w) mod 8 = bib w1)%nat) by (rewrite HC1; clear - E5; lia).
    unfold pad8. rewrite HM. destruct (bib w1 =? 0)%nat eqn:E.
    + intros [= <-]. replace (bib w1) with 0%nat by lia. cbn. rewrite app_nil_r. auto.
    + intros F. destruct (P _ _ _ _ E2 F) as (P1 & P2 & P3). split; [exact P1|]. split; [|congruence]. rewrite P2, E3, vbits_0. do 2 f_equal. clear - E E5. lia.
  - unfold bw_flush. replace (length (dest w) <? pos w + 8)%nat with true by lia. discriminate.
Qed.

Lemma bw_run_inv ops : forall w w', okw w -> bw_run w ops = Ok w' -> okw w' /\ content w' = fold_left op_bits ops (content w) /\
  length (dest w') = length (dest w).
Proof.
  induction ops as [|o ops IH]; intros w w' H; [intros [= <-]; auto|]. cbn [bw_run fold_left].
  destruct (bw_step w o) as [w1| | |] eqn:E; cbn [bind]; try discriminate. intros F.
  destruct (bw_step_inv _ _ _ H E) as (A & B & C). rewrite <- B, <- C. now apply IH.
Qed.

(** * The writer of the file *)
Definition ocontent (w : owriter) : list bool := bits_of_bytes (out w) ++ vbits (obib w) (obuf w).
Definition oko (w : owriter) : Prop := (obib w < 64)%nat /\ clear_above (obuf w) (obib w) /\ bytes (out w).

Lemma ow_flush_ok w : oko w -> oko (ow_flush w) /\ ocontent (ow_flush w) = ocontent w /\ obib (ow_flush w) = (obib w mod 8)%nat.
Proof.
  intros (H1 & H2 & H3). destruct (flush_bits _ _ H1 H2) as (F1 & F2). destruct (and_split _ H1) as (E1 & E2 & E3 & E4).
  split; [|split; [|reflexivity]].
  - split; [cbn [ow_flush obib]; clear - E4; lia|]. split; [exact F2|]. cbn [ow_flush out]. apply bytes_app; [exact H3|]. apply bytes_firstn, le_bytes_bytes.
  - unfold ocontent, ow_flush. cbn [obib obuf out]. rewrite F1, firstn_le_bytes, bits_of_bytes_app, app_assoc by lia. reflexivity.
Qed.

Lemma ow_put_no_flush_ok w n v : oko w -> (n <= 56)%nat -> (n + obib w < 64)%nat ->
  exists w', ow_put_no_flush w n v = Ok w' /\ oko w' /\ ocontent w' = ocontent w ++ vbits n v /\ obib w' = (obib w + n)%nat.
Proof.
  intros (H1 & H2 & H3) Hn Hs. unfold ow_put_no_flush. replace (56 <? n)%nat with false by lia.
  replace (64 <=? n + obib w)%nat with false by lia. eexists; split; [reflexivity|].
  destruct (merge_bits (obuf w) (obib w) n v H2 ltac:(lia)) as (M1 & M2). split; [|split; [|reflexivity]].
  - split; [cbn; lia|]. split; [exact M2|exact H3].
  - unfold ocontent. cbn [obib obuf out]. rewrite M1. apply app_assoc.
Qed.

Lemma ow_put_ok w n v : oko w -> (n <= 56)%nat ->
  exists w', ow_put w n v = Ok w' /\ oko w' /\ ocontent w' = ocontent w ++ vbits n v.
Proof.
  intros H Hn. unfold ow_put. replace (56 <? n)%nat with false by lia.
  destruct (ow_flush_ok w H) as (F1 & F2 & F3). destruct (56 <? obib w + n)%nat eqn:E.
  - destruct (ow_put_no_flush_ok (ow_flush w) n v F1 Hn) as (w' & G1 & G2 & G3 & _); [rewrite F3; lia|].
    exists w'. rewrite <- F2. auto.
  - destruct (ow_put_no_flush_ok w n v H Hn) as (w' & G1 & G2 & G3 & _); [lia|]. exists w'. auto.
Qed.

Lemma ow_chunks_ok cs : forall w, oko w -> (obib w < 8)%nat -> Forall (fun c => length c = 7%nat /\ bytes c) cs ->
  exists w', ow_chunks w cs = Ok w' /\ oko w' /\ ocontent w' = ocontent w ++ bits_of_bytes (concat cs) /\ obib w' = obib w.
Proof.
  induction cs as [|c cs IH]; intros w H Hb HF; [exists w; cbn; rewrite app_nil_r; auto|].
  inversion HF as [|? ? (L & B) HF']; subst. cbn [ow_chunks concat].
  destruct (ow_put_no_flush_ok w 56 (le_val (c ++ [0])) H) as (w1 & E1 & E2 & E3 & E4); [lia|lia|].
  rewrite E1. cbn [bind]. destruct (ow_flush_ok w1 E2) as (F1 & F2 & F3).
  assert (HB : obib (ow_flush w1) = obib w) by (rewrite F3, E4; clear - Hb; lia).
  destruct (IH (ow_flush w1) F1) as (w2 & G1 & G2 & G3 & G4); [lia|exact HF'|].
  exists w2. split; [exact G1|]. split; [exact G2|]. split; [|lia].
  rewrite G3, F2, E3, bits_of_bytes_app, <- app_assoc. do 2 f_equal.
  pose proof (le_val_bits c [0] B) as X. rewrite L in X. exact X.
Qed.

Lemma skipn_twice {A} (a b : nat) : forall l : list A, skipn a (skipn b l) = skipn (a + b) l.
Proof. induction b as [|b IH]; intros l; [now rewrite Nat.add_0_r|]. destruct l; [now rewrite !skipn_nil|].
  replace (a + S b)%nat with (S (a + b)) by lia. cbn [skipn]. apply IH. Qed.

Lemma chunks_exact_7 f : forall b, (length b <= f)%nat -> bytes b ->
  Forall (fun c => length c = 7%nat /\ bytes c) (chunks_exact_aux f 7 b) /\
  concat (chunks_exact_aux f 7 b) ++ skipn (length b / 7 * 7) b = b.
Proof.
  induction f as [|f IH]; intros b Hb HB.
  - destruct b; [cbn; auto|cbn in Hb; lia].
  - cbn [chunks_exact_aux]. destruct (7 <=? length b)%nat eqn:E.
    + destruct (IH (skipn 7 b)) as (A & B); [rewrite skipn_length; lia|now apply bytes_skipn|].
      split.
      * constructor; [|exact A]. split; [rewrite firstn_length; lia|now apply bytes_firstn].
      * cbn [concat]. rewrite <- app_assoc. transitivity (firstn 7 b ++ skipn 7 b); [|apply firstn_skipn]. f_equal. transitivity (concat (chunks_exact_aux f 7 (skipn 7 b)) ++ skipn (length (skipn 7 b) / 7 * 7) (skipn 7 b)); [|exact B].
        f_equal. rewrite skipn_length, skipn_twice. f_equal. clear - E. lia.
    + split; [constructor|]. cbn [concat app]. replace (length b / 7 * 7)%nat with 0%nat by lia. reflexivity.
Qed.

Lemma ow_put_bytes_ok w b : oko w -> bytes b ->
  exists w', ow_put_bytes w b = Ok w' /\ oko w' /\ ocontent w' = ocontent w ++ bits_of_bytes b.
Proof.
  intros H HB. unfold ow_put_bytes. destruct (ow_flush_ok w H) as (F1 & F2 & F3). unfold and7.
  destruct (obib w mod 8 =? 0)%nat eqn:E; cbv zeta.
  - rewrite F3, E. eexists; split; [reflexivity|]. destruct F1 as (A1 & A2 & A3). assert (Z0 : (obib w mod 8 = 0)%nat) by lia.
    split; [|].
    + split; [cbn [obib]; lia|]. split; [|cbn [out]; now apply bytes_app]. cbn [obib obuf]. rewrite F3 in A2. exact A2.
    + rewrite <- F2. unfold ocontent. cbn [obib obuf out]. rewrite F3, Z0. cbn [vbits map seq]. rewrite !app_nil_r.
      apply bits_of_bytes_app.
  - destruct (chunks_exact_7 (length b) b ltac:(lia) HB) as (C1 & C2).
    unfold chunks_exact. destruct (ow_chunks_ok _ (ow_flush w) F1 ltac:(lia) C1) as (w1 & E1 & E2 & E3 & E4).
    rewrite E1. cbn [bind]. set (r := skipn (length b / 7 * 7) b) in *.
    assert (Hr : (length r < 7)%nat) by (unfold r; rewrite skipn_length; lia).
    assert (HBr : bytes r) by (now apply bytes_skipn).
    assert (G : exists w2, (match r with [] => Ok w1
             | _ => ow_put w1 (length r * 8) (le_val (r ++ repeat 0 (8 - length r)%nat)) end) = Ok w2 /\ oko w2 /\
             ocontent w2 = ocontent w1 ++ bits_of_bytes r).
    { destruct (ow_put_ok w1 (length r * 8) (le_val (r ++ repeat 0 (8 - length r)%nat)) E2 ltac:(lia)) as (w2 & G1 & G2 & G3).
      rewrite Nat.mul_comm, (le_val_bits r _ HBr) in G3. destruct r; [|exists w2; auto].
      exists w1. cbn. rewrite app_nil_r. auto. }
    destruct G as (w2 & G1 & G2 & G3). rewrite G1. cbn [bind]. destruct (ow_flush_ok w2 G2) as (K1 & K2 & _).
    eexists; split; [reflexivity|]. split; [exact K1|]. rewrite K2, G3, E3, F2, <- app_assoc, <- bits_of_bytes_app, C2. reflexivity.
Qed.

Lemma ocontent_mod8 w : oko w -> (length (ocontent w) mod 8 = obib w mod 8)%nat.
Proof. intros H. unfold ocontent. rewrite app_length, bits_of_bytes_length, vbits_length. generalize (length (out w)) (obib w). clear. intros. lia. Qed.

(** What a finished writer needs so that it can be copied: an empty one, or one with memory for a last flush *)
Definition okc (w : bwriter) : Prop := okw w /\ (bib w = 0%nat \/ (pos w + 8 <= length (dest w))%nat).

Lemma copy_writer_ok o w last : oko o -> okc w ->
  exists o', copy_writer o w last = Ok o' /\ oko o' /\
    ocontent o' = (if last then pad8 (ocontent o ++ content w) else ocontent o ++ content w).
Proof.
  intros Ho (Hw & Hc). unfold copy_writer.
  assert (G : exists w1, (if (0 <? bib w)%nat then bw_flush w else Ok w) = Ok w1 /\ okw w1 /\ content w1 = content w /\ (bib w1 < 8)%nat).
  { destruct (0 <? bib w)%nat eqn:E; [|exists w; split; [reflexivity|]; split; [exact Hw|]; split; [reflexivity|lia]].
    destruct (bw_flush_ok w Hw) as (w1 & E1 & E2 & E3 & _ & E5 & _); [lia|]. exists w1. auto. }
  destruct G as (w1 & E1 & E2 & E3 & E4). rewrite E1. cbn [bind]. destruct E2 as (A1 & A2 & A3 & A4).
  replace (length (dest w1) <? pos w1)%nat with false by lia.
  destruct (ow_put_bytes_ok o (firstn (pos w1) (dest w1)) Ho (bytes_firstn _ _ A4)) as (o1 & B1 & B2 & B3). rewrite B1. cbn [bind].
  assert (G : exists o2, (if (bib w1 =? 0)%nat then Ok o1 else ow_put o1 (bib w1) (buf w1)) = Ok o2 /\ oko o2 /\
              ocontent o2 = ocontent o ++ content w).
  { rewrite <- E3. unfold content. rewrite app_assoc, <- B3. destruct (bib w1 =? 0)%nat eqn:E.
    - exists o1. replace (bib w1) with 0%nat by lia. cbn [vbits map seq]. rewrite app_nil_r. auto.
    - apply ow_put_ok; [exact B2|lia]. }
  destruct G as (o2 & C1 & C2 & C3). rewrite C1. cbn [bind]. cbv zeta. destruct (ow_flush_ok o2 C2) as (F1 & F2 & F3).
  pose proof (ocontent_mod8 _ C2) as HM. rewrite C3 in HM, F2. unfold pad8.
  destruct last; cbn [andb]; [|exists (ow_flush o2); auto].
  rewrite F3, HM. set (k := (obib o2 mod 8)%nat). assert (Hk : (k < 8)%nat) by (unfold k; lia).
  destruct (k =? 0)%nat eqn:E; cbn [negb].
  - exists (ow_flush o2). replace k with 0%nat by lia. cbn. rewrite app_nil_r. auto.
  - destruct (ow_put_ok (ow_flush o2) (8 - k) 0 F1 ltac:(lia)) as (o3 & G1 & G2 & G3). exists o3.
    split; [exact G1|]. split; [exact G2|]. rewrite G3, F2, vbits_0. do 2 f_equal. clear - Hk E. lia.
Qed.

Lemma pad8_mod l : (length (pad8 l) mod 8 = 0)%nat.
Proof. unfold pad8. rewrite app_length, repeat_length. generalize (length l). clear. intros. lia. Qed.

Lemma pad8_app a b : (length a mod 8 = 0)%nat -> pad8 (a ++ b) = a ++ pad8 b.
Proof. intros H. unfold pad8. rewrite app_length, app_assoc. do 2 f_equal. revert H. generalize (length a) (length b). clear. intros. lia. Qed.

Lemma pad8_nil l : (length l mod 8 = 0)%nat -> pad8 l = l.
Proof. intros H. unfold pad8. rewrite H. cbn. apply app_nil_r. Qed.

Lemma copy_group_ok ws : forall o, oko o -> Forall okc ws -> ws <> [] ->
  exists o', copy_group o ws = Ok o' /\ oko o' /\ ocontent o' = pad8 (ocontent o ++ concat (map content ws)).
Proof.
  induction ws as [|w ws IH]; intros o Ho HF Hne; [congruence|]. inversion HF as [|? ? Hw HF']; subst. cbn [copy_group map concat].
  destruct (copy_writer_ok o w (match ws with [] => true | _ => false end) Ho Hw) as (o1 & E1 & E2 & E3). rewrite E1. cbn [bind].
  destruct ws as [|w2 ws].
  - exists o1. cbn [copy_group map concat]. rewrite app_nil_r. auto.
  - destruct (IH o1 E2 HF') as (o2 & F1 & F2 & F3); [congruence|]. exists o2. split; [exact F1|]. split; [exact F2|].
    rewrite F3, E3, <- app_assoc. reflexivity.
Qed.

Definition section_bits (nc : nat) (g : list bwriter) : list bool := pad8 (concat (map content (firstn nc g))).

Lemma copy_groups_ok nc gs : forall o, oko o -> (length (ocontent o) mod 8 = 0)%nat -> (0 < nc)%nat ->
  Forall (fun g => (nc <= length g)%nat /\ Forall okc g) gs ->
  exists o', copy_groups nc o gs = Ok o' /\ oko o' /\ ocontent o' = ocontent o ++ concat (map (section_bits nc) gs) /\
    (length (ocontent o') mod 8 = 0)%nat.
Proof.
  induction gs as [|g gs IH]; intros o Ho Hm Hn HF; [exists o; cbn; rewrite app_nil_r; auto|].
  inversion HF as [|? ? (Hg1 & Hg2) HF']; subst. cbn [copy_groups map concat].
  destruct (copy_group_ok (firstn nc g) o Ho) as (o1 & E1 & E2 & E3).
  { rewrite <- (firstn_skipn nc g) in Hg2. apply Forall_app in Hg2. tauto. }
  { destruct nc; [lia|]. destruct g; cbn in *; [lia|congruence]. }
  rewrite E1. cbn [bind]. rewrite (pad8_app _ _ Hm) in E3.
  destruct (IH o1 E2) as (o2 & F1 & F2 & F3 & F4); [|exact Hn|exact HF'|].
  { rewrite E3, app_length. pose proof (pad8_mod (concat (map content (firstn nc g)))) as X. revert Hm X.
    generalize (length (ocontent o)) (length (pad8 (concat (map content (firstn nc g))))). clear. intros. lia. }
  exists o2. split; [exact F1|]. split; [exact F2|]. split; [|exact F4]. rewrite F3, E3, <- app_assoc. reflexivity.
Qed.

Lemma group_size_bits nc g : Forall okc g -> (8 * group_size nc g = length (section_bits nc g))%nat.
Proof.
  intros H. unfold group_size, section_bits, pad8. rewrite app_length, repeat_length.
  replace (fold_right Nat.add 0%nat (map wbits (firstn nc g))) with (length (concat (map content (firstn nc g)))).
  - generalize (length (concat (map content (firstn nc g)))). clear. intros. lia.
  - assert (HF : Forall okc (firstn nc g)) by (rewrite <- (firstn_skipn nc g) in H; apply Forall_app in H; tauto).
    clear H. induction HF as [|w l (Hw & _) HF IH]; [reflexivity|]. cbn [map concat fold_right].
    rewrite app_length, IH, content_length by exact Hw. reflexivity.
Qed.

Lemma write_output_ok nc hd gs : okc hd -> (0 < nc)%nat -> Forall (fun g => (nc <= length g)%nat /\ Forall okc g) gs ->
  exists file, write_output nc hd gs = Ok file /\ bytes file /\
    bits_of_bytes file = pad8 (content hd) ++ concat (map (section_bits nc) gs).
Proof.
  intros Hh Hn HF. unfold write_output.
  assert (H0 : oko {| obib := 0; obuf := 0; out := [] |}).
  { split; [cbn; lia|]. split; [|constructor]. intros i _. apply Z.testbit_0_l. }
  destruct (copy_writer_ok _ hd true H0 Hh) as (o1 & E1 & E2 & E3). rewrite E1. cbn [bind].
  change (ocontent {| obib := 0; obuf := 0; out := [] |}) with (@nil bool) in E3. cbn [app] in E3.
  destruct (copy_groups_ok nc gs o1 E2) as (o2 & F1 & F2 & F3 & F4); [rewrite E3; apply pad8_mod|exact Hn|exact HF|].
  rewrite F1. cbn [bind]. cbv zeta. destruct (ow_flush_ok o2 F2) as (G1 & G2 & G3).
  rewrite (ocontent_mod8 _ F2) in F4. rewrite F4 in G3. rewrite G3. cbn [Nat.eqb].
  eexists; split; [reflexivity|]. split; [apply G1|]. rewrite <- E3, <- F3, <- G2. unfold ocontent. rewrite G3. cbn [vbits map seq].
  now rewrite app_nil_r.
Qed.
