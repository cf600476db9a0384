(** The header of a Huffman block: the code lengths are read as the format says and the tables built from them. *)
From Verif Require Import Base BaseProof Loops Slices Bits BitReaderSpec BitReaderModel BitReaderProof InflateSpec InflateModel HuffModel HuffSpec HuffCode HuffSortProof HuffTableProof HuffBuildProof HuffEntryProof HuffLoopProof.

(** ** The lengths of the code length code *)

Lemma need_ok k r : k <= r_left r -> need k r = Ok tt.
Proof. intros H. unfold need, has. now replace (k <=? r_left r) with true by lia. Qed.

Lemma precode_rest_ok order : forall pre r n, rd r n -> 3 * Z.of_nat (length order) <= r_left r ->
  NoDup order -> Forall (fun i => (i < length pre)%nat) order ->
  exists pre' r', precode_rest order pre r = Ok (pre', r') /\ rd r' (n + 3 * Z.of_nat (length order)) /\ r_src r' = r_src r /\
    length pre' = length pre /\
    (forall i, (i < length order)%nat -> nth (nth i order 0%nat) pre' 0 = bits_from (r_src r) (n + 3 * Z.of_nat i) 3) /\
    (forall j, ~ In j order -> nth j pre' 0 = nth j pre 0).
Proof.
  induction order as [|x order IH]; intros pre r n R Hl ND Hf; cbn [precode_rest].
  - exists pre, r. rewrite Z.add_0_r. split; [reflexivity|]. split; [exact R|]. split; [reflexivity|]. split; [reflexivity|].
    split; [|auto]. cbn [length]. intros; lia.
  - cbn [length] in Hl. destruct (get_bits_ok r n 3 R ltac:(lia)) as (r1 & E1 & R1 & S1 & L1 & _). rewrite E1. cbn [bind].
    change (Z.to_nat 3) with 3%nat. inversion Hf as [|? ? Hx Hf']; subst. inversion ND as [|? ? NI ND']; subst.
    rewrite set_at_ok by exact Hx. cbn [bind].
    destruct (IH (upd pre x (bits_from (r_src r) n 3)) r1 (n + 3) R1 ltac:(lia) ND') as (pre' & r' & E & R' & S' & L' & A & B).
    { eapply Forall_impl; [|exact Hf']. cbn beta. intros. now rewrite upd_length. }
    rewrite upd_length in L'. exists pre', r'. split; [exact E|]. split; [|split; [congruence|split; [exact L'|split]]].
    + cbn [length]. replace (n + 3 * Z.of_nat (S (length order))) with (n + 3 + 3 * Z.of_nat (length order)) by lia. exact R'.
    + intros [|i] Hi; cbn [nth].
      * rewrite B by exact NI. rewrite upd_nth_same by exact Hx. f_equal. lia.
      * cbn [length] in Hi. rewrite A by lia. rewrite S1. f_equal. lia.
    + intros j Hj. cbn [In] in Hj. rewrite B by tauto. apply upd_nth_other. tauto.
Qed.

Definition order_check (k : nat) : bool :=
  upto (fun i => (((1 <=? i) && (i <? k)) || negb (existsb (Nat.eqb (nth i rfc_order 0)) (firstn (k - 1) (skipn 1 rfc_order))))%nat) 19.
Lemma order_out k i : (k < 20)%nat -> (i < 19)%nat -> i = 0%nat \/ (k <= i)%nat -> ~ In (nth i rfc_order 0%nat) (firstn (k - 1) (skipn 1 rfc_order)).
Proof.
  intros Hk Hi Ho C. assert (X : upto order_check 20 = true) by (vm_compute; reflexivity).
  pose proof (upto_ok _ _ (upto_ok _ _ X k Hk) i Hi) as H. cbn beta in H. apply orb_true_iff in H as [H|H].
  - apply andb_true_iff in H as [H1 H2]. apply Nat.leb_le in H1. apply Nat.ltb_lt in H2. lia.
  - apply negb_true_iff in H. assert (T : existsb (Nat.eqb (nth i rfc_order 0%nat)) (firstn (k - 1) (skipn 1 rfc_order)) = true).
    { apply existsb_exists. exists (nth i rfc_order 0%nat). split; [exact C|apply Nat.eqb_refl]. }
    congruence.
Qed.
Lemma order_onto j : (j < 19)%nat -> exists i, (i < 19)%nat /\ nth i rfc_order 0%nat = j.
Proof.
  intros Hj. assert (X : upto (fun j => existsb (fun i => (nth i rfc_order 0 =? j)%nat) (seq 0 19)) 19 = true) by (vm_compute; reflexivity).
  pose proof (upto_ok _ _ X j Hj) as H. cbn beta in H. apply existsb_exists in H as (i & I & E). exists i. apply in_seq in I. apply Nat.eqb_eq in E. split; [lia|exact E].
Qed.
Lemma NoDup_prefix {A} (l : list A) k : NoDup l -> NoDup (firstn k l).
Proof.
  intros H. revert k. induction H as [|x l NI _ IH]; intros [|k]; cbn [firstn]; try constructor; auto.
  intros C. apply NI. rewrite <- (firstn_skipn k l). apply in_or_app. now left.
Qed.
Lemma order_nodup : NoDup (skipn 1 rfc_order).
Proof. unfold rfc_order. cbn [skipn]. repeat (constructor; [cbn [In]; intuition discriminate|]). constructor. Qed.
Lemma order_range k : Forall (fun i => (i < 19)%nat) (firstn k (skipn 1 rfc_order)).
Proof.
  assert (G : forall l, Forall (fun i => (i < 19)%nat) l -> Forall (fun i => (i < 19)%nat) (firstn k l)).
  { intros l H. rewrite <- (firstn_skipn k l) in H. now apply Forall_app in H. }
  apply G. unfold rfc_order. cbn [skipn]. repeat (constructor; [lia|]). constructor. Qed.

Lemma list_eq_nth' (a b : list Z) : length a = length b -> (forall j, (j < length a)%nat -> nth j a 0 = nth j b 0) -> a = b.
Proof. intros L H. apply (nth_ext a b 0 0 L H). Qed.

Lemma precode_unique pre pre' src n k : (4 <= k <= 19)%nat -> length pre' = 19%nat -> precode src n k pre ->
  nth 16 pre' 0 = bits_from src n 3 ->
  (forall i, (i < k - 1)%nat -> nth (nth i (firstn (k - 1) (skipn 1 rfc_order)) 0%nat) pre' 0 = bits_from src (n + 3 + 3 * Z.of_nat i) 3) ->
  (forall j, ~ In j (firstn (k - 1) (skipn 1 rfc_order)) -> j <> 16%nat -> nth j pre' 0 = 0) -> pre' = pre.
Proof.
  intros Hk L (L2 & P) H0 H1 H2. apply list_eq_nth'; [congruence|]. rewrite L. intros j Hj.
  destruct (order_onto j Hj) as (i & Hi & <-). rewrite P by exact Hi.
  destruct i as [|i].
  - replace (0 <? k)%nat with true by lia. rewrite Z.add_0_r. exact H0.
  - destruct (Nat.ltb_spec (S i) k) as [Hik|Hik].
    + specialize (H1 i ltac:(lia)). rewrite nth_firstn in H1 by lia. change (nth i (skipn 1 rfc_order) 0%nat) with (nth (S i) rfc_order 0%nat) in H1.
      rewrite H1. f_equal. lia.
    + apply H2; [apply order_out; lia|]. intros C.
      assert (X : upto (fun i => negb (nth (S i) rfc_order 0 =? 16)%nat) 18 = true) by (vm_compute; reflexivity).
      pose proof (upto_ok _ _ X i ltac:(lia)) as Y. cbn beta in Y. rewrite C in Y. discriminate.
Qed.

(** ** The run-length coded lengths *)
Section Lens.
Variables (pre table : list Z) (src : list Z) (total : nat).
Hypothesis Ttab : table_ok precode_results pre 7 precode_enough table.
Hypothesis Hpre : length pre = 19%nat.
Hypothesis H7 : Forall (fun x => 0 <= x <= 7) pre.
Hypothesis Htotal : (total <= 320)%nat.

Lemma pre_lookup n s l : symbol_at pre src n s l ->
  (s < 19)%nat /\ (1 <= l <= 7)%nat /\ zn table (bits_from src n 7) = entry precode_results s l /\
  get_at table (Z.to_nat (bits_from src n 7)) = Ok (zn table (bits_from src n 7)).
Proof.
  intros S. assert (S' := S). destruct S' as (A & B & C & _). rewrite Hpre in A. rewrite Forall_forall in H7.
  specialize (H7 (nth s pre 0) ltac:(apply nth_In; lia)). rewrite B in H7.
  destruct Ttab as [L T]. destruct (T _ _ _ _ S) as [T1 _]. split; [exact A|]. split; [lia|]. split; [apply T1; lia|].
  apply get_zn. rewrite L. unfold precode_enough. pose proof (bits_from_bound src 7 n) as Bb. change (2 ^ Z.of_nat 7) with 128 in Bb. lia.
Qed.

Lemma fill_ok' (lens acc : list Z) m k v : length lens = lens_size -> firstn (length acc) lens = acc -> (length acc + m <= lens_size)%nat -> (k <= m)%nat ->
  exists lens', fill_lens lens (length acc) m v = Ok lens' /\ length lens' = lens_size /\ firstn (length acc + k) lens' = acc ++ repeat v k.
Proof.
  intros L F Hm Hk. unfold fill_lens. rewrite put_slice_ok by (rewrite repeat_length; lia). eexists. split; [reflexivity|].
  split; [rewrite put_length by (rewrite repeat_length; lia); exact L|].
  unfold put. rewrite F. rewrite firstn_app_2. f_equal. rewrite firstn_app, repeat_length. replace (k - m)%nat with 0%nat by lia. cbn [firstn]. rewrite app_nil_r.
  clear -Hk. revert m Hk. induction k as [|k IH]; intros [|m] H; cbn [repeat firstn]; try lia; [reflexivity|reflexivity|]. f_equal. apply IH. lia.
Qed.

Lemma lens_size_val : Z.of_nat lens_size = 457. Proof. reflexivity. Qed.

Lemma lens_loop_ok n acc n' acc' : lengths pre src total n acc n' acc' -> forall fuel r lens,
  rd r n -> r_src r = src -> length lens = lens_size -> firstn (length acc) lens = acc -> (total - length acc < fuel)%nat ->
  exists lens' r', lens_loop table total fuel r lens (length acc) = Ok (lens', r') /\ rd r' n' /\ r_src r' = src /\
    length lens' = lens_size /\ firstn total lens' = acc'.
Proof.
  pose proof lens_size_val as LS.
  assert (Step : forall r n s l, rd r n -> r_src r = src -> symbol_at pre src n s l ->
    exists r0 r1, (if has 14 r then Ok r else refill r) = Ok r0 /\ peek_bits 7 r0 = Ok (bits_from src n 7) /\
      get_at table (Z.to_nat (bits_from src n 7)) = Ok (entry precode_results s l) /\
      need (u8 (entry precode_results s l)) r0 = Ok tt /\ drop_bits (u8 (entry precode_results s l)) r0 = Ok r1 /\
      rd r1 (n + Z.of_nat l) /\ r_src r1 = src /\ 7 <= r_left r1 /\ Z.shiftr (entry precode_results s l) 16 = Z.of_nat s).
  { intros r n0 s l R Sr S. destruct (pre_lookup n0 s l S) as (Hs & Hl & T & G). destruct (pre_entry s l Hs ltac:(lia)) as (P1 & P2).
    assert (Q : exists r0, (if has 14 r then Ok r else refill r) = Ok r0 /\ rd r0 n0 /\ r_src r0 = src /\ 14 <= r_left r0).
    { unfold has. destruct (Z.leb_spec 14 (r_left r)); [exists r; auto|]. destruct (rd_refill r n0 R) as (r0 & E & R0 & L & S0). exists r0.
      split; [exact E|]. split; [exact R0|]. split; [congruence|lia]. }
    destruct Q as (r0 & E0 & R0 & S0 & L0). destruct (drop_bits_ok r0 n0 (Z.of_nat l) R0 ltac:(lia)) as (r1 & D1 & R1 & S1 & L1 & _).
    exists r0, r1. split; [exact E0|]. split; [rewrite (peek_bits_ok r0 n0 7 R0) by lia; now rewrite S0|].
    split; [rewrite G, T; reflexivity|]. rewrite P1. split; [apply need_ok; lia|]. split; [exact D1|]. split; [exact R1|].
    split; [congruence|]. split; [lia|exact P2]. }
  induction 1 as [n acc Hacc|n acc s l n' acc' S Hs Ha H IH|n acc x l k n' acc' S Hk Ha H IH|n acc l k n' acc' S Hk Ha H IH|n acc l k n' acc' S Hk Ha H IH];
    intros fuel r lens R Sr L F Hf; (destruct fuel as [|f]; [exfalso; lia|]); cbn [lens_loop].
  - replace (total <=? length acc)%nat with true by lia. exists lens, r. rewrite <- Hacc. auto.
  - replace (total <=? length acc)%nat with false by lia.
    destruct (Step r n s l R Sr S) as (r0 & r1 & E0 & Ep & Eg & En & Ed & R1 & S1 & L1 & Ps).
    rewrite E0. cbn [bind]. rewrite Ep. cbn [bind]. rewrite Eg. cbn [bind]. rewrite En. cbn [bind]. rewrite Ed. cbn [bind]. rewrite Ps.
    replace (Z.of_nat s <? 16) with true by lia.
    rewrite set_at_ok by lia. cbn [bind]. replace (u8 (Z.of_nat s)) with (Z.of_nat s) by (unfold u8; lia).
    destruct (upd_push lens acc (Z.of_nat s) ltac:(lia) F) as [U1 U2].
    assert (Lo : length (acc ++ [Z.of_nat s]) = Datatypes.S (length acc)) by (rewrite app_length; cbn [length]; lia).
    destruct (IH f r1 (upd lens (length acc) (Z.of_nat s)) R1 S1 ltac:(rewrite upd_length; exact L) U2 ltac:(lia)) as (lens' & r' & Q). rewrite Lo in Q. exists lens', r'. exact Q.
  - rewrite app_length in Hf, F |- *. cbn [length] in Hf, F |- *. replace (total <=? length acc + 1)%nat with false by lia.
    destruct (Step r n 16%nat l R Sr S) as (r0 & r1 & E0 & Ep & Eg & En & Ed & R1 & S1 & L1 & Ps).
    rewrite E0. cbn [bind]. rewrite Ep. cbn [bind]. rewrite Eg. cbn [bind]. rewrite En. cbn [bind]. rewrite Ed. cbn [bind]. rewrite Ps.
    change (Z.of_nat 16 <? 16) with false. change (Z.of_nat 16 =? 16) with true. cbn iota.
    replace (length acc + 1 =? 0)%nat with false by lia. rewrite need_ok by lia. cbn [bind].
    rewrite (get_at_ok lens (length acc + 1 - 1) 0) by lia. cbn [bind].
    assert (Ev : nth (length acc + 1 - 1) lens 0 = x).
    { transitivity (nth (length acc + 1 - 1) (firstn (length acc + 1) lens) 0); [symmetry; apply nth_firstn; lia|]. rewrite F. replace (length acc + 1 - 1)%nat with (length acc) by lia.
      rewrite app_nth2, Nat.sub_diag by lia. reflexivity. }
    rewrite Ev. destruct (get_bits_ok r1 _ 2 R1 ltac:(lia)) as (r2 & E2 & R2 & S2 & L2 & _). rewrite E2. cbn [bind]. rewrite S1 in *. change (Z.to_nat 2) with 2%nat.
    set (w := bits_from src (n + Z.of_nat l) 2) in *.
    assert (Bw : 0 <= w < 4) by (unfold w; exact (bits_from_bound src 2 (n + Z.of_nat l))). clearbody w.
    assert (La : length (acc ++ [x]) = (length acc + 1)%nat) by (rewrite app_length; reflexivity).
    destruct (fill_ok' lens (acc ++ [x]) 6 k x L ltac:(rewrite La; exact F) ltac:(rewrite La; lia) ltac:(lia)) as (lens2 & E3 & L3 & F3).
    rewrite La in E3, F3. rewrite E3. cbn [bind].
    destruct (IH f r2 lens2 R2 ltac:(congruence) L3) as (lens' & r' & Q); rewrite ?app_length, ?repeat_length; cbn [length]; try lia.
    { replace (length acc + (1 + k))%nat with (length acc + 1 + k)%nat by lia. rewrite F3. now rewrite <- app_assoc. }
    rewrite !app_length, repeat_length in Q. cbn [length] in Q.
    replace (length acc + 1 + 3 + Z.to_nat w)%nat with (length acc + (1 + k))%nat by lia. exists lens', r'. exact Q.
  - replace (total <=? length acc)%nat with false by lia.
    destruct (Step r n 17%nat l R Sr S) as (r0 & r1 & E0 & Ep & Eg & En & Ed & R1 & S1 & L1 & Ps).
    rewrite E0. cbn [bind]. rewrite Ep. cbn [bind]. rewrite Eg. cbn [bind]. rewrite En. cbn [bind]. rewrite Ed. cbn [bind]. rewrite Ps.
    change (Z.of_nat 17 <? 16) with false. change (Z.of_nat 17 =? 16) with false. change (Z.of_nat 17 =? 17) with true. cbn iota.
    rewrite need_ok by lia. cbn [bind].
    destruct (get_bits_ok r1 _ 3 R1 ltac:(lia)) as (r2 & E2 & R2 & S2 & L2 & _). rewrite E2. cbn [bind]. rewrite S1 in *. change (Z.to_nat 3) with 3%nat.
    set (w := bits_from src (n + Z.of_nat l) 3) in *.
    assert (Bw : 0 <= w < 8) by (unfold w; exact (bits_from_bound src 3 (n + Z.of_nat l))). clearbody w.
    destruct (fill_ok' lens acc 10 k 0 L F ltac:(lia) ltac:(lia)) as (lens2 & E3 & L3 & F3).
    rewrite E3. cbn [bind].
    destruct (IH f r2 lens2 R2 ltac:(congruence) L3) as (lens' & r' & Q); rewrite ?app_length, ?repeat_length; try lia; try exact F3.
    rewrite app_length, repeat_length in Q.
    replace (length acc + 3 + Z.to_nat w)%nat with (length acc + k)%nat by lia. exists lens', r'. exact Q.
  - replace (total <=? length acc)%nat with false by lia.
    destruct (Step r n 18%nat l R Sr S) as (r0 & r1 & E0 & Ep & Eg & En & Ed & R1 & S1 & L1 & Ps).
    rewrite E0. cbn [bind]. rewrite Ep. cbn [bind]. rewrite Eg. cbn [bind]. rewrite En. cbn [bind]. rewrite Ed. cbn [bind]. rewrite Ps.
    change (Z.of_nat 18 <? 16) with false. change (Z.of_nat 18 =? 16) with false. change (Z.of_nat 18 =? 17) with false. cbn iota.
    rewrite need_ok by lia. cbn [bind].
    destruct (get_bits_ok r1 _ 7 R1 ltac:(lia)) as (r2 & E2 & R2 & S2 & L2 & _). rewrite E2. cbn [bind]. rewrite S1 in *. change (Z.to_nat 7) with 7%nat.
    set (w := bits_from src (n + Z.of_nat l) 7) in *.
    assert (Bw : 0 <= w < 128) by (unfold w; exact (bits_from_bound src 7 (n + Z.of_nat l))). clearbody w.
    destruct (fill_ok' lens acc (11 + Z.to_nat w) k 0 L F ltac:(lia) ltac:(lia)) as (lens2 & E3 & L3 & F3).
    rewrite E3. cbn [bind].
    destruct (IH f r2 lens2 R2 ltac:(congruence) L3) as (lens' & r' & Q); rewrite ?app_length, ?repeat_length; try lia; try exact F3.
    rewrite app_length, repeat_length in Q.
    replace (length acc + 11 + Z.to_nat w)%nat with (length acc + k)%nat by lia. exists lens', r'. exact Q.
Qed.
End Lens.

Lemma lens_range src n k pre : (k <= 19)%nat -> precode src n k pre -> Forall (fun x => 0 <= x <= 7) pre.
Proof.
  intros Hk (L & P). apply Forall_forall. intros x Hx. apply (In_nth _ _ 0) in Hx as (j & Hj & <-). rewrite L in Hj.
  destruct (order_onto j Hj) as (i & Hi & <-). rewrite P by exact Hi. destruct (i <? k)%nat; [|lia].
  pose proof (bits_from_bound src 3 (n + 3 * Z.of_nat i)) as B. change (2 ^ Z.of_nat 3) with 8 in B. lia.
Qed.

Lemma dynamic_lens_ok r n lit off n' : rd r n -> 14 <= r_left r -> dynamic (r_src r) n lit off n' ->
  exists lens r', dynamic_lens r = Ok (lens, length lit, length off, r') /\ rd r' n' /\ r_src r' = r_src r /\
    length lens = lens_size /\ firstn (length lit + length off) lens = lit ++ off /\ code_lengths lit /\ code_lengths off /\
    (257 <= length lit <= 288)%nat /\ (1 <= length off <= 32)%nat.
Proof.
  intros R Hl D. unfold dynamic in D. cbv zeta in D. unfold dynamic_lens.
  remember (r_src r) as src eqn:Esrc. rewrite need_ok by lia. cbn [bind].
  destruct (get_bits_ok r n 5 R ltac:(lia)) as (r1 & E1 & R1 & S1 & L1 & _). rewrite E1. cbn [bind].
  destruct (get_bits_ok r1 _ 5 R1 ltac:(lia)) as (r2 & E2 & R2 & S2 & L2 & _). rewrite E2. cbn [bind].
  destruct (get_bits_ok r2 _ 4 R2 ltac:(lia)) as (r3 & E3 & R3 & S3 & L3 & _). rewrite E3. cbn [bind].
  rewrite <- Esrc. rewrite S2, S1, <- Esrc.
  change (Z.to_nat 5) with 5%nat. change (Z.to_nat 4) with 4%nat. replace (n + 5 + 5) with (n + 10) in * by lia. replace (n + 10 + 4) with (n + 14) in * by lia.
  set (hl := bits_from src n 5) in *. set (hd := bits_from src (n + 5) 5) in *. set (hc := bits_from src (n + 10) 4) in *.
  assert (Bl : 0 <= hl < 32) by exact (bits_from_bound src 5 n). assert (Bd : 0 <= hd < 32) by exact (bits_from_bound src 5 (n + 5)).
  assert (Bc : 0 <= hc < 16) by exact (bits_from_bound src 4 (n + 10)). clearbody hl hd hc.
  set (k := (4 + Z.to_nat hc)%nat) in *. assert (Hk : (4 <= k <= 19)%nat) by (unfold k; lia). clearbody k.
  destruct D as (pre & P & Cp & Ll & Lo & Len & Cl & Co).
  destruct (rd_refill r3 _ R3) as (r4 & E4 & R4 & L4 & S4). rewrite E4. cbn [bind]. rewrite need_ok by lia. cbn [bind].
  destruct (get_bits_ok r4 _ 3 R4 ltac:(lia)) as (r5 & E5 & R5 & S5 & L5 & _). rewrite E5. cbn [bind]. change (Z.to_nat 3) with 3%nat.
  replace (r_src r4) with src by congruence.
  rewrite set_at_ok by (rewrite repeat_length; lia). cbn [bind].
  destruct (rd_refill r5 _ R5) as (r6 & E6 & R6 & L6 & S6). rewrite E6. cbn [bind].
  rewrite need_ok by (unfold u8; rewrite Z.mod_small by lia; lia). cbn [bind].
  change precode_order with rfc_order.
  assert (Lfo : length (firstn (k - 1) (skipn 1 rfc_order)) = (k - 1)%nat) by (rewrite firstn_length; cbn [skipn rfc_order length]; lia).
  set (first := bits_from src (n + 14) 3) in *.
  destruct (precode_rest_ok (firstn (k - 1) (skipn 1 rfc_order)) (upd (repeat 0 19) 16 first) r6 (n + 14 + 3) R6) as (pre' & r7 & E7 & R7 & S7 & L7 & A7 & B7).
  { rewrite Lfo. lia. }
  { apply NoDup_prefix, order_nodup. }
  { rewrite upd_length, repeat_length. apply order_range. }
  rewrite E7. cbn [bind]. rewrite Lfo in *. rewrite upd_length, repeat_length in L7. replace (r_src r6) with src in * by congruence.
  assert (pre' = pre).
  { apply (precode_unique pre pre' src (n + 14) k Hk L7 P).
    - rewrite B7; [rewrite upd_nth_same by (rewrite repeat_length; lia); reflexivity|].
      apply (order_out k 0); lia.
    - exact A7.
    - intros j Hj H16. rewrite B7 by exact Hj. rewrite upd_nth_other by auto. apply nth_repeat. }
  subst pre'. pose proof (lens_range _ _ _ _ (proj2 Hk) P) as P7.
  assert (Ef : firstn 19 pre = pre) by (apply firstn_all2; lia).
  destruct (build_ok precode_results pre 7 19 precode_enough) as (tab & Et & Tt).
  { lia. } { unfold max_num_syms; lia. } { unfold precode_results. rewrite map_length, seq_length. lia. } { now rewrite Ef. } { lia. }
  { unfold precode_enough. apply Nat.leb_le. reflexivity. } { apply enough_precode; [lia|now rewrite Ef]. }
  unfold precode_table_bits. rewrite Et. cbn [bind]. rewrite Ef in Tt.
  replace (n + 14 + 3 + 3 * Z.of_nat (k - 1)) with (n + 14 + 3 * Z.of_nat k) in R7 by lia.
  rewrite Ll in *. rewrite Lo in *.
  pose proof lens_size_val.
  destruct (lens_loop_ok pre tab src (257 + Z.to_nat hl + (1 + Z.to_nat hd)) Tt L7 P7 ltac:(lia) _ _ _ _ Len lens_size r7 (repeat 0 lens_size) R7 ltac:(congruence) ltac:(apply repeat_length) eq_refl ltac:(cbn [length]; lia))
    as (lens & r8 & E8 & R8 & S8 & L8 & F8).
  cbn [length] in E8. rewrite E8. cbn [bind]. exists lens, r8. split; [reflexivity|]. split; [exact R8|]. split; [exact S8|]. split; [exact L8|]. split; [exact F8|].
  split; [exact Cl|]. split; [exact Co|]. lia.
Qed.

(** ** The tables *)
Definition both_ok (lit off : list Z) (t : htables) : Prop :=
  table_ok litlen_results lit 11 litlen_enough (t_lit t) /\ table_ok offset_results off 8 offset_enough (t_off t).
Definition static_ok (t : htables) : Prop := t_static t = true -> both_ok fixed_lit fixed_off t.

Lemma build_both lens lit off b : length lens = lens_size -> firstn (length lit + length off) lens = lit ++ off ->
  code_lengths lit -> code_lengths off -> (257 <= length lit <= 288)%nat -> (1 <= length off <= 32)%nat ->
  exists t, (do olens <- get_slice lens (length lit) (length lens - length lit) ;
      do offt <- build_table offset_results olens offset_table_bits (length off) offset_enough ;
      do litt <- build_table litlen_results lens litlen_table_bits (length lit) litlen_enough ;
      Ok (mkTables b litt offt)) = Ok t /\ t_static t = b /\ both_ok lit off t.
Proof.
  intros L F Cl Co Hl Ho. pose proof lens_size_val. pose proof lit_enough as LE. pose proof off_enough as OE.
  rewrite get_slice_ok by lia. cbn [bind].
  set (olens := slice lens (length lit) (length lens - length lit)).
  assert (Lol : length olens = (length lens - length lit)%nat) by (unfold olens; apply slice_length; lia).
  assert (Fl : firstn (length lit) lens = lit).
  { transitivity (firstn (length lit) (firstn (length lit + length off) lens)).
    - rewrite firstn_firstn. f_equal. lia.
    - rewrite F. now apply firstn_app_exact. }
  assert (Fo : firstn (length off) olens = off).
  { unfold olens, slice. rewrite firstn_firstn, Nat.min_l by lia.
    transitivity (skipn (length lit) (firstn (length lit + length off) lens)).
    - rewrite skipn_firstn_comm. f_equal. lia.
    - rewrite F. now apply skipn_app_exact. }
  destruct (build_ok offset_results olens 8 (length off) offset_enough) as (ot & Eo & To).
  { lia. } { unfold max_num_syms. lia. } { change (length offset_results) with 32%nat. lia. } { now rewrite Fo. } { lia. }
  { pose proof (pow_nat 8) as P. change (2 ^ Z.of_nat 8) with 256 in P. lia. } { apply enough_offset. lia. }
  destruct (build_ok litlen_results lens 11 (length lit) litlen_enough) as (lt & El & Tl).
  { lia. } { unfold max_num_syms. lia. } { change (length litlen_results) with 288%nat. lia. } { now rewrite Fl. } { lia. }
  { pose proof (pow_nat 11) as P. change (2 ^ Z.of_nat 11) with 2048 in P. lia. } { apply enough_litlen; [lia|unfold max_num_syms; lia|now rewrite Fl]. }
  unfold offset_table_bits, litlen_table_bits. rewrite Eo. cbn [bind]. rewrite El. cbn [bind]. eexists. split; [reflexivity|].
  split; [reflexivity|]. split; cbn [t_lit t_off]; [now rewrite Fl in Tl|now rewrite Fo in To].
Qed.

Lemma fixed_codes : code_lengths fixed_lit /\ code_lengths fixed_off.
Proof.
  split; (split; [|left; vm_compute; reflexivity]); unfold fixed_lit, fixed_off; repeat (apply Forall_app; split); apply Forall_forall; intros x Hx; apply repeat_spec in Hx; subst; lia.
Qed.

Lemma build_pair (r : reader) lens nl no b :
  (do olens <- get_slice lens nl (length lens - nl) ;
   do offt <- build_table offset_results olens offset_table_bits no offset_enough ;
   do litt <- build_table litlen_results lens litlen_table_bits nl litlen_enough ;
   Ok (r, mkTables b litt offt)) =
  (do t <- (do olens <- get_slice lens nl (length lens - nl) ;
            do offt <- build_table offset_results olens offset_table_bits no offset_enough ;
            do litt <- build_table litlen_results lens litlen_table_bits nl litlen_enough ;
            Ok (mkTables b litt offt)) ; Ok (r, t)).
Proof.
  destruct (get_slice lens nl (length lens - nl)) as [x| | |]; [cbn [bind]|reflexivity..].
  destruct (build_table offset_results x offset_table_bits no offset_enough) as [y| | |]; [cbn [bind]|reflexivity..].
  destruct (build_table litlen_results lens litlen_table_bits nl litlen_enough) as [z| | |]; reflexivity.
Qed.

Lemma static_tables_ok r n t : rd r n -> static_ok t ->
  exists t', build_tables 1 r t = Ok (r, t') /\ static_ok t' /\ both_ok fixed_lit fixed_off t'.
Proof.
  intros R St. unfold build_tables. change (1 =? 2) with false. cbn iota. destruct (t_static t) eqn:E; cbn [bind].
  - exists t. split; [reflexivity|]. split; [exact St|]. now apply St.
  - destruct fixed_codes as [C1 C2].
    destruct (build_both static_lens fixed_lit fixed_off true) as (t' & Et & Ts & B).
    { reflexivity. } { reflexivity. } { exact C1. } { exact C2. } { change (length fixed_lit) with 288%nat. lia. } { change (length fixed_off) with 32%nat. lia. }
    rewrite build_pair. change (length fixed_lit) with 288%nat in Et. change (length fixed_off) with 32%nat in Et. rewrite Et. cbn [bind].
    eexists. split; [reflexivity|]. split; [|exact B]. intros _. exact B.
Qed.
Lemma dynamic_tables_ok r n t lit off n' : rd r n -> 14 <= r_left r -> dynamic (r_src r) n lit off n' ->
  exists r' t', build_tables 2 r t = Ok (r', t') /\ rd r' n' /\ r_src r' = r_src r /\ static_ok t' /\ both_ok lit off t'.
Proof.
  intros R Hl D. destruct (dynamic_lens_ok r n lit off n' R Hl D) as (lens & r' & E & R' & S' & L & F & Cl & Co & Ll & Lo).
  unfold build_tables. change (2 =? 2) with true. cbn iota. rewrite E. cbn [bind].
  destruct (build_both lens lit off false L F Cl Co Ll Lo) as (t' & Et & Ts & B).
  rewrite build_pair, Et. cbn [bind]. eexists _, _. split; [reflexivity|]. split; [exact R'|]. split; [exact S'|]. split; [|exact B].
  intros C. congruence.
Qed.

(** ** A whole Huffman block *)
Lemma huff_block_ok o src budget btype d n out n' out' :
  at_sym src d n out -> 14 <= r_left (d_r d) -> static_ok (d_tab d) -> budget <= 45 ->
  btype = 1 \/ btype = 2 -> block budget src btype n out n' out' -> n' <= 8 * Z.of_nat (length src) -> (length out' <= o_limit o)%nat ->
  exists d', huff_block false o btype d = Ok d' /\ at_sym src d' n' out' /\ static_ok (d_tab d').
Proof.
  intros A Hl St Hb Hbt B Hn Hlim. unfold huff_block. destruct A.
  assert (M : exists lit off m r t, build_tables btype (d_r d) (d_tab d) = Ok (r, t) /\ rd r m /\ 0 <= m /\ r_src r = src /\ static_ok t /\ both_ok lit off t /\
     symbols budget lit off src m out n' out').
  { destruct B as [n out p len Hp Hlen Hx Hy|n out n' out' H|n out lit off m n' out' D H]; [lia| |].
    - destruct (static_tables_ok (d_r d) n (d_tab d) as_rd St) as (t' & E & S1 & B1). exists fixed_lit, fixed_off, n, (d_r d), t'.
      pose proof (rd_n _ _ as_rd). auto 10.
    - rewrite <- as_src in D. destruct (dynamic_tables_ok (d_r d) n (d_tab d) lit off m as_rd Hl D) as (r' & t' & E & R' & S' & S1 & B1). exists lit, off, m, r', t'.
      pose proof (rd_n _ _ R'). rewrite as_src in *. auto 10. }
  destruct M as (lit & off & m & r & t & E & R & Hm0 & Sr & St' & [B1 B2] & H). rewrite E. cbn [bind].
  pose proof (loops_ok o budget lit off (t_lit t) (t_off t) src B1 B2 Hb (mkD r (d_out d) (d_dest d) t) m out n' out' (8 * length (r_src r) + 100)) as LO.
  cbn [d_r d_out d_dest d_tab] in LO. destruct LO as (d' & E' & T' & A'); auto.
  - constructor; cbn [d_r d_out d_dest]; auto.
  - rewrite Sr. lia.
  - cbn [d_r d_out d_dest d_tab]. rewrite E'. exists d'. split; [reflexivity|]. split; [exact A'|]. now rewrite T'.
Qed.
