(** Facts about canonical codes (RFC 1951, 3.2.2), independent of the decoder. *)
From Verif Require Import Base BaseProof Bits BitReaderSpec BitReaderProof InflateSpec HuffSpec.

(** ** Bit reversal *)
Fixpoint rev (l : nat) (c : Z) : Z :=
  match l with O => 0 | S l' => (c mod 2) * 2 ^ Z.of_nat l' + rev l' (c / 2) end.

Lemma pow_S l : 2 ^ Z.of_nat (S l) = 2 * 2 ^ Z.of_nat l.
Proof. rewrite Nat2Z.inj_succ, Z.pow_succ_r by lia. reflexivity. Qed.
Lemma pow_pos l : 0 < 2 ^ Z.of_nat l.
Proof. apply Z.pow_pos_nonneg; lia. Qed.

Lemma rev_bound l : forall c, 0 <= rev l c < 2 ^ Z.of_nat l.
Proof.
  induction l as [|l IH]; intros c; cbn [rev]; [cbn; lia|].
  rewrite pow_S. specialize (IH (c / 2)). pose proof (Z.mod_pos_bound c 2 ltac:(lia)).
  set (m := c mod 2) in *. set (x := rev l (c / 2)) in *. set (p := 2 ^ Z.of_nat l) in *. clearbody m x p. nia.
Qed.

Lemma rev_double l c : rev (S l) (2 * c) = rev l c.
Proof.
  cbn [rev]. replace (2 * c) with (c * 2) by lia. rewrite Z.mod_mul, Z.div_mul by lia. lia.
Qed.

Lemma rev_prefix d : forall l c, rev (l + d) c mod 2 ^ Z.of_nat l = rev l (c / 2 ^ Z.of_nat d).
Proof.
  induction d as [|d IH]; intros l c.
  - rewrite Nat.add_0_r. change (2 ^ Z.of_nat 0) with 1. rewrite Z.div_1_r. apply Z.mod_small, rev_bound.
  - replace (l + S d)%nat with (S (l + d)) by lia. cbn [rev]. rewrite Nat2Z.inj_add, Z.pow_add_r by lia.
    replace (c mod 2 * (2 ^ Z.of_nat l * 2 ^ Z.of_nat d) + rev (l + d) (c / 2))
      with (rev (l + d) (c / 2) + c mod 2 * 2 ^ Z.of_nat d * 2 ^ Z.of_nat l) by lia.
    rewrite Z.mod_add by (pose proof (pow_pos l); lia). rewrite IH. f_equal.
    rewrite pow_S. rewrite Z.div_div by (pose proof (pow_pos d); lia). reflexivity.
Qed.

Lemma rev_inj l : forall a b, 0 <= a < 2 ^ Z.of_nat l -> 0 <= b < 2 ^ Z.of_nat l -> rev l a = rev l b -> a = b.
Proof.
  induction l as [|l IH]; intros a b Ha Hb E; [cbn in Ha, Hb; lia|].
  rewrite pow_S in Ha, Hb. cbn [rev] in E.
  pose proof (rev_bound l (a / 2)). pose proof (rev_bound l (b / 2)).
  pose proof (Z.mod_pos_bound a 2 ltac:(lia)). pose proof (Z.mod_pos_bound b 2 ltac:(lia)).
  pose proof (Z.div_mod a 2 ltac:(lia)). pose proof (Z.div_mod b 2 ltac:(lia)).
  pose proof (pow_pos l).
  assert (a mod 2 = b mod 2 /\ rev l (a / 2) = rev l (b / 2)) as [E1 E2].
  { set (x := rev l (a / 2)) in *. set (y := rev l (b / 2)) in *. set (p := 2 ^ Z.of_nat l) in *.
    set (m := a mod 2) in *. set (k := b mod 2) in *. clearbody x y p m k.
    assert (m = k) by (assert (m = 0 \/ m = 1) as [|] by lia; assert (k = 0 \/ k = 1) as [|] by lia; subst; lia).
    subst k. split; lia. }
  apply IH in E2; [lia| |]; clear - Ha Hb; split; try (apply Z.div_pos; lia); apply Z.div_lt_upper_bound; lia.
Qed.

Lemma bits_from_snoc src : forall k n,
  bits_from src n (S k) = bits_from src n k + 2 ^ Z.of_nat k * Z.b2z (bit_at src (n + Z.of_nat k)).
Proof.
  induction k as [|k IH]; intros n.
  - cbn [bits_from]. change (2 ^ Z.of_nat 0) with 1. replace (n + Z.of_nat 0) with n by lia. lia.
  - change (bits_from src n (S (S k))) with (Z.b2z (bit_at src n) + 2 * bits_from src (n + 1) (S k)).
    rewrite IH. change (bits_from src n (S k)) with (Z.b2z (bit_at src n) + 2 * bits_from src (n + 1) k).
    rewrite pow_S. replace (n + 1 + Z.of_nat k) with (n + Z.of_nat (S k)) by lia. lia.
Qed.
Lemma bits_from_app src b : forall a n,
  bits_from src n (a + b) = bits_from src n a + 2 ^ Z.of_nat a * bits_from src (n + Z.of_nat a) b.
Proof.
  induction a as [|a IH]; intros n.
  - cbn [Nat.add bits_from]. change (2 ^ Z.of_nat 0) with 1. replace (n + Z.of_nat 0) with n by lia. lia.
  - cbn [Nat.add bits_from]. rewrite IH, pow_S. replace (n + 1 + Z.of_nat a) with (n + Z.of_nat (S a)) by lia. lia.
Qed.
Lemma b2z_bound b : 0 <= Z.b2z b <= 1.
Proof. destruct b; cbn; lia. Qed.
Lemma bits_from_bound src k : forall n, 0 <= bits_from src n k < 2 ^ Z.of_nat k.
Proof.
  induction k as [|k IH]; intros n; cbn [bits_from]; [cbn; lia|]. rewrite pow_S.
  specialize (IH (n + 1)). pose proof (b2z_bound (bit_at src n)). lia.
Qed.
Lemma msb_bound src n l : 0 <= msb_from src n l < 2 ^ Z.of_nat l.
Proof.
  induction l as [|l IH]; cbn [msb_from]; [cbn; lia|]. rewrite pow_S.
  pose proof (b2z_bound (bit_at src (n + Z.of_nat l))). lia.
Qed.
(** Reading first-bit-least-significant gives the reversed codeword. *)
Lemma bits_rev src n l : bits_from src n l = rev l (msb_from src n l).
Proof.
  induction l as [|l IH]; [reflexivity|]. rewrite bits_from_snoc, IH. cbn [rev msb_from].
  set (m := msb_from src n l). pose proof (b2z_bound (bit_at src (n + Z.of_nat l))) as B.
  set (b := Z.b2z (bit_at src (n + Z.of_nat l))) in *. clearbody m b.
  replace ((2 * m + b) / 2) with m by lia. replace ((2 * m + b) mod 2) with b by lia. lia.
Qed.
Lemma bits_prefix src n a b : bits_from src n (a + b) mod 2 ^ Z.of_nat a = bits_from src n a.
Proof.
  rewrite bits_from_app. rewrite Z.add_comm, Z.mul_comm, Z.add_comm, Z.mod_add by (pose proof (pow_pos a); lia).
  apply Z.mod_small, bits_from_bound.
Qed.
Lemma bits_suffix src n a b : bits_from src n (a + b) / 2 ^ Z.of_nat a = bits_from src (n + Z.of_nat a) b.
Proof.
  rewrite bits_from_app. rewrite Z.add_comm, Z.mul_comm, Z.div_add_l by (pose proof (pow_pos a); lia).
  rewrite Z.div_small by apply bits_from_bound. lia.
Qed.

(** ** Counting *)
Fixpoint ncount (lens : list Z) (l : nat) : nat :=
  match lens with [] => 0 | x :: lens' => (if (x =? Z.of_nat l)%Z then 1 else 0) + ncount lens' l end%nat.
Lemma count_ncount lens l : count_len lens l = Z.of_nat (ncount lens l).
Proof.
  induction lens as [|x lens IH]; cbn [count_len ncount]; [reflexivity|].
  rewrite IH. destruct (x =? Z.of_nat l); lia.
Qed.
Lemma ncount_app a b l : ncount (a ++ b) l = (ncount a l + ncount b l)%nat.
Proof. induction a as [|x a IH]; cbn [app ncount]; [reflexivity|]. rewrite IH. lia. Qed.
Lemma ncount_length lens l : (ncount lens l <= length lens)%nat.
Proof. induction lens as [|x lens IH]; cbn [ncount length]; [lia|]. destruct (x =? Z.of_nat l); lia. Qed.

Lemma firstn_snoc {A} (l : list A) s d : (s < length l)%nat -> firstn (S s) l = firstn s l ++ [nth s l d].
Proof.
  revert s. induction l as [|x l IH]; intros s H; [cbn in H; lia|].
  destruct s as [|s]; [reflexivity|]. cbn [firstn nth app]. f_equal. apply IH. cbn in H. lia.
Qed.
Lemma ncount_step lens s l : (s < length lens)%nat ->
  ncount (firstn (S s) lens) l = (ncount (firstn s lens) l + if (nth s lens 0 =? Z.of_nat l)%Z then 1 else 0)%nat.
Proof. intros H. rewrite (firstn_snoc lens s 0 H), ncount_app. cbn [ncount]. lia. Qed.
Lemma ncount_mono lens l : forall a b, (a <= b)%nat -> (ncount (firstn a lens) l <= ncount (firstn b lens) l)%nat.
Proof.
  intros a b H. rewrite <- (firstn_skipn a (firstn b lens)). rewrite ncount_app, firstn_firstn, Nat.min_l by lia. lia.
Qed.
Lemma ncount_firstn_le lens l s : (ncount (firstn s lens) l <= ncount lens l)%nat.
Proof. rewrite <- (firstn_skipn s lens) at 2. rewrite ncount_app. lia. Qed.

Definition rank (lens : list Z) (s : nat) : nat := ncount (firstn s lens) (Z.to_nat (nth s lens 0)).
Lemma rank_lt lens s l : (s < length lens)%nat -> nth s lens 0 = Z.of_nat l -> (rank lens s < ncount lens l)%nat.
Proof.
  intros H E. unfold rank. rewrite E, Nat2Z.id.
  pose proof (ncount_step lens s l H) as St. rewrite E, Z.eqb_refl in St.
  pose proof (ncount_firstn_le lens l (S s)). lia.
Qed.
(** The symbol of a given length and rank. *)
Lemma rank_exists lens l r : (r < ncount lens l)%nat ->
  exists s, (s < length lens)%nat /\ nth s lens 0 = Z.of_nat l /\ rank lens s = r.
Proof.
  intros H.
  assert (G : forall k, (k <= length lens)%nat -> (r < ncount (firstn k lens) l)%nat ->
     exists s, (s < k)%nat /\ nth s lens 0 = Z.of_nat l /\ rank lens s = r).
  { induction k as [|k IH]; intros Hk Hr; [cbn in Hr; lia|].
    rewrite ncount_step in Hr by lia.
    destruct (Nat.lt_ge_cases r (ncount (firstn k lens) l)) as [Hlt|Hge].
    - destruct IH as (s & A & B & C); [lia|exact Hlt|]. exists s. repeat split; auto; lia.
    - destruct (Z.eqb_spec (nth k lens 0) (Z.of_nat l)) as [E|]; [|lia].
      exists k. split; [lia|]. split; [exact E|]. unfold rank. rewrite E, Nat2Z.id. lia. }
  destruct (G (length lens)) as (s & A & B & C); [lia|now rewrite firstn_all|]. exists s. auto.
Qed.
Lemma rank_inj lens s t l : (s < length lens)%nat -> (t < length lens)%nat ->
  nth s lens 0 = Z.of_nat l -> nth t lens 0 = Z.of_nat l -> rank lens s = rank lens t -> s = t.
Proof.
  intros Hs Ht Es Et E. unfold rank in E. rewrite Es, Et, !Nat2Z.id in E.
  destruct (Nat.lt_trichotomy s t) as [H|[H|H]]; [|exact H|].
  - pose proof (ncount_step lens s l Hs) as St. rewrite Es, Z.eqb_refl in St.
    pose proof (ncount_mono lens l (S s) t ltac:(lia)). lia.
  - pose proof (ncount_step lens t l Ht) as St. rewrite Et, Z.eqb_refl in St.
    pose proof (ncount_mono lens l (S t) s ltac:(lia)). lia.
Qed.

(** ** First codes *)
Section Codes.
Variable lens : list Z.
Definition cz (l : nat) : Z := match l with O => 0 | _ => count_len lens l end.
Definition total (l : nat) : Z := first_code lens l + cz l.

Lemma cz_nonneg l : 0 <= cz l.
Proof. destruct l as [|l]; [cbn; lia|]. cbn [cz]. rewrite count_ncount. lia. Qed.
Lemma first_code_S l : first_code lens (S l) = 2 * total l.
Proof. cbn [first_code]. unfold total. destruct l; reflexivity. Qed.
Lemma total_S l : total (S l) = 2 * total l + cz (S l).
Proof. unfold total at 1. rewrite first_code_S. reflexivity. Qed.
Lemma first_code_nonneg l : 0 <= first_code lens l.
Proof.
  induction l as [|l IH]; [cbn; lia|]. rewrite first_code_S. unfold total. pose proof (cz_nonneg l). lia.
Qed.
Lemma total_nonneg l : 0 <= total l.
Proof. unfold total. pose proof (first_code_nonneg l). pose proof (cz_nonneg l). lia. Qed.
Lemma total_mono d : forall l, total l * 2 ^ Z.of_nat d <= total (l + d).
Proof.
  induction d as [|d IH]; intros l.
  - rewrite Nat.add_0_r. change (2 ^ Z.of_nat 0) with 1. lia.
  - replace (l + S d)%nat with (S (l + d)) by lia. rewrite total_S, pow_S. specialize (IH l). pose proof (cz_nonneg (S (l + d))). lia.
Qed.
Lemma first_code_after l l' : (l' < l)%nat -> total l' * 2 ^ Z.of_nat (l - l') <= first_code lens l.
Proof.
  intros H. destruct l as [|l]; [lia|]. rewrite first_code_S. replace (S l - l')%nat with (S (l - l')) by lia.
  rewrite pow_S. pose proof (total_mono (l - l') l') as M. replace (l' + (l - l'))%nat with l in M by lia. lia.
Qed.
Lemma total_bound l : (l <= 15)%nat -> total 15 <= 2 ^ 15 -> total l <= 2 ^ Z.of_nat l.
Proof.
  intros Hl H. pose proof (total_mono (15 - l) l) as M. replace (l + (15 - l))%nat with 15%nat in M by lia.
  assert (E : 2 ^ 15 = 2 ^ Z.of_nat l * 2 ^ Z.of_nat (15 - l)) by (rewrite <- Z.pow_add_r by lia; f_equal; lia).
  pose proof (pow_pos (15 - l)). nia.
Qed.
(** Codewords of different symbols are never prefixes of each other. *)
Lemma prefix_free l r l' r' : (l' < l)%nat -> 0 <= r -> r' < cz l' ->
  first_code lens l' + r' < (first_code lens l + r) / 2 ^ Z.of_nat (l - l').
Proof.
  intros H Hr Hr'. pose proof (first_code_after l l' H) as A. pose proof (pow_pos (l - l')).
  apply Z.lt_le_trans with (total l'); [unfold total; lia|].
  apply Z.div_le_lower_bound; lia.
Qed.

(** The code space counted level by level. *)
Fixpoint space_upto (ls : list Z) (k : nat) : Z :=
  match ls with
  | [] => 0
  | x :: ls' => (if (1 <=? x) && (x <=? Z.of_nat k) then 2 ^ (Z.of_nat k - x) else 0) + space_upto ls' k
  end.
Lemma space_step ls k : space_upto ls (S k) = 2 * space_upto ls k + count_len ls (S k).
Proof.
  induction ls as [|x ls IH]; cbn [space_upto count_len]; [reflexivity|]. rewrite IH.
  destruct (Z.eqb_spec x (Z.of_nat (S k))) as [->|Hx].
  - replace ((1 <=? Z.of_nat (S k)) && (Z.of_nat (S k) <=? Z.of_nat (S k))) with true by lia.
    replace (1 <=? Z.of_nat (S k)) with true by lia. replace (Z.of_nat (S k) <=? Z.of_nat k) with false by lia.
    cbn [andb]. rewrite Z.sub_diag. change (2 ^ 0) with 1. lia.
  - destruct (Z.leb_spec 1 x); cbn [andb]; [|lia].
    destruct (Z.leb_spec x (Z.of_nat k)).
    + replace (x <=? Z.of_nat (S k)) with true by lia.
      replace (Z.of_nat (S k) - x) with (Z.succ (Z.of_nat k - x)) by lia. rewrite Z.pow_succ_r by lia. lia.
    + replace (x <=? Z.of_nat (S k)) with false by lia. lia.
Qed.
Lemma space_zero ls : space_upto ls 0 = 0.
Proof.
  induction ls as [|x ls IH]; [reflexivity|]. cbn [space_upto]. rewrite IH.
  destruct (Z.leb_spec 1 x), (Z.leb_spec x (Z.of_nat 0)); cbn [andb]; lia.
Qed.
Lemma total_space k : total k = space_upto lens k.
Proof.
  induction k as [|k IH]; [now rewrite space_zero|]. rewrite total_S, space_step, IH. reflexivity.
Qed.
Lemma code_space_total : Forall (fun x => 0 <= x <= 15) lens -> code_space lens = total 15.
Proof.
  intros H. rewrite total_space. induction H as [|x ls Hx _ IH]; [reflexivity|].
  cbn [code_space fold_right space_upto]. unfold code_space in IH. rewrite IH. f_equal.
  destruct (Z.eqb_spec x 0); [replace (1 <=? x) with false by lia; reflexivity|].
  replace ((1 <=? x) && (x <=? Z.of_nat 15)) with true by lia. reflexivity.
Qed.

(** In a complete code every bit string starts with exactly one codeword. *)
Lemma first_code_total_space l : (l <= 15)%nat -> total 15 = 2 ^ 15 ->
  forall v, 0 <= v < 2 ^ 15 -> v < total l * 2 ^ (15 - Z.of_nat l) ->
  exists k r, (1 <= k <= l)%nat /\ 0 <= r < cz k /\ v / 2 ^ (15 - Z.of_nat k) = first_code lens k + r.
Proof.
  intros Hl Ht v Hv. induction l as [|l IH]; intros H.
  - unfold total in H. cbn in H. lia.
  - destruct (Z.lt_ge_cases v (total l * 2 ^ (15 - Z.of_nat l))) as [Hlt|Hge].
    + destruct IH as (k & r & A & B & C); [lia|exact Hlt|]. exists k, r. repeat split; auto; lia.
    + exists (S l), (v / 2 ^ (15 - Z.of_nat (S l)) - first_code lens (S l)).
      assert (E : 2 ^ (15 - Z.of_nat l) = 2 * 2 ^ (15 - Z.of_nat (S l))).
      { replace (15 - Z.of_nat l) with (Z.succ (15 - Z.of_nat (S l))) by lia. rewrite Z.pow_succ_r by lia. reflexivity. }
      assert (P : 0 < 2 ^ (15 - Z.of_nat (S l))) by (apply Z.pow_pos_nonneg; lia).
      rewrite E in Hge. unfold total in H. rewrite first_code_S in *.
      set (q := 2 ^ (15 - Z.of_nat (S l))) in *. clearbody q.
      assert (2 * total l <= v / q) by (apply Z.div_le_lower_bound; lia).
      assert (v / q < 2 * total l + cz (S l)) by (apply Z.div_lt_upper_bound; lia).
      repeat split; lia.
Qed.
End Codes.

Lemma codeword_rank lens s l : nth s lens 0 = Z.of_nat l -> codeword lens s = first_code lens l + Z.of_nat (rank lens s).
Proof. intros E. unfold codeword, rank. rewrite E, Nat2Z.id, count_ncount. reflexivity. Qed.
