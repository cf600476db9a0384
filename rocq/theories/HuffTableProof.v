(** Table construction, part two: the main table. *)
From Verif Require Import Base BaseProof Bits Loops Slices BitReaderSpec BitReaderModel InflateModel HuffModel HuffSpec HuffCode HuffSortProof.

Lemma rev_ones l : rev l (2 ^ Z.of_nat l - 1) = 2 ^ Z.of_nat l - 1.
Proof.
  induction l as [|l IH]; [reflexivity|]. cbn [rev]. rewrite pow_S. pose proof (pow_pos l).
  replace ((2 * 2 ^ Z.of_nat l - 1) mod 2) with 1 by lia. replace ((2 * 2 ^ Z.of_nat l - 1) / 2) with (2 ^ Z.of_nat l - 1) by lia.
  rewrite IH. lia.
Qed.
Lemma pow_nat l : Z.of_nat (2 ^ l) = 2 ^ Z.of_nat l.
Proof. rewrite Nat2Z.inj_pow. reflexivity. Qed.

(** Doubling. *)
Lemma double_ok table n : (2 * n <= length table)%nat -> exists t, double table n = Ok t /\ length t = length table /\
  forall p, (p < 2 * n)%nat -> nth p t 0 = nth (p mod n) table 0.
Proof.
  intros H. unfold double. rewrite get_slice_ok by lia. cbn [bind].
  assert (L : length (slice table 0 n) = n) by (apply slice_length; lia).
  rewrite put_slice_ok by lia. eexists. split; [reflexivity|]. split; [apply put_length; lia|].
  intros p Hp. rewrite put_nth by lia. rewrite L.
  destruct (Nat.lt_ge_cases p n) as [Hl|Hl].
  - replace ((n <=? p) && (p <? n + n))%nat with false by lia. now rewrite Nat.mod_small.
  - replace ((n <=? p) && (p <? n + n))%nat with true by lia. rewrite slice_nth by lia.
    replace (p mod n)%nat with (p - n)%nat; [reflexivity|].
    replace p with (p - n + 1 * n)%nat at 2 by lia. rewrite Nat.mod_add by lia. rewrite Nat.mod_small; lia.
Qed.

Definition zn (t : list Z) (p : Z) : Z := nth (Z.to_nat p) t 0.
Lemma double_z table l : (2 ^ S l <= length table)%nat -> exists t, double table (2 ^ l) = Ok t /\ length t = length table /\
  forall p, 0 <= p < 2 ^ Z.of_nat (S l) -> zn t p = zn table (p mod 2 ^ Z.of_nat l).
Proof.
  intros H. assert (E : (2 ^ S l = 2 * 2 ^ l)%nat) by (cbn [Nat.pow]; lia).
  destruct (double_ok table (2 ^ l)) as (t & A & B & C); [lia|]. exists t. split; [exact A|]. split; [exact B|].
  intros p Hp. rewrite <- pow_nat in Hp. unfold zn. rewrite C by lia. f_equal.
  rewrite <- pow_nat. rewrite Z2Nat.inj_mod by lia. rewrite Nat2Z.id. reflexivity.
Qed.
Lemma double_up_z n : forall table l, (2 ^ (l + n) <= length table)%nat -> exists t, double_up n table (2 ^ l) = Ok t /\
  length t = length table /\ forall p, 0 <= p < 2 ^ Z.of_nat (l + n) -> zn t p = zn table (p mod 2 ^ Z.of_nat l).
Proof.
  induction n as [|n IH]; intros table l H; cbn [double_up].
  - exists table. split; [reflexivity|]. split; [reflexivity|]. intros p Hp. rewrite Nat.add_0_r in Hp. now rewrite Z.mod_small.
  - assert (H1 : (2 ^ S l <= length table)%nat).
    { eapply Nat.le_trans; [|exact H]. apply Nat.pow_le_mono_r; lia. }
    destruct (double_z table l H1) as (t1 & E1 & L1 & N1). rewrite E1. cbn [bind].
    replace (2 * 2 ^ l)%nat with (2 ^ S l)%nat by (cbn [Nat.pow]; lia).
    destruct (IH t1 (S l)) as (t & E & L & N); [rewrite L1; replace (S l + n)%nat with (l + S n)%nat by lia; exact H|].
    exists t. split; [exact E|]. split; [congruence|]. intros p Hp.
    rewrite N by (replace (S l + n)%nat with (l + S n)%nat by lia; exact Hp).
    pose proof (pow_pos (S l)). pose proof (pow_pos l).
    rewrite N1 by (apply Z.mod_pos_bound; lia). f_equal.
    rewrite pow_S. rewrite (Z.mul_comm 2). rewrite Z.rem_mul_r by lia. rewrite Z.mul_comm, Z.mod_add by lia. apply Z.mod_mod. lia.
Qed.
Lemma mod_mod_pow p a b : (b <= a)%nat -> (p mod 2 ^ Z.of_nat a) mod 2 ^ Z.of_nat b = p mod 2 ^ Z.of_nat b.
Proof.
  intros H. replace (Z.of_nat a) with (Z.of_nat b + Z.of_nat (a - b)) by lia. rewrite Z.pow_add_r by lia.
  pose proof (pow_pos b). pose proof (pow_pos (a - b)). rewrite Z.rem_mul_r by lia.
  rewrite (Z.mul_comm (2 ^ Z.of_nat b)), Z.mod_add by lia. apply Z.mod_mod. lia.
Qed.

Section Table.
Variables (results : list Z) (lens : list Z) (num : nat) (counts sorted : list nat) (tb size : nat).
Let ls := firstn num lens.
Notation noff := (noff lens num).
Notation fc := (first_code ls).
Notation tot := (total ls).
Notation nc := (ncount ls).
Hypothesis num_ok : (num <= length lens)%nat.
Hypothesis num_max : (num <= max_num_syms)%nat.
Hypothesis range : Forall (fun x => 0 <= x <= 15) ls.
Hypothesis Hlen : length counts = 16%nat.
Hypothesis Hcount : forall l, (l < 16)%nat -> nth l counts 0%nat = nc l.
Hypothesis Hsl : length sorted = max_num_syms.
Hypothesis Hsorted : forall s l, (s < num)%nat -> nth s ls 0 = Z.of_nat l -> nth (noff l + rank ls s) sorted 0%nat = s.
Hypothesis Hcomplete : tot 15 = 2 ^ 15.
Hypothesis Hres : (num <= length results)%nat.
Hypothesis Htb : (1 <= tb <= 15)%nat.
Hypothesis Hts : (2 ^ tb <= size)%nat.

Definition entry (s k : nat) : Z := nth s results 0 + Z.shiftl (Z.of_nat k) 8 + Z.of_nat k.
Lemma make_entry_ok s k : (s < num)%nat -> make_entry results s k = Ok (entry s k).
Proof. intros H. unfold make_entry. rewrite (get_at_ok results s 0) by lia. reflexivity. Qed.

Lemma lsl : length ls = num.
Proof. exact (ls_length lens num num_ok num_max). Qed.

Lemma cz_nc l : (1 <= l)%nat -> cz ls l = Z.of_nat (nc l).
Proof. intros H. destruct l; [lia|]. cbn [cz]. apply count_ncount. Qed.

(** The [r]-th code of length [l]. *)
Definition cw (l r : nat) : Z := fc l + Z.of_nat r.
Lemma cw_bound l r : (1 <= l <= 15)%nat -> (r < nc l)%nat -> 0 <= cw l r < 2 ^ Z.of_nat l.
Proof.
  intros Hl Hr. unfold cw. pose proof (first_code_nonneg ls l). pose proof (total_bound ls l ltac:(lia) ltac:(lia)) as T.
  unfold total in T. rewrite cz_nc in T by lia. lia.
Qed.
Lemma cw_of s l : nth s ls 0 = Z.of_nat l -> codeword ls s = cw l (rank ls s).
Proof. apply codeword_rank. Qed.

(** Levels without codes. *)
Lemma gap l d : (forall k, (l < k < l + d)%nat -> nc k = 0%nat) -> (1 <= d)%nat -> fc (l + d) = tot l * 2 ^ Z.of_nat d.
Proof.
  induction d as [|d IH]; intros Hz Hd; [lia|].
  replace (l + S d)%nat with (S (l + d)) by lia. rewrite first_code_S, pow_S.
  destruct d as [|d].
  - rewrite Nat.add_0_r. change (2 ^ Z.of_nat 0) with 1. lia.
  - unfold total. rewrite cz_nc by lia. rewrite (Hz (l + S d)%nat) by lia. rewrite IH by (try (intros; apply Hz); lia). unfold total. lia.
Qed.
Lemma gap_total l d : (forall k, (l < k <= l + d)%nat -> nc k = 0%nat) -> tot (l + d) = tot l * 2 ^ Z.of_nat d.
Proof.
  intros Hz. destruct d as [|d].
  - rewrite Nat.add_0_r. change (2 ^ Z.of_nat 0) with 1. lia.
  - unfold total at 1. rewrite cz_nc by lia. rewrite (Hz (l + S d)%nat) by lia. rewrite gap by (try (intros; apply Hz); lia). lia.
Qed.
Lemma full_rest l : (l <= 15)%nat -> tot l = 2 ^ Z.of_nat l -> forall k, (l < k <= 15)%nat -> nc k = 0%nat.
Proof.
  intros Hl E k Hk.
  pose proof (total_mono ls (15 - k) k) as M1. replace (k + (15 - k))%nat with 15%nat in M1 by lia.
  assert (M2 : 2 ^ Z.of_nat k + Z.of_nat (nc k) <= tot k).
  { unfold total. rewrite cz_nc by lia. pose proof (first_code_after ls k l ltac:(lia)) as A. rewrite E in A.
    rewrite <- Z.pow_add_r in A by lia. replace (Z.of_nat l + Z.of_nat (k - l)) with (Z.of_nat k) in A by lia. lia. }
  pose proof (total_bound ls k ltac:(lia) ltac:(lia)). lia.
Qed.
(** If the code is not yet full there is a next length. *)
Lemma next_exists l : (l <= 15)%nat -> tot l < 2 ^ Z.of_nat l -> exists k, (l < k <= 15)%nat /\ nc k <> 0%nat /\
  forall j, (l < j < k)%nat -> nc j = 0%nat.
Proof.
  intros Hl H.
  assert (G : forall d, (l + d <= 15)%nat -> (exists k, (l < k <= l + d)%nat /\ nc k <> 0%nat /\ forall j, (l < j < k)%nat -> nc j = 0%nat)
     \/ (forall j, (l < j <= l + d)%nat -> nc j = 0%nat)).
  { induction d as [|d IH]; intros Hd; [right; intros; lia|].
    destruct IH as [(k & A & B & C)|C]; [lia| |].
    - left. exists k. repeat split; auto; lia.
    - destruct (Nat.eq_dec (nc (l + S d)) 0) as [Z|Z].
      + right. intros j Hj. destruct (Nat.eq_dec j (l + S d)) as [->|]; [exact Z|]. apply C. lia.
      + left. exists (l + S d)%nat. repeat split; auto; try lia. intros j Hj. apply C. lia. }
  destruct (G (15 - l)%nat) as [(k & A & B & C)|C]; [lia| |].
  - exists k. repeat split; auto; lia.
  - exfalso. pose proof (gap_total l (15 - l) C) as T. replace (l + (15 - l))%nat with 15%nat in T by lia.
    rewrite Hcomplete in T. assert (E : 2 ^ 15 = 2 ^ Z.of_nat l * 2 ^ Z.of_nat (15 - l)) by (rewrite <- Z.pow_add_r by lia; f_equal; lia).
    pose proof (pow_pos (15 - l)). nia.
Qed.

(** Symbols whose code precedes the [r]-th code of length [l]. *)
Definition before (l r s : nat) (k : nat) : Prop :=
  (s < num)%nat /\ nth s ls 0 = Z.of_nat k /\ (1 <= k)%nat /\ ((k < l)%nat \/ k = l /\ (rank ls s < r)%nat).

Definition short_ok (m : nat) (P : nat -> nat -> Prop) (t : list Z) : Prop :=
  forall s k p, P s k -> (k <= tb)%nat -> 0 <= p < 2 ^ Z.of_nat m -> p mod 2 ^ Z.of_nat k = rev k (codeword ls s) ->
    zn t p = entry s k.

Lemma sym_of l r : (1 <= l <= 15)%nat -> (r < nc l)%nat -> exists s, (s < num)%nat /\ nth s ls 0 = Z.of_nat l /\ rank ls s = r /\
  get_at sorted (noff l + r) = Ok s /\ codeword ls s = cw l r.
Proof.
  intros Hl Hr. destruct (rank_exists ls l r Hr) as (s & A & B & C). rewrite lsl in A.
  exists s. split; [exact A|]. split; [exact B|]. split; [exact C|]. split.
  - rewrite (get_at_ok sorted _ 0%nat).
    + rewrite <- C. rewrite (Hsorted s l A B). reflexivity.
    + pose proof (noff_slot lens num num_ok num_max range l r ltac:(lia) Hr). lia.
  - rewrite (cw_of s l B), C. reflexivity.
Qed.

(** Patterns of different codes never agree. *)
Lemma before_apart l r s k : (1 <= l <= 15)%nat -> (r < nc l)%nat -> before l r s k ->
  rev l (cw l r) mod 2 ^ Z.of_nat k <> rev k (codeword ls s).
Proof.
  intros Hl Hr (Hs & Ek & Hk & B) E.
  pose proof (rank_lt ls s k ltac:(rewrite lsl; exact Hs) Ek) as Rk.
  assert (Hkl : (k <= l)%nat) by lia.
  assert (X : rev l (cw l r) mod 2 ^ Z.of_nat k = rev k (cw l r / 2 ^ Z.of_nat (l - k))).
  { pose proof (rev_prefix (l - k) k (cw l r)) as Y. replace (k + (l - k))%nat with l in Y by lia. exact Y. }
  rewrite X in E. rewrite (cw_of s k Ek) in E.
  pose proof (cw_bound l r Hl Hr) as B1. pose proof (cw_bound k (rank ls s) ltac:(lia) Rk) as B2.
  apply rev_inj in E; [| |exact B2].
  - destruct B as [B|[-> B]].
    + pose proof (prefix_free ls l (Z.of_nat r) k (Z.of_nat (rank ls s)) B ltac:(lia)) as PF. rewrite cz_nc in PF by lia.
      unfold cw in E. specialize (PF ltac:(lia)). lia.
    + rewrite Nat.sub_diag in E. change (2 ^ Z.of_nat 0) with 1 in E. rewrite Z.div_1_r in E. unfold cw in E. lia.
  - assert (Ep : 2 ^ Z.of_nat l = 2 ^ Z.of_nat k * 2 ^ Z.of_nat (l - k)) by (rewrite <- Z.pow_add_r by lia; f_equal; lia).
    pose proof (pow_pos (l - k)). split; [apply Z.div_pos; lia|]. apply Z.div_lt_upper_bound; [lia|]. lia.
Qed.

(** [next_len] finds the next used length and doubles the table up to it. *)
Lemma next_len_ok : forall fuel table len, length table = size -> (1 <= len < 16)%nat -> (16 - len <= fuel)%nat ->
  (exists k, (len < k <= 15)%nat /\ nc k <> 0%nat) ->
  exists t k e, next_len counts tb fuel table len (2 ^ Nat.min len tb) = Ok (t, k, nc k, e) /\ e = (2 ^ Nat.min k tb)%nat /\
    length t = size /\ (len < k <= 15)%nat /\ nc k <> 0%nat /\ (forall j, (len < j < k)%nat -> nc j = 0%nat) /\
    forall p, 0 <= p < 2 ^ Z.of_nat (Nat.min k tb) -> zn t p = zn table (p mod 2 ^ Z.of_nat (Nat.min len tb)).
Proof.
  induction fuel as [|fuel IH]; intros table len Lt Hl Hf (k & Hk & Nk); [lia|]. cbn [next_len].
  assert (S1 : exists t1, (if (S len <=? tb)%nat then do table0 <- double table (2 ^ Nat.min len tb) ; Ok (table0, (2 * 2 ^ Nat.min len tb)%nat)
                else Ok (table, (2 ^ Nat.min len tb)%nat)) = Ok (t1, (2 ^ Nat.min (S len) tb)%nat) /\ length t1 = size /\
             forall p, 0 <= p < 2 ^ Z.of_nat (Nat.min (S len) tb) -> zn t1 p = zn table (p mod 2 ^ Z.of_nat (Nat.min len tb))).
  { destruct (Nat.leb_spec (S len) tb) as [Hle|Hgt].
    - rewrite !Nat.min_l by lia. destruct (double_z table len) as (t1 & E1 & L1 & N1).
      { rewrite Lt. eapply Nat.le_trans; [|exact Hts]. apply Nat.pow_le_mono_r; lia. }
      rewrite E1. cbn [bind]. exists t1. split; [f_equal; f_equal; cbn [Nat.pow]; lia|]. split; [congruence|]. exact N1.
    - rewrite !Nat.min_r by lia. exists table. split; [reflexivity|]. split; [exact Lt|].
      intros p Hp. now rewrite Z.mod_small. }
  destruct S1 as (t1 & E1 & L1 & N1). rewrite E1. cbn [bind fst snd].
  rewrite (get_at_ok counts (S len) 0%nat) by lia. cbn [bind]. rewrite Hcount by lia.
  destruct (Nat.eqb_spec (nc (S len)) 0) as [Z0|Z0].
  - destruct (IH t1 (S len)) as (t & k' & e & E & Ee & L & K1 & K2 & K3 & N); [exact L1| |lia| |].
    { assert (S len <> k) by (intros C; apply Nk; rewrite <- C; exact Z0). lia. }
    { exists k. split; [|exact Nk]. assert (S len <> k) by (intros C; apply Nk; rewrite <- C; exact Z0). lia. }
    exists t, k', e. split; [exact E|]. split; [exact Ee|]. split; [exact L|]. split; [lia|]. split; [exact K2|]. split.
    + intros j Hj. destruct (Nat.eq_dec j (S len)) as [->|]; [exact Z0|]. apply K3. lia.
    + intros p Hp. rewrite N by exact Hp. pose proof (pow_pos (Nat.min (S len) tb)). rewrite N1 by (apply Z.mod_pos_bound; lia).
      rewrite mod_mod_pow by (apply Nat.min_le_compat_r, Nat.le_succ_diag_r). reflexivity.
  - exists t1, (S len), (2 ^ Nat.min (S len) tb)%nat. split; [reflexivity|]. split; [reflexivity|]. split; [exact L1|].
    split; [lia|]. split; [exact Z0|]. split; [intros; lia|]. exact N1.
Qed.

(** What the main-table loop maintains. *)
Record direct_inv (l r : nat) (s : bstate) : Prop := {
  di_l : (1 <= l <= 15)%nat;
  di_r : (r < nc l)%nat;
  di_len : b_len s = l;
  di_i : b_i s = (noff l + r)%nat;
  di_code : b_code s = rev l (cw l r);
  di_count : b_count s = (nc l - r)%nat;
  di_end : (l <= tb)%nat -> b_end s = (2 ^ l)%nat;
  di_size : length (b_table s) = size;
  di_short : short_ok (Nat.min l tb) (before l r) (b_table s);
  di_first : (tb < l)%nat -> cw l r = tot tb * 2 ^ Z.of_nat (l - tb)
}.

Definition any_sym (s k : nat) : Prop := (s < num)%nat /\ nth s ls 0 = Z.of_nat k /\ (1 <= k)%nat.

Lemma noff_skip l k : (l < k)%nat -> (forall j, (l < j < k)%nat -> nc j = 0%nat) -> noff k = (noff l + nc l)%nat.
Proof.
  intros H. induction H as [|k Hk IH]; intros Hz; [reflexivity|]. change (noff (S k)) with (noff k + nc k)%nat.
  rewrite (Hz k) by (clear -Hk; lia). rewrite Nat.add_0_r. apply IH. intros j Hj. apply Hz. clear -Hj; lia.
Qed.

(** All codes up to [(l, r)] exhaust the code space: nothing else is left. *)
Lemma last_code l r : (1 <= l <= 15)%nat -> (r < nc l)%nat -> cw l r + 1 = 2 ^ Z.of_nat l ->
  (r + 1 = nc l)%nat /\ forall s k, any_sym s k -> before l (r + 1) s k.
Proof.
  intros Hl Hr E. pose proof (total_bound ls l ltac:(lia) ltac:(lia)) as T. unfold total in T. rewrite cz_nc in T by lia. unfold cw in E.
  assert (R1 : (r + 1 = nc l)%nat) by lia. split; [lia|].
  assert (Tf : tot l = 2 ^ Z.of_nat l) by (unfold total; rewrite cz_nc by lia; lia).
  intros s k (A & B & C). split; [exact A|]. split; [exact B|]. split; [exact C|].
  pose proof (rank_lt ls s k ltac:(rewrite lsl; exact A) B) as Rk.
  destruct (Nat.lt_trichotomy k l) as [|[->|Hk]]; [left; lia|right; split; [reflexivity|lia]|].
  pose proof (ls_range lens num num_ok num_max range s A) as R. fold ls in R.
  pose proof (full_rest l ltac:(lia) Tf k ltac:(lia)). lia.
Qed.

Lemma before_next l r s k : before l (r + 1) s k -> before l r s k \/ (k = l /\ rank ls s = r).
Proof. intros (A & B & C & [D|[D E]]); [left; repeat split; auto|]. subst k. destruct (Nat.eq_dec (rank ls s) r); [right; auto|left]. repeat split; auto. right. split; [reflexivity|lia]. Qed.
Lemma before_skip l k' s k : (l < k')%nat -> (forall j, (l < j < k')%nat -> nc j = 0%nat) -> before k' 0 s k -> before l (nc l) s k.
Proof.
  intros Hl Hz (A & B & C & [D|[D E]]); [|lia].
  pose proof (rank_lt ls s k ltac:(rewrite lsl; exact A) B) as Rk.
  repeat split; auto. destruct (Nat.lt_trichotomy k l) as [|[->|Hk]]; [left; lia|right; auto|]. rewrite Hz in Rk by lia. lia.
Qed.

Lemma direct_loop_ok : forall fuel l r s, direct_inv l r s -> (num < fuel + (noff l + r))%nat ->
  exists fin s', direct_loop results counts sorted tb fuel s = Ok (fin, s') /\
    if fin : bool then length (b_table s') = size /\ short_ok tb any_sym (b_table s') /\ (forall s k, any_sym s k -> (k <= tb)%nat)
    else exists l', (tb < l')%nat /\ direct_inv l' 0 s' /\
           forall s k, any_sym s k -> (k <= tb)%nat -> before l' 0 s k.
Proof.
  induction fuel as [|fuel IH]; intros l r s D Hf.
  - pose proof (noff_slot lens num num_ok num_max range l r) as N. destruct D. specialize (N ltac:(lia) di_r0). lia.
  - destruct D. cbn [direct_loop]. rewrite di_len0.
    destruct (Nat.ltb_spec tb l) as [Htl|Htl].
    + exists false, s. split; [reflexivity|].
      assert (Er : r = 0%nat).
      { specialize (di_first0 Htl). unfold cw in di_first0. pose proof (first_code_after ls l tb Htl). lia. }
      subst r. exists l. split; [exact Htl|]. split; [constructor; auto|].
      intros t k (A & B & C) Hk. repeat split; auto. left. lia.
    + assert (Etl : (l + (tb - l) = tb)%nat) by lia. specialize (di_end0 Htl). rewrite Nat.min_l in di_short0 by lia.
      destruct (sym_of l r di_l0 di_r0) as (sy & S1 & S2 & S3 & S4 & S5).
      rewrite di_i0, S4. cbn [bind]. rewrite make_entry_ok by exact S1. cbn [bind].
      pose proof (cw_bound l r di_l0 di_r0) as Bc. pose proof (rev_bound l (cw l r)) as Br.
      assert (Ple : (2 ^ l <= 2 ^ tb)%nat) by (apply Nat.pow_le_mono_r; lia).
      assert (Hin : (Z.to_nat (b_code s) < length (b_table s))%nat).
      { rewrite di_code0, di_size0. pose proof (pow_nat l). lia. }
      rewrite set_at_ok by exact Hin. cbn [bind].
      set (t1 := upd (b_table s) (Z.to_nat (b_code s)) (entry sy l)).
      assert (L1 : length t1 = size) by (unfold t1; now rewrite upd_length).
      assert (Sh1 : short_ok l (before l (r + 1)) t1).
      { intros x k p Hb Hk Hp Ep. unfold zn, t1.
        destruct (before_next l r x k Hb) as [Hb'|[-> Hx]].
        - rewrite upd_nth_other; [eapply di_short0; eauto|].
          intros C. rewrite di_code0 in C. assert (Ec : p = rev l (cw l r)) by lia. subst p.
          apply (before_apart l r x k di_l0 di_r0 Hb'). exact Ep.
        - destruct Hb as (B1 & B2 & _). assert (x = sy).
          { eapply (rank_inj ls x sy l); auto; try (rewrite lsl; auto). lia. }
          subst x. rewrite S5 in Ep. rewrite Z.mod_small in Ep by exact Hp. subst p. rewrite <- di_code0. apply upd_nth_same. exact Hin. }
      assert (Ecmp : (Z.to_nat (b_code s) =? b_end s - 1)%nat = (cw l r + 1 =? 2 ^ Z.of_nat l)).
      { rewrite di_code0, di_end0. pose proof (pow_nat l) as PN. pose proof (pow_pos l).
        destruct (Z.eqb_spec (cw l r + 1) (2 ^ Z.of_nat l)) as [E|E].
        - replace (cw l r) with (2 ^ Z.of_nat l - 1) by lia. rewrite rev_ones. lia.
        - apply Nat.eqb_neq. intros C. apply E. assert (rev l (cw l r) = rev l (2 ^ Z.of_nat l - 1)) as R by (rewrite rev_ones; lia).
          apply rev_inj in R; lia. }
      rewrite Ecmp. destruct (Z.eqb_spec (cw l r + 1) (2 ^ Z.of_nat l)) as [Elast|Elast].
      * destruct (last_code l r di_l0 di_r0 Elast) as [Rl All].
        rewrite di_end0. destruct (double_up_z (tb - l) t1 l) as (t2 & E2 & L2 & N2).
        { rewrite Etl, L1. exact Hts. }
        rewrite E2. cbn [bind]. eexists true, _. split; [reflexivity|]. cbn [b_table]. split; [congruence|]. split.
        -- intros x k p Hx Hk Hp Ep. rewrite N2 by (rewrite Etl; exact Hp).
           pose proof (All x k Hx) as Bx. pose proof (pow_pos l).
           apply Sh1; auto; [apply Z.mod_pos_bound; lia|]. rewrite mod_mod_pow; [exact Ep|]. destruct Bx as (_ & _ & _ & [Q|[-> _]]); [clear -Q; lia|apply le_n].
        -- intros x k Hx. destruct (All x k Hx) as (_ & _ & _ & [Q|[-> _]]); [clear -Q Htl; lia|exact Htl].
      * assert (Hlt : cw l r + 1 < 2 ^ Z.of_nat l) by lia.
        rewrite di_code0, next_rev by lia. rewrite di_count0.
        destruct (Nat.eqb_spec (nc l - r - 1) 0) as [Z0|Z0].
        -- assert (Rl : (r + 1 = nc l)%nat) by lia.
           assert (Tl : tot l = cw l r + 1) by (unfold total, cw; rewrite cz_nc by lia; lia).
           destruct (next_exists l ltac:(lia) ltac:(lia)) as (k0 & K1 & K2 & _).
           destruct (next_len_ok 16 t1 l) as (t2 & k & e & E2 & Ee & L2 & K3 & K4 & K5 & N2); [exact L1|lia|lia|exists k0; auto|].
           rewrite (Nat.min_l l tb) in E2, N2 by exact Htl. rewrite di_end0, E2. cbn [bind].
           assert (Ekl : (l + (k - l) = k)%nat) by (clear -K3; lia).
           assert (Elk : (l < k)%nat) by (clear -K3; lia).
           assert (Fk : cw k 0 = (cw l r + 1) * 2 ^ Z.of_nat (k - l)).
           { unfold cw at 1. rewrite <- Tl. pose proof (gap l (k - l)) as G. rewrite Ekl in G.
             rewrite G; [apply Z.add_0_r|exact K5|clear -K3; lia]. }
           assert (Rv : rev l (cw l r + 1) = rev k (cw k 0)).
           { rewrite Fk. rewrite <- Ekl at 1. generalize (k - l)%nat as d. generalize (cw l r + 1) as c. clear.
             intros c d. induction d as [|d IHd]; [rewrite Nat.add_0_r; change (2 ^ Z.of_nat 0) with 1; now rewrite Z.mul_1_r|].
             replace (l + S d)%nat with (S (l + d)) by lia. rewrite pow_S. replace (c * (2 * 2 ^ Z.of_nat d)) with (2 * (c * 2 ^ Z.of_nat d)) by lia.
             rewrite rev_double. exact IHd. }
           pose proof (noff_skip l k Elk K5) as Nk.
           rewrite Rv. replace (S (noff l + r)) with (noff k + 0)%nat by (clear -Nk Rl; lia).
           apply (IH k 0%nat).
           ++ constructor; cbn [b_len b_i b_code b_count b_end b_table]; auto.
              ** clear -K3 di_l0; lia.
              ** clear -K4; lia.
              ** clear; lia.
              ** intros Hk. rewrite Ee, Nat.min_l by exact Hk. reflexivity.
              ** intros x j p Hx Hj Hp Ep. rewrite N2 by exact Hp. pose proof (pow_pos l).
                 pose proof (before_skip l k x j Elk K5 Hx) as Bx. rewrite <- Rl in Bx.
                 apply Sh1; auto; [apply Z.mod_pos_bound; assumption|]. rewrite mod_mod_pow; [exact Ep|]. destruct Bx as (_ & _ & _ & [Q|[-> _]]); [clear -Q; lia|apply le_n].
              ** intros Hk. rewrite Fk, <- Tl. pose proof (gap_total l (tb - l)) as G. rewrite Etl in G.
                 rewrite G by (intros j Hj; apply K5; clear -Hj Hk; lia). rewrite <- Z.mul_assoc, <- Z.pow_add_r by (clear; lia). do 2 f_equal. clear -Hk Htl Elk; lia.
           ++ clear -Nk Rl Hf; lia.
        -- replace (S (noff l + r)) with (noff l + (r + 1))%nat by lia. replace (cw l r + 1) with (cw l (r + 1)) by (unfold cw; lia).
           apply (IH l (r + 1)%nat).
           ++ constructor; cbn [b_len b_i b_code b_count b_end b_table]; auto; try (clear -di_r0 Z0 Htl; lia).
              ** rewrite Nat.min_l by lia. exact Sh1.
           ++ lia.
Qed.

(** ** Sub-tables *)

Lemma fill_stride_ok entry stride e : (1 <= stride)%nat -> forall fuel t j, (e <= length t)%nat -> (e < fuel + j)%nat -> (1 <= fuel)%nat ->
  exists t', fill_stride fuel t j stride e entry = Ok t' /\ length t' = length t /\
    (forall x, (x < j \/ e <= x)%nat -> nth x t' 0 = nth x t 0) /\
    (forall x, (j <= x < e)%nat -> nth x t' 0 = if ((x - j) mod stride =? 0)%nat then entry else nth x t 0).
Proof.
  intros Hs. induction fuel as [|fuel IH]; intros t j He Hf Hf1; [lia|]. cbn [fill_stride].
  destruct (Nat.ltb_spec j e) as [Hj|Hj].
  - rewrite set_at_ok by lia. cbn [bind].
    destruct (IH (upd t j entry) (j + stride)%nat) as (t' & E & L & A & B); [rewrite upd_length; lia|lia|lia|].
    rewrite upd_length in L. exists t'. split; [exact E|]. split; [exact L|]. split.
    + intros x Hx. rewrite A by lia. apply upd_nth_other. lia.
    + intros x Hx. destruct (Nat.lt_ge_cases x (j + stride)) as [Hlt|Hge].
      * rewrite A by lia. destruct (Nat.eq_dec x j) as [->|Hn].
        -- rewrite Nat.sub_diag, Nat.mod_0_l by lia. cbn [Nat.eqb]. apply upd_nth_same. lia.
        -- rewrite upd_nth_other by lia. rewrite Nat.mod_small by lia. replace (x - j =? 0)%nat with false by lia. reflexivity.
      * rewrite B by lia. rewrite upd_nth_other by lia.
        replace (x - j)%nat with (x - (j + stride) + 1 * stride)%nat by lia. rewrite Nat.mod_add by lia. reflexivity.
  - exists t. split; [reflexivity|]. split; [reflexivity|]. split; [reflexivity|]. intros x Hx. lia.
Qed.

Definition pre (l : nat) (c : Z) : Z := c / 2 ^ Z.of_nat (l - tb).
Lemma pre_bound l r : (tb < l <= 15)%nat -> (r < nc l)%nat -> 0 <= pre l (cw l r) < 2 ^ Z.of_nat tb.
Proof.
  intros Hl Hr. pose proof (cw_bound l r ltac:(lia) Hr) as B. unfold pre. pose proof (pow_pos (l - tb)).
  split; [apply Z.div_pos; lia|]. apply Z.div_lt_upper_bound; [lia|]. rewrite <- Z.pow_add_r by lia.
  replace (Z.of_nat (l - tb) + Z.of_nat tb) with (Z.of_nat l) by lia. lia.
Qed.
Lemma low_pre l c : (tb <= l)%nat -> Z.land (rev l c) (Z.shiftl 1 (Z.of_nat tb) - 1) = rev tb (pre l c).
Proof.
  intros Hl. rewrite (Z.shiftl_1_l (Z.of_nat tb)), Z.sub_1_r, <- Z.ones_equiv, Z.land_ones by lia.
  unfold pre. pose proof (rev_prefix (l - tb) tb c) as P. replace (tb + (l - tb))%nat with l in P by lia. exact P.
Qed.

(** Where a symbol of length [k > tb] has been put. *)
Definition placed (t : list Z) (s k st b : nat) : Prop :=
  zn t (rev tb (pre k (codeword ls s))) = pointer_entry tb st b /\ (2 ^ tb <= st)%nat /\ (st + 2 ^ b <= size)%nat /\
  (k <= tb + b <= 15)%nat /\
  forall x, 0 <= x < 2 ^ Z.of_nat b -> x mod 2 ^ Z.of_nat (k - tb) = rev k (codeword ls s) / 2 ^ Z.of_nat tb ->
    zn t (Z.of_nat st + x) = entry s (k - tb).

Definition fgap (k : nat) : Z := 2 ^ Z.of_nat k - Z.of_nat k - 1.
Definition bound (i b : nat) : Z := 2 ^ Z.of_nat tb + (Z.of_nat i - Z.of_nat (noff (S tb))) + fgap b.
Hypothesis Hsize : (noff (S tb) < num)%nat -> forall e, Z.Even e -> e <= bound num (15 - tb) -> e <= Z.of_nat size.

Lemma fgap_S k : fgap (S k) = fgap k + 2 ^ Z.of_nat k - 1.
Proof. unfold fgap. rewrite pow_S. lia. Qed.
Lemma fgap_mono a b : (a <= b)%nat -> fgap a <= fgap b.
Proof. induction 1 as [|b H IH]; [lia|]. rewrite fgap_S. pose proof (pow_pos b). lia. Qed.
Lemma fgap_nonneg a : 0 <= fgap a.
Proof. pose proof (fgap_mono 0 a ltac:(lia)) as H. change (fgap 0) with 0 in H. exact H. Qed.

Record common (l r : nat) (t : list Z) : Prop := {
  co_l : (tb < l <= 15)%nat;
  co_r : (r < nc l)%nat;
  co_len : length t = size;
  co_short : short_ok tb any_sym t
}.
Record waiting (l r : nat) (e : nat) (t : list Z) : Prop := {
  wa_common : common l r t;
  wa_aligned : cw l r = pre l (cw l r) * 2 ^ Z.of_nat (l - tb);
  wa_e : (2 ^ tb <= e <= size)%nat;
  wa_even : Z.Even (Z.of_nat e);
  wa_bound : Z.of_nat e <= bound (noff l + r) (l - tb);
  wa_done : forall s k, before l r s k -> (tb < k)%nat -> exists st b, placed t s k st b /\ (st + 2 ^ b <= e)%nat
}.
(** Index of the first symbol after those with prefix [q]. *)
Definition iend (q : Z) (b : nat) : Z := Z.of_nat (noff (tb + b)) + ((q + 1) * 2 ^ Z.of_nat b - fc (tb + b)).
Record ready (l r start b : nat) (t : list Z) : Prop := {
  re_common : common l r t;
  re_b : (l <= tb + b <= 15)%nat;
  re_reach : (pre l (cw l r) + 1) * 2 ^ Z.of_nat b <= tot (tb + b);
  re_min : (tb + b <= l)%nat \/ tot (tb + b - 1) < (pre l (cw l r) + 1) * 2 ^ Z.of_nat (b - 1);
  re_start : (2 ^ tb <= start)%nat;
  re_e : (start + 2 ^ b <= size)%nat;
  re_even : Z.Even (Z.of_nat (start + 2 ^ b));
  re_bound : Z.of_nat (start + 2 ^ b) <= 2 ^ Z.of_nat tb + (iend (pre l (cw l r)) b - Z.of_nat (noff (S tb))) + fgap b;
  re_ptr : zn t (rev tb (pre l (cw l r))) = pointer_entry tb start b;
  re_done : forall s k, before l r s k -> (tb < k)%nat -> exists st b',
    placed t s k st b' /\ (pre k (codeword ls s) = pre l (cw l r) /\ st = start /\ b' = b \/
                          pre k (codeword ls s) <> pre l (cw l r) /\ (st + 2 ^ b' <= start)%nat)
}.

Lemma cw_step_before l r s k : (tb < l <= 15)%nat -> (r < nc l)%nat -> before l r s k -> (tb < k)%nat ->
  (codeword ls s + 1) * 2 ^ Z.of_nat (l - k) <= cw l r.
Proof.
  intros Hl Hr (A & B & C & D) Hk.
  pose proof (rank_lt ls s k ltac:(rewrite lsl; exact A) B) as Rk. rewrite (cw_of s k B). unfold cw.
  destruct D as [D|[-> D]].
  - pose proof (first_code_after ls l k D) as F. unfold total in F. rewrite cz_nc in F by (clear -C; lia).
    pose proof (pow_pos (l - k)) as P. set (w := 2 ^ Z.of_nat (l - k)) in *. clearbody w. clear -F P Rk. nia.
  - rewrite Nat.sub_diag. change (2 ^ Z.of_nat 0) with 1. clear -D. lia.
Qed.

Lemma aligned_pre l r s k : (tb < l <= 15)%nat -> (r < nc l)%nat -> before l r s k -> (tb < k)%nat ->
  cw l r = pre l (cw l r) * 2 ^ Z.of_nat (l - tb) -> pre k (codeword ls s) < pre l (cw l r).
Proof.
  intros Hl Hr B Hk E. pose proof (cw_step_before l r s k Hl Hr B Hk) as C.
  assert (Hkl : (k <= l)%nat) by (destruct B as (_ & _ & _ & [D|[-> _]]); [clear -D; lia|apply le_n]).
  rewrite E in C. replace (2 ^ Z.of_nat (l - tb)) with (2 ^ Z.of_nat (k - tb) * 2 ^ Z.of_nat (l - k)) in C
    by (rewrite <- Z.pow_add_r by lia; f_equal; clear -Hk Hkl; lia).
  unfold pre at 1. pose proof (pow_pos (k - tb)). pose proof (pow_pos (l - k)).
  apply Z.div_lt_upper_bound; [assumption|]. set (q := pre l (cw l r)) in *. set (u := 2 ^ Z.of_nat (k - tb)) in *. set (w := 2 ^ Z.of_nat (l - k)) in *.
  clearbody q u w. clear E. nia.
Qed.

Lemma sub_bits_ok q l i : (tb < l)%nat -> 0 <= q < 2 ^ Z.of_nat tb -> forall fuel k used, (l <= tb + k <= 15)%nat -> (15 - tb < fuel + k)%nat ->
  Z.of_nat used = tot (tb + k) - q * 2 ^ Z.of_nat k ->
  2 ^ Z.of_nat (l - tb) + (Z.of_nat k - Z.of_nat (l - tb)) <= iend q k - i ->
  ((tb + k <= l)%nat \/ tot (tb + k - 1) < (q + 1) * 2 ^ Z.of_nat (k - 1)) ->
  exists b, sub_bits counts tb fuel k used = Ok b /\ (l <= tb + b <= 15)%nat /\ (q + 1) * 2 ^ Z.of_nat b <= tot (tb + b) /\
    2 ^ Z.of_nat (l - tb) + (Z.of_nat b - Z.of_nat (l - tb)) <= iend q b - i /\
    ((tb + b <= l)%nat \/ tot (tb + b - 1) < (q + 1) * 2 ^ Z.of_nat (b - 1)).
Proof.
  intros Hl Hq. induction fuel as [|fuel IH]; intros k used Hk Hf Hu Hi Hm; [clear -Hk Hf; lia|]. cbn [sub_bits].
  destruct (Nat.ltb_spec used (2 ^ k)) as [Hlt|Hge].
  - assert (Hlt' : tot (tb + k) < (q + 1) * 2 ^ Z.of_nat k).
    { pose proof (pow_nat k) as P. clear -P Hlt Hu. lia. }
    assert (Hk15 : (tb + k < 15)%nat).
    { destruct (Nat.eq_dec (tb + k) 15) as [E15|]; [|clear -Hk n; lia]. exfalso.
      rewrite E15, Hcomplete in Hlt'. replace (2 ^ 15) with (2 ^ Z.of_nat tb * 2 ^ Z.of_nat k) in Hlt' by (rewrite <- Z.pow_add_r by lia; f_equal; clear -E15; lia).
      pose proof (pow_pos k) as P. set (w := 2 ^ Z.of_nat k) in *. set (v := 2 ^ Z.of_nat tb) in *. clearbody v w. clear -Hlt' P Hq. nia. }
    replace (15 <? S k + tb)%nat with false by (symmetry; apply Nat.ltb_ge; clear -Hk15; lia).
    rewrite (get_at_ok counts (tb + S k) 0%nat) by (rewrite Hlen; clear -Hk15; lia). cbn [bind].
    rewrite Hcount by (clear -Hk15; lia).
    assert (T1 : tot (tb + S k) = 2 * tot (tb + k) + Z.of_nat (nc (tb + S k))).
    { replace (tb + S k)%nat with (S (tb + k)) by (clear; lia). rewrite total_S, cz_nc by (clear; lia). reflexivity. }
    destruct (IH (S k) (2 * used + nc (tb + S k))%nat) as (b & E & B1 & B2 & B3 & B4).
    + clear -Hk Hk15; lia.
    + clear -Hf; lia.
    + rewrite T1, pow_S. clear -Hu. lia.
    + assert (G : iend q (S k) = iend q k + ((q + 1) * 2 ^ Z.of_nat k - tot (tb + k))).
      { unfold iend. replace (tb + S k)%nat with (S (tb + k)) by (clear; lia). rewrite first_code_S, pow_S.
        change (noff (S (tb + k))) with (noff (tb + k) + nc (tb + k))%nat. unfold total. rewrite cz_nc by (clear -Hk Hl; lia).
        set (w := 2 ^ Z.of_nat k). clearbody w. clear. lia. }
      rewrite G. clear -Hi Hlt'. lia.
    + right. replace (tb + S k - 1)%nat with (tb + k)%nat by (clear; lia). replace (S k - 1)%nat with k by (clear; lia). exact Hlt'.
    + exists b. split; [exact E|]. split; [clear -B1 Hk; lia|]. auto.
  - exists k. split; [reflexivity|]. split; [exact Hk|]. split.
    + pose proof (pow_nat k) as P. clear -P Hge Hu. lia.
    + auto.
Qed.

Lemma before_codeword l r s k : before l r s k -> (k <= 15)%nat -> (rank ls s < nc k)%nat /\ codeword ls s = cw k (rank ls s).
Proof. intros (A & B & _) Hk. split; [apply rank_lt; [rewrite lsl; exact A|exact B]|exact (cw_of s k B)]. Qed.

Lemma pow_even k : (1 <= k)%nat -> Z.Even (Z.of_nat (2 ^ k)).
Proof. intros H. destruct k as [|k]; [lia|]. exists (Z.of_nat (2 ^ k)). cbn [Nat.pow]. lia. Qed.

Lemma even_add a b : Z.Even a -> Z.Even b -> Z.Even (a + b).
Proof. intros [x ->] [y ->]. exists (x + y). ring. Qed.

Lemma open_ok l r e t : waiting l r e t -> exists b t', sub_bits counts tb 16 (l - tb) (nc l - r) = Ok b /\
  set_at t (Z.to_nat (rev tb (pre l (cw l r)))) (pointer_entry tb e b) = Ok t' /\ ready l r e b t'.
Proof.
  intros W. destruct W as [[Hl Hr Ht Hsh] Ha He Hev Hb Hd].
  pose proof (pre_bound l r Hl Hr) as Bq. set (q := pre l (cw l r)) in *.
  assert (Etl : (tb + (l - tb) = l)%nat) by (clear -Hl; lia).
  assert (Htot : tot l = fc l + Z.of_nat (nc l)) by (unfold total; rewrite cz_nc by (clear -Hl; lia); reflexivity).
  assert (Hcw : q * 2 ^ Z.of_nat (l - tb) = fc l + Z.of_nat r) by (rewrite <- Ha; reflexivity).
  destruct (sub_bits_ok q l (Z.of_nat (noff l + r)) (proj1 Hl) Bq 16 (l - tb) (nc l - r)%nat) as (b & Eb & B1 & B2 & B3 & B4).
  - rewrite Etl. clear -Hl; lia.
  - clear -Hl; lia.
  - rewrite Etl, Htot, Hcw. clear -Hr; lia.
  - unfold iend. rewrite Etl. replace ((q + 1) * 2 ^ Z.of_nat (l - tb)) with (fc l + Z.of_nat r + 2 ^ Z.of_nat (l - tb)) by (rewrite <- Hcw; ring). clear; lia.
  - left. rewrite Etl. apply le_n.
  - pose proof (rev_bound tb q) as Rq. pose proof (pow_nat tb) as Pt.
    assert (Hin : (Z.to_nat (rev tb q) < length t)%nat) by (rewrite Ht; clear -Rq Pt Hts; lia).
    exists b, (upd t (Z.to_nat (rev tb q)) (pointer_entry tb e b)). split; [exact Eb|]. split; [apply set_at_ok; exact Hin|].
    assert (Oth : forall p, 0 <= p -> p <> rev tb q -> zn (upd t (Z.to_nat (rev tb q)) (pointer_entry tb e b)) p = zn t p).
    { intros p H0 Hp. unfold zn. apply upd_nth_other. intros C. apply Hp. clear -C H0 Rq. lia. }
    assert (Iend : iend q b <= Z.of_nat num).
    { unfold iend. unfold total in B2. rewrite cz_nc in B2 by (clear -B1 Hl; lia).
      pose proof (noff_mono lens num num_ok num_max (S (tb + b)) 16 ltac:(clear -B1; lia)) as M.
      rewrite (noff_total lens num num_ok num_max range) in M. change (noff (S (tb + b))) with (noff (tb + b) + nc (tb + b))%nat in M. clear -M B2. lia. }
    assert (Hbd : Z.of_nat (e + 2 ^ b) <= 2 ^ Z.of_nat tb + (iend q b - Z.of_nat (noff (S tb))) + fgap b).
    { unfold bound in Hb. unfold fgap in *. rewrite Nat2Z.inj_add, pow_nat. clear -Hb B3. lia. }
    assert (Hev2 : Z.Even (Z.of_nat (e + 2 ^ b))).
    { rewrite Nat2Z.inj_add. apply even_add; [exact Hev|]. apply pow_even. clear -B1 Hl. lia. }
    assert (Hfit : (e + 2 ^ b <= size)%nat).
    { apply Nat2Z.inj_le. apply Hsize; [|exact Hev2|].
      - pose proof (noff_slot lens num num_ok num_max range l r ltac:(clear -Hl; lia) Hr) as N.
        pose proof (noff_mono lens num num_ok num_max (S tb) l ltac:(clear -Hl; lia)) as M. clear -N M. lia.
      - unfold bound. pose proof (fgap_mono b (15 - tb) ltac:(clear -B1; lia)). clear -Hbd Iend H. lia. }
    constructor; fold q; auto.
    + constructor; auto; [rewrite upd_length; exact Ht|].
      intros s k p Hs Hk Hp Ep. rewrite Oth; [apply Hsh; auto|clear -Hp; lia|].
      intros ->. apply (before_apart l r s k ltac:(clear -Hl; lia) Hr).
      * destruct Hs as (S1 & S2 & S3). repeat split; auto. left. clear -Hk Hl. lia.
      * rewrite <- Ep. rewrite <- (mod_mod_pow (rev l (cw l r)) tb k) by exact Hk. f_equal.
        pose proof (rev_prefix (l - tb) tb (cw l r)) as P. rewrite Etl in P. exact P.
    + apply He.
    + unfold zn. apply upd_nth_same. exact Hin.
    + intros s k Hs Hk. destruct (Hd s k Hs Hk) as (st & b' & (P1 & P2 & P3 & P4 & P5) & Q).
      assert (Hlt : pre k (codeword ls s) < q) by (apply (aligned_pre l r s k Hl Hr Hs Hk Ha)).
      destruct (before_codeword l r s k Hs ltac:(clear -P4; lia)) as [Rk Ck].
      pose proof (pre_bound k (rank ls s) ltac:(clear -P4 Hk; lia) Rk) as Bk. rewrite <- Ck in Bk.
      exists st, b'. split; [|right; split; [clear -Hlt; lia|exact Q]].
      split; [|split; [exact P2|split; [exact P3|split; [exact P4|]]]].
      * rewrite Oth; [exact P1|apply rev_bound|]. intros C. apply rev_inj in C; [clear -C Hlt; lia|exact Bk|exact Bq].
      * intros x Hx Ex. rewrite Oth; [apply P5; auto|clear -Hx; lia|]. clear -Rq Pt P2 Hx. lia.
Qed.

(** The fill step. *)
Record filled (l r start b : nat) (t : list Z) : Prop := {
  fi_len : length t = size;
  fi_short : short_ok tb any_sym t;
  fi_ptr : zn t (rev tb (pre l (cw l r))) = pointer_entry tb start b;
  fi_done : forall s k, before l (r + 1) s k -> (tb < k)%nat -> exists st b',
    placed t s k st b' /\ (pre k (codeword ls s) = pre l (cw l r) /\ st = start /\ b' = b \/
                          pre k (codeword ls s) <> pre l (cw l r) /\ (st + 2 ^ b' <= start)%nat)
}.

Lemma stride_mod y hi w : 0 <= hi < w -> 0 <= y -> (y mod w = hi <-> hi <= y /\ (y - hi) mod w = 0).
Proof.
  intros H Hy. split.
  - intros E. rewrite (Z.div_mod y w) by lia. rewrite E. split; [pose proof (Z.div_pos y w); nia|].
    replace (w * (y / w) + hi - hi) with (y / w * w) by ring. apply Z.mod_mul. lia.
  - intros [H1 H2]. apply Z.mod_divide in H2; [|lia]. destruct H2 as [k Hk]. replace y with (hi + k * w) by lia.
    rewrite Z.mod_add by lia. apply Z.mod_small. lia.
Qed.

Lemma fill_ok l r start b t sy : ready l r start b t -> (sy < num)%nat -> nth sy ls 0 = Z.of_nat l -> rank ls sy = r ->
  exists t', fill_stride (S (start + 2 ^ b)) t (start + Z.to_nat (Z.shiftr (rev l (cw l r)) (Z.of_nat tb))) (2 ^ (l - tb)) (start + 2 ^ b)
               (entry sy (l - tb)) = Ok t' /\ filled l r start b t'.
Proof.
  intros R S1 S2 S3. destruct R as [[Hl Hr Ht Hsh] Hb Hre _ Hst He _ _ Hp Hd].
  assert (S5 : codeword ls sy = cw l r) by (rewrite (cw_of sy l S2), S3; reflexivity).
  assert (Etl : (tb + (l - tb) = l)%nat) by (clear -Hl; lia).
  set (v := rev l (cw l r)) in *. pose proof (rev_bound l (cw l r)) as Bv. fold v in Bv.
  rewrite Z.shiftr_div_pow2 by (clear; lia). set (hi := v / 2 ^ Z.of_nat tb).
  pose proof (pow_pos tb) as Ptb.
  assert (Bhi : 0 <= hi < 2 ^ Z.of_nat (l - tb)).
  { unfold hi. split; [apply Z.div_pos; [apply Bv|exact Ptb]|]. apply Z.div_lt_upper_bound; [exact Ptb|].
    rewrite <- Z.pow_add_r by (clear; lia). replace (Z.of_nat tb + Z.of_nat (l - tb)) with (Z.of_nat l) by (clear -Hl; lia). apply Bv. }
  assert (Hst1 : (1 <= 2 ^ (l - tb))%nat) by (clear; induction (l - tb)%nat; cbn [Nat.pow]; lia).
  destruct (fill_stride_ok (entry sy (l - tb)) (2 ^ (l - tb)) (start + 2 ^ b) Hst1 (S (start + 2 ^ b)) t (start + Z.to_nat hi))
    as (t' & E & L & A & B); [rewrite Ht; exact He|clear; lia|clear; lia|].
  exists t'. split; [exact E|].
  assert (Low : forall p, p < Z.of_nat start -> zn t' p = zn t p).
  { intros p Hq. unfold zn. apply A. left. pose proof (pow_nat tb) as Pt. clear -Hq Hst Pt Ptb. lia. }
  assert (Hlb : 2 ^ Z.of_nat (l - tb) <= 2 ^ Z.of_nat b) by (apply Z.pow_le_mono_r; clear -Hb; lia).
  assert (In : forall y, 0 <= y < 2 ^ Z.of_nat b ->
    zn t' (Z.of_nat start + y) = if y mod 2 ^ Z.of_nat (l - tb) =? hi then entry sy (l - tb) else zn t (Z.of_nat start + y)).
  { intros y Hy. unfold zn. pose proof (pow_nat b) as Pb. pose proof (pow_nat (l - tb)) as Pl.
    pose proof (stride_mod y hi (2 ^ Z.of_nat (l - tb)) Bhi (proj1 Hy)) as SM.
    destruct (Z.eqb_spec (y mod 2 ^ Z.of_nat (l - tb)) hi) as [Ey|Ey].
    - apply SM in Ey. destruct Ey as [E1 E2]. rewrite B by (clear -E1 Hy Pb Bhi; lia).
      replace (Z.to_nat (Z.of_nat start + y) - (start + Z.to_nat hi))%nat with (Z.to_nat (y - hi)) by (clear -E1 Hy Bhi; lia).
      rewrite <- Pl in E2. rewrite <- (Nat2Z.id (2 ^ (l - tb))). rewrite <- Z2Nat.inj_mod by (clear -E1; lia). rewrite E2. reflexivity.
    - destruct (Z.lt_ge_cases y hi) as [Hlt|Hge].
      + apply A. left. clear -Hlt Bhi Hy. lia.
      + rewrite B by (clear -Hge Hy Pb Bhi; lia).
        replace (Z.to_nat (Z.of_nat start + y) - (start + Z.to_nat hi))%nat with (Z.to_nat (y - hi)) by (clear -Hge Hy Bhi; lia).
        assert (NE : (y - hi) mod 2 ^ Z.of_nat (l - tb) <> 0) by (intros C; apply Ey, SM; split; [exact Hge|exact C]).
        rewrite <- Pl in NE. rewrite <- (Nat2Z.id (2 ^ (l - tb))). rewrite <- Z2Nat.inj_mod by (clear -Hge; lia).
        pose proof (Z.mod_pos_bound (y - hi) (Z.of_nat (2 ^ (l - tb))) ltac:(clear -Hst1; lia)) as MB.
        set (m := (y - hi) mod Z.of_nat (2 ^ (l - tb))) in *. clearbody m.
        destruct (Nat.eqb_spec (Z.to_nat m) 0) as [C|C]; [clear -C NE MB; lia|reflexivity]. }
  pose proof (rev_bound tb) as Rtb. pose proof (pow_nat tb) as Pt.
  assert (Lowtb : forall p, p < 2 ^ Z.of_nat tb -> zn t' p = zn t p) by (intros p Hq; apply Low; clear -Hq Pt Hst; lia).
  constructor.
  - rewrite L. exact Ht.
  - intros s k p H1 H2 H3 H4. rewrite Lowtb by apply H3. apply Hsh; auto.
  - rewrite Lowtb by apply Rtb. exact Hp.
  - intros s k Hs Hk. destruct (before_next l r s k Hs) as [Hs'|[-> Hx]].
    + destruct (Hd s k Hs' Hk) as (st & b' & (P1 & P2 & P3 & P4 & P5) & Q). exists st, b'. split; [|exact Q].
      split; [rewrite Lowtb by apply Rtb; exact P1|split; [exact P2|split; [exact P3|split; [exact P4|]]]].
      intros x Hx Ex. destruct Q as [(Q1 & -> & ->)|[Q1 Q2]].
      * rewrite In by exact Hx. destruct (Z.eqb_spec (x mod 2 ^ Z.of_nat (l - tb)) hi) as [C|C]; [|apply P5; auto].
        exfalso. assert (Hkl : (k <= l)%nat) by (destruct Hs' as (_ & _ & _ & [D|[-> _]]); [clear -D; lia|apply le_n]).
        apply (before_apart l r s k ltac:(clear -Hl; lia) Hr Hs'). fold v.
        assert (Ew : rev k (codeword ls s) = rev k (codeword ls s) mod 2 ^ Z.of_nat tb + 2 ^ Z.of_nat tb * (rev k (codeword ls s) / 2 ^ Z.of_nat tb)).
        { rewrite Z.add_comm. apply Z.div_mod. clear -Ptb; lia. }
        rewrite Ew. rewrite <- Ex. pose proof (rev_prefix (k - tb) tb (codeword ls s)) as RP.
        replace (tb + (k - tb))%nat with k in RP by (clear -Hk; lia). rewrite RP. fold (pre k (codeword ls s)). rewrite Q1.
        replace (Z.of_nat k) with (Z.of_nat tb + Z.of_nat (k - tb)) by (clear -Hk; lia). rewrite Z.pow_add_r by (clear; lia).
        rewrite Z.rem_mul_r by (try exact (pow_pos (k - tb)); clear -Ptb; lia).
        pose proof (rev_prefix (l - tb) tb (cw l r)) as RQ. rewrite Etl in RQ. fold v in RQ. rewrite RQ. fold (pre l (cw l r)). f_equal. f_equal.
        fold hi. rewrite <- C. rewrite mod_mod_pow; [reflexivity|]. clear -Hkl. lia.
      * rewrite Low; [apply P5; auto|]. pose proof (pow_nat b') as Pb. clear -Pb Q2 Hx. lia.
    + destruct Hs as (B1 & B2 & _). assert (s = sy).
      { eapply (rank_inj ls s sy l); auto; try (rewrite lsl; auto). rewrite Hx, S3. reflexivity. }
      subst s. exists start, b. split; [|left; rewrite S5; auto].
      split; [rewrite S5, Lowtb by apply Rtb; exact Hp|split; [exact Hst|split; [exact He|split; [exact Hb|]]]].
      intros x Hx' Ex. rewrite In by exact Hx'. rewrite Ex, S5. fold v. fold hi. rewrite Z.eqb_refl. reflexivity.
Qed.

Lemma sub_next_len_ok : forall fuel len count, (1 <= len < 16)%nat -> (16 - len <= fuel)%nat ->
  (count <> 0%nat -> sub_next_len counts (S fuel) len count = Ok (len, count)) /\
  (count = 0%nat -> (exists k, (len < k <= 15)%nat /\ nc k <> 0%nat) -> exists k, sub_next_len counts (S fuel) len count = Ok (k, nc k) /\
     (len < k <= 15)%nat /\ nc k <> 0%nat /\ forall j, (len < j < k)%nat -> nc j = 0%nat).
Proof.
  induction fuel as [|fuel IH]; intros len count Hl Hf; [clear -Hl Hf; lia|].
  assert (A : count <> 0%nat -> sub_next_len counts (S (S fuel)) len count = Ok (len, count)).
  { intros H. cbn [sub_next_len]. replace (count =? 0)%nat with false by (symmetry; apply Nat.eqb_neq; exact H). reflexivity. }
  split; [exact A|]. intros -> (k & Hk & Nk).
  change (sub_next_len counts (S (S fuel)) len 0) with (do c <- get_at counts (S len) ; sub_next_len counts (S fuel) (S len) c).
  rewrite (get_at_ok counts (S len) 0%nat) by (rewrite Hlen; clear -Hk; lia). cbn [bind]. rewrite Hcount by (clear -Hk; lia).
  destruct (Nat.eq_dec (nc (S len)) 0) as [Z0|Z0].
  - assert (S len <> k) by (intros C; apply Nk; rewrite <- C; exact Z0).
    destruct (IH (S len) (nc (S len))) as [_ H2]; [clear -Hk H; lia|clear -Hf; lia|].
    destruct (H2 Z0) as (k' & E & K1 & K2 & K3); [exists k; split; [clear -Hk H; lia|exact Nk]|].
    exists k'. split; [exact E|]. split; [clear -K1; lia|]. split; [exact K2|].
    intros j Hj. destruct (Nat.eq_dec j (S len)) as [->|]; [exact Z0|]. apply K3. clear -Hj n. lia.
  - exists (S len). split; [|split; [clear -Hk; lia|split; [exact Z0|intros j Hj; clear -Hj; lia]]].
    cbn [sub_next_len]. replace (nc (S len) =? 0)%nat with false by (symmetry; apply Nat.eqb_neq; exact Z0). reflexivity.
Qed.

Lemma advance l r l' r' start b t0 t : ready l r start b t0 -> filled l r start b t ->
  (l <= l' <= 15)%nat -> (r' < nc l')%nat -> cw l' r' = (cw l r + 1) * 2 ^ Z.of_nat (l' - l) ->
  (noff l' + r' = noff l + (r + 1))%nat -> (forall s k, before l' r' s k -> before l (r + 1) s k) ->
  (pre l' (cw l' r') = pre l (cw l r) /\ ready l' r' start b t) \/
  (pre l' (cw l' r') = pre l (cw l r) + 1 /\ waiting l' r' (start + 2 ^ b) t).
Proof.
  intros R F Hl' Hr' Ec Ei Hbef. destruct R as [[Hl Hr _ _] Hb Hre Hmin Hst He Hev Hbd _ _]. destruct F as [Ft Fs Fp Fd].
  pose proof (pow_pos (l - tb)) as Pw. pose proof (pow_pos (l' - l)) as Pd.
  assert (Ew : 2 ^ Z.of_nat (l' - tb) = 2 ^ Z.of_nat (l - tb) * 2 ^ Z.of_nat (l' - l)).
  { rewrite <- Z.pow_add_r by (clear; lia). f_equal. clear -Hl Hl'. lia. }
  assert (Ep : pre l' (cw l' r') = (cw l r + 1) / 2 ^ Z.of_nat (l - tb)).
  { unfold pre. rewrite Ec, Ew. apply Z.div_mul_cancel_r; [clear -Pw|clear -Pd]; lia. }
  assert (Ed : cw l r = pre l (cw l r) * 2 ^ Z.of_nat (l - tb) + cw l r mod 2 ^ Z.of_nat (l - tb)).
  { unfold pre. rewrite Z.mul_comm. apply Z.div_mod. clear -Pw; lia. }
  pose proof (Z.mod_pos_bound (cw l r) _ Pw) as Bm.
  set (q := pre l (cw l r)) in *. set (m := cw l r mod 2 ^ Z.of_nat (l - tb)) in *.
  assert (Cm : common l' r' t) by (constructor; auto; clear -Hl Hl'; lia).
  destruct (Z.lt_ge_cases (m + 1) (2 ^ Z.of_nat (l - tb))) as [Hm|Hm].
  - left. assert (Eq : pre l' (cw l' r') = q).
    { rewrite Ep, Ed. replace (q * 2 ^ Z.of_nat (l - tb) + m + 1) with (q * 2 ^ Z.of_nat (l - tb) + (m + 1)) by ring.
      rewrite Z.div_add_l by (clear -Pw; lia). rewrite Z.div_small by (clear -Bm Hm; lia). ring. }
    split; [exact Eq|]. constructor; rewrite ?Eq; auto.
    + split; [|apply Hb]. destruct (Nat.le_gt_cases l' (tb + b)) as [H|H]; [exact H|exfalso].
      pose proof (first_code_after ls l' (tb + b) H) as FA.
      assert (G : q + 1 <= pre l' (cw l' r')).
      { unfold pre. apply Z.div_le_lower_bound; [apply pow_pos|].
        replace (2 ^ Z.of_nat (l' - tb)) with (2 ^ Z.of_nat b * 2 ^ Z.of_nat (l' - (tb + b)))
          by (rewrite <- Z.pow_add_r by (clear; lia); f_equal; clear -H; lia).
        unfold cw. pose proof (pow_pos (l' - (tb + b))) as P2. pose proof (pow_pos b) as P3.
        set (u := 2 ^ Z.of_nat b) in *. set (w := 2 ^ Z.of_nat (l' - (tb + b))) in *. set (T := tot (tb + b)) in *.
        assert ((q + 1) * u * w <= T * w) by (apply Z.mul_le_mono_nonneg_r; [clear -P2; lia|exact Hre]).
        clear -H0 FA. lia. }
      clear -G Eq. lia.
    + destruct Hmin as [H|H]; [left; clear -H Hl'; lia|right; exact H].
  - right. assert (Hc1 : cw l r + 1 = (q + 1) * 2 ^ Z.of_nat (l - tb)).
    { rewrite Ed. clear -Bm Hm. lia. }
    assert (Eq : pre l' (cw l' r') = q + 1) by (rewrite Ep, Hc1; apply Z.div_mul; clear -Pw; lia).
    split; [exact Eq|].
    assert (Elb : l = (tb + b)%nat).
    { destruct Hmin as [H|H]; [clear -H Hb; lia|]. destruct (Nat.eq_dec l (tb + b)) as [|n]; [assumption|exfalso].
      assert (Hlb : (l <= tb + b - 1)%nat) by (clear -Hb n; lia).
      pose proof (total_mono ls (tb + b - 1 - l) l) as M. replace (l + (tb + b - 1 - l))%nat with (tb + b - 1)%nat in M by (clear -Hlb; lia).
      assert (C1 : cw l r + 1 <= tot l).
      { unfold total, cw. rewrite cz_nc by (clear -Hl; lia). clear -Hr. lia. }
      assert (E2 : 2 ^ Z.of_nat (b - 1) = 2 ^ Z.of_nat (l - tb) * 2 ^ Z.of_nat (tb + b - 1 - l)).
      { rewrite <- Z.pow_add_r by (clear; lia). f_equal. clear -Hlb Hl. lia. }
      rewrite E2 in H. rewrite Hc1 in C1. pose proof (pow_pos (tb + b - 1 - l)) as P2.
      set (u := 2 ^ Z.of_nat (l - tb)) in *. set (w := 2 ^ Z.of_nat (tb + b - 1 - l)) in *. set (T := tot l) in *.
      assert ((q + 1) * u * w <= T * w) by (apply Z.mul_le_mono_nonneg_r; [clear -P2; lia|exact C1]).
      clear -H H0 M. lia. }
    constructor; rewrite ?Eq; auto.
    + rewrite Ec, Hc1, Ew. ring.
    + split; [clear -Hst; lia|exact He].
    + assert (Ie : iend q b = Z.of_nat (noff l + (r + 1))).
      { unfold iend. rewrite <- Elb. replace b with (l - tb)%nat by (clear -Elb; lia). rewrite <- Hc1. unfold cw. clear. lia. }
      rewrite Ie, <- Ei in Hbd. unfold bound. pose proof (fgap_mono b (l' - tb) ltac:(clear -Elb Hl'; lia)) as FM. clear -Hbd FM. lia.
    + intros s k Hs Hk. destruct (Fd s k (Hbef s k Hs) Hk) as (st & b' & P & [(_ & -> & ->)|[_ Q]]).
      * exists start, b. split; [exact P|apply le_n].
      * exists st, b'. split; [exact P|clear -Q; lia].
Qed.

Lemma sub_loop_ok : forall fuel l r prefix start s,
  b_len s = l -> b_i s = (noff l + r)%nat -> b_code s = rev l (cw l r) -> b_count s = (nc l - r)%nat -> (num < fuel + (noff l + r))%nat ->
  (exists b, prefix = rev tb (pre l (cw l r)) /\ b_end s = (start + 2 ^ b)%nat /\ ready l r start b (b_table s)) \/
  (prefix <> rev tb (pre l (cw l r)) /\ waiting l r (b_end s) (b_table s)) ->
  exists t, sub_loop results counts sorted tb fuel prefix start s = Ok t /\ length t = size /\ short_ok tb any_sym t /\
    forall s k, any_sym s k -> (tb < k)%nat -> exists st b, placed t s k st b.
Proof.
  induction fuel as [|fuel IH]; intros l r prefix start s El Ei Ec Ek Hf Hst.
  - exfalso. assert (H : (tb < l <= 15)%nat /\ (r < nc l)%nat) by (destruct Hst as [(b & _ & _ & [[? ? _ _] _ _ _ _ _ _ _ _ _])|[_ [[? ? _ _] _ _ _ _ _]]]; auto).
    destruct H as [Hl Hr]. pose proof (noff_slot lens num num_ok num_max range l r ltac:(clear -Hl; lia) Hr) as N. clear -N Hf. lia.
  - cbn [sub_loop]. rewrite El, Ei, Ec, Ek.
    assert (H : (tb < l <= 15)%nat /\ (r < nc l)%nat) by (destruct Hst as [(b & _ & _ & [[? ? _ _] _ _ _ _ _ _ _ _ _])|[_ [[? ? _ _] _ _ _ _ _]]]; auto).
    destruct H as [Hl Hr]. rewrite low_pre by (clear -Hl; lia).
    assert (Op : exists t1 st b, (if rev tb (pre l (cw l r)) =? prefix then Ok (b_table s, prefix, start, b_end s)
        else do bits <- sub_bits counts tb 16 (l - tb) (nc l - r) ;
             do table <- set_at (b_table s) (Z.to_nat (rev tb (pre l (cw l r)))) (pointer_entry tb (b_end s) bits) ;
             Ok (table, rev tb (pre l (cw l r)), b_end s, (b_end s + 2 ^ bits)%nat)) = Ok (t1, rev tb (pre l (cw l r)), st, (st + 2 ^ b)%nat) /\
        ready l r st b t1).
    { destruct Hst as [(b & E1 & E2 & R)|[E1 W]].
      - exists (b_table s), start, b. rewrite E1, Z.eqb_refl, E2. auto.
      - destruct (open_ok l r (b_end s) (b_table s) W) as (b & t1 & A & B & C). exists t1, (b_end s), b.
        replace (rev tb (pre l (cw l r)) =? prefix) with false by (symmetry; apply Z.eqb_neq; congruence).
        rewrite A. cbn [bind]. rewrite B. cbn [bind]. auto. }
    destruct Op as (t1 & st & b & E1 & R). rewrite E1. cbn [bind]. clear E1 Hst.
    destruct (sym_of l r ltac:(clear -Hl; lia) Hr) as (sy & S1 & S2 & S3 & S4 & S5).
    rewrite S4. cbn [bind]. rewrite make_entry_ok by exact S1. cbn [bind].
    destruct (fill_ok l r st b t1 sy R S1 S2 S3) as (t2 & E2 & F). rewrite E2. cbn [bind].
    pose proof (cw_bound l r ltac:(clear -Hl; lia) Hr) as Bc.
    rewrite (Z.shiftl_1_l (Z.of_nat l)).
    destruct (Z.eq_dec (cw l r + 1) (2 ^ Z.of_nat l)) as [El1|El1].
    + replace (rev l (cw l r) =? 2 ^ Z.of_nat l - 1) with true.
      2:{ symmetry. apply Z.eqb_eq. replace (cw l r) with (2 ^ Z.of_nat l - 1) by (clear -El1; lia). apply rev_ones. }
      exists t2. split; [reflexivity|]. destruct (last_code l r ltac:(clear -Hl; lia) Hr El1) as [_ All].
      destruct F as [F1 F2 _ F4]. split; [exact F1|]. split; [exact F2|].
      intros x k Hx Hk. destruct (F4 x k (All x k Hx) Hk) as (st' & b' & P & _). eauto.
    + replace (rev l (cw l r) =? 2 ^ Z.of_nat l - 1) with false.
      2:{ symmetry. apply Z.eqb_neq. intros C. apply El1. rewrite <- (rev_ones l) in C. pose proof (pow_pos l).
          apply rev_inj in C; [clear -C; lia|exact Bc|clear -H; lia]. }
      rewrite next_rev by (clear -Bc El1; lia).
      assert (Nx : exists l' r', sub_next_len counts 16 l (nc l - r - 1) = Ok (l', nc l' - r')%nat /\ (l <= l' <= 15)%nat /\ (r' < nc l')%nat /\
        cw l' r' = (cw l r + 1) * 2 ^ Z.of_nat (l' - l) /\ (noff l' + r' = noff l + (r + 1))%nat /\
        (forall s k, before l' r' s k -> before l (r + 1) s k) /\ rev l (cw l r + 1) = rev l' (cw l' r')).
      { destruct (sub_next_len_ok 15 l (nc l - r - 1)%nat ltac:(clear -Hl; lia) ltac:(clear -Hl; lia)) as [N1 N2].
        destruct (Nat.eq_dec (nc l - r - 1) 0) as [Z0|Z0].
        - assert (Rl : (r + 1 = nc l)%nat) by (clear -Z0 Hr; lia).
          assert (Tl : tot l = cw l r + 1) by (unfold total, cw; rewrite cz_nc by (clear -Hl; lia); clear -Rl; lia).
          destruct (next_exists l ltac:(clear -Hl; lia) ltac:(clear -Tl El1 Bc; lia)) as (k0 & K1 & K2 & _).
          destruct (N2 Z0) as (k & Ek' & K3 & K4 & K5); [exists k0; auto|].
          assert (Ekl : (l + (k - l) = k)%nat) by (clear -K3; lia).
          assert (Fk : cw k 0 = (cw l r + 1) * 2 ^ Z.of_nat (k - l)).
          { unfold cw at 1. rewrite <- Tl. pose proof (gap l (k - l)) as G. rewrite Ekl in G.
            rewrite G; [apply Z.add_0_r|exact K5|clear -K3; lia]. }
          exists k, 0%nat. rewrite Nat.sub_0_r. split; [exact Ek'|]. split; [clear -K3; lia|]. split; [clear -K4; lia|]. split; [exact Fk|].
          split; [rewrite (noff_skip l k) by (try exact K5; clear -K3; lia); clear -Rl; lia|].
          split; [intros x j Hx; rewrite Rl; apply (before_skip l k x j); [clear -K3; lia|exact K5|exact Hx]|].
          rewrite Fk. rewrite <- Ekl at 1. generalize (k - l)%nat as d. generalize (cw l r + 1) as c. clear.
          intros c d. induction d as [|d IHd]; [rewrite Nat.add_0_r; change (2 ^ Z.of_nat 0) with 1; now rewrite Z.mul_1_r|].
          replace (l + S d)%nat with (S (l + d)) by lia. rewrite pow_S. replace (c * (2 * 2 ^ Z.of_nat d)) with (2 * (c * 2 ^ Z.of_nat d)) by lia.
          rewrite rev_double. exact IHd.
        - exists l, (r + 1)%nat. split; [rewrite (N1 Z0); do 2 f_equal; clear; lia|]. split; [clear -Hl; lia|]. split; [clear -Z0; lia|].
          rewrite Nat.sub_diag. change (2 ^ Z.of_nat 0) with 1. replace (cw l (r + 1)) with (cw l r + 1) by (unfold cw; clear; lia).
          split; [ring|]. split; [reflexivity|]. split; [auto|reflexivity]. }
      destruct Nx as (l' & r' & N1 & N2 & N3 & N4 & N5 & N6 & N7). rewrite N1. cbn [bind fst snd]. rewrite N7.
      apply (IH l' r'); cbn [b_len b_i b_code b_count b_end b_table]; auto.
      * rewrite N5. clear. lia.
      * rewrite N5. clear -Hf. lia.
      * destruct (advance l r l' r' st b t1 t2 R F N2 N3 N4 N5 N6) as [[A1 A2]|[A1 A2]].
        -- left. exists b. rewrite A1. auto.
        -- right. split; [|exact A2]. rewrite A1. intros C.
           pose proof (pre_bound l r Hl Hr) as B1. pose proof (pre_bound l' r' ltac:(clear -N2 Hl; lia) N3) as B2. rewrite A1 in B2.
           apply rev_inj in C; [clear -C; lia|exact B1|exact B2].
Qed.

(** From the end of the direct phase. *)
Lemma sub_start l s : (tb < l)%nat -> direct_inv l 0 s -> (forall x k, any_sym x k -> (k <= tb)%nat -> before l 0 x k) ->
  (forall j, (tb < j < l)%nat -> nc j = 0%nat) -> waiting l 0 (2 ^ tb) (b_table s).
Proof.
  intros Hl D Hall Hz. destruct D. specialize (di_first0 Hl). rewrite Nat.min_r in di_short0 by (clear -Hl; lia).
  assert (Ep : pre l (cw l 0) = tot tb) by (unfold pre; rewrite di_first0; apply Z.div_mul; pose proof (pow_pos (l - tb)); clear -H; lia).
  constructor.
  - constructor; auto; [clear -Hl di_l0; lia|]. intros x k p Hx Hk. apply di_short0; auto.
  - rewrite Ep. exact di_first0.
  - split; [apply le_n|exact Hts].
  - apply pow_even. clear -Htb. lia.
  - unfold bound. rewrite pow_nat. pose proof (noff_mono lens num num_ok num_max (S tb) l ltac:(clear -Hl; lia)) as M.
    pose proof (fgap_nonneg (l - tb)) as G. clear -M G. lia.
  - intros x k Hx Hk. exfalso. destruct Hx as (A & B & C & [D|[-> D]]); [|clear -D; lia].
    pose proof (rank_lt ls x k ltac:(rewrite lsl; exact A) B) as Rk. rewrite (Hz k) in Rk by (clear -Hk D; lia). clear -Rk. lia.
Qed.
End Table.
