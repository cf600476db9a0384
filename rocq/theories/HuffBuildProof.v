(** [build_table] accepts every code a stream may describe and the resulting table decodes it. *)
From Verif Require Import Base BaseProof Loops Slices Bits BitReaderSpec BitReaderModel InflateModel HuffModel HuffSpec HuffCode HuffSortProof HuffTableProof.

Definition table_ok (results ls : list Z) (tb size : nat) (t : list Z) : Prop :=
  length t = size /\
  forall src n s l, symbol_at ls src n s l ->
    ((l <= tb)%nat -> zn t (bits_from src n tb) = entry results s l) /\
    ((tb < l)%nat -> exists st b, zn t (bits_from src n tb) = pointer_entry tb st b /\ (2 ^ tb <= st)%nat /\ (st + 2 ^ b <= size)%nat /\
        (l <= tb + b <= 15)%nat /\ zn t (Z.of_nat st + bits_from src (n + Z.of_nat tb) b) = entry results s (l - tb)).

Lemma rev_0 l : rev l 0 = 0.
Proof. induction l as [|l IH]; [reflexivity|]. change 0 with (2 * 0). rewrite rev_double. exact IH. Qed.

Section Build.
Variables (results lens : list Z) (tb num size : nat).
Let ls := firstn num lens.
Hypothesis num_ok : (1 <= num <= length lens)%nat.
Hypothesis num_max : (num <= max_num_syms)%nat.
Hypothesis Hres : (num <= length results)%nat.
Hypothesis Hcode : code_lengths ls.
Hypothesis Htb : (1 <= tb <= 15)%nat.
Hypothesis Hts : (2 ^ tb <= size)%nat.
Hypothesis Hsize : (noff lens num (S tb) < num)%nat -> forall e, Z.Even e -> e <= bound lens num tb num (15 - tb) -> e <= Z.of_nat size.
Notation nc := (ncount ls).

Lemma range : Forall (fun x => 0 <= x <= 15) ls.
Proof. exact (proj1 Hcode). Qed.

Lemma first_len_ok counts : length counts = 16%nat -> (forall l, (l < 16)%nat -> nth l counts 0%nat = nc l) ->
  forall fuel len, (1 <= len <= 15)%nat -> (16 - len <= fuel)%nat -> (exists k, (len <= k <= 15)%nat /\ nc k <> 0%nat) ->
  exists k, first_len fuel counts len (nc len) = (k, nc k) /\ (len <= k <= 15)%nat /\ nc k <> 0%nat /\
    forall j, (len <= j < k)%nat -> nc j = 0%nat.
Proof.
  intros Hl Hc. induction fuel as [|fuel IH]; intros len H Hf (k & Hk & Nk); [lia|]. cbn [first_len].
  destruct (Nat.eqb_spec (nc len) 0) as [E|E].
  - assert (len <> k) by (intros C; apply Nk; rewrite <- C; exact E).
    replace (16 <=? S len)%nat with false by (symmetry; apply Nat.leb_gt; lia). rewrite Hc by lia.
    destruct (IH (S len)) as (k' & A & B & C & D); [lia|lia|exists k; split; [lia|exact Nk]|].
    exists k'. split; [exact A|]. split; [lia|]. split; [exact C|].
    intros j Hj. destruct (Nat.eq_dec j len) as [->|]; [exact E|]. apply D. lia.
  - exists len. split; [reflexivity|]. split; [lia|]. split; [exact E|]. intros; lia.
Qed.

Lemma code_at src n s l : symbol_at ls src n s l ->
  (s < num)%nat /\ nth s ls 0 = Z.of_nat l /\ (1 <= l <= 15)%nat /\ bits_from src n l = rev l (codeword ls s).
Proof.
  intros (A & B & C & D). pose proof (ls_length lens num (proj2 num_ok) num_max) as L. fold ls in L. rewrite L in A.
  split; [exact A|]. split; [exact B|]. split; [|rewrite bits_rev, D; reflexivity].
  pose proof (ls_range lens num (proj2 num_ok) num_max range s A) as R. fold ls in R. lia.
Qed.

Lemma zn_repeat x k p : 0 <= p < Z.of_nat k -> zn (repeat x k) p = x.
Proof.
  intros H. unfold zn. assert (Hi : In (nth (Z.to_nat p) (repeat x k) 0) (repeat x k)) by (apply nth_In; rewrite repeat_length; lia).
  exact (repeat_spec _ _ _ Hi).
Qed.

(** A list whose only non-zero length is a single one. *)
Lemma ncount_zero_le : forall x, In x ls -> 1 <= x -> (1 <= nc (Z.to_nat x))%nat.
Proof.
  intros x Hin H. apply (In_nth _ _ 0) in Hin. destruct Hin as (i & Hi & E).
  pose proof (rank_lt ls i (Z.to_nat x) Hi) as R. rewrite E, Z2Nat.id in R by lia. specialize (R eq_refl). lia.
Qed.

Lemma total_zero_counts m : total ls m = 0 -> forall j, (1 <= j <= m)%nat -> nc j = 0%nat.
Proof.
  induction m as [|m IH]; intros H j Hj; [lia|]. rewrite total_S in H. pose proof (total_nonneg ls m). pose proof (cz_nonneg ls (S m)).
  destruct (Nat.eq_dec j (S m)) as [->|]; [|apply IH; lia].
  assert (E : cz ls (S m) = 0) by lia. cbn [cz] in E. rewrite count_ncount in E. lia.
Qed.

Lemma me_ok s k : (s < num)%nat -> make_entry results s k = Ok (entry results s k).
Proof. intros H. unfold make_entry. rewrite (get_at_ok results s 0) by lia. reflexivity. Qed.

Lemma build_ok : exists t, build_table results lens tb num size = Ok t /\ table_ok results ls tb size t.
Proof.
  unfold build_table. pose proof (proj2 num_ok) as num_ok'. pose proof range as Hr.
  destruct (count_lens_ok lens num num_ok' num_max Hr) as (counts & E1 & L1 & N1). fold ls in N1. rewrite E1. cbn [bind].
  destruct (used_max_ok lens num num_ok' num_max counts 15 ltac:(lia)) as (M1 & M2 & M3). set (m := used_max counts 15) in *.
  assert (Mz : forall l, (m < l <= 15)%nat -> nc l = 0%nat) by (intros l Hl; rewrite <- N1 by lia; apply M2; exact Hl).
  destruct (sort_offsets_ok lens num num_ok' num_max counts L1 N1 m M1) as (offs & used & E2 & L2 & N2 & U2). rewrite E2. cbn [bind fst snd].
  destruct (sort_syms_ok lens num num_ok' num_max Hr counts L1 N1 offs m L2 M1 N2 Mz) as (sorted & offs' & E3 & L3 & L4 & N3 & So).
  fold ls in So. rewrite E3. cbn [bind fst snd]. rewrite (get_at_ok offs' 0 0%nat) by lia. cbn [bind]. rewrite N3.
  set (u := (2 * used + nth m counts 0)%nat).
  assert (Hu : Z.of_nat u = total ls m).
  { unfold u. rewrite N1 by lia. replace m with (S (m - 1)) at 2 by lia. rewrite total_S. fold ls in U2. rewrite <- U2.
    replace (S (m - 1)) with m by lia. destruct m as [|m']; [lia|]. cbn [cz]. rewrite count_ncount. lia. }
  assert (Tm : total ls 15 = total ls m * 2 ^ Z.of_nat (15 - m)).
  { assert (G : forall d, (forall k, (m < k <= m + d)%nat -> nc k = 0%nat) -> total ls (m + d) = total ls m * 2 ^ Z.of_nat d).
    { induction d as [|d IH]; intros Hz; [rewrite Nat.add_0_r; change (2 ^ Z.of_nat 0) with 1; ring|].
      replace (m + S d)%nat with (S (m + d)) by (clear; lia). rewrite total_S, IH by (intros; apply Hz; lia). cbn [cz]. rewrite count_ncount, Hz by lia.
      rewrite pow_S. ring. }
    rewrite <- (G (15 - m)%nat); [f_equal; lia|]. intros k Hk. apply Mz. lia. }
  pose proof (code_space_total ls Hr) as CS.
  assert (P15 : 2 ^ 15 = 2 ^ Z.of_nat m * 2 ^ Z.of_nat (15 - m)) by (rewrite <- Z.pow_add_r by (clear; lia); f_equal; lia).
  pose proof (pow_pos (15 - m)) as Pp. pose proof (pow_nat m) as Pm.
  assert (Hle : total ls 15 <= 2 ^ 15).
  { rewrite <- CS. destruct (proj2 Hcode) as [->|[[-> _]| ->]]; clear; lia. }
  assert (Htm : total ls m <= 2 ^ Z.of_nat m) by (apply total_bound; [lia|exact Hle]).
  replace (2 ^ m <? u)%nat with false by (symmetry; apply Nat.ltb_ge; clear -Pm Hu Htm; lia).
  destruct (Nat.ltb_spec u (2 ^ m)) as [Hlt|Hge].
  - (* an incomplete code *)
    assert (Hno : total ls 15 <> 2 ^ 15).
    { rewrite Tm, P15. clear -Hlt Pm Hu Pp. set (w := 2 ^ Z.of_nat (15 - m)) in *. set (v := 2 ^ Z.of_nat m) in *. clearbody w v. nia. }
    destruct (Nat.eqb_spec u 0) as [U0|U0].
    + rewrite me_ok by lia. cbn [bind]. eexists. split; [reflexivity|].
      split; [apply repeat_length|]. intros src n s l Hs. exfalso. destruct (code_at src n s l Hs) as (A & B & C & _).
      pose proof (rank_lt ls s l ltac:(unfold ls; rewrite (ls_length lens num num_ok' num_max); exact A) B) as R.
      destruct (Nat.le_gt_cases l m) as [Hlm|Hlm].
      * rewrite (total_zero_counts m) in R by (clear -C Hlm Hu U0; lia). clear -R; lia.
      * rewrite Mz in R by (clear -C Hlm; lia). clear -R; lia.
    + assert (Hsp : total ls 15 = 2 ^ 14 /\ count_len ls 1 = 1).
      { destruct (proj2 Hcode) as [H|[H|H]]; rewrite CS in H; [contradiction|exact H|].
        exfalso. apply U0. rewrite Tm in H. clear -H Pp Hu. set (w := 2 ^ Z.of_nat (15 - m)) in *. clearbody w. nia. }
      destruct Hsp as [T14 C1]. assert (C1' : nc 1 = 1%nat) by (rewrite count_ncount in C1; lia).
      assert (T1 : total ls 1 = 1) by (rewrite total_S; cbn [cz total first_code]; rewrite count_ncount, C1'; reflexivity).
      assert (Em : m = 1%nat).
      { destruct M3 as [|M3]; [assumption|]. destruct (Nat.eq_dec m 1) as [|Hn]; [assumption|exfalso]. rewrite N1 in M3 by lia.
        assert (Ge : 1 * 2 ^ Z.of_nat (m - 1) + 1 <= total ls m).
        { pose proof (first_code_after ls m 1 ltac:(lia)) as FA. rewrite T1 in FA. unfold total. destruct m as [|m']; [lia|]. cbn [cz]. rewrite count_ncount. clear -FA M3. lia. }
        rewrite Tm in T14. replace (2 ^ 14) with (2 ^ Z.of_nat (m - 1) * 2 ^ Z.of_nat (15 - m)) in T14 by (rewrite <- Z.pow_add_r by (clear; lia); f_equal; lia).
        clear -T14 Ge Pp. set (w := 2 ^ Z.of_nat (15 - m)) in *. set (v := 2 ^ Z.of_nat (m - 1)) in *. clearbody w v. nia. }
      assert (Hnz : forall l, (1 < l <= 15)%nat -> nc l = 0%nat) by (intros l Hl; apply Mz; rewrite Em; exact Hl).
      clearbody m. subst m. rewrite T1 in Hu. assert (Eu : u = 1%nat) by (clear -Hu; lia). clearbody u. subst u.
      rewrite N1 by lia. rewrite C1'. cbn [Nat.sub Nat.pow Nat.eqb andb negb].
      destruct (rank_exists ls 1 0 ltac:(rewrite C1'; lia)) as (sy & A1 & A2 & A3). unfold ls in A1. rewrite (ls_length lens num num_ok' num_max) in A1.
      rewrite (get_at_ok sorted _ 0%nat).
      2:{ pose proof (noff_slot lens num num_ok' num_max Hr 1 0 ltac:(lia) ltac:(fold ls; rewrite C1'; lia)). rewrite L3. lia. }
      cbn [bind]. replace (nth (noff lens num 1) sorted 0%nat) with sy.
      2:{ symmetry. pose proof (So sy 1%nat A1 A2) as S1. rewrite A3, Nat.add_0_r in S1. exact S1. }
      rewrite me_ok by lia. cbn [bind]. eexists. split; [reflexivity|].
      split; [apply repeat_length|]. intros src n s l Hs. destruct (code_at src n s l Hs) as (A & B & C & _).
      pose proof (rank_lt ls s l ltac:(unfold ls; rewrite (ls_length lens num num_ok' num_max); exact A) B) as R.
      assert (El : l = 1%nat) by (destruct (Nat.eq_dec l 1) as [|Hn]; [assumption|]; rewrite Hnz in R by (clear -C Hn; lia); clear -R; lia).
      subst l. assert (s = sy).
      { apply (rank_inj ls s sy 1); auto; try (unfold ls; rewrite (ls_length lens num num_ok' num_max); auto). rewrite A3. rewrite C1' in R. clear -R. lia. }
      subst s. split; [|intros; lia]. intros _. apply zn_repeat. pose proof (bits_from_bound src tb n). pose proof (pow_nat tb). clear -H H0 Hts. lia.
  - (* a complete code *)
    assert (Hfull : total ls 15 = 2 ^ 15).
    { rewrite Tm, P15. f_equal. clear -Hge Pm Hu Htm. lia. }
    assert (Hex : exists k, (1 <= k <= 15)%nat /\ nc k <> 0%nat).
    { exists m. split; [lia|]. destruct M3 as [Em|M3]; [|rewrite <- N1 by lia; exact M3].
      intros C. rewrite Em in *. rewrite total_S in Hu. cbn [cz total first_code] in Hu. rewrite count_ncount, C in Hu.
      change (total ls 0) with 0 in Hu. clearbody u. clear -Hu Hge. cbn [Nat.pow Nat.mul Nat.add] in Hge. lia. }
    rewrite N1 by lia.
    destruct (first_len_ok counts L1 N1 16 1 ltac:(lia) ltac:(lia) Hex) as (k & F1 & F2 & F3 & F4). rewrite F1.
    assert (Fz : forall d, (forall j, (1 <= j <= d)%nat -> nc j = 0%nat) -> total ls d = 0).
    { induction d as [|d IHd]; intros Hz; [reflexivity|]. rewrite total_S, IHd by (intros; apply Hz; lia). cbn [cz]. rewrite count_ncount, Hz by lia. reflexivity. }
    assert (Fc : first_code ls k = 0).
    { destruct k as [|k']; [lia|]. rewrite first_code_S, Fz by (intros; apply F4; lia). reflexivity. }
    assert (Nk : noff lens num 1 = noff lens num k).
    { destruct (Nat.eq_dec k 1) as [->|]; [reflexivity|]. symmetry. rewrite (noff_skip lens num 1 k) by (try lia; intros; apply F4; lia).
      fold ls. rewrite F4 by lia. lia. }
    destruct (direct_loop_ok results lens num counts sorted tb size num_ok' num_max Hr L1 N1 L3 So Hfull Hres Htb Hts (S num) k 0
      (mkB (repeat 0 size) (noff lens num 1) 0 k (nc k) (2 ^ k))) as (fin & s & E4 & P4).
    { constructor; cbn [b_len b_i b_code b_count b_end b_table]; auto; fold ls.
      - clear -F3; lia.
      - rewrite Nk. clear; lia.
      - unfold cw. fold ls. rewrite Fc. cbn [Z.of_nat Z.add]. symmetry. apply rev_0.
      - clear; lia.
      - apply repeat_length.
      - intros x j p (A & B & C & [D|[_ D]]); [|clear -D; lia]. exfalso. fold ls in B.
        pose proof (rank_lt ls x j ltac:(unfold ls; rewrite (ls_length lens num num_ok' num_max); exact A) B) as R. rewrite F4 in R by lia. clear -R; lia.
      - intros Hk. unfold cw. fold ls. rewrite Fc, Fz by (intros; apply F4; lia). reflexivity. }
    { rewrite Nat.add_0_r. clear; lia. }
    rewrite E4. cbn [bind]. destruct fin.
    + destruct P4 as (Q1 & Q2 & Q3). eexists. split; [reflexivity|]. split; [exact Q1|].
      intros src n x l Hx. destruct (code_at src n x l Hx) as (A & B & C & D).
      assert (Ax : any_sym lens num x l) by (split; [exact A|split; [exact B|lia]]).
      pose proof (Q3 x l Ax) as Hl. split; [|intros; lia]. intros _.
      apply (Q2 x l); auto; [apply bits_from_bound|].
      fold ls. rewrite <- D. replace tb with (l + (tb - l))%nat by lia. apply bits_prefix.
    + destruct P4 as (l' & H1 & H2 & H3).
      assert (Hz : forall j, (tb < j < l')%nat -> nc j = 0%nat).
      { intros j Hj. pose proof (di_first _ _ _ _ _ _ _ _ H2 H1) as di_first0. unfold cw in di_first0. fold ls in di_first0.
        pose proof (first_code_after ls l' j ltac:(lia)) as FA. unfold total in FA.
        pose proof (first_code_after ls j tb ltac:(lia)) as FB.
        assert (Ez : 2 ^ Z.of_nat (l' - tb) = 2 ^ Z.of_nat (j - tb) * 2 ^ Z.of_nat (l' - j)) by (rewrite <- Z.pow_add_r by (clear; lia); f_equal; lia).
        rewrite Ez in di_first0. pose proof (pow_pos (l' - j)) as P2. pose proof (pow_pos (j - tb)) as P3.
        assert (Ecz : cz ls j = Z.of_nat (nc j)) by (destruct j; [lia|]; cbn [cz]; apply count_ncount). rewrite Ecz in FA.
        set (w := 2 ^ Z.of_nat (l' - j)) in *. set (v := 2 ^ Z.of_nat (j - tb)) in *. set (T := total ls tb) in *. set (fj := first_code ls j) in *.
        clearbody w v T fj. clear -di_first0 FA FB P2. nia. }
      pose proof (sub_start results lens num counts sorted tb size num_ok' num_max L1 N1 L3 So Hres Htb Hts Hsize l' s H1 H2 H3 Hz) as W.
      pose proof H2 as DI. destruct H2.
      destruct (sub_loop_ok results lens num counts sorted tb size num_ok' num_max Hr L1 N1 L3 So Hfull Hres Htb Hts Hsize (S num) l' 0 18446744073709551615 0%nat
        (mkB (b_table s) (b_i s) (b_code s) (b_len s) (b_count s) (2 ^ tb))) as (t & E5 & T1 & T2 & T3);
        cbn [b_len b_i b_code b_count b_end b_table]; auto.
      { clear; lia. }
      { right. split; [|exact W]. pose proof (rev_bound tb (pre tb l' (cw lens num l' 0))) as RB.
        assert (2 ^ Z.of_nat tb <= 2 ^ 15) by (apply Z.pow_le_mono_r; lia). change (2 ^ 15) with 32768 in H. clear -RB H. lia. }
      exists t. split; [exact E5|]. split; [exact T1|].
      intros src n x l Hx. destruct (code_at src n x l Hx) as (A & B & C & D).
      assert (Ax : any_sym lens num x l) by (split; [exact A|split; [exact B|lia]]).
      split.
      * intros Hl. apply (T2 x l); auto; [apply bits_from_bound|].
        fold ls. rewrite <- D. replace tb with (l + (tb - l))%nat by lia. apply bits_prefix.
      * intros Hl. destruct (T3 x l Ax Hl) as (st & b & P1 & P2 & P3 & P4' & P5). exists st, b.
        assert (Etl : (tb + (l - tb))%nat = l) by (clear -Hl; lia).
        split; [|split; [exact P2|split; [exact P3|split; [exact P4'|]]]].
        -- rewrite <- P1. f_equal. unfold pre. fold ls. pose proof (rev_prefix (l - tb) tb (codeword ls x)) as RP. rewrite Etl in RP. rewrite <- RP, <- D.
           rewrite <- Etl. symmetry. apply bits_prefix.
        -- apply P5; [apply bits_from_bound|]. fold ls. rewrite <- D.
           transitivity (bits_from src (n + Z.of_nat tb) (l - tb)).
           ++ replace b with ((l - tb) + (b - (l - tb)))%nat by (clear -P4' Hl; lia). apply bits_prefix.
           ++ rewrite <- Etl at 2. symmetry. apply bits_suffix.
Qed.
End Build.

(** ** The tables never overflow — [PRECODE_ENOUGH], [OFFSET_ENOUGH] and [LITLEN_ENOUGH] are enough *)

Lemma no_long lens num tb : (num <= length lens)%nat -> (num <= max_num_syms)%nat -> (tb <= 15)%nat ->
  Forall (fun x => 0 <= x <= 15) (firstn num lens) -> (forall j, (tb < j <= 15)%nat -> ncount (firstn num lens) j = 0%nat) ->
  noff lens num (S tb) = num.
Proof.
  intros H1 H2 Ht H3 Hz. transitivity (noff lens num 16); [|exact (noff_total lens num H1 H2 H3)].
  assert (G : forall d, (S tb + d <= 16)%nat -> noff lens num (S tb + d) = noff lens num (S tb)).
  { induction d as [|d IH]; intros Hd; [now rewrite Nat.add_0_r|]. replace (S tb + S d)%nat with (S (S tb + d)) by lia.
    change (noff lens num (S (S tb + d))) with (noff lens num (S tb + d) + ncount (firstn num lens) (S tb + d))%nat. rewrite IH, Hz by lia. lia. }
  rewrite <- (G (15 - tb)%nat) by lia. f_equal. lia.
Qed.

Lemma enough_precode lens : (19 <= length lens)%nat -> Forall (fun x => 0 <= x <= 7) (firstn 19 lens) ->
  (noff lens 19 8 < 19)%nat -> forall e, Z.Even e -> e <= bound lens 19 7 19 (15 - 7) -> e <= Z.of_nat precode_enough.
Proof.
  intros H1 H2 C. exfalso. rewrite (no_long lens 19 7) in C; [lia|exact H1|unfold max_num_syms; lia|lia| |].
  - eapply Forall_impl; [|exact H2]. cbn beta. intros; lia.
  - intros j Hj. clear C H1. induction H2 as [|x l Hx _ IH]; [reflexivity|]. cbn [ncount]. rewrite IH.
    destruct (Z.eqb_spec x (Z.of_nat j)); lia.
Qed.

Lemma enough_offset lens num : (num <= 32)%nat ->
  (noff lens num 9 < num)%nat -> forall e, Z.Even e -> e <= bound lens num 8 num (15 - 8) -> e <= Z.of_nat offset_enough.
Proof.
  intros H1 _ e _ He. unfold bound, fgap in He. change (Z.of_nat offset_enough) with 512.
  change (2 ^ Z.of_nat 8) with 256 in He. change (2 ^ Z.of_nat (15 - 8)) with 128 in He. change (Z.of_nat (15 - 8)) with 7 in He. lia.
Qed.

Lemma incomplete_short ls : Forall (fun x => 0 <= x <= 15) ls -> code_space ls <= 2 ^ 14 -> count_len ls 1 = 1 \/ code_space ls = 0 ->
  forall j, (1 < j <= 15)%nat -> ncount ls j = 0%nat.
Proof.
  intros R Sp H j Hj. rewrite (code_space_total ls R) in *.
  pose proof (total_mono ls (15 - j) j) as M. replace (j + (15 - j))%nat with 15%nat in M by lia.
  pose proof (pow_pos (15 - j)) as P. assert (C : cz ls j = Z.of_nat (ncount ls j)) by (destruct j; [lia|]; cbn [cz]; apply count_ncount).
  assert (F0 : 0 <= first_code ls j) by apply first_code_nonneg.
  destruct H as [H|H].
  - assert (T1 : total ls 1 = 1) by (rewrite total_S; cbn [cz]; rewrite H; reflexivity).
    pose proof (first_code_after ls j 1 ltac:(lia)) as FA. rewrite T1 in FA. unfold total in M at 1. rewrite C in M.
    replace (2 ^ 14) with (2 ^ Z.of_nat (j - 1) * 2 ^ Z.of_nat (15 - j)) in Sp by (rewrite <- Z.pow_add_r by lia; f_equal; lia).
    set (w := 2 ^ Z.of_nat (15 - j)) in *. set (v := 2 ^ Z.of_nat (j - 1)) in *. clearbody w v. clear -Sp M FA P. nia.
  - rewrite H in M. unfold total in M. rewrite C in M. set (w := 2 ^ Z.of_nat (15 - j)) in *. clearbody w. clear -M P F0. nia.
Qed.

Lemma enough_litlen lens num : (num <= length lens)%nat -> (num <= max_num_syms)%nat -> code_lengths (firstn num lens) ->
  (noff lens num 12 < num)%nat -> forall e, Z.Even e -> e <= bound lens num 11 num (15 - 11) -> e <= Z.of_nat litlen_enough.
Proof.
  intros H1 H2 [R C] Hl e He Hb.
  assert (Hfull : code_space (firstn num lens) = 2 ^ 15).
  { destruct C as [C|C]; [exact C|exfalso]. rewrite (no_long lens num 11) in Hl; [lia|exact H1|exact H2|lia|exact R|].
    intros j Hj. apply (incomplete_short _ R); [|destruct C as [[_ C]|C]; [left; exact C|right; exact C]|lia].
    destruct C as [[-> _]| ->]; lia. }
  rewrite (code_space_total _ R) in Hfull. pose proof (noff_total lens num H1 H2 R) as NT.
  unfold bound, fgap in Hb. unfold litlen_enough. rewrite Z2Nat.id by lia.
  change (2 ^ Z.of_nat 11) with 2048 in Hb. change (2 ^ Z.of_nat (15 - 11)) with 16 in Hb. change (Z.of_nat (15 - 11)) with 4 in Hb.
  unfold max_num_syms in H2.
  cut (num - noff lens num 12 <= 284)%nat. { destruct He as [h ->]. lia. }
  destruct (Nat.le_gt_cases (num - noff lens num 12) 284) as [|Hbig]; [assumption|exfalso].
  rewrite !total_S in Hfull. change (total (firstn num lens) 0) with 0 in Hfull. cbn [cz] in Hfull. rewrite !count_ncount in Hfull.
  cbn [noff] in NT, Hbig, Hl. change (2 ^ 15) with 32768 in Hfull.
  set (n0 := ncount (firstn num lens) 0) in *. set (n1 := ncount (firstn num lens) 1) in *. set (n2 := ncount (firstn num lens) 2) in *.
  set (n3 := ncount (firstn num lens) 3) in *. set (n4 := ncount (firstn num lens) 4) in *. set (n5 := ncount (firstn num lens) 5) in *.
  set (n6 := ncount (firstn num lens) 6) in *. set (n7 := ncount (firstn num lens) 7) in *. set (n8 := ncount (firstn num lens) 8) in *.
  set (n9 := ncount (firstn num lens) 9) in *. set (n10 := ncount (firstn num lens) 10) in *. set (n11 := ncount (firstn num lens) 11) in *.
  set (n12 := ncount (firstn num lens) 12) in *. set (n13 := ncount (firstn num lens) 13) in *. set (n14 := ncount (firstn num lens) 14) in *.
  set (n15 := ncount (firstn num lens) 15) in *.
  clearbody n0 n1 n2 n3 n4 n5 n6 n7 n8 n9 n10 n11 n12 n13 n14 n15. clear -Hfull NT Hbig Hl H2.
  assert (n1 = 0 \/ n1 = 1 \/ 2 <= n1)%nat as [->|[->|]] by lia; [lia| |lia].
  assert (n2 = 0 \/ n2 = 1 \/ 2 <= n2)%nat as [->|[->|]] by lia; lia.
Qed.
