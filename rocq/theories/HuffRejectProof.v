(** [build_table] refuses every list of code lengths that is not a code. *)
From Verif Require Import Base BaseProof Loops Slices Bits BitReaderSpec BitReaderModel InflateModel HuffModel HuffSpec HuffCode HuffSortProof HuffTableProof HuffBuildProof.

Lemma build_rejects results lens tb num size : (1 <= num <= length lens)%nat -> (num <= max_num_syms)%nat ->
  Forall (fun x => 0 <= x <= 15) (firstn num lens) -> ~ code_lengths (firstn num lens) ->
  build_table results lens tb num size = Err ECorrupt.
Proof.
  intros num_ok num_max Hr Hno. set (ls := firstn num lens) in *. unfold build_table. pose proof (proj2 num_ok) as num_ok'.
  destruct (count_lens_ok lens num num_ok' num_max Hr) as (counts & E1 & L1 & N1). fold ls in N1. rewrite E1. cbn [bind].
  destruct (used_max_ok lens num num_ok' num_max counts 15 ltac:(lia)) as (M1 & M2 & M3). set (m := used_max counts 15) in *.
  assert (Mz : forall l, (m < l <= 15)%nat -> ncount ls l = 0%nat) by (intros l Hl; rewrite <- N1 by lia; apply M2; exact Hl).
  destruct (sort_offsets_ok lens num num_ok' num_max counts L1 N1 m M1) as (offs & used & E2 & L2 & N2 & U2). rewrite E2. cbn [bind fst snd].
  destruct (sort_syms_ok lens num num_ok' num_max Hr counts L1 N1 offs m L2 M1 N2 Mz) as (sorted & offs' & E3 & L3 & L4 & N3 & So).
  rewrite E3. cbn [bind fst snd]. rewrite (get_at_ok offs' 0 0%nat) by lia. cbn [bind].
  set (u := (2 * used + nth m counts 0)%nat).
  assert (Hu : Z.of_nat u = total ls m).
  { unfold u. rewrite N1 by lia. replace m with (S (m - 1)) at 2 by lia. rewrite total_S. fold ls in U2. rewrite <- U2.
    replace (S (m - 1)) with m by lia. destruct m as [|m']; [lia|]. cbn [cz]. rewrite count_ncount. lia. }
  assert (Tm : total ls 15 = total ls m * 2 ^ Z.of_nat (15 - m)).
  { assert (G : forall d, (forall k, (m < k <= m + d)%nat -> ncount ls k = 0%nat) -> total ls (m + d) = total ls m * 2 ^ Z.of_nat d).
    { induction d as [|d IH]; intros Hz; [rewrite Nat.add_0_r; change (2 ^ Z.of_nat 0) with 1; ring|].
      replace (m + S d)%nat with (S (m + d)) by (clear; lia). rewrite total_S, IH by (intros; apply Hz; lia). cbn [cz]. rewrite count_ncount, Hz by lia.
      rewrite pow_S. ring. }
    rewrite <- (G (15 - m)%nat); [f_equal; lia|]. intros k Hk. apply Mz. lia. }
  pose proof (code_space_total ls Hr) as CS.
  pose proof (pow_nat m) as Pm.
  assert (P15 : 2 ^ 15 = 2 ^ Z.of_nat m * 2 ^ Z.of_nat (15 - m)) by (rewrite <- Z.pow_add_r by (clear; lia); f_equal; lia).
  destruct (Nat.ltb_spec (2 ^ m) u) as [H0|H0]; [reflexivity|].
  destruct (Nat.ltb_spec u (2 ^ m)) as [Hlt|Hge].
  - destruct (Nat.eqb_spec u 0) as [U0|U0].
    { exfalso. apply Hno. split; [exact Hr|]. right. right. rewrite CS, Tm, <- Hu, U0. reflexivity. }
    destruct (Nat.eqb_spec u (2 ^ (m - 1))) as [U1|U1]; [|reflexivity].
    destruct (Nat.eqb_spec (nth 1 counts 0%nat) 1) as [U2'|U2']; [|reflexivity].
    exfalso. apply Hno. split; [exact Hr|]. right. left. split.
    + rewrite CS, Tm, <- Hu, U1. rewrite (pow_nat (m - 1)), <- Z.pow_add_r by (clear; lia). f_equal. lia.
    + rewrite count_ncount, <- N1, U2' by lia. reflexivity.
  - exfalso. apply Hno. split; [exact Hr|]. left. rewrite CS, Tm, P15. f_equal. lia.
Qed.
