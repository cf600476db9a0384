(** Index loops over mutable arrays with bounds checks. *)
From Verif Require Import Base BaseProof.

(** [for i in start .. start + n { body }] *)
Fixpoint for_loop {S} (n i : nat) (body : nat -> S -> res S) (s : S) : res S :=
  match n with
  | O => Ok s
  | Datatypes.S n' => bind (body i s) (for_loop n' (Datatypes.S i) body)
  end.
(** [for i in lo .. hi] *)
Definition for_range {S} (lo hi : nat) (body : nat -> S -> res S) (s : S) : res S :=
  for_loop (hi - lo) lo body s.

(** Checked slice access. *)
Definition get_at {A} (l : list A) (i : nat) : res A :=
  match nth_error l i with Some x => Ok x | None => Panic end.
Definition set_at {A} (l : list A) (i : nat) (x : A) : res (list A) :=
  if (i <? length l)%nat then Ok (upd l i x) else Panic.

Lemma get_at_ok {A} (l : list A) i d : (i < length l)%nat -> get_at l i = Ok (nth i l d).
Proof. intros H. unfold get_at. now rewrite (nth_error_nth' l d H). Qed.
Lemma set_at_ok {A} (l : list A) i x : (i < length l)%nat -> set_at l i x = Ok (upd l i x).
Proof. intros H. unfold set_at. now replace (i <? length l)%nat with true by lia. Qed.

(** A loop maintaining an invariant indexed by the loop counter. *)
Lemma for_range_inv {S} (P : nat -> S -> Prop) lo hi body s :
  (lo <= hi)%nat -> P lo s ->
  (forall i s, (lo <= i < hi)%nat -> P i s -> exists s', body i s = Ok s' /\ P (Datatypes.S i) s') ->
  exists s', for_range lo hi body s = Ok s' /\ P hi s'.
Proof.
  intros Hle H0 Hstep. unfold for_range.
  remember (hi - lo)%nat as n eqn:En. revert lo s Hle H0 Hstep En.
  induction n as [|n IH]; intros lo s Hle H0 Hstep En; cbn [for_loop].
  - exists s. split; [reflexivity|]. replace hi with lo by lia. exact H0.
  - destruct (Hstep lo s) as (s1 & E1 & P1); [lia|exact H0|]. rewrite E1. cbn [bind].
    apply IH; try lia; auto. intros i s' Hi. apply Hstep. lia.
Qed.

(** Loops that write [arr[i] := g i arr] for increasing [i], where [g i] looks only at indices below [i]
    (and, possibly, at index [i] itself before the write is excluded). *)
Lemma for_upd {A} (d : A) (g : nat -> list A -> A) lo hi body c :
  (lo <= hi <= length c)%nat ->
  (forall i s, (lo <= i < hi)%nat -> length s = length c -> body i s = Ok (upd s i (g i s))) ->
  (forall i s s', (lo <= i < hi)%nat -> (forall j, (j < i)%nat -> nth j s d = nth j s' d) -> g i s = g i s') ->
  exists c', for_range lo hi body c = Ok c' /\ length c' = length c /\
    (forall i, (lo <= i < hi)%nat -> nth i c' d = g i c') /\
    (forall i, (i < lo \/ hi <= i)%nat -> nth i c' d = nth i c d).
Proof.
  intros Hr Hb Hg.
  destruct (for_range_inv (fun k s => length s = length c /\
      (forall i, (lo <= i < k)%nat -> nth i s d = g i s) /\
      (forall i, (i < lo \/ k <= i)%nat -> nth i s d = nth i c d)) lo hi body c) as (c' & E & L & A1 & A2).
  - lia.
  - split; [reflexivity|]. split; [intros; lia|auto].
  - intros i s Hi (L & A1 & A2). exists (upd s i (g i s)). split; [now apply Hb|].
    split; [now rewrite upd_length|]. split.
    + intros j Hj. destruct (Nat.eq_dec i j) as [<-|Hn].
      * rewrite upd_nth_same by lia. apply Hg; [lia|]. intros k Hk. symmetry. apply upd_nth_other. lia.
      * rewrite upd_nth_other by exact Hn. rewrite A1 by lia. apply Hg; [lia|].
        intros k Hk. symmetry. apply upd_nth_other. lia.
    + intros j Hj. rewrite upd_nth_other by lia. apply A2. lia.
  - exists c'. repeat split; auto.
Qed.
