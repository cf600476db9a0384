(** Schedule independence of the threaded operations (C43) and the thread limiter of the JPEG XL encoder (C54). *)
From Verif Require Import Base ThreadModel ThreadSpec ThreadProof.

(** A small job for the examples: double every sample of the channel, one sample a step, failing on a negative one
    with its position and panicking on a sample above 255. *)
Definition doubling (k : nat) (m : list Z) : list Z * (nat + outcome) :=
  match nth_error m k with
  | None => (m, inr TOk)
  | Some x => if x <? 0 then (m, inr (TErr (Z.of_nat k))) else if 255 <? x then (m, inr TPanic) else (upd m k (2 * x), inl (S k))
  end.
Definition from_zero (_ : nat) : nat := O.

Lemma doubling_jobs : jobs from_zero doubling [([2; 4], TOk); ([6], TOk)] [[1; 2]; [3]] [3; 2]%nat.
Proof.
  split; [reflexivity|]. split; [reflexivity|]. intros i m f n A B C.
  destruct i as [|[|i]]; [| |now destruct i]; cbn in A, B, C; injection A as <-; injection B as <-; injection C as <-.
  - eapply job_step; [reflexivity|]. eapply job_step; [reflexivity|]. apply job_end. reflexivity.
  - eapply job_step; [reflexivity|]. apply job_end. reflexivity.
Qed.

(** Whatever the schedule, and whatever the limit on open threads: when the operation has returned, every channel holds
    the result of its own job, and the caller sees a panic if some job panicked, else the first error in channel
    order, else success. *)
Theorem threads_schedule_independent {Mem Loc} start (step : Loc -> Mem -> Mem * (Loc + outcome)) fs ms ns limit sched c r :
  jobs start step fs ms ns -> exec start step limit sched (initial ms) = Some c -> returned c = Some r ->
  map snd (slots c) = map fst fs /\ r = combined (map snd fs).
Proof.
  intros J E R. destruct (exec_inv start step fs limit sched _ _ _ (initial_inv start step fs ms ns J) E) as (rem & I & _).
  now apply (inv_returned _ _ _ _ _ I).
Qed.
Print Assumptions threads_schedule_independent.
Example threads_schedule_ex : 
  let run s := match exec from_zero doubling None s (initial [[1; 2]; [3]]) with
               | Some c => Some (map snd (slots c), returned c) | None => None end in
  run [Spawn; Step 0; Spawn; Step 1; Step 0; Step 1; Step 0; Join; Join; Join; Return]%nat = Some ([[2; 4]; [6]], Some TOk) /\
  run [Spawn; Spawn; Step 1; Step 1; Step 0; Step 0; Step 0; Join; Join; Join; Return]%nat = Some ([[2; 4]; [6]], Some TOk).
Proof. split; vm_compute; reflexivity. Qed.

(** No schedule goes on for ever, and without a limit none gets stuck before returning — even if jobs panic. With a
    limit the same holds as long as no job panics. *)
Theorem threads_terminate {Mem Loc} start (step : Loc -> Mem -> Mem * (Loc + outcome)) fs ms ns limit sched c :
  jobs start step fs ms ns -> exec start step limit sched (initial ms) = Some c ->
  (length sched <= 2 * length ms + steps_total ns + 2)%nat /\
  (limit = None \/ Forall (fun f => snd f <> TPanic) fs -> returned c = None -> exists a c', act start step limit a c = Some c').
Proof.
  intros J E. pose proof (initial_inv start step fs ms ns J) as I0.
  destruct (exec_inv start step fs limit sched _ _ _ I0 E) as (rem & I & M). split.
  - destruct J as (L1 & L2 & _). pose proof (sum_to_list ns (length fs) L2) as SL. rewrite SL in M. unfold extra in M. cbn [initial joined verdict returned] in M. lia.
  - intros H R. apply (act_progress start step fs limit c rem I R). destruct H as [H|H]; [now left|right].
    destruct (exec_open start step fs limit sched _ _ _ I0 (initial_open ms) E) as [O _]. rewrite O.
    now rewrite (live_running start step fs c rem I H).
Qed.
Print Assumptions threads_terminate.
Example threads_terminate_ex : exists a c', act from_zero doubling None a (initial [[1; 2]; [3]]) = Some c'.
Proof. exists Spawn. eexists. reflexivity. Qed.

(** The version without threads gives the same channels when nothing fails, and reports the same error when nothing
    panics. *)
Theorem threads_equal_sequential_partial {Mem Loc} start (step : Loc -> Mem -> Mem * (Loc + outcome)) fs ms ns fuel limit sched c r :
  jobs start step fs ms ns -> (forall n, In n ns -> (n <= fuel)%nat) ->
  exec start step limit sched (initial ms) = Some c -> returned c = Some r ->
  Forall (fun f => snd f <> TPanic) fs ->
  exists ms', run_seq start step fuel 0 ms = Some (ms', r) /\ (r = TOk -> ms' = map snd (slots c)).
Proof.
  intros J Hf E R NP. destruct (threads_schedule_independent _ _ _ _ _ _ _ _ _ J E R) as [M ->]. rewrite M.
  destruct J as (L1 & L2 & Jb). destruct (run_seq_ok start step fuel ms fs ns 0 L1 L2 Jb Hf) as (ms' & Es & Q).
  exists ms'. rewrite Es. clear - NP Q.
  assert (G : match find (fun o => match o with TOk => false | _ => true end) (map snd fs) with Some o => o | None => TOk end = combined (map snd fs) /\
    (combined (map snd fs) = TOk -> Forall (fun f => snd f = TOk) fs)).
  { clear Q. unfold combined.
    replace (existsb is_panic (map snd fs)) with false.
    2: { symmetry. apply no_panic_iff. intros o Ho. apply in_map_iff in Ho as (f & <- & Hf). rewrite Forall_forall in NP. now apply NP. }
    induction NP as [|[m o] fs Hf NP [IH1 IH2]]; [now split|]. cbn [map snd find] in *. destruct o; [|split; easy|easy].
    split; [easy|]. intros H. constructor; [easy|]. now apply IH2. }
  destruct G as [G1 G2]. rewrite G1. split; [easy|]. intros H. now apply Q, G2.
Qed.
Print Assumptions threads_equal_sequential_partial.
Example threads_equal_sequential_ex : run_seq from_zero doubling 5 0 [[1; 2]; [3]] = Some ([[2; 4]; [6]], TOk).
Proof. reflexivity. Qed.

(** After an error the two versions do not leave the same image: without threads the later channels are untouched. *)
Theorem threads_error_image_refuted : exists ms c ms' r,
  exec from_zero doubling None [Spawn; Spawn; Step 0; Step 1; Step 1; Join; Return]%nat (initial ms) = Some c /\ returned c = Some r /\
  run_seq from_zero doubling 5 0 ms = Some (ms', r) /\ ms' <> map snd (slots c).
Proof.
  exists [[-1]; [3]]. eexists. exists [[-1]; [3]], (TErr 0). split; [vm_compute; reflexivity|].
  split; [reflexivity|]. split; [vm_compute; reflexivity|]. cbn [slots map snd]. discriminate.
Qed.
Print Assumptions threads_error_image_refuted.

(** ** C54: the limit on open threads in the JPEG XL encoder *)

Definition running {Mem Loc} (c : config Mem Loc) : nat :=
  length (filter (fun s => match fst s with Running _ => true | _ => false end) (slots c)).

(** Asked for one thread, two can be running: the test lets one more start while [limit] are open. *)
Theorem thread_limit_refuted : exists (ms : list (list Z)) c,
  exec from_zero doubling (Some 1%nat) [Spawn; Spawn] (initial ms) = Some c /\ running c = 2%nat.
Proof. exists [[1]; [2]; [3]]. eexists. split; [vm_compute; reflexivity|reflexivity]. Qed.
Print Assumptions thread_limit_refuted.

(** At most one more than asked for is ever running, in every state of every schedule. *)
Theorem thread_limit_partial {Mem Loc} start (step : Loc -> Mem -> Mem * (Loc + outcome)) fs ms ns n sched c :
  jobs start step fs ms ns -> exec start step (Some n) sched (initial ms) = Some c -> (running c <= n + 1)%nat.
Proof.
  intros J E. pose proof (initial_inv start step fs ms ns J) as I0.
  destruct (exec_open start step fs (Some n) sched _ _ _ I0 (initial_open ms) E) as [O B].
  specialize (B n eq_refl ltac:(cbn [initial open]; lia)). rewrite O in B. unfold count_live in B. unfold running.
  eapply Nat.le_trans; [|exact B]. clear. induction (slots c) as [|s ss IH]; [easy|]. cbn [filter]. unfold live at 1.
  destruct s as [[|l|o] m]; cbn [fst]; [exact IH|cbn [length]; lia|]. destruct (is_panic o); cbn [length]; lia.
Qed.
Print Assumptions thread_limit_partial.

(** If a job panics under a limit, its count is never given back and the encoder can wait for ever: a state that has
    not returned and in which nothing can happen. *)
Theorem thread_limit_panic_hangs_refuted : exists (ms : list (list Z)) sched c,
  exec from_zero doubling (Some 1%nat) sched (initial ms) = Some c /\ returned c = None /\
  forall a, act from_zero doubling (Some 1%nat) a c = None.
Proof.
  exists [[300]; [300]; [7]], [Spawn; Spawn; Step 0; Step 1]%nat. eexists. split; [vm_compute; reflexivity|]. split; [reflexivity|].
  intros a. destruct a as [|i| |]; try reflexivity. destruct i as [|[|[|i]]]; try reflexivity. cbn. now destruct i.
Qed.
Print Assumptions thread_limit_panic_hangs_refuted.
