(** What a set of independent jobs computes, without any notion of schedule. *)
From Verif Require Import Base ThreadModel.

(** The job [l], started on memory [m], ends after [n] steps with the memory and outcome [r]. *)
Inductive job {Mem Loc} (step : Loc -> Mem -> Mem * (Loc + outcome)) : nat -> Loc -> Mem -> Mem * outcome -> Prop :=
| job_end l m m' o : step l m = (m', inr o) -> job step 1 l m (m', o)
| job_step n l m m' l' r : step l m = (m', inl l') -> job step n l' m' r -> job step (S n) l m r.

(** What the caller sees of all outcomes: a panic anywhere; else the first error in channel order; else success. *)
Definition combined (os : list outcome) : outcome :=
  if existsb is_panic os then TPanic
  else match find (fun o => match o with TErr _ => true | _ => false end) os with Some o => o | None => TOk end.

Definition steps_total (ns : list nat) : nat := fold_right Nat.add 0%nat ns.
