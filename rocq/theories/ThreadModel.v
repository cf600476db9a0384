(** Scoped threads, one per channel (or per group): crates/zune-imageprocs/src/utils.rs:87-114 [execute_on], the
    threaded parts of box_blur.rs:61-97, gaussian_blur.rs:101-148, unsharpen.rs and scharr.rs, which have the same
    shape, and the group runner of crates/zune-jpegxl/src/encoder.rs:1212-1287, which adds a limit on open threads.

    A thread is a sequence of atomic steps on its own memory — the channel it borrows mutably, or the group data behind
    its own mutex — so the borrow rules are part of the model: no step touches another thread's memory, and whatever is
    shared is only read. The scheduler picks any enabled action next. *)
From Verif Require Import Base Loops.

(** How a thread ends: [Ok(())], [Err(code)] or by panicking. *)
Inductive outcome : Set := TOk | TErr (code : Z) | TPanic.
Definition is_panic (o : outcome) : bool := match o with TPanic => true | _ => false end.

Section Threads.
(** Memory of one thread, its local state, its start and its steps. *)
Context {Mem Loc : Type} (start : nat -> Loc) (step : Loc -> Mem -> Mem * (Loc + outcome)).

Inductive tstate : Type := NotYet | Running (l : Loc) | Done (o : outcome).

(** [open]: the counter of encoder.rs:1256; [joined]: handles joined so far (utils.rs:99-102); [verdict]: the value of
    the [collect]; [returned]: the scope has ended. *)
Record config : Type := Config {
  slots : list (tstate * Mem); spawned : nat; open : nat; joined : nat; verdict : option outcome; returned : option outcome }.

Definition initial (ms : list Mem) : config := Config (map (fun m => (NotYet, m)) ms) 0 0 0 None None.

Inductive action : Set := Spawn | Step (i : nat) | Join | Return.

Definition done (t : tstate * Mem) : bool := match fst t with Done _ => true | _ => false end.
Definition panicked (t : tstate * Mem) : bool := match fst t with Done o => is_panic o | _ => false end.

(** One action; [None] when it is not enabled. [limit]: [None] in [execute_on]; [Some n] is the spinning test
    [open > n] of encoder.rs:1269-1275 (a spin is the absence of the action). A thread that panics never reaches the
    decrement of encoder.rs:1242. *)
Definition act (limit : option nat) (a : action) (c : config) : option config :=
  match returned c with
  | Some _ => None
  | None =>
    match a with
    | Spawn =>
        match nth_error (slots c) (spawned c) with
        | Some (_, m) =>
            if match limit with Some n => (open c <=? n)%nat | None => true end then
              Some (Config (upd (slots c) (spawned c) (Running (start (spawned c)), m)) (spawned c + 1) (open c + 1)
                      (joined c) (verdict c) None)
            else None
        | None => None
        end
    | Step i =>
        match nth_error (slots c) i with
        | Some (Running l, m) =>
            match step l m with
            | (m', inl l') => Some (Config (upd (slots c) i (Running l', m')) (spawned c) (open c) (joined c) (verdict c) None)
            | (m', inr o) => Some (Config (upd (slots c) i (Done o, m')) (spawned c)
                                     (if is_panic o then open c else open c - 1) (joined c) (verdict c) None)
            end
        | _ => None
        end
    | Join =>
        match verdict c with
        | Some _ => None
        | None =>
            if (spawned c <? length (slots c))%nat then None else
            match nth_error (slots c) (joined c) with
            | None => Some (Config (slots c) (spawned c) (open c) (joined c) (Some TOk) None)
            | Some (Done TOk, _) => Some (Config (slots c) (spawned c) (open c) (joined c + 1) None None)
            | Some (Done o, _) => Some (Config (slots c) (spawned c) (open c) (joined c) (Some o) None)
            | Some _ => None
            end
        end
    | Return =>
        match verdict c with
        | Some o =>
            if forallb done (slots c) then
              (* the scope panics for every panic that was not joined *)
              Some (Config (slots c) (spawned c) (open c) (joined c) (Some o)
                      (Some (if existsb panicked (skipn (joined c) (slots c)) then TPanic else o)))
            else None
        | None => None
        end
    end
  end.

(** A schedule is any list of actions that are enabled one after the other. *)
Fixpoint exec (limit : option nat) (sched : list action) (c : config) : option config :=
  match sched with
  | [] => Some c
  | a :: sched' => match act limit a c with Some c' => exec limit sched' c' | None => None end
  end.

(** The version without threads — utils.rs:106-112: channel by channel, stopping at the first failure. [fuel] bounds
    the steps of one thread; running out is [None]. *)
Fixpoint run_alone (fuel : nat) (l : Loc) (m : Mem) : option (Mem * outcome) :=
  match fuel with
  | O => None
  | S k => match step l m with (m', inl l') => run_alone k l' m' | (m', inr o) => Some (m', o) end
  end.
Fixpoint run_seq (fuel i : nat) (ms : list Mem) : option (list Mem * outcome) :=
  match ms with
  | [] => Some ([], TOk)
  | m :: ms' =>
      match run_alone fuel (start i) m with
      | Some (m', TOk) => match run_seq fuel (S i) ms' with Some (ms2, o) => Some (m' :: ms2, o) | None => None end
      | Some (m', o) => Some (m' :: ms', o)
      | None => None
      end
  end.

End Threads.
Arguments tstate : clear implicits.
Arguments config : clear implicits.
