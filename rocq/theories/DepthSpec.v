(** Well-formed channels *)
From Verif Require Import Base DepthModel.
Definition of_depth (d : depth) (c : samples) : Prop :=
  match d, c with
  | D8, S8 l => Forall is_byte l
  | D16, S16 l => Forall is_u16 l
  | D32, SF _ => True
  | _, _ => False
  end.
(** Every sample at most one lower *)
Definition one_lower (a c : samples) : Prop :=
  match a, c with
  | S16 l, S16 l' => Forall2 (fun x y => x - 1 <= y <= x) l l'
  | _, _ => False
  end.
(** Number of samples *)
Definition count (c : samples) : nat := match c with S8 l | S16 l => length l | SF l => length l end.
