(** A plain growable vector of bytes with the channel's interface. *)
From Verif Require Import Base ChannelModel.

(** The element handed to an operation has the size of its type. *)
Definition op_ok (t0 : elem_ty) (o : op) : Prop :=
  match o with
  | OPush e => (exists t, length e = ty_size t)
  | OExtend t d => t = t0 /\ (length d mod ty_size t = 0)%nat
  | OFill t e => length e = ty_size t
  | OClone => True
  end.

(** Contents after the operation and whether it reports success. *)
Definition vec_op (t0 : elem_ty) (o : op) (v : list Z) : list Z * bool :=
  match o with
  | OPush e => (v ++ e, true)
  | OExtend _ d => (v ++ d, true)
  | OFill t e => if (length v mod ty_size t =? 0)%nat && ty_eqb t t0
                 then (concat (repeat e (length v / ty_size t)), true) else (v, false)
  | OClone => (v, true)
  end.
Fixpoint vec_run (t0 : elem_ty) (h : list op) (v : list Z) : list Z * list bool :=
  match h with
  | [] => (v, [])
  | o :: h' => let (v1, b) := vec_op t0 o v in let (v2, bs) := vec_run t0 h' v1 in (v2, b :: bs)
  end.

(** Bytes added by a history *)
Definition added (o : op) : nat := match o with OPush e => length e | OExtend _ d => length d | _ => 0%nat end.
Definition added_all (h : list op) : nat := fold_right (fun o n => added o + n)%nat 0%nat h.

(** When a history is sound: an operation that does not fit the capacity [k] may only come on storage that was not
    enlarged since it was created or cloned ([fr]), and a one-byte push may not meet a capacity of one. *)
Definition grown (o : op) (k : nat) : nat :=
  match o with OPush e => (k * (length e * 3) / 2)%nat | OExtend _ d => (k + length d + 10)%nat | _ => k end.
Definition tiny (o : op) (k : nat) : bool := match o with OPush e => (length e =? 1)%nat && (k =? 1)%nat | _ => false end.
Definition is_clone (o : op) : bool := match o with OClone => true | _ => false end.
Fixpoint legal (h : list op) (n k : nat) (fr : bool) : bool :=
  match h with
  | [] => true
  | o :: h' => if (n + added o <=? k)%nat then legal h' (n + added o)%nat k (fr || is_clone o)
               else fr && negb (tiny o k) && legal h' (n + added o)%nat (grown o k) false
  end.

(** The ways to make a channel of non-zero size, with the bytes it is said to hold. *)
Inductive made (t : elem_ty) : mres channel -> list Z -> nat -> Prop :=
| made_new : made t (new t) [] 10
| made_capacity n : (0 < n)%nat -> made t (with_capacity n t) [] n
| made_length n : (0 < n)%nat -> made t (with_length n t) (repeat 0 n) n
| made_elm n e : (0 < n)%nat -> length e = ty_size t -> made t (from_elm n t e) (concat (repeat e n)) (n * ty_size t)%nat.

(** What a user sees of a channel: its length, its elements as its own type, and that it can be dropped. *)
Record looks_like (t : elem_ty) (c : channel) (v : list Z) : Prop := Looks {
  looks_len : len c = length v;
  looks_view : forall t', view c t' = Val (if (length v mod ty_size t' =? 0)%nat && ty_eqb t' t
                                            then Some (map (map Some) (chunks_exact (ty_size t') v)) else None);
  looks_inside : (len c <= length (blk c))%nat /\ length (blk c) = cap c;
  looks_drop : drop c = Val tt }.
