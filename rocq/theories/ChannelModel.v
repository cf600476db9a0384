(** Model of the channel storage — crates/zune-image/src/channel.rs. A channel owns one block of memory; a byte that was
    never written is [None]. What the allocator's contract does not allow, and reads or writes outside the block, are
    [Undefined]. Sizes are unbounded here: layouts near [isize::MAX] and failing allocations are not modelled. *)
From Verif Require Import Base.

Inductive mres (A : Type) : Type := Val (a : A) | Abort | Undefined.
Arguments Val {A}. Arguments Abort {A}. Arguments Undefined {A}.
Definition mbind {A B} (x : mres A) (f : A -> mres B) : mres B :=
  match x with Val a => f a | Abort => Abort | Undefined => Undefined end.

(** The sample types; elements are given by their bytes in memory order. *)
Inductive elem_ty : Set := TU8 | TU16 | TF32.
Definition ty_size (t : elem_ty) : nat := match t with TU8 => 1 | TU16 => 2 | TF32 => 4 end%nat.
Definition ty_eqb (a c : elem_ty) : bool :=
  match a, c with TU8, TU8 | TU16, TU16 | TF32, TF32 => true | _, _ => false end.

(** [blk]: the block behind [ptr]; [lay]: the size in the [layout] field — channel.rs:84-91. *)
Record channel : Set := Chan { blk : list (option Z); len : nat; cap : nat; ctype : elem_ty; lay : nat }.

(** [alloc_zeroed] — undefined for size 0. channel.rs:210-218 *)
Definition alloc_zeroed (size : nat) : mres (list (option Z)) :=
  if (size =? 0)%nat then Undefined else Val (repeat (Some 0) size).

(** [Channel::realloc] — channel.rs:221-225. The library's contract: the layout passed must be the one the block was
    allocated with; the first [min] of the two sizes bytes are kept. [strict] = false describes an allocator that
    copies that many bytes without any check, as the standard library's Unix allocator is understood to do for large
    alignments (the standard library is not in the repository, so this could not be checked). The [layout] field is not
    updated. *)
Definition realloc (strict : bool) (c : channel) (size : nat) : mres channel :=
  if (size =? 0)%nat then Undefined else
  if strict && negb (lay c =? length (blk c))%nat then Undefined else
  let n := Nat.min (lay c) size in
  Val (Chan (firstn n (blk c) ++ repeat None (size - n)) (len c) size (ctype c) (lay c)).

(** [new_with_capacity_and_type] — channel.rs:337-347 *)
Definition with_capacity (n : nat) (t : elem_ty) : mres channel :=
  mbind (alloc_zeroed n) (fun b => Val (Chan b 0 n t n)).
(** [new] — channel.rs:240-242 *)
Definition new (t : elem_ty) : mres channel := with_capacity 10 t.
(** [new_with_length], [new_with_length_and_type] — channel.rs:249-268 *)
Definition with_length (n : nat) (t : elem_ty) : mres channel :=
  mbind (with_capacity n t) (fun c => Val (Chan (blk c) n (cap c) (ctype c) (lay c))).

(** Copying bytes into the block at [len] and moving [len] on *)
Definition append (c : channel) (d : list (option Z)) : mres channel :=
  if (len c + length d <=? length (blk c))%nat then
    Val (Chan (firstn (len c) (blk c) ++ d ++ skipn (len c + length d) (blk c)) (len c + length d) (cap c) (ctype c) (lay c))
  else Undefined.

(** [has_capacity] — channel.rs:378-380 *)
Definition has_capacity (c : channel) (n : nat) : bool := (len c + n <=? cap c)%nat.

(** [extend_unchecked] — channel.rs:401-429; [extend] (384-395) asserts the type first. *)
Definition extend_unchecked (strict : bool) (c : channel) (d : list (option Z)) : mres channel :=
  mbind (if has_capacity c (length d) then Val c else realloc strict c (cap c + length d + 10)) (fun c => append c d).
Definition extend (strict : bool) (c : channel) (t : elem_ty) (d : list Z) : mres channel :=
  if ty_eqb t (ctype c) then extend_unchecked strict c (map Some d) else Abort.

(** [push] — channel.rs:509-532; the type is not checked. *)
Definition push (strict : bool) (c : channel) (e : list Z) : mres channel :=
  let size := length e in
  mbind (if has_capacity c size then Val c else realloc strict c (cap c * (size * 3) / 2)) (fun c => append c (map Some e)).

(** [confirm_suspicions] — channel.rs:564-588, for an aligned block: is the view allowed? *)
Definition can_view (c : channel) (t : elem_ty) : bool := (len c mod ty_size t =? 0)%nat && ty_eqb t (ctype c).

(** [fill] — channel.rs:550-561; the flag is whether [Ok] is returned. *)
Definition fill (c : channel) (t : elem_ty) (e : list Z) : mres (channel * bool) :=
  if can_view c t then
    if (len c <=? length (blk c))%nat then
      Val (Chan (concat (repeat (map Some e) (len c / ty_size t)) ++ skipn (len c) (blk c)) (len c) (cap c) (ctype c) (lay c), true)
    else Undefined
  else Val (c, false).

(** [from_elm] — channel.rs:365-375 *)
Definition from_elm (n : nat) (t : elem_ty) (e : list Z) : mres channel :=
  mbind (with_length (n * ty_size t) t) (fun c => mbind (fill c t e) (fun cb => if snd cb then Val (fst cb) else Abort)).

(** [clone] — channel.rs:101-116 *)
Definition clone (strict : bool) (c : channel) : mres channel :=
  mbind (with_capacity (cap c) (ctype c)) (fun n =>
  if (len c <=? length (blk c))%nat then extend_unchecked strict n (firstn (len c) (blk c)) else Undefined).

(** [reinterpret_as] — channel.rs:432-470: the elements, or [None] for an error *)
Definition view (c : channel) (t : elem_ty) : mres (option (list (list (option Z)))) :=
  if can_view c t then
    if (len c <=? length (blk c))%nat then Val (Some (chunks_exact (ty_size t) (firstn (len c) (blk c)))) else Undefined
  else Val None.

(** Dropping — channel.rs:227-234, 608-616: the layout is rebuilt from the capacity. *)
Definition drop (c : channel) : mres unit := if (cap c =? length (blk c))%nat && negb (cap c =? 0)%nat then Val tt else Undefined.

(** The channel of [Frame::clone] with threads — crates/zune-image/src/frame.rs:60-84 *)
Definition frame_clone (strict : bool) (c : channel) : mres channel :=
  mbind (with_capacity 1 (ctype c)) (fun n => mbind (clone strict n) (fun n =>
  mbind (realloc strict n (len c)) (fun n =>
  if (len c <=? cap n)%nat && (len c <=? length (blk c))%nat
  then Val (Chan (firstn (len c) (blk c) ++ skipn (len c) (blk n)) (len c) (cap n) (ctype n) (lay n)) else Abort))).

(** Histories *)
Inductive op : Set := OPush (e : list Z) | OExtend (t : elem_ty) (d : list Z) | OFill (t : elem_ty) (e : list Z) | OClone.
Definition apply (strict : bool) (o : op) (c : channel) : mres (channel * bool) :=
  match o with
  | OPush e => mbind (push strict c e) (fun c => Val (c, true))
  | OExtend t d => mbind (extend strict c t d) (fun c => Val (c, true))
  | OFill t e => fill c t e
  | OClone => mbind (clone strict c) (fun c => Val (c, true))
  end.
Fixpoint run (strict : bool) (h : list op) (c : channel) : mres (channel * list bool) :=
  match h with
  | [] => Val (c, [])
  | o :: h' => mbind (apply strict o c) (fun cb => mbind (run strict h' (fst cb)) (fun r => Val (fst r, snd cb :: snd r)))
  end.
