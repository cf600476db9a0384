(** Independent specification of byte sources and sinks. *)
From Verif Require Import Base StreamModel.

(** What is left to read: everything from the current position on. *)
Definition remaining (c : cursor) : list Z := skipn (cpos c) (cdata c).

(** The bytes an operation offers to the sink. *)
Definition offered (o : wop) : list Z :=
  match o with
  | OWrite b | OWriteAll b | OConst b => b
  | OU8 b | OU8Err b => [b]
  | OInt e k x | OIntErr e k x => to_bytes e k x
  end.

(** Abstract writer: [written] bytes so far and an optional capacity. Short writes are allowed only
    for [write]; every other call is all-or-nothing. *)
Record awriter := { aout : list Z; acap : option nat }.

Definition afits (a : awriter) (b : list Z) : bool :=
  match acap a with None => true | Some c => (length (aout a) + length b <=? c)%nat end.

Definition atake (a : awriter) (b : list Z) : nat :=
  match acap a with None => length b | Some c => Nat.min (length b) (c - length (aout a)) end.

Definition astep (a : awriter) (o : wop) : awriter :=
  match o with
  | OWrite b => {| aout := aout a ++ firstn (atake a b) b; acap := acap a |}
  | _ => if afits a (offered o) then {| aout := aout a ++ offered o; acap := acap a |} else a
  end.

Definition arun (a : awriter) (ops : list wop) : awriter := fold_left astep ops a.
