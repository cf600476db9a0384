(** Shared vocabulary: machine integers as [Z], slices as [list], results with an explicit panic. *)
From Coq Require Export List Arith ZArith Lia Bool.
From Coq Require Export ZifyBool ZifyNat ZifyN.
Export ListNotations.
Open Scope Z_scope.

Ltac Zify.zify_post_hook ::= Z.div_mod_to_equations.

(** A Rust [Result] plus the two outcomes that must be excluded by proofs: a panic (index out of
    range, failed assertion, [unwrap] on an error, arithmetic overflow in a checked build) and
    exhaustion of the model's own recursion fuel. *)
Inductive err : Set :=
| EEof          (* not enough input *)
| EMagic        (* wrong signature *)
| ELimit        (* a configured limit exceeded *)
| EZeroDim      (* zero width or height *)
| ESize         (* buffer or data length does not match *)
| EColorspace   (* unsupported colorspace / channel count *)
| EDepth        (* unsupported bit depth *)
| EChecksum     (* CRC / Adler mismatch *)
| ECorrupt      (* malformed data *)
| ENoSpace      (* output sink is full *)
| EOverflow     (* checked arithmetic failed *)
| EOther.

Inductive res (A : Type) : Type :=
| Ok (a : A)
| Err (e : err)
| Panic
| Fuel.
Arguments Ok {A} a.
Arguments Err {A} e.
Arguments Panic {A}.
Arguments Fuel {A}.

Definition bind {A B} (r : res A) (f : A -> res B) : res B :=
  match r with
  | Ok a => f a
  | Err m => Err m
  | Panic => Panic
  | Fuel => Fuel
  end.

Notation "'do' x <- e1 ; e2" := (bind e1 (fun x => e2))
  (at level 200, x pattern, e1 at level 100, e2 at level 200, right associativity).

Definition total {A} (r : res A) : Prop :=
  match r with Ok _ => True | Err _ => True | Panic => False | Fuel => False end.

(** Bytes and words. *)
Definition is_byte (x : Z) : Prop := 0 <= x < 256.
Definition is_u16 (x : Z) : Prop := 0 <= x < 65536.
Definition is_u32 (x : Z) : Prop := 0 <= x < 2 ^ 32.
Definition is_u64 (x : Z) : Prop := 0 <= x < 2 ^ 64.
Definition bytes (l : list Z) : Prop := Forall is_byte l.

Definition u8 (x : Z) : Z := x mod 256.
Definition u16 (x : Z) : Z := x mod 65536.
Definition u32 (x : Z) : Z := x mod 2 ^ 32.
Definition u64 (x : Z) : Z := x mod 2 ^ 64.

(** Rust [to_le_bytes]/[to_be_bytes] of a [k]-byte unsigned integer and their inverses. *)
Fixpoint le_bytes (k : nat) (x : Z) : list Z :=
  match k with
  | O => []
  | S k' => (x mod 256) :: le_bytes k' (x / 256)
  end.
Definition be_bytes (k : nat) (x : Z) : list Z := rev (le_bytes k x).

Fixpoint le_val (l : list Z) : Z :=
  match l with
  | [] => 0
  | b :: l' => b + 256 * le_val l'
  end.
Definition be_val (l : list Z) : Z := le_val (rev l).

(** [nth] with a visible default, used only where the index is proved (or checked) in range. *)
Definition getz (l : list Z) (i : nat) : Z := nth i l 0.

(** Overwrite position [i] (no change when out of range). *)
Fixpoint upd {A} (l : list A) (i : nat) (x : A) : list A :=
  match l, i with
  | [], _ => []
  | _ :: l', O => x :: l'
  | y :: l', S i' => y :: upd l' i' x
  end.

(** Rust [slice::chunks_exact] (the incomplete tail is dropped). [fuel] is the slice length. *)
Fixpoint chunks_exact_aux {A} (fuel : nat) (n : nat) (l : list A) : list (list A) :=
  match fuel with
  | O => []
  | S f =>
      if (n <=? length l)%nat
      then firstn n l :: chunks_exact_aux f n (skipn n l)
      else []
  end.
Definition chunks_exact {A} (n : nat) (l : list A) : list (list A) :=
  match n with
  | O => []
  | _ => chunks_exact_aux (length l) n l
  end.

(** Rust [slice::chunks]: the last chunk may be shorter. *)
Fixpoint chunks_aux {A} (fuel : nat) (n : nat) (l : list A) : list (list A) :=
  match fuel with
  | O => []
  | S f =>
      match l with
      | [] => []
      | _ => firstn n l :: chunks_aux f n (skipn n l)
      end
  end.
Definition chunks {A} (n : nat) (l : list A) : list (list A) :=
  match n with
  | O => []
  | _ => chunks_aux (length l) n l
  end.
