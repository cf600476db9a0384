(** What a BMP file means, stated without the decoder: run-length commands as drawing actions on a canvas
    with the origin at the bottom left, bit replication of colour fields, and where a pixel of an
    uncompressed image lies in the file. *)
From Verif Require Import Base.

(** ** Run-length commands *)

Inductive cmd : Set :=
| Run (n : nat) (v : Z)       (* encoded mode: [n] pixels from the byte [v] *)
| Lit (vs : list Z)           (* absolute mode: the given pixels *)
| Eol                         (* end of line *)
| Delta (dx dy : nat).        (* move right and up *)

(** What a command draws. *)
Inductive act : Set := Put (vs : list Z) | NewLine | Move (dx dy : nat).

Fixpoint alternate (n : nat) (a b : Z) : list Z :=
  match n with O => [] | S n' => a :: alternate n' b a end.

(** RLE8: one byte is one pixel. RLE4: one byte is two pixels, high half first. *)
Definition act8 (c : cmd) : act :=
  match c with Run n v => Put (repeat v n) | Lit vs => Put vs | Eol => NewLine | Delta x y => Move x y end.
Definition act4 (c : cmd) : act :=
  match c with Run n v => Put (alternate n (v / 16) (v mod 16)) | Lit vs => Put vs | Eol => NewLine | Delta x y => Move x y end.

(** A canvas: column, row counted from the bottom. *)
Definition canvas : Type := nat -> nat -> Z.
Definition blank : canvas := fun _ _ => 0.
Definition put_px (vs : list Z) (x y : nat) (c : canvas) : canvas :=
  fun x' y' => if (y' =? y)%nat && (x <=? x')%nat && (x' <? x + length vs)%nat then nth (x' - x) vs 0 else c x' y'.

(** Draw the actions starting at column [x] of row [y]; the final canvas and row. *)
Fixpoint draw (l : list act) (x y : nat) (c : canvas) : canvas :=
  match l with
  | [] => c
  | Put vs :: r => draw r (x + length vs) y (put_px vs x y c)
  | NewLine :: r => draw r 0 (y + 1) c
  | Move dx dy :: r => draw r (x + dx) (y + dy) c
  end.

(** The actions stay within a [w] by [h] image. *)
Fixpoint fits (w h : nat) (l : list act) (x y : nat) : Prop :=
  match l with
  | [] => True
  | Put vs :: r => (x + length vs <= w)%nat /\ fits w h r (x + length vs) y
  | NewLine :: r => (y + 1 < h)%nat /\ fits w h r 0 (y + 1)
  | Move dx dy :: r => (x + dx <= w)%nat /\ (y + dy < h)%nat /\ fits w h r (x + dx) (y + dy)
  end.

(** Commands as bytes. *)
Definition cmd_ok (maxv : Z) (c : cmd) : Prop :=
  match c with
  | Run n v => (1 <= n <= 255)%nat /\ 0 <= v < 256
  | Lit vs => (3 <= length vs <= 255)%nat /\ Forall (fun v => 0 <= v < maxv) vs
  | Eol => True
  | Delta x y => (x <= 255)%nat /\ (y <= 255)%nat
  end.
Definition enc8 (c : cmd) : list Z :=
  match c with
  | Run n v => [Z.of_nat n; v]
  | Lit vs => [0; Z.of_nat (length vs)] ++ vs ++ repeat 0 (length vs mod 2)
  | Eol => [0; 0]
  | Delta x y => [0; 2; Z.of_nat x; Z.of_nat y]
  end.
(** Two pixels to a byte; a last odd pixel is padded. *)
Fixpoint pack4 (vs : list Z) : list Z :=
  match vs with
  | a :: b :: r => (16 * a + b) :: pack4 r
  | [a] => [16 * a]
  | [] => []
  end.
Definition enc4 (c : cmd) : list Z :=
  match c with
  | Run n v => [Z.of_nat n; v]
  | Lit vs => [0; Z.of_nat (length vs)] ++ pack4 vs ++ repeat 0 (length (pack4 vs) mod 2)
  | Eol => [0; 0]
  | Delta x y => [0; 2; Z.of_nat x; Z.of_nat y]
  end.
Definition stream8 (l : list cmd) : list Z := concat (map enc8 l).
Definition stream4 (l : list cmd) : list Z := concat (map enc4 l).

(** ** Bit replication *)

(** The eight-bit value whose bits, from the top, are those of the [n]-bit [f] over and over. *)
Definition replicate (n f : Z) : Z :=
  fold_left (fun acc i => 2 * acc + (f / 2 ^ (n - 1 - (i mod n))) mod 2) [0; 1; 2; 3; 4; 5; 6; 7] 0.

(** The mask covering bits [s .. s + n). *)
Definition mask (s n : Z) : Z := (2 ^ n - 1) * 2 ^ s.

(** ** Uncompressed rows *)

(** Length of a stored row: a multiple of four bytes. *)
Definition stride (w bpp : nat) : nat := ((w * bpp + 31) / 32 * 4)%nat.
(** Which stored row holds row [y] (from the top) of the picture. *)
Definition stored_row (down : bool) (h y : nat) : nat := if down then y else (h - 1 - y)%nat.
