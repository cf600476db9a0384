(** What the pointwise operations should compute. *)
From Verif Require Import Base.

(** Nearest integer to [n / d], halves up. *)
Definition round_div (n d : Z) : Z := (2 * n + d) / (2 * d).

(** [b]-bit sample *)
Definition sample (b x : Z) : Prop := 0 <= x < 2 ^ b.

(** The documented table of threshold methods (threshold.rs:40-47), with [max] the largest sample value:
    Binary: max if src > thresh, 0 otherwise; BinaryInv: 0 if src > thresh, max otherwise;
    ThreshTrunc: thresh if src > thresh, src otherwise; ThreshToZero: src if src > thresh, 0 otherwise. *)
Definition doc_binary (max t x : Z) : Z := if t <? x then max else 0.
Definition doc_binary_inv (max t x : Z) : Z := if t <? x then 0 else max.
Definition doc_trunc (t x : Z) : Z := Z.min t x.
Definition doc_to_zero (t x : Z) : Z := if t <? x then x else 0.
