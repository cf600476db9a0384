(** What splitting into channels means. *)
From Verif Require Import Base DeintModel.

(** [chs] are the [n] channels of the interleaved samples [px]: sample [i] of pixel [p] is at position [p] of channel [i]. *)
Definition splits {A} (d : A) (n : nat) (px : list A) (chs : list (list A)) : Prop :=
  length chs = n /\
  forall i, (i < n)%nat -> length (nth i chs []) = (length px / n)%nat /\
    forall p, (p < length px / n)%nat -> nth p (nth i chs []) d = nth (p * n + i) px d.

(** Whether the 8-bit routine for this colorspace stays within the instruction sets of the processor *)
Definition supported (p : cpu) (cs : colorspace) : Prop :=
  match num_components cs with
  | 3%nat => simd p = false \/ avx2 p = true \/ sse41 p = true \/ sse3 p = false
  | 4%nat => simd p = false \/ avx2 p = true \/ sse41 p = false
  | _ => True
  end.
(** What every processor satisfies *)
Definition plausible (p : cpu) : Prop :=
  (avx2 p = true -> sse41 p = true) /\ (sse41 p = true -> sse3 p = true) /\ (sse3 p = true -> sse2 p = true).
