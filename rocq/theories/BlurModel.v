(** Model of the integer box blur — crates/zune-imageprocs/src/box_blur.rs. Samples are [b]-bit, b = 8 or 16. *)
From Verif Require Import Base Loops ProcModel GeomModel.

(** [u32] arithmetic with overflow checks *)
Definition u32_add (a c : Z) : res Z := if 2 ^ 32 <=? a + c then Panic else Ok (a + c).
Definition u32_sub (a c : Z) : res Z := if a <? c then Panic else Ok (a - c).

Definition sumz (l : list Z) : Z := fold_right Z.add 0 l.

(** One row of [box_blur_inner] — box_blur.rs:233-296. [d] is the diameter already cut to the width, [m] the
    multiplier for dividing by it; [s] the input row, [o] the output row (of the same length). *)
Definition blur_row (b : Z) (d : nat) (m : Z) (s o : list Z) : res (list Z) :=
  let w := length s in
  let half := ((d + 1) / 2)%nat in
  let put acc o i := do q <- fastdiv acc m ; set_at o i (q mod 2 ^ b) in
  (* 235-237 *)
  if (w <? half)%nat then Panic else
  do acc <- u32_add 0 (sumz (firstn half s)) ;
  do s0 <- get_at s 0 ;
  do ext <- u32_add 0 (Z.of_nat (half - 1) mod 2 ^ 32 * s0) ;
  do acc <- u32_add acc ext ;
  (* 239-248 *)
  do ao <- for_range 0 (Nat.min (half - 1) (Nat.min (w - half) (length o))) (fun i ao =>
      do x <- get_at s (half + i) ;
      do acc <- u32_add (fst ao) x ;
      do acc <- u32_sub acc s0 ;
      do o <- put acc (snd ao) i ; Ok (acc, o)) (acc, o) ;
  (* 260-281: [windows d] of [s[1..]] *)
  do so <- for_range 0 (Nat.min (w - d) (length o - (half - 1))) (fun j so =>
      let '(acc, slide, o) := so in
      do acc <- u32_sub acc slide ;
      do x <- get_at s (1 + j + (d - 1)) ;
      do acc <- u32_add acc x ;
      do slide <- get_at s (1 + j) ;
      do o <- put acc o (half - 1 + j)%nat ; Ok (acc, slide, o)) (fst ao, s0, snd ao) ;
  let '(acc, _, o) := so in
  (* 283-296 *)
  if (length o <? half)%nat then Panic else
  let edge := (length o - half)%nat in
  let last_item := last s 0 in
  do ao <- for_range 0 (Nat.min half (w - edge)) (fun i ao =>
      do x <- get_at s (edge + i) ;
      let acc := (fst ao - x) mod 2 ^ 32 in
      let acc := (acc + last_item) mod 2 ^ 32 in
      do o <- put acc (snd ao) (edge + i)%nat ; Ok (acc, o)) (acc, o) ;
  Ok (snd ao).

(** [in.chunks_exact(width).zip(out.chunks_exact_mut(width))] *)
Fixpoint blur_rows (b : Z) (d : nat) (m : Z) (ins outs : list (list Z)) : res (list (list Z)) :=
  match ins, outs with
  | s :: ins', o :: outs' => do r <- blur_row b d m s o ; do rs <- blur_rows b d m ins' outs' ; Ok (r :: rs)
  | _, _ => Ok outs
  end.

(** [box_blur_inner] — box_blur.rs:192-297 *)
Definition box_blur_inner (b : Z) (inp out : list Z) (w r : nat) : res (list Z) :=
  let d := (r * 2 + 1)%nat in
  if ((w <=? 1) || (d <=? 1))%nat then Ok out else
  let d := Nat.min d w in
  do m <- compute_mod (Z.of_nat d) ;
  do rows <- blur_rows b d m (chunks_exact w inp) (chunks_exact w out) ;
  Ok (concat rows ++ skipn (length (chunks_exact w out) * w) out).

(** [box_blur_u8] / [box_blur_u16] — box_blur.rs:138-173, with a scratch buffer of zeros as allocated by the callers
    (68-129). The transposes are those of transpose.rs, scalar version. *)
Definition box_blur (b : Z) (checked : bool) (img : list Z) (w h r : nat) : res (list Z) :=
  if ((w =? 0) || (r <=? 1))%nat then Ok img else
  let r := if (r mod 2 =? 0)%nat then (r + 1)%nat else r in
  do scratch <- box_blur_inner b img (repeat 0 (w * h)) w r ;
  do img <- transpose checked w h scratch img ;
  do scratch <- box_blur_inner b img scratch h r ;
  transpose checked h w scratch img.
