(** Model of the median filter — crates/zune-imageprocs/src/median.rs. [median_u8] (203-283) and [median_u16]
    (111-201) are the same code over 256 and 65536 histogram levels. *)
From Verif Require Import Base Loops Slices GeomModel.

(** What the closure keeps between calls: the histogram, the column to drop, the number of calls —
    median.rs:123-136, 208-218. *)
Record mstate : Set := MState { m_hist : list Z; m_drop : list Z; m_count : nat }.

(** [histogram[x] += 1] and [-= 1] on [u32], with bounds and overflow checks — median.rs:148-162,
    230-243 *)
Definition hist_add (h : list Z) (x : Z) : res (list Z) :=
  do c <- get_at h (Z.to_nat x) ; if 2 ^ 32 <=? c + 1 then Panic else set_at h (Z.to_nat x) (c + 1).
Definition hist_sub (h : list Z) (x : Z) : res (list Z) :=
  do c <- get_at h (Z.to_nat x) ; if c =? 0 then Panic else set_at h (Z.to_nat x) (c - 1).
Fixpoint hist_all (op : list Z -> Z -> res (list Z)) (xs : list Z) (h : list Z) : res (list Z) :=
  match xs with
  | [] => Ok h
  | x :: xs' => do h' <- op h x ; hist_all op xs' h'
  end.

(** The scan for the median — median.rs:164-175, 246-257: first level where the running sum reaches [target]; 0 if none. *)
Fixpoint scan (h : list Z) (pos acc target : Z) : res Z :=
  match h with
  | [] => Ok 0
  | c :: h' =>
      if 2 ^ 32 <=? acc + c then Panic else
      if target <=? acc + c then Ok pos else scan h' (pos + 1) (acc + c) target
  end.

(** One call of the closure — median.rs:220-271 (8 bit), 138-189 (16 bit). The final assertion is a [debug_assert!]. *)
Definition median_step (levels rs width : nat) (st : mstate) (win : list Z) : res (mstate * Z) :=
  if (width =? 0)%nat then Panic else
  do h <- (if (m_count st mod width =? 0)%nat then hist_all hist_add win (repeat 0 levels)
           else do h <- hist_all hist_sub (m_drop st) (m_hist st) ;
                hist_all hist_add (map (fun v => last v 0) (chunks_exact rs win)) h) ;
  do med <- scan h 0 0 (Z.of_nat (length win / 2) mod 2 ^ 32) ;
  if negb (length (chunks_exact rs win) =? length (m_drop st))%nat then Panic else
  Ok (MState h (map (fun v => nth 0 v 0) (chunks_exact rs win)) (m_count st + 1), med).

(** The window gathered by [spatial_median] at output position (ix, iy) — median.rs:309-320; the
    prefetches have no effect on the result. *)
Definition gather (inp : list Z) (pw rs ix iy : nat) : res (list Z) :=
  for_range 0 rs (fun ky acc => do s <- get_slice inp ((iy + ky) * pw + ix) rs ; Ok (acc ++ s)) [].

(** [spatial_median] — median.rs:285-327; [x - radius_loop] and [y - radius_loop] run over the output. *)
Definition spatial_median (levels : nat) (inp out : list Z) (r w h : nat) : res (list Z) :=
  let rs := (2 * r + 1)%nat in
  let pw := (r * 2 + w)%nat in
  if negb ((r * 2 + h) * pw =? length inp)%nat then Panic else
  do so <- for_range 0 h (fun iy so => for_range 0 w (fun ix so =>
      do win <- gather inp pw rs ix iy ;
      do sv <- median_step levels rs w (fst so) win ;
      do out <- set_at (snd so) (iy * w + ix) (snd sv) ;
      Ok (fst sv, out)) so) (MState (repeat 0 levels) (repeat 0 rs) 0, out) ;
  Ok (snd so).

(** [median_u8] / [median_u16] — median.rs:191-200, 273-282: replicate padding by the radius, then [spatial_median] *)
Definition median (levels : nat) (inp : list Z) (r w h : nat) : res (list Z) :=
  do padded <- pad_replicate inp w h r r ;
  spatial_median levels padded (repeat 0 (length inp)) r w h.

(** The operation — median.rs:72-105, for one channel: nothing happens below radius 2. *)
Definition median_op (levels : nat) (inp : list Z) (r w h : nat) : res (list Z) :=
  if (r <? 2)%nat then Ok inp else median levels inp r w h.
