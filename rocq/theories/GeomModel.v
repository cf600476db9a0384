(** Model of the geometric operations of crates/zune-imageprocs on one channel. The code is generic in the
    sample type and only copies samples, so a channel is a list of integers (for floats: their bit patterns). *)
From Verif Require Import Base Loops Slices BmpModel.

(** [std::mem::swap] of two elements *)
Definition swap_at (l : list Z) (i j : nat) : res (list Z) :=
  do a <- get_at l i ; do b <- get_at l j ;
  do l <- set_at l i b ; set_at l j a.

(** [split_at_mut(len / 2)], then the first half zipped with the second half reversed, swapping — the body of
    [flip] (flip.rs:140-146) and, on each row, of [flop] (flip.rs:212-217). *)
Definition flip_list (l : list Z) : res (list Z) :=
  let half := (length l / 2)%nat in
  for_range 0 (Nat.min half (length l - half)) (fun k s => swap_at s k (length l - 1 - k)) l.
Definition flip : list Z -> res (list Z) := flip_list.

(** [vertical_flip] — flip.rs:162-181: whole rows of the top half swapped with whole rows of the bottom half
    counted from its end ([rchunks_exact_mut]). Same algorithm as the row flip of the BMP decoder. *)
Definition vertical_flip (w : nat) (l : list Z) : res (list Z) := flip_rows w l.

(** [flop] — flip.rs:204-219 *)
Definition flop (w : nat) (l : list Z) : res (list Z) :=
  if (w =? 0)%nat then Panic else
  if negb (length l mod w =? 0)%nat then Panic else
  do rows <- mapM flip_list (chunks_exact w l) ; Ok (concat rows).

(** ** Transpose — transpose/scalar.rs *)

(** One 8 by 8 tile — scalar.rs:41-65: read into the temporary, then write its rows. *)
Definition tile (w h i j : nat) (inp : list Z) (out : list Z) : res (list Z) :=
  do tmp <- for_range 0 8 (fun k t => for_range 0 8 (fun l t =>
              do v <- get_at inp (i * (8 * w) + j * 8 + k * w + l) ; set_at t (l * 8 + k) v) t) (repeat 0 64) ;
  for_range 0 8 (fun l o => do row <- get_slice tmp (l * 8) 8 ; put_slice o (j * h * 8 + i * 8 + l * h) row) out.

(** [n - (n & 7) - 1] on [usize]: panics when [n < 8] in a checked build and wraps otherwise, after which the
    range [rem..n] is empty. *)
Definition rem_start (checked : bool) (n : nat) : res nat :=
  if (n <? 8)%nat then (if checked then Panic else Ok n) else Ok (n - n mod 8 - 1)%nat.

(** [transpose_scalar] — scalar.rs:9-80. [checked]: overflow checks on. *)
Definition transpose (checked : bool) (w h : nat) (inp out : list Z) : res (list Z) :=
  if negb (length inp =? w * h)%nat then Panic else
  if negb (length out =? w * h)%nat then Panic else
  if (8 * w =? 0)%nat then Panic else
  do out <- for_range 0 (length inp / (8 * w)) (fun i o =>
              for_range 0 (w / 8) (fun j o => tile w h i j inp o) o) out ;
  do rw <- rem_start checked w ;
  do rh <- rem_start checked h ;
  do out <- for_range rh h (fun i o => for_range 0 w (fun j o =>
              do v <- get_at inp (i * w + j) ; set_at o (j * h + i) v) o) out ;
  for_range rw w (fun i o => for_range 0 h (fun j o =>
              do v <- get_at inp (j * w + i) ; set_at o (i * h + j) v) o) out.

(** ** Rotate — rotate.rs *)

(** [if let Some(c) = out.get_mut(i) { *c = v }] *)
Definition set_opt (l : list Z) (i : nat) (v : Z) : list Z := upd l i v.

(** [rotate_90] — rotate.rs:224-237; [height - y - 1] is checked. *)
Definition rotate_90 (w h : nat) (inp out : list Z) : res (list Z) :=
  if (w =? 0)%nat then Panic else
  for_range 0 (length inp / w) (fun y o =>
    if (h <? y + 1)%nat then Panic else
    for_range 0 w (fun x o => do v <- get_at inp (y * w + x) ; Ok (set_opt o (x * h + (h - y - 1)) v)) o) out.

(** [rotate_270] — rotate.rs:239-248 *)
Definition rotate_270 (w h : nat) (inp out : list Z) : res (list Z) :=
  if (w =? 0)%nat then Panic else
  for_range 0 (length inp / w) (fun y o =>
    for_range 0 w (fun x o => do v <- get_at inp (y * w + x) ; Ok (set_opt o ((w - x - 1) * h + y) v)) o) out.

(** [rotate_180] — rotate.rs:162-174: rows of the top half swapped with the rows of the bottom half, where the
    bottom half is cut into rows from its beginning. *)
Definition rotate_180 (w : nat) (l : list Z) : res (list Z) :=
  if (w =? 0)%nat then Panic else
  let half := (length l / 2)%nat in
  let nb := ((length l - half) / w)%nat in
  for_range 0 (Nat.min (half / w) nb) (fun k o =>
    for_range 0 w (fun x o => swap_at o (k * w + x) (half + (nb - 1 - k) * w + x)) o) l.

(** ** Crop — crop.rs:213-234 *)

(** Rows of the input zipped with rows of the output; a row is copied when the window fits horizontally. *)
Fixpoint crop_rows (ow x : nat) (ins outs : list (list Z)) : list (list Z) :=
  match ins, outs with
  | i :: ins', o :: outs' =>
      (if (x + ow <=? length i)%nat then slice i x ow else o) :: crop_rows ow x ins' outs'
  | _, _ => outs
  end.
Definition crop (inp : list Z) (iw : nat) (out : list Z) (ow oh x y : nat) : list Z :=
  if (iw =? 0)%nat || (ow =? 0)%nat then out else
  let outs := chunks_exact ow out in
  concat (crop_rows ow x (firstn oh (skipn y (chunks_exact iw inp))) outs) ++ skipn (length outs * ow) out.

(** ** Pad — pad.rs *)

(** [out[start..end].copy_from_slice(in)] inside the rows [pad_y ..] — pad.rs:88-112 *)
Fixpoint pad_rows (pw px w : nat) (f : list Z -> list Z -> res (list Z)) (outs ins : list (list Z)) : res (list (list Z)) :=
  match outs, ins with
  | o :: outs', i :: ins' => do o' <- f o i ; do r <- pad_rows pw px w f outs' ins' ; Ok (o' :: r)
  | _, _ => Ok outs
  end.

(** One row of [no_fill]: [end - start] must equal the input row's length. *)
Definition fill_mid (px w : nat) (o i : list Z) : res (list Z) :=
  if negb (length i =? w)%nat then Panic else put_slice o px i.
(** One row of [replicate] *)
Definition fill_row (px w : nat) (o i : list Z) : res (list Z) :=
  do a <- get_at i 0 ;
  do o <- put_slice o 0 (repeat a px) ;
  do o <- fill_mid px w o i ;
  put_slice o (px + w) (repeat (last i 0) (length o - (px + w))).

(** [no_fill] — pad.rs:87-112 *)
Definition pad_constant (pixels : list Z) (w h px py : nat) : res (list Z) :=
  let pw := (w + px * 2)%nat in let ph := (h + py * 2)%nat in
  if (pw =? 0)%nat || (w =? 0)%nat then Panic else
  let outs := chunks_exact pw (repeat 0 (ph * pw)) in
  do mid <- pad_rows pw px w (fill_mid px w) (firstn h (skipn py outs)) (chunks_exact w pixels) ;
  Ok (concat (firstn py outs ++ mid ++ skipn (py + h) outs)).

(** [replicate] — pad.rs:114-180: top rows, middle rows, then the bottom rows counted from the end. The last row
    of the input is the last [w] samples. *)
Definition pad_replicate (pixels : list Z) (w h px py : nat) : res (list Z) :=
  let pw := (w + px * 2)%nat in let ph := (h + py * 2)%nat in
  do first_row <- get_slice pixels 0 w ;
  if (pw =? 0)%nat then Panic else
  let outs := chunks_exact pw (repeat 0 (ph * pw)) in
  do top <- mapM (fun o => fill_row px w o first_row) (firstn py outs) ;
  let outs := top ++ skipn py outs in
  if (w =? 0)%nat then Panic else
  do mid <- pad_rows pw px w (fill_row px w) (firstn h (skipn py outs)) (chunks_exact w pixels) ;
  let outs := firstn py outs ++ mid ++ skipn (py + h) outs in
  if (length pixels <? w)%nat then Panic else           (* [rchunks_exact(width).next().unwrap()] *)
  let last_row := skipn (length pixels - w) pixels in
  do bot <- mapM (fun o => fill_row px w o last_row) (skipn (length outs - py) outs) ;
  Ok (concat (firstn (length outs - py) outs ++ bot)).

(** ** Mirror — mirror.rs:138-176 *)

Inductive mirror_mode : Set := North | South | East | West.

(** One row: [split_at_mut(width / 2)], left zipped with right reversed *)
Definition mirror_row (m : mirror_mode) (row : list Z) : res (list Z) :=
  let half := (length row / 2)%nat in
  for_range 0 (Nat.min half (length row - half)) (fun k s =>
    match m with
    | West => do v <- get_at s k ; set_at s (length row - 1 - k) v
    | East => do v <- get_at s (length row - 1 - k) ; set_at s k v
    | _ => Ok s
    end) row.
Definition mirror (m : mirror_mode) (w h : nat) (l : list Z) : res (list Z) :=
  match m with
  | East | West =>
      if (w =? 0)%nat then Panic else
      let rows := chunks_exact w l in
      do out <- mapM (mirror_row m) rows ; Ok (concat out ++ skipn (length rows * w) l)
  | North | South =>
      let halfway := (w * (h / 2))%nat in
      if (length l <? halfway)%nat then Panic else
      if (w =? 0)%nat then Panic else
      for_range 0 (Nat.min (halfway / w) ((length l - halfway) / w)) (fun k o =>
        let b := (length l - (k + 1) * w)%nat in
        match m with
        | North => do r <- get_slice o (k * w) w ; put_slice o b r
        | _ => do r <- get_slice o b w ; put_slice o (k * w) r
        end) l
  end.
