(** Model of the composition of the frames of an animated PNG: crates/zune-png/src/apng.rs.
    [powf] of the standard library is a parameter. Sums and products of sizes are natural numbers: the fields come from 32-bit
    values, so they cannot overflow the 64-bit arithmetic of the code once the frame is known to lie in the image. *)
From Verif Require Import Base Loops Slices F32 ToneModel DeintModel.

(** [DisposeOp], [BlendOp] — apng.rs:28-50; [from_int] — apng.rs:52-72 *)
Inductive dispose : Set := DNone | DBackground | DPrevious.
Inductive blending : Set := BSource | BOver.
Definition blend_of_int (i : Z) : res blending := if i =? 0 then Ok BSource else if i =? 1 then Ok BOver else Err ECorrupt.
Definition dispose_of_int (i : Z) : res dispose :=
  if i =? 0 then Ok DNone else if i =? 1 then Ok DBackground else if i =? 2 then Ok DPrevious else Err ECorrupt.

(** [FrameInfo] — apng.rs:75-103 *)
Record frame := mkFrame {
  f_seq : Z; f_w : nat; f_h : nat; f_x : nat; f_y : nat; f_num : Z; f_den : Z;
  f_dispose : dispose; f_blend : blending; f_in_seq : bool
}.

Section Powf.
Variable powf : f32 -> f32 -> f32.

(** One sample of OVER — apng.rs:346-385; the tables [gamma_values] hold [powf (i / 255) (1 / gamma)] *)
Definition over_sample (gamma : f32) (alpha a b : Z) : Z :=
  let inv := fdiv f1 gamma in
  let fa := fdiv (of_int alpha) (of_int 255) in
  let lin i := powf (fdiv (of_int i) (of_int 255)) inv in
  let mixed := fadd (fmul (lin a) fa) (fmul (lin b) (fsub f1 fa)) in
  to_uint 255 (fadd (fmul (powf mixed gamma) (of_int 255)) (fdiv f1 (of_int 2))).
(** [src_comp.iter().zip(dst_comp).take(n)] — apng.rs:368-385 *)
Fixpoint over_samples (n : nat) (gamma : f32) (alpha : Z) (src dst : list Z) : list Z :=
  match n, src, dst with
  | S n, a :: src, b :: dst => over_sample gamma alpha a b :: over_samples n gamma alpha src dst
  | _, _, _ => dst
  end.
(** One pixel — apng.rs:350-386. [last().unwrap()] panics for an empty slice only, which [chunks_exact] does not give. *)
Definition over_pixel (nc : nat) (gamma : f32) (src dst : list Z) : list Z :=
  let alpha := last src 0 in
  if alpha =? 0 then dst else over_samples (nc - 1) gamma alpha src dst.
Fixpoint over_pixels (nc : nat) (gamma : f32) (src dst : list (list Z)) : list (list Z) :=
  match src, dst with
  | s :: src, d :: dst => over_pixel nc gamma s d :: over_pixels nc gamma src dst
  | _, _ => dst
  end.
Definition over_row (nc : nat) (gamma : f32) (src dst : list Z) : list Z :=
  concat (over_pixels nc gamma (chunks_exact nc src) (chunks_exact nc dst)).

(** The body of the loop over rows — apng.rs:316-387; [assert!] panics before the error below it can be returned. The part of
    [dst] is a whole number of pixels, so that [chunks_exact_mut] leaves nothing over. *)
Definition draw_row (cs : colorspace) (f : frame) (gamma : f32) (src row : list Z) : res (list Z) :=
  let nc := num_components cs in
  do dst <- get_slice row (f_x f * nc) ((f_x f + f_w f) * nc - f_x f * nc) ;
  do new <- (match f_blend f with
             | BSource => if (length dst =? length src)%nat then Ok src else Panic
             | BOver => if has_alpha cs then Ok (over_row nc gamma src dst) else Panic
             end) ;
  Ok (put row (f_x f * nc) new).
(** [current_frame.chunks_exact(..).zip(..)] — apng.rs:310-388 *)
Fixpoint draw_rows (cs : colorspace) (f : frame) (gamma : f32) (src rows : list (list Z)) : res (list (list Z)) :=
  match src, rows with
  | s :: src, r :: rows =>
      do r <- draw_row cs f gamma s r ;
      do rows <- draw_rows cs f gamma src rows ;
      Ok (r :: rows)
  | _, _ => Ok rows
  end.

(** [DisposeOp] at the start — apng.rs:253-302 *)
Definition prepare (f : frame) (prev : option (list Z)) (output : list Z) : res (list Z) :=
  match f_dispose f with
  | DNone => Ok output
  | DBackground => Ok (repeat 0 (length output))
  | DPrevious =>
      match prev with
      | Some data => if (length output =? length data)%nat then Ok data else Err ESize
      | None => if 1 <? f_seq f then Err EOther else Ok output
      end
  end.
(** The default gamma, the literal 2.2 — apng.rs:304 *)
Definition gamma22 : f32 := S754_finite false 9227469 (-22).
(** [post_process_image] — apng.rs:226-390: the output after it. [chunks_exact(0)] panics. *)
Definition post_process (iw ih : nat) (cs : colorspace) (f : frame) (current : list Z) (prev : option (list Z))
  (output : list Z) (gamma : option f32) : res (list Z) :=
  let nc := num_components cs in
  if (iw <? f_x f + f_w f)%nat then Err ESize else
  if (ih <? f_y f + f_h f)%nat then Err ESize else
  if (length current <? f_h f * f_w f * nc)%nat then Err ESize else
  do output <- prepare f prev output ;
  let g := match gamma with Some g => g | None => gamma22 end in
  if (f_w f * nc =? 0)%nat || (iw * nc =? 0)%nat then Panic else
  let rows := chunks_exact (iw * nc) output in
  do mid <- draw_rows cs f g (chunks_exact (f_w f * nc) current) (firstn (f_h f) (skipn (f_y f) rows)) ;
  Ok (concat (firstn (f_y f) rows ++ mid ++ skipn (f_y f + f_h f) rows) ++ skipn (length rows * (iw * nc)) output).

(** The loop of the documentation of [post_process_image] — apng.rs:172-224: the canvases shown, given the frames and their
    decoded pixels. *)
Fixpoint play (iw ih : nat) (cs : colorspace) (gamma : option f32) (frames : list (frame * list Z)) (prev : option (list Z))
  (output : list Z) : res (list (list Z)) :=
  match frames with
  | [] => Ok []
  | (f, px) :: frames =>
      do output <- post_process iw ih cs f px prev output gamma ;
      do rest <- play iw ih cs gamma frames (Some output) output ;
      Ok (output :: rest)
  end.
End Powf.
