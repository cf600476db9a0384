(** What the frames of an animated PNG should show (https://wiki.mozilla.org/APNG_Specification, "The output buffer"). A
    canvas gives the samples of each pixel; a buffer of [w * h] pixels of [nc] samples holds one. Only the description of a
    frame ([frame]) is shared with the model. *)
From Verif Require Import Base Slices ApngModel.

Definition canvas : Type := nat -> nat -> list Z.
Definition pixel (w nc : nat) (l : list Z) (x y : nat) : list Z := slice l ((y * w + x) * nc) nc.
Definition holds_canvas (w h nc : nat) (l : list Z) (c : canvas) : Prop :=
  length l = (w * h * nc)%nat /\ forall x y, (x < w)%nat -> (y < h)%nat -> pixel w nc l x y = c x y.
Definition blank (nc : nat) : canvas := fun _ _ => repeat 0 nc.

(** The region of a frame *)
Definition inside (f : frame) (x y : nat) : bool :=
  ((f_x f <=? x) && (x <? f_x f + f_w f) && (f_y f <=? y) && (y <? f_y f + f_h f))%nat.
Definition within (w h : nat) (f : frame) : Prop :=
  (0 < f_w f /\ 0 < f_h f /\ f_x f + f_w f <= w /\ f_y f + f_h f <= h)%nat.

Section Over.
(** How a pixel of a frame is laid over one of the canvas *)
Variable over : list Z -> list Z -> list Z.
(** Drawing a frame, whose pixels are [px], on a canvas *)
Definition drawn (nc : nat) (f : frame) (px : list Z) (c : canvas) : canvas := fun x y =>
  if inside f x y then
    let p := pixel (f_w f) nc px (x - f_x f) (y - f_y f) in
    match f_blend f with BSource => p | BOver => over p (c x y) end
  else c x y.
(** What the next frame finds after one that changed the canvas from [before] to [after] *)
Definition disposed (nc : nat) (first : bool) (f : frame) (before after : canvas) : canvas := fun x y =>
  if inside f x y then
    match f_dispose f with
    | DNone => after x y
    | DBackground => repeat 0 nc
    | DPrevious => if first then repeat 0 nc else before x y
    end
  else after x y.
(** The canvases shown, one for each frame *)
Fixpoint shown (nc : nat) (first : bool) (frames : list (frame * list Z)) (c : canvas) : list canvas :=
  match frames with
  | [] => []
  | (f, px) :: frames =>
      let c' := drawn nc f px c in
      c' :: shown nc false frames (disposed nc first f c c')
  end.
End Over.

(** The nearest integer to [n / 255] (there are no ties, 255 being odd) *)
Definition nearest255 (n : Z) : Z := (2 * n + 255) / 510.
(** OVER without gamma correction for a canvas of full opacity: every colour is mixed by the opacity of the frame's pixel, the
    last sample; the canvas stays opaque. *)
Definition mixed (alpha : Z) (s d : list Z) : list Z :=
  map (fun k => nearest255 (nth k s 0 * alpha + nth k d 0 * (255 - alpha))) (seq 0 (length d - 1)) ++ [255].
Definition over_opaque (s d : list Z) : list Z := mixed (last s 0) s d.
Definition opaque (p : list Z) : Prop := last p 0 = 255.
