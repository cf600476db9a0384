(** What colorspace conversions are to do. *)
From Verif Require Import Base F32 DepthModel DepthSpec ChannelModel DeintModel ColorModel.

(** A channel of [n] samples of depth [d]; a frame; an image *)
Definition chan (d : depth) (n : nat) (c : samples) : Prop := of_depth d c /\ count c = n.
Definition wf_frame (cs : colorspace) (d : depth) (n : nat) (f : list samples) : Prop :=
  length f = num_components cs /\ Forall (chan d n) f.
Definition wf (i : image) : Prop := frames i <> [] /\ Forall (wf_frame (cspace i) (idepth i) (npx i)) (frames i).

(** The colorspaces conversions exist for, and those that are mere arrangements of red, green, blue, alpha *)
Definition convertible (c : colorspace) : Prop :=
  match c with RGB | RGBA | Luma | LumaA | CMYK | BGR | BGRA | ARGB | HSL | HSV => True | _ => False end.
Definition layout (c : colorspace) : Prop := match c with RGB | RGBA | BGR | BGRA | ARGB => True | _ => False end.
(** Red, green and blue channel of a frame; its alpha channel *)
Definition colours (c : colorspace) (f : list samples) : option (samples * samples * samples) :=
  match c, f with
  | RGB, [r; g; b] | RGBA, [r; g; b; _] | BGR, [b; g; r] | BGRA, [b; g; r; _] | ARGB, [_; r; g; b] => Some (r, g, b)
  | _, _ => None
  end.
Definition alpha (c : colorspace) (f : list samples) : option samples :=
  match c, f with
  | RGBA, [_; _; _; a] | BGRA, [_; _; _; a] | ARGB, [a; _; _; _] | LumaA, [_; a] => Some a
  | _, _ => None
  end.
(** [s] is fully opaque everywhere *)
Definition is_opaque (d : depth) (n : nat) (s : samples) : Prop :=
  match d, s with
  | D8, S8 l => l = repeat 255 n
  | D16, S16 l => l = repeat 65535 n
  | D32, SF l => l = repeat (of_int 1) n
  | _, _ => False
  end.
(** The same picture in another arrangement *)
Definition same_picture (d : depth) (n : nat) (from to : colorspace) (f f' : list samples) : Prop :=
  colours to f' = colours from f /\ colours from f <> None /\
  (has_alpha to = true -> exists a', alpha to f' = Some a' /\
     match alpha from f with Some a => a' = a | None => is_opaque d n a' end).

(** Gray values: the weighted sum of the colours (weights 0.2989, 0.5870, 0.1140) cut to an integer, up to 0.03 *)
Definition close_gray (r g b y : Z) : Prop :=
  10000 * y - 300 <= 2989 * r + 5870 * g + 1140 * b < 10000 * (y + 1) + 300.
