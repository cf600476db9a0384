(** What a PSD file is — Adobe Photoshop File Formats Specification: header, three blocks with their lengths, the compression, the data
    of the channels one after the other. *)
From Verif Require Import Base.

(** PackBits (TIFF 6.0, section 9): [packs code data] *)
Inductive packs : list Z -> list Z -> Prop :=
| packs_nil : packs [] []
| packs_literal n d bs ds : 0 <= n < 128 -> length d = Z.to_nat (n + 1) -> packs bs ds -> packs (n :: d ++ bs) (d ++ ds)
| packs_run n x bs ds : 129 <= n <= 255 -> packs bs ds -> packs (n :: x :: bs) (repeat x (Z.to_nat (257 - n)) ++ ds)
| packs_noop bs ds : packs bs ds -> packs (128 :: bs) ds.
(** The channels one after the other *)
Inductive packed_planes : list Z -> list (list Z) -> Prop :=
| planes_nil : packed_planes [] []
| planes_cons b bs p ps : packs b p -> packed_planes bs ps -> packed_planes (b ++ bs) (p :: ps).

Definition block (data : list Z) : list Z := be_bytes 4 (Z.of_nat (length data)) ++ data.
(** The file up to the data of the channels. [mode]: 1 gray, 3 RGB, 4 CMYK. *)
Definition psd_head (reserved : list Z) (channels height width depth mode : Z) (colours resources layers : list Z) (compression : Z) : list Z :=
  [56; 66; 80; 83; 0; 1] ++ reserved ++ be_bytes 2 channels ++ be_bytes 4 height ++ be_bytes 4 width ++ be_bytes 2 depth ++ be_bytes 2 mode ++
  block colours ++ block resources ++ block layers ++ be_bytes 2 compression.
Definition head_ok (reserved : list Z) (channels height width : Z) (colours resources layers : list Z) : Prop :=
  length reserved = 6%nat /\ 1 <= channels <= 4 /\ 1 <= height < 2 ^ 32 /\ 1 <= width < 2 ^ 32 /\
  Z.of_nat (length colours) < 2 ^ 32 /\ Z.of_nat (length resources) < 2 ^ 32 /\ Z.of_nat (length layers) < 2 ^ 32.

(** The picture: pixel by pixel, the samples of the channels *)
Definition interleaved (n : nat) (planes : list (list Z)) : list Z :=
  flat_map (fun p => map (fun plane => nth p plane 0) planes) (seq 0 n).

(** A sample [c] with opacity [a] over white, rounded *)
Definition over_white (c a : Z) : Z := (2 * (c * a + 255 * (255 - a)) + 255) / 510.
(** [y] is the sample, up to one unit, that makes [x] when shown with opacity [a] over white *)
Definition straight (a x y : Z) : Prop := 0 <= y <= 255 /\ Z.abs (a * y - Z.max 0 (255 * (x - (255 - a)))) <= a.
(** What the picture shows for a stored pixel: pixels with opacity have straight colours. *)
Definition shown (stored out : list Z) : Prop :=
  match stored with
  | [r; g; b; a] =>
      if (a =? 0) || (a =? 255) then out = stored
      else exists r' g' b', out = [r'; g'; b'; a] /\ straight a r r' /\ straight a g g' /\ straight a b b'
  | _ => out = stored
  end.
