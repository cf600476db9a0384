(** The start of a GIF file, after the GIF89a specification, sections 17 to 19. *)
From Verif Require Import Base.

(** Signature with version 87a or 89a ([v] is the digit), sides, flags, background index, pixel ratio, and what follows *)
Definition gif_file (v w h flags bg ratio : Z) (rest : list Z) : list Z :=
  [71; 73; 70; 56; v; 97] ++ [w mod 256; w / 256] ++ [h mod 256; h / 256] ++ [flags; bg; ratio] ++ rest.
Definition gif_version (v : Z) : Prop := v = 55 \/ v = 57.

(** The number of colours in the global table *)
Definition table_size (flags : Z) : nat := if flags <? 128 then 0%nat else Z.to_nat (2 ^ (flags mod 8 + 1)).
(** Colour [i] of the table as blue, green, red and opaque *)
Definition table_colour (rest : list Z) (i : nat) : list Z :=
  [nth (3 * i + 2) rest 0; nth (3 * i + 1) rest 0; nth (3 * i) rest 0; 255].
