(** What a BMP file means, by the offsets of its fields, stated without the decoder. *)
From Verif Require Import Base Slices BmpSpec.

(** The [k] bytes at [p], as an integer with the least significant byte first *)
Definition le_at (f : list Z) (p k : nat) : Z := le_val (slice f p k).

(** [f] is a BMP file with a header of [isz] bytes: [w] by [h] pixels of [bpp] bits, stored from the top if [down], compression
    [comp], pixels from byte [off] on. The old header of 12 bytes has shorter fields. *)
Record bmp_file (f : list Z) (isz : Z) (w h : nat) (down : bool) (bpp comp : Z) (off : nat) : Prop := BmpFile {
  bf_bytes : bytes f;
  bf_size : (0 < w)%nat /\ (0 < h)%nat;
  bf_magic : nth 0 f 0 = 66 /\ nth 1 f 0 = 77;
  bf_off : le_at f 10 4 = Z.of_nat off /\ isz + 14 <= Z.of_nat off /\ (off <= length f)%nat;
  bf_isz : le_at f 14 4 = isz;
  bf_fields :
    (isz = 12 /\ down = false /\ comp = 0 /\ le_at f 18 2 = Z.of_nat w /\ le_at f 20 2 = Z.of_nat h /\ le_at f 24 2 = bpp) \/
    (In isz [40; 52; 56; 64; 108; 124] /\ Z.of_nat h < 2 ^ 31 /\ le_at f 18 4 = Z.of_nat w /\ le_at f 22 4 = (if down then 2 ^ 32 - Z.of_nat h else Z.of_nat h) /\
      le_at f 28 2 = bpp /\ le_at f 30 4 = comp) }.

(** The masks of a file that uses them; the fourth is in headers of 56 bytes and more only *)
Definition mask_at (f : list Z) (isz : Z) (i : nat) : Z := if (isz <? 56) && (i =? 3)%nat then 0 else le_at f (54 + 4 * i) 4.

(** Where the bytes of pixel (x, y) start, if a pixel has [bpp] bits *)
Definition pixel_pos (off w h : nat) (down : bool) (bpp x y : nat) : nat := (off + stored_row down h y * stride w bpp + x * bpp / 8)%nat.
(** The file holds all rows; only the padding of the last one may be missing. *)
Definition complete (f : list Z) (off w h bpp : nat) : Prop := (off + (h - 1) * stride w bpp + (w * bpp + 7) / 8 <= length f)%nat.

(** A field of [n] bits from bit [s] on, as eight bits *)
Definition scaled (s n v : Z) : Z := let x := (v / 2 ^ s) mod 2 ^ n in if n <=? 8 then replicate n x else x / 2 ^ (n - 8).

(** The colour of index [i] in a palette of [colors] entries after the header: entries of 4 bytes, 3 after a header of 12 bytes,
    blue first. *)
Definition palette_at (f : list Z) (isz : Z) (i : nat) : list Z :=
  let p := (14 + Z.to_nat isz + i * (if (isz =? 12)%Z then 3 else 4))%nat in [nth (p + 2) f 0; nth (p + 1) f 0; nth p f 0].

(** The index of a pixel of [d] bits at [x] in a row that starts at [p]: the first pixel is in the highest bits *)
Definition index_at (f : list Z) (d p x : nat) : Z :=
  nth (p + x * d / 8) f 0 / 2 ^ Z.of_nat (8 - d - x * d mod 8) mod 2 ^ Z.of_nat d.

(** The number of entries of the palette, and the colour of an index; an index beyond the palette is black *)
Definition colors_of (f : list Z) (isz : Z) (bpp : nat) : Z := if (isz =? 12) || (le_at f 46 4 =? 0) then 2 ^ Z.of_nat bpp else le_at f 46 4.
Definition color_at (f : list Z) (isz : Z) (bpp : nat) (i : Z) : list Z := if i <? colors_of f isz bpp then palette_at f isz (Z.to_nat i) else [0; 0; 0].
(** The palette is not too large, and lies before the pixels. *)
Definition palette_fits (f : list Z) (isz : Z) (bpp off : nat) : Prop :=
  colors_of f isz bpp <= 2 ^ Z.of_nat bpp /\ 14 + isz + colors_of f isz bpp * (if isz =? 12 then 3 else 4) <= Z.of_nat off.
