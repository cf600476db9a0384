(** What entropy-coded JPEG data means (ITU-T T.81): Huffman codes (Annex C), byte stuffing (B.1.1.5) and the coding of
    blocks (F.1.2). Written without the decoder's definitions. *)
From Verif Require Import Base JpegIdctSpec.

(** A number as [n] bits, the highest first *)
Fixpoint msb (n : nat) (v : Z) : list bool :=
  match n with O => [] | S n' => Z.testbit v (Z.of_nat n') :: msb n' v end.

(** The code lengths in the order of the symbols: [counts] says how many codes have 1, 2, .., 16 bits. *)
Fixpoint sizes_from (l : Z) (counts : list Z) : list Z :=
  match counts with [] => [] | n :: counts' => repeat l (Z.to_nat n) ++ sizes_from (l + 1) counts' end.
(** C.2: codes count up; when the length grows, zero bits are appended. *)
Fixpoint assign (prev next : Z) (sizes : list Z) : list (Z * Z) :=
  match sizes with
  | [] => []
  | s :: sizes' => let c := next * 2 ^ (s - prev) in (s, c) :: assign s (c + 1) sizes'
  end.
Definition codes (counts : list Z) : list (Z * Z) := assign 0 0 (sizes_from 1 counts).
(** A table of a file: 16 byte-sized counts, at most 256 symbols *)
Definition table_ok (counts values : list Z) : Prop :=
  length counts = 16%nat /\ Forall (fun n => 0 <= n) counts /\ (length (codes counts) <= 256)%nat /\
  length values = 256%nat /\ bytes values.
(** No code has all bits set and all codes fit. *)
Definition legal (counts : list Z) : Prop := Forall (fun '(s, c) => c + 1 < 2 ^ s) (codes counts).
(** [bs] is a code of the symbol. *)
Definition code_of (counts values : list Z) (sym : Z) (bs : list bool) : Prop :=
  exists p s c, nth_error (codes counts) p = Some (s, c) /\ nth_error values p = Some sym /\ bs = msb (Z.to_nat s) c.

(** F.1.2.1: a value in category [s] and its additional bits *)
Definition category (s v : Z) : Prop := if s =? 0 then v = 0 else 0 < s /\ 2 ^ (s - 1) <= Z.abs v < 2 ^ s.
Definition extra_bits (s v : Z) : list bool := msb (Z.to_nat s) (if v <? 0 then v + 2 ^ s - 1 else v).
Definition dc_coded (counts values : list Z) (diff : Z) (bs : list bool) : Prop :=
  exists s code, 0 <= s <= 15 /\ category s diff /\ code_of counts values s code /\ bs = code ++ extra_bits s diff.

(** F.1.2.2: coefficients 1 .. 63 in zigzag order as runs of zeros followed by a value, runs of 16 zeros, and the end of the
    block. [ac_coded n cs bs]: the bits for the [n] coefficients [cs] *)
Inductive ac_coded (counts values : list Z) : nat -> list Z -> list bool -> Prop :=
| ac_full : ac_coded counts values 0 [] []
| ac_end n code : (0 < n)%nat -> code_of counts values 0 code -> ac_coded counts values n (repeat 0 n) code
| ac_zrl n cs code bs : code_of counts values 240 code -> ac_coded counts values n cs bs ->
    ac_coded counts values (16 + n) (repeat 0 16 ++ cs) (code ++ bs)
| ac_value n cs r s v code bs : (r <= 15)%nat -> 1 <= s <= 15 -> category s v -> code_of counts values (16 * Z.of_nat r + s) code ->
    ac_coded counts values n cs bs ->
    ac_coded counts values (r + 1 + n) (repeat 0 r ++ [v] ++ cs) (code ++ extra_bits s v ++ bs).
(** A block: the difference of the DC value and the 63 others *)
Definition block_coded (dcn dcv acn acv : list Z) (diff : Z) (cs : list Z) (bs : list bool) : Prop :=
  exists b1 b2, dc_coded dcn dcv diff b1 /\ ac_coded acn acv 63 cs b2 /\ bs = b1 ++ b2.
(** The block handed to the inverse DCT: coefficient [k] times its quantiser, in the place of the zigzag order *)
Definition dequantised (qt : list Z) (dc : Z) (cs block : list Z) : Prop :=
  length block = 64%nat /\
  forall k, (k < 64)%nat -> nth (nth k zigzag 0%nat) block 0 = nth k (dc :: cs) 0 * nth (nth k zigzag 0%nat) qt 0.

(** B.1.1.5: a zero byte after each byte 255 of the data *)
Definition stuff (data : list Z) : list Z := concat (map (fun b => if b =? 255 then [255; 0] else [b]) data).
Definition data_bits (data : list Z) : list bool := concat (map (msb 8) data).
(** What follows the data: the end of the file, or fill bytes and a marker *)
Definition markers : list Z :=
  [192; 193; 194; 196; 204; 208; 209; 210; 211; 212; 213; 214; 215; 216; 217; 218; 219; 220; 221; 224; 225; 226; 237; 238; 254].
Definition after_data (tail : list Z) : Prop :=
  tail = [] \/ exists n m rest, tail = repeat 255 (S n) ++ m :: rest /\ In m markers.
Definition prefix {A} (a b : list A) : Prop := exists r, b = a ++ r.
(** The file from here on holds the coded bits [s]. *)
Definition holds (file : list Z) (s : list bool) : Prop :=
  exists data tail, bytes data /\ bytes file /\ file = stuff data ++ tail /\ after_data tail /\ prefix s (data_bits data).
