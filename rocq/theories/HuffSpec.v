(** Specification of DEFLATE streams, following RFC 1951 section by section. Positions are bit positions in the
    byte string [src] (see BitReaderSpec.v for the bit order). *)
From Verif Require Import Base Slices BitReaderSpec InflateSpec.

(** ** 3.1.1 — Huffman codes are packed most significant bit first *)
Fixpoint msb_from (src : list Z) (n : Z) (l : nat) : Z :=
  match l with
  | O => 0
  | S l' => 2 * msb_from src n l' + Z.b2z (bit_at src (n + Z.of_nat l'))
  end.

(** ** 3.2.2 — a code given by its code lengths (zero for an unused symbol) *)

(** Step 1: the number of codes of each length. *)
Fixpoint count_len (lens : list Z) (l : nat) : Z :=
  match lens with
  | [] => 0
  | x :: lens' => (if x =? Z.of_nat l then 1 else 0) + count_len lens' l
  end.
(** Step 2: the numerical value of the smallest code for each length. *)
Fixpoint first_code (lens : list Z) (l : nat) : Z :=
  match l with
  | O => 0
  | S l' => 2 * (first_code lens l' + match l' with O => 0 | _ => count_len lens l' end)
  end.
(** Step 3: consecutive values for the symbols of one length. *)
Definition codeword (lens : list Z) (s : nat) : Z :=
  first_code lens (Z.to_nat (nth s lens 0)) + count_len (firstn s lens) (Z.to_nat (nth s lens 0)).

(** The code of symbol [s], [l] bits long, lies at bit [n]. *)
Definition symbol_at (lens : list Z) (src : list Z) (n : Z) (s l : nat) : Prop :=
  (s < length lens)%nat /\ nth s lens 0 = Z.of_nat l /\ (1 <= l)%nat /\ msb_from src n l = codeword lens s.

(** How much of the code space, in units of [2 ^ -15], the lengths use. *)
Definition code_space (lens : list Z) : Z :=
  fold_right (fun x acc => (if x =? 0 then 0 else 2 ^ (15 - x)) + acc) 0 lens.

(** Lengths a stream may describe: a complete code, a single code of one bit (3.2.7), or no code at all. *)
Definition code_lengths (lens : list Z) : Prop :=
  Forall (fun x => 0 <= x <= 15) lens /\
  (code_space lens = 2 ^ 15 \/ code_space lens = 2 ^ 14 /\ count_len lens 1 = 1 \/ code_space lens = 0).

(** ** 3.2.5 — lengths and distances: base value and number of extra bits *)
Definition rfc_lengths : list (Z * Z) :=
  [(3,0); (4,0); (5,0); (6,0); (7,0); (8,0); (9,0); (10,0);
   (11,1); (13,1); (15,1); (17,1); (19,2); (23,2); (27,2); (31,2);
   (35,3); (43,3); (51,3); (59,3); (67,4); (83,4); (99,4); (115,4);
   (131,5); (163,5); (195,5); (227,5); (258,0)].
Definition rfc_distances : list (Z * Z) :=
  [(1,0); (2,0); (3,0); (4,0); (5,1); (7,1); (9,2); (13,2);
   (17,3); (25,3); (33,4); (49,4); (65,5); (97,5); (129,6); (193,6);
   (257,7); (385,7); (513,8); (769,8); (1025,9); (1537,9); (2049,10); (3073,10);
   (4097,11); (6145,11); (8193,12); (12289,12); (16385,13); (24577,13)].

(** ** 3.2.3, 3.2.5 — the symbols of a block: literals, matches, end of block *)
Section Symbols.
(** [budget] bounds the number of bits of each match (its two codes and their extra bits); the format itself
    never needs more than 48. *)
Variable budget : Z.
Variables (lit off : list Z) (src : list Z).

Inductive symbols : Z -> list Z -> Z -> list Z -> Prop :=
| sym_end n out l : symbol_at lit src n 256 l -> symbols n out (n + Z.of_nat l) out
| sym_literal n out s l n' out' :
    symbol_at lit src n s l -> (s < 256)%nat ->
    symbols (n + Z.of_nat l) (out ++ [Z.of_nat s]) n' out' -> symbols n out n' out'
| sym_match n out s l base ex t l2 base2 ex2 len dist m n' out' :
    symbol_at lit src n s l -> (257 <= s)%nat -> nth_error rfc_lengths (s - 257) = Some (base, ex) ->
    len = base + bits_from src (n + Z.of_nat l) (Z.to_nat ex) ->
    symbol_at off src (n + Z.of_nat l + ex) t l2 -> nth_error rfc_distances t = Some (base2, ex2) ->
    dist = base2 + bits_from src (n + Z.of_nat l + ex + Z.of_nat l2) (Z.to_nat ex2) ->
    dist <= Z.of_nat (length out) ->
    m = n + Z.of_nat l + ex + Z.of_nat l2 + ex2 -> m - n <= budget ->
    symbols m (lz_copy out (Z.to_nat dist) (Z.to_nat len)) n' out' ->
    symbols n out n' out'.
End Symbols.

(** ** 3.2.6 — the fixed codes *)
Definition fixed_lit : list Z := repeat 8 144 ++ repeat 9 112 ++ repeat 7 24 ++ repeat 8 8.
Definition fixed_off : list Z := repeat 5 32.

(** ** 3.2.7 — the code lengths of a dynamic block *)
Definition rfc_order : list nat := [16; 17; 18; 0; 8; 7; 9; 6; 10; 5; 11; 4; 12; 3; 13; 2; 14; 1; 15]%nat.

(** [pre] are the lengths of the code length code, three bits each in the order above. *)
Definition precode (src : list Z) (n : Z) (k : nat) (pre : list Z) : Prop :=
  length pre = 19%nat /\
  forall i, (i < 19)%nat ->
    nth (nth i rfc_order 0%nat) pre 0 = if (i <? k)%nat then bits_from src (n + 3 * Z.of_nat i) 3 else 0.

(** The run-length coded list of [total] lengths. *)
Inductive lengths (pre : list Z) (src : list Z) (total : nat) : Z -> list Z -> Z -> list Z -> Prop :=
| len_done n acc : length acc = total -> lengths pre src total n acc n acc
| len_one n acc s l n' acc' :
    symbol_at pre src n s l -> (s < 16)%nat -> (length acc < total)%nat ->
    lengths pre src total (n + Z.of_nat l) (acc ++ [Z.of_nat s]) n' acc' ->
    lengths pre src total n acc n' acc'
| len_again n acc x l k n' acc' :
    symbol_at pre src n 16 l -> k = (3 + Z.to_nat (bits_from src (n + Z.of_nat l) 2))%nat ->
    (length acc + 1 + k <= total)%nat ->
    lengths pre src total (n + Z.of_nat l + 2) (acc ++ [x] ++ repeat x k) n' acc' ->
    lengths pre src total n (acc ++ [x]) n' acc'
| len_zeros n acc l k n' acc' :
    symbol_at pre src n 17 l -> k = (3 + Z.to_nat (bits_from src (n + Z.of_nat l) 3))%nat ->
    (length acc + k <= total)%nat ->
    lengths pre src total (n + Z.of_nat l + 3) (acc ++ repeat 0 k) n' acc' ->
    lengths pre src total n acc n' acc'
| len_many n acc l k n' acc' :
    symbol_at pre src n 18 l -> k = (11 + Z.to_nat (bits_from src (n + Z.of_nat l) 7))%nat ->
    (length acc + k <= total)%nat ->
    lengths pre src total (n + Z.of_nat l + 7) (acc ++ repeat 0 k) n' acc' ->
    lengths pre src total n acc n' acc'.

Definition dynamic (src : list Z) (n : Z) (lit off : list Z) (n' : Z) : Prop :=
  let hlit := (257 + Z.to_nat (bits_from src n 5))%nat in
  let hdist := (1 + Z.to_nat (bits_from src (n + 5) 5))%nat in
  let hclen := (4 + Z.to_nat (bits_from src (n + 10) 4))%nat in
  exists pre, precode src (n + 14) hclen pre /\ code_lengths pre /\
    length lit = hlit /\ length off = hdist /\
    lengths pre src (hlit + hdist) (n + 14 + 3 * Z.of_nat hclen) [] n' (lit ++ off) /\
    code_lengths lit /\ code_lengths off.

(** ** 3.2.3, 3.2.4 — blocks and streams *)
Section Stream.
Variable budget : Z.
Variable src : list Z.

(** The body of a block of type [btype] starting at bit [n] (after the three header bits). *)
Inductive block : Z -> Z -> list Z -> Z -> list Z -> Prop :=
| block_stored n out p len :
    p = Z.to_nat ((n + 7) / 8) -> len = Z.to_nat (bits_from src (8 * Z.of_nat p) 16) ->
    bits_from src (8 * Z.of_nat p + 16) 16 = 65535 - Z.of_nat len ->
    (p + 4 + len <= length src)%nat ->
    block 0 n out (8 * Z.of_nat (p + 4 + len)) (out ++ slice src (p + 4) len)
| block_fixed n out n' out' : symbols budget fixed_lit fixed_off src n out n' out' -> block 1 n out n' out'
| block_dynamic n out lit off m n' out' : dynamic src n lit off m ->
    symbols budget lit off src m out n' out' -> block 2 n out n' out'.

Inductive deflated : Z -> list Z -> Z -> list Z -> Prop :=
| deflated_last n out btype n' out' :
    bit_at src n = true -> btype = bits_from src (n + 1) 2 -> block btype (n + 3) out n' out' ->
    deflated n out n' out'
| deflated_more n out btype m out1 n' out' :
    bit_at src n = false -> btype = bits_from src (n + 1) 2 -> block btype (n + 3) out m out1 ->
    deflated m out1 n' out' -> deflated n out n' out'.
End Stream.

(** A byte string that is exactly one DEFLATE stream for [out] (the last byte may be padded with any bits). *)
Definition deflate_stream (budget : Z) (bs out : list Z) : Prop :=
  bytes bs /\ exists n, deflated budget bs 0 [] n out /\ Z.of_nat (length bs) = (n + 7) / 8.

(** RFC 1950, 2.2: the two header bytes of a zlib stream (no preset dictionary is looked for). *)
Definition zlib_header_ok (cmf flg : Z) : Prop :=
  is_byte cmf /\ is_byte flg /\ cmf mod 16 = 8 /\ cmf / 16 <= 7 /\ (cmf * 256 + flg) mod 31 = 0.
