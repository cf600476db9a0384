(** Model of the Huffman-coded blocks of crates/zune-inflate: construction of the decode tables
    (decoder.rs:1125-1590), the fast loop and the careful loop (decoder.rs:685-1108). *)
From Verif Require Import Base Loops Slices BitReaderModel InflateModel.

(** ** Constants — constants.rs *)

Definition huff_literal : Z := 2147483648.       (* HUFFDEC_LITERAL 0x80000000, constants.rs:74 *)
Definition huff_exceptional : Z := 32768.        (* HUFFDEC_EXCEPTIONAL, constants.rs:76 *)
Definition huff_pointer : Z := 16384.            (* HUFFDEC_SUITABLE_POINTER, constants.rs:78 *)
Definition huff_end : Z := 8192.                 (* HUFFDEC_END_OF_BLOCK, constants.rs:80 *)

(** Base and extra-bit tables — constants.rs:99-108, 124-133. *)
Definition length_bases : list (Z * Z) :=
  [(3,0); (4,0); (5,0); (6,0); (7,0); (8,0); (9,0); (10,0);
   (11,1); (13,1); (15,1); (17,1); (19,2); (23,2); (27,2); (31,2);
   (35,3); (43,3); (51,3); (59,3); (67,4); (83,4); (99,4); (115,4);
   (131,5); (163,5); (195,5); (227,5); (258,0); (258,0); (258,0)].
Definition offset_bases : list (Z * Z) :=
  [(1,0); (2,0); (3,0); (4,0); (5,1); (7,1); (9,2); (13,2);
   (17,3); (25,3); (33,4); (49,4); (65,5); (97,5); (129,6); (193,6);
   (257,7); (385,7); (513,8); (769,8); (1025,9); (1537,9); (2049,10); (3073,10);
   (4097,11); (6145,11); (8193,12); (12289,12); (16385,13); (24577,13); (24577,13); (24577,13)].
Definition base_entry (be : Z * Z) : Z := Z.lor (Z.shiftl (fst be) 16) (snd be).

(** [PRECODE_DECODE_RESULTS], [LITLEN_DECODE_RESULTS], [OFFSET_DECODE_RESULTS] — constants.rs:59-135. *)
Definition precode_results : list Z := map (fun i => Z.shiftl (Z.of_nat i) 16) (seq 0 19).
Definition litlen_results : list Z :=
  map (fun i => Z.lor (Z.shiftl (Z.of_nat i) 16) huff_literal) (seq 0 256)
  ++ [Z.lor huff_exceptional huff_end] ++ map base_entry length_bases.
Definition offset_results : list Z := map base_entry offset_bases.

(** [DEFLATE_PRECODE_LENS_PERMUTATION] — constants.rs:22-24. *)
Definition precode_order : list nat := [16; 17; 18; 0; 8; 7; 9; 6; 10; 5; 11; 4; 12; 3; 13; 2; 14; 1; 15]%nat.

Definition precode_table_bits : nat := 7.
Definition litlen_table_bits : nat := 11.
Definition offset_table_bits : nat := 8.
Definition precode_enough : nat := 128.
Definition max_num_syms : nat := 288.
(** [FASTLOOP_MAX_BYTES_WRITTEN] = 6 + 258 + 2 * 16 — constants.rs:157. *)
Definition fastloop_max : nat := 296.

(** ** Table construction *)

(** [make_decode_table_entry] — utils.rs:19-21. *)
Definition make_entry (results : list Z) (sym : nat) (len : nat) : res Z :=
  do x <- get_at results sym ;
  Ok (x + Z.shiftl (Z.of_nat len) 8 + Z.of_nat len).

(** The code-length histogram — decoder.rs:1341-1343. *)
Definition count_lens (lens : list Z) (num : nat) : res (list nat) :=
  for_range 0 num (fun sym c =>
    do l <- get_at lens sym ;
    do x <- get_at c (Z.to_nat l) ;
    set_at c (Z.to_nat l) (S x)) (repeat 0%nat 16).

(** [while max_codeword_len > 1 && len_counts[max_codeword_len] == 0] — decoder.rs:1349-1351. *)
Fixpoint used_max (counts : list nat) (m : nat) : nat :=
  match m with
  | S (S _ as m') => if (nth m counts 0 =? 0)%nat then used_max counts m' else m
  | _ => m
  end.

(** The sorting offsets and the codespace — decoder.rs:1361-1371. *)
Definition sort_offsets (counts : list nat) (maxlen : nat) : res (list nat * nat) :=
  do offs <- set_at (repeat 0%nat 16) 1 (nth 0 counts 0%nat) ;
  for_range 1 maxlen (fun len s =>
    do o <- get_at (fst s) len ;
    do c <- get_at counts len ;
    do offs <- set_at (fst s) (S len) (o + c)%nat ;
    Ok (offs, 2 * snd s + c)%nat) (offs, 0%nat).

(** The counting sort — decoder.rs:1373-1377. The state is [(sorted_syms, offsets)]. *)
Definition sort_syms (lens : list Z) (num : nat) (offs : list nat) : res (list nat * list nat) :=
  for_range 0 num (fun sym s =>
    do l <- get_at lens sym ;
    do o <- get_at (snd s) (Z.to_nat l) ;
    do sorted <- set_at (fst s) o sym ;
    do offs <- set_at (snd s) (Z.to_nat l) (S o) ;
    Ok (sorted, offs)) (repeat 0%nat max_num_syms, offs).

(** [copy_within(0..n, n)]: double the first [n] entries. *)
Definition double (table : list Z) (n : nat) : res (list Z) :=
  do bs <- get_slice table 0 n ;
  put_slice table n bs.

(** The next codeword in bit-reversed form — decoder.rs:1499-1503, 1583-1587: set the highest zero bit among
    the low [len] bits and clear the ones above it. [63 - leading_zeros] is [Z.log2] (the argument is never
    zero: the all-ones codeword is handled before). *)
Definition next_codeword (code : Z) (len : nat) : Z :=
  let bit := Z.shiftl 1 (Z.log2 (Z.lxor code (Z.shiftl 1 (Z.of_nat len) - 1))) in
  Z.lor (Z.land code (bit - 1)) bit.

(** State while the codewords are enumerated: the table, the index into [sorted_syms], the codeword, its
    length, the number of codewords of this length still to come, and [curr_table_end]. *)
Record bstate := mkB { b_table : list Z; b_i : nat; b_code : Z; b_len : nat; b_count : nat; b_end : nat }.

Section Build.
Variables (results : list Z) (counts sorted : list nat) (tb : nat).

(** [for _ in len..table_bits] doubling — decoder.rs:1477-1481. *)
Fixpoint double_up (n : nat) (table : list Z) (e : nat) : res (list Z) :=
  match n with
  | O => Ok table
  | S n' => do table <- double table e ; double_up n' table (2 * e)
  end.

(** Advance to the next used codeword length within the main table — decoder.rs:1511-1530. Fuel: the length
    grows each round and the access to [len_counts] stops it at 16. *)
Fixpoint next_len (fuel : nat) (table : list Z) (len e : nat) : res (list Z * nat * nat * nat) :=
  match fuel with
  | O => Fuel
  | S f =>
      let len := S len in
      do te <- (if (len <=? tb)%nat then do table <- double table e ; Ok (table, (2 * e)%nat) else Ok (table, e)) ;
      do count <- get_at counts len ;
      if (count =? 0)%nat then next_len f (fst te) len (snd te) else Ok (fst te, len, count, snd te)
  end.

(** The main-table loop — decoder.rs:1457-1531; one round per codeword. The result tells whether the last
    codeword was reached. *)
Fixpoint direct_loop (fuel : nat) (s : bstate) : res (bool * bstate) :=
  match fuel with
  | O => Fuel
  | S f =>
      if (tb <? b_len s)%nat then Ok (false, s) else
      do sym <- get_at sorted (b_i s) ;
      do entry <- make_entry results sym (b_len s) ;
      do table <- set_at (b_table s) (Z.to_nat (b_code s)) entry ;
      if (Z.to_nat (b_code s) =? b_end s - 1)%nat then
        do table <- double_up (tb - b_len s) table (b_end s) ;
        Ok (true, mkB table (S (b_i s)) (b_code s) (b_len s) (b_count s) (b_end s))
      else
        let code := next_codeword (b_code s) (b_len s) in
        if (b_count s - 1 =? 0)%nat then
          do x <- next_len 16 table (b_len s) (b_end s) ;
          let '(table, len, count, e) := x in
          direct_loop f (mkB table (S (b_i s)) code len count e)
        else direct_loop f (mkB table (S (b_i s)) code (b_len s) (b_count s - 1) (b_end s))
  end.

(** Size of the next sub-table — decoder.rs:1557-1567. *)
Fixpoint sub_bits (fuel : nat) (bits used : nat) : res nat :=
  match fuel with
  | O => Fuel
  | S f =>
      if (used <? 2 ^ bits)%nat then
        if (15 <? S bits + tb)%nat then Err ECorrupt else
        do c <- get_at counts (tb + S bits) ;
        sub_bits f (S bits) (2 * used + c)
      else Ok bits
  end.

(** The entry pointing to a sub-table — decoder.rs:1573-1577. *)
Definition pointer_entry (start bits : nat) : Z :=
  Z.lor (Z.lor (Z.lor (Z.lor (u32 (Z.shiftl (Z.of_nat start) 16)) huff_exceptional) huff_pointer)
         (Z.shiftl (Z.of_nat bits) 8)) (Z.of_nat tb).

(** [while j < curr_table_end] — decoder.rs:1596-1599. *)
Fixpoint fill_stride (fuel : nat) (table : list Z) (j stride e : nat) (entry : Z) : res (list Z) :=
  match fuel with
  | O => Fuel
  | S f =>
      if (j <? e)%nat then do table <- set_at table j entry ; fill_stride f table (j + stride) stride e entry
      else Ok table
  end.

(** [while count == 0 { len += 1; count = len_counts[len] }] — decoder.rs:1613-1616. *)
Fixpoint sub_next_len (fuel : nat) (len count : nat) : res (nat * nat) :=
  match fuel with
  | O => Fuel
  | S f =>
      if (count =? 0)%nat then do c <- get_at counts (S len) ; sub_next_len f (S len) c
      else Ok (len, count)
  end.

(** The sub-table loop — decoder.rs:1540-1617. [prefix] is [subtable_prefix] (initially [usize::MAX]) and
    [start] is [subtable_start]. *)
Fixpoint sub_loop (fuel : nat) (prefix : Z) (start : nat) (s : bstate) : res (list Z) :=
  match fuel with
  | O => Fuel
  | S f =>
      let len := b_len s in
      let low := Z.land (b_code s) (Z.shiftl 1 (Z.of_nat tb) - 1) in
      do x <- (if low =? prefix then Ok (b_table s, prefix, start, b_end s)
               else
                 let start := b_end s in
                 do bits <- sub_bits 16 (len - tb) (b_count s) ;
                 do table <- set_at (b_table s) (Z.to_nat low) (pointer_entry start bits) ;
                 Ok (table, low, start, (start + 2 ^ bits)%nat)) ;
      let '(table, prefix, start, e) := x in
      do sym <- get_at sorted (b_i s) ;
      do entry <- make_entry results sym (len - tb) ;
      do table <- fill_stride (S e) table (start + Z.to_nat (Z.shiftr (b_code s) (Z.of_nat tb))) (2 ^ (len - tb)) e entry ;
      if b_code s =? Z.shiftl 1 (Z.of_nat len) - 1 then Ok table
      else
        let code := next_codeword (b_code s) len in
        do lc <- sub_next_len 16 len (b_count s - 1) ;
        sub_loop f prefix start (mkB table (S (b_i s)) code (fst lc) (snd lc) e)
  end.
End Build.

(** [while count == 0] — decoder.rs:1445-1452. *)
Fixpoint first_len (fuel : nat) (counts : list nat) (len count : nat) : nat * nat :=
  match fuel with
  | O => (len, count)
  | S f =>
      if (count =? 0)%nat then
        if (16 <=? S len)%nat then (S len, count) else first_len f counts (S len) (nth (S len) counts 0%nat)
      else (len, count)
  end.

(** [build_decode_table_inner] — decoder.rs:1324-1619, with [size] the length of the table slice (the table
    starts as zeros; [max_codeword_len] is 15 at all three call sites). *)
Definition build_table (results : list Z) (lens : list Z) (tb num size : nat) : res (list Z) :=
  do counts <- count_lens lens num ;
  let maxlen := used_max counts 15 in
  do oc <- sort_offsets counts maxlen ;
  let used := (2 * snd oc + nth maxlen counts 0)%nat in
  do so <- sort_syms lens num (fst oc) ;
  let sorted := fst so in
  do i <- get_at (snd so) 0 ;
  if (2 ^ maxlen <? used)%nat then Err ECorrupt else
  if (used <? 2 ^ maxlen)%nat then
    if (used =? 0)%nat then
      do entry <- make_entry results 0 1 ; Ok (repeat entry size)
    else if negb ((used =? 2 ^ (maxlen - 1))%nat && (nth 1 counts 0 =? 1)%nat) then Err ECorrupt
    else
      do sym <- get_at sorted i ;
      do entry <- make_entry results sym 1 ; Ok (repeat entry size)
  else
    let '(len, count) := first_len 16 counts 1 (nth 1 counts 0%nat) in
    do x <- direct_loop results counts sorted tb (S num) (mkB (repeat 0 size) i 0 len count (2 ^ len)) ;
    let '(finished, s) := x in
    if finished : bool then Ok (b_table s)
    else sub_loop results counts sorted tb (S num) 18446744073709551615 0
           (mkB (b_table s) (b_i s) (b_code s) (b_len s) (b_count s) (2 ^ tb)).

(** ** Reading the tables of a dynamic block *)

(** [lens[i..i+n].fill(v)] *)
Definition fill_lens (lens : list Z) (i n : nat) (v : Z) : res (list Z) := put_slice lens i (repeat v n).

Definition need (k : Z) (r : reader) : res unit := if has k r then Ok tt else Err EEof.

(** The loop decoding the code lengths — decoder.rs:1187-1271. Fuel: [i] grows each round. *)
Fixpoint lens_loop (table : list Z) (total : nat) (fuel : nat) (r : reader) (lens : list Z) (i : nat)
    : res (list Z * reader) :=
  match fuel with
  | O => Fuel
  | S f =>
      if (total <=? i)%nat then Ok (lens, r) else
      do r <- (if has 14 r then Ok r else refill r) ;
      do p <- peek_bits 7 r ;
      do entry <- get_at table (Z.to_nat p) ;
      let presym := Z.shiftr entry 16 in
      do _ <- need (u8 entry) r ;
      do r <- drop_bits (u8 entry) r ;
      if presym <? 16 then
        do lens <- set_at lens i (u8 presym) ;
        lens_loop table total f r lens (S i)
      else if presym =? 16 then
        if (i =? 0)%nat then Err ECorrupt else
        do _ <- need 2 r ;
        do v <- get_at lens (i - 1) ;
        do (k, r) <- get_bits 2 r ;
        do lens <- fill_lens lens i 6 v ;
        lens_loop table total f r lens (i + 3 + Z.to_nat k)
      else if presym =? 17 then
        do _ <- need 3 r ;
        do (k, r) <- get_bits 3 r ;
        do lens <- fill_lens lens i 10 0 ;
        lens_loop table total f r lens (i + 3 + Z.to_nat k)
      else
        do _ <- need 7 r ;
        do (k, r) <- get_bits 7 r ;
        do lens <- fill_lens lens i (11 + Z.to_nat k) 0 ;
        lens_loop table total f r lens (i + 11 + Z.to_nat k)
  end.

(** [COUNT] — decoder.rs:1126-1127: 288 + 32 + 137. *)
Definition lens_size : nat := Z.to_nat 457.

(** The explicit precode lengths after the first — decoder.rs:1168-1175. *)
Fixpoint precode_rest (order : list nat) (pre : list Z) (r : reader) : res (list Z * reader) :=
  match order with
  | [] => Ok (pre, r)
  | i :: order' =>
      do (v, r) <- get_bits 3 r ;
      do pre <- set_at pre i v ;
      precode_rest order' pre r
  end.

(** The header of a dynamic block — decoder.rs:1138-1272: the code lengths, the two alphabet sizes and the
    reader after them. *)
Definition dynamic_lens (r : reader) : res (list Z * nat * nat * reader) :=
  do _ <- need 14 r ;
  do (hlit, r) <- get_bits 5 r ;
  do (hdist, r) <- get_bits 5 r ;
  do (hclen, r) <- get_bits 4 r ;
  let num_lit := (257 + Z.to_nat hlit)%nat in
  let num_off := (1 + Z.to_nat hdist)%nat in
  let num_pre := (4 + Z.to_nat hclen)%nat in
  do r <- refill r ;
  do _ <- need 3 r ;
  do (first, r) <- get_bits 3 r ;
  let expected := u8 (Z.of_nat (3 * (num_pre - 1))) in
  do pre <- set_at (repeat 0 19) 16 first ;
  do r <- refill r ;
  do _ <- need expected r ;
  do (pre, r) <- precode_rest (firstn (num_pre - 1) (skipn 1 precode_order)) pre r ;
  do table <- build_table precode_results pre precode_table_bits 19 precode_enough ;
  do (lens, r) <- lens_loop table (num_lit + num_off) lens_size r (repeat 0 lens_size) 0 ;
  Ok (lens, num_lit, num_off, r).

(** The fixed code lengths — decoder.rs:1279-1286. *)
Definition static_lens : list Z :=
  repeat 8 144 ++ repeat 9 112 ++ repeat 7 24 ++ repeat 8 8 ++ repeat 5 (32 + 137).

(** [build_decode_table] — decoder.rs:1125-1310. *)
Definition build_tables (btype : Z) (r : reader) (t : htables) : res (reader * htables) :=
  do x <- (if btype =? 2 then do (l, a, b, r) <- dynamic_lens r ; Ok (Some (l, a, b, r, false))
           else if t_static t then Ok None
           else Ok (Some (static_lens, 288%nat, 32%nat, r, true))) ;
  match x with
  | None => Ok (r, t)
  | Some (lens, num_lit, num_off, r, static) =>
      do olens <- get_slice lens num_lit (length lens - num_lit) ;
      do off <- build_table offset_results olens offset_table_bits num_off offset_enough ;
      do lit <- build_table litlen_results lens litlen_table_bits num_lit litlen_enough ;
      Ok (r, mkTables static lit off)
  end.

(** ** The decoding loops *)

Section Loops.
(** Whether the build has debug assertions and overflow checks. *)
Variable dbg : bool.
Variable o : inflate_options.

(** [drop_bits] and [peek_bits] — bitstream.rs:116-124, 163-167 — in both kinds of build: without overflow
    checks [bits_left -= bits] wraps around, and the assertions are absent. *)
Definition drop_any (k : Z) (r : reader) : res reader :=
  if dbg then drop_bits k r
  else Ok (mkReader (r_src r) (r_pos r) (u8 (r_left r - k)) (Z.shiftr (r_buf r) k) (r_over r)).
Definition peek_any (k : Z) (r : reader) : res Z :=
  if dbg then peek_bits k r else Ok (Z.land (r_buf r) (Z.shiftl 1 k - 1)).

Definition flag (entry f : Z) : bool := negb (Z.land entry f =? 0).
(** [base + ((saved_bitbuf & mask) >> shift)] with [mask = (1 << (entry as u8)) - 1] — e.g. decoder.rs:828-834. *)
Definition entry_value (entry saved : Z) : nat :=
  Z.to_nat (Z.shiftr entry 16) +
  Z.to_nat (Z.shiftr (Z.land saved (Z.shiftl 1 (u8 entry) - 1)) (u8 (Z.shiftr entry 8))).

(** The distance part of a match in the fast loop — decoder.rs:826, 836-853. *)
Definition fast_offset (off : list Z) (r : reader) : res (nat * reader) :=
  do p <- peek_any 8 r ;
  do entry <- get_at off (Z.to_nat p) ;
  do er <- (if flag entry huff_exceptional then
              do r <- drop_any 8 r ;
              do extra <- peek_any (Z.land (Z.shiftr entry 8) 63) r ;
              do entry <- get_at off (Z.to_nat (Z.land (Z.shiftr entry 16 + extra) 511)) ;
              Ok (entry, r)
            else Ok (entry, r)) ;
  let '(entry, r) := er in
  let saved := r_buf r in
  do r <- drop_any (u8 entry) r ;
  Ok (entry_value entry saved, r).

(** The rest of a fast-loop round once a length entry is at hand — decoder.rs:824-985: the result is [None]
    when the loop must be left ([break 'sequence]), otherwise the preloaded next entry. *)
Definition fast_copy (lit off : list Z) (entry saved : Z) (d : dstate) : res (option Z * dstate) :=
  let len := entry_value entry saved in
  do (offset, r) <- fast_offset off (d_r d) ;
  if (d_dest d <? offset)%nat then Err ECorrupt else
  let r := if r_left r <? 11 then refill_inner_loop r else r in
  do p <- peek_any 11 r ;
  do entry <- get_at lit (Z.to_nat p) ;
  do out <- fast_match (d_out d) (d_dest d) offset len ;
  let dest := (d_dest d + len)%nat in
  if (o_limit o <? dest)%nat then Err ELimit else
  let d := mkD r out dest (d_tab d) in
  if (length (r_src r) <? r_pos r + 8)%nat then Ok (None, d) else Ok (Some entry, d).

(** A round of the fast loop after a possible first literal — decoder.rs:778-985. The result says how to go
    on: [FEnd] for the end of the block, [FSlow] to leave the loop, [FNext] with the preloaded entry. *)
Inductive fnext := FEnd | FSlow | FNext (entry : Z).

Definition fast_rest (lit off : list Z) (entry saved : Z) (d : dstate) : res (fnext * dstate) :=
  if flag entry huff_exceptional then
    if flag entry huff_end then Ok (FEnd, d) else
    let r := d_r d in
    let saved := r_buf r in
    do extra <- peek_any (Z.land (Z.shiftr entry 8) 63) r ;
    do entry <- get_at lit (Nat.min (Z.to_nat (Z.shiftr entry 16 + extra)) (litlen_enough - 1)) ;
    do r <- drop_any (u8 entry) r ;
    let d := mkD r (d_out d) (d_dest d) (d_tab d) in
    if flag entry huff_literal then
      do p <- peek_any 11 r ;
      do next <- get_at lit (Z.to_nat p) ;
      let out := if (d_dest d <? length (d_out d))%nat then upd (d_out d) (d_dest d) (u8 (Z.shiftr entry 16)) else d_out d in
      Ok (FNext next, mkD r out (S (d_dest d)) (d_tab d))
    else if flag entry huff_end then Ok (FEnd, d)
    else
      do (n, d) <- fast_copy lit off entry saved d ;
      Ok (match n with Some e => FNext e | None => FSlow end, d)
  else
    do (n, d) <- fast_copy lit off entry saved d ;
    Ok (match n with Some e => FNext e | None => FSlow end, d).

(** One round of the fast loop — decoder.rs:703-985. *)
Definition fast_round (lit off : list Z) (entry : Z) (d : dstate) : res (fnext * dstate) :=
  let out := if (length (d_out d) <? d_dest d + fastloop_max)%nat
             then resize (d_out d) (length (d_out d) + fastloop_max + resize_by) 0 else d_out d in
  let r := d_r d in
  if (length (r_src r) <? r_pos r + 8)%nat then Ok (FSlow, mkD r out (d_dest d) (d_tab d)) else
  let r := refill_inner_loop r in
  let saved := r_buf r in
  do r <- drop_any (u8 entry) r ;
  if flag entry huff_literal then
    let lit1 := u8 (Z.shiftr entry 16) in
    do p <- peek_any 11 r ;
    do entry <- get_at lit (Z.to_nat p) ;
    let saved := r_buf r in
    do r <- drop_any (u8 entry) r ;
    if (length out <? d_dest d + 2)%nat then Panic else
    let out := upd out (d_dest d) lit1 in
    let dest := S (d_dest d) in
    if flag entry huff_literal then
      do p <- peek_any 11 r ;
      do next <- get_at lit (Z.to_nat p) ;
      Ok (FNext next, mkD r (upd out dest (u8 (Z.shiftr entry 16))) (S dest) (d_tab d))
    else fast_rest lit off entry saved (mkD r out dest (d_tab d))
  else fast_rest lit off entry saved (mkD r out (d_dest d) (d_tab d)).

(** The fast loop ['sequence] — decoder.rs:699-986: [true] when the block has ended. *)
Fixpoint fast_loop (lit off : list Z) (fuel : nat) (entry : Z) (d : dstate) : res (bool * dstate) :=
  match fuel with
  | O => Fuel
  | S f =>
      do (n, d) <- fast_round lit off entry d ;
      match n with
      | FEnd => Ok (true, d)
      | FSlow => Ok (false, d)
      | FNext e => fast_loop lit off f e d
      end
  end.

(** [resize_and_push] — decoder.rs:1628-1635. *)
Definition resize_and_push (out : list Z) (pos : nat) (x : Z) : res (list Z) :=
  let out := if (length out <=? pos)%nat then resize out (length out + resize_by) 0 else out in
  set_at out pos x.

(** One round of the careful loop — decoder.rs:993-1097: [true] when the block has ended. After a refill at
    least 56 bits are there, so that the kind of build makes no difference here. *)
Definition slow_round (lit off : list Z) (d : dstate) : res (bool * dstate) :=
  do r <- refill (d_r d) ;
  if over_consumed r then Err ECorrupt else
  do p <- peek_bits 11 r ;
  do entry <- get_at lit (Z.to_nat p) ;
  let saved := r_buf r in
  do r <- drop_bits (u8 entry) r ;
  do x <- (if flag entry huff_pointer then
             do extra <- peek_bits (Z.land (Z.shiftr entry 8) 63) r ;
             do entry <- get_at lit (Z.to_nat (Z.shiftr entry 16 + extra)) ;
             let saved := r_buf r in
             do r <- drop_bits (u8 entry) r ;
             Ok (entry, saved, r)
           else Ok (entry, saved, r)) ;
  let '(entry, saved, r) := x in
  if flag entry huff_literal then
    do out <- resize_and_push (d_out d) (d_dest d) (u8 (Z.shiftr entry 16)) ;
    Ok (false, mkD r out (S (d_dest d)) (d_tab d))
  else if flag entry huff_end then Ok (true, mkD r (d_out d) (d_dest d) (d_tab d))
  else
    let len := entry_value entry saved in
    do r <- refill r ;
    do p <- peek_bits 8 r ;
    do entry <- get_at off (Z.to_nat p) ;
    do er <- (if flag entry huff_exceptional then
                do r <- drop_bits 8 r ;
                do extra <- peek_bits (Z.land (Z.shiftr entry 8) 63) r ;
                do entry <- get_at off (Z.to_nat (Z.land (Z.shiftr entry 16 + extra) 511)) ;
                Ok (entry, r)
              else Ok (entry, r)) ;
    let '(entry, r) := er in
    let offset := entry_value entry (r_buf r) in
    do out <- slow_match (d_out d) (d_dest d) offset len ;
    do r <- drop_bits (u8 entry) r ;
    let dest := (d_dest d + len)%nat in
    if (o_limit o <? dest)%nat then Err ELimit else
    Ok (false, mkD r out dest (d_tab d)).

Fixpoint slow_loop (lit off : list Z) (fuel : nat) (d : dstate) : res dstate :=
  match fuel with
  | O => Fuel
  | S f =>
      do (fin, d) <- slow_round lit off d ;
      if fin : bool then Ok d else slow_loop lit off f d
  end.

(** A Huffman-coded block — decoder.rs:659-1108. The outer ['decode] loop runs once: the careful loop is
    only left at the end of the block. Fuel: every round consumes at least one bit. *)
Definition huff_block (btype : Z) (d : dstate) : res dstate :=
  do (r, t) <- build_tables btype (d_r d) (d_tab d) ;
  let d := mkD r (d_out d) (d_dest d) t in
  let fuel := (8 * length (r_src r) + 100)%nat in
  do (fin, d) <-
    (if (3 * fastcopy <? remaining_bytes r)%nat then
       let r := refill_inner_loop r in
       do p <- peek_any 11 r ;
       do entry <- get_at (t_lit t) (Z.to_nat p) ;
       fast_loop (t_lit t) (t_off t) fuel entry (mkD r (d_out d) (d_dest d) t)
     else Ok (false, d)) ;
  do d <- (if fin : bool then Ok d else slow_loop (t_lit t) (t_off t) fuel d) ;
  if over_consumed (d_r d) then Err ECorrupt else Ok d.
End Loops.
