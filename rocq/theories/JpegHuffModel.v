(** Model of zune-jpeg's Huffman tables and baseline block decoding — crates/zune-jpeg/src/huffman.rs,
    crates/zune-jpeg/src/bitstream.rs:60-490, 770-790. The reader is the list of bytes not read yet: a read that fails leaves
    it as it is (zune-core, proved elsewhere for [read_fixed_bytes_or_error]); reading a byte at the end gives 0. *)
From Verif Require Import Base Loops Slices JpegSimd.

(** * Tables *)

(** [HUFF_LOOKAHEAD] = 9 — huffman.rs:19. Arrays of the struct: huffman.rs:24-49. *)
Record table : Set := Table { maxcode : list Z; offset : list Z; lookup : list Z; ac_lookup : option (list Z); values : list Z }.

(** huffman.rs:92-107 (with [k] = 16): the length of the code of each symbol; [counts] are [bits[1..=16]] ([bits[0]] is 0
    always). 257 places: more than 256 symbols is an index out of bounds. *)
Definition code_sizes (k : nat) (counts : list Z) : list Z :=
  concat (map (fun l => repeat (Z.of_nat l) (Z.to_nat (nth (l - 1) counts 0))) (seq 1 k)).
(** huffman.rs:119-124: codes of one length *)
Fixpoint same_size (fuel : nat) (huff_size : list Z) (si : Z) (p : nat) (code : Z) (huff_code : list Z) : res (nat * Z * list Z) :=
  match fuel with
  | O => Fuel
  | S f =>
      do s <- get_at huff_size p ;
      if s =? si then do hc <- set_at huff_code p code ; same_size f huff_size si (p + 1) (code + 1) hc
      else Ok (p, code, huff_code)
  end.
(** huffman.rs:118-134. [code] stays below 2^17 + 2^8: no overflow of [u32]. *)
Fixpoint all_codes (fuel : nat) (huff_size : list Z) (si : Z) (p : nat) (code : Z) (huff_code maxcode : list Z) : res (list Z * list Z) :=
  match fuel with
  | O => Fuel
  | S f =>
      do s <- get_at huff_size p ;
      if s =? 0 then Ok (huff_code, maxcode) else
      do (p, code, hc) <- same_size 300 huff_size si p code huff_code ;
      if 16 <? si then Panic else
      do mc <- set_at maxcode (Z.to_nat si) (Z.shiftl code (16 - si)) ;
      if Z.shiftl 1 si <=? code then Err EOther else
      all_codes f huff_size (si + 1) p (2 * code) hc mc
  end.
(** huffman.rs:136-150 *)
Fixpoint offsets (l : nat) (counts : list Z) (p : nat) (huff_code maxcode offset : list Z) : res (list Z * list Z) :=
  match counts with
  | [] => Ok (maxcode, offset)
  | b :: counts' =>
      if b =? 0 then do mc <- set_at maxcode l (-1) ; offsets (l + 1) counts' p huff_code mc offset
      else do c <- get_at huff_code p ; do o <- set_at offset l (Z.of_nat p - c) ;
           offsets (l + 1) counts' (p + Z.to_nat b) huff_code maxcode o
  end.
(** Writing [x] to [n] places from [i] on *)
Fixpoint fill (n i : nat) (x : Z) (t : list Z) : res (list Z) :=
  match n with
  | O => Ok t
  | S n' => do t <- set_at t i x ; fill n' (i + 1) x t
  end.
(** huffman.rs:165-184: [p] runs through the symbols with codes of at most 9 bits; [huff_size[p]] is [l]. *)
Definition fill_lookup (huff_size huff_code values : list Z) (short : nat) (t : list Z) : res (list Z) :=
  for_range 0 short (fun p t =>
    do l <- get_at huff_size p ; do c <- get_at huff_code p ; do v <- get_at values p ;
    fill (Z.to_nat (Z.shiftl 1 (9 - l))) (Z.to_nat (Z.shiftl c (9 - l))) (Z.lor (Z.shiftl l 9) v) t) t.
(** huffman.rs:187-204 *)
Definition fill_fast (huff_size huff_code : list Z) (num : nat) (t : list Z) : res (list Z) :=
  for_range 0 num (fun i t =>
    do s <- get_at huff_size i ; do c <- get_at huff_code i ;
    if s <=? 9 then fill (Z.to_nat (Z.shiftl 1 (9 - s))) (Z.to_nat (Z.shiftl c (9 - s))) (Z.of_nat i) t else Ok t) t.
(** huffman.rs:210-244: one entry. [(i as i16) << len] drops high bits, of which the mask keeps none. *)
Definition fast_entry (huff_size values : list Z) (i : nat) (fast_v : Z) : res Z :=
  if fast_v <? 255 then
    do rs <- get_at values (Z.to_nat fast_v) ;
    let run := Z.land (Z.shiftr rs 4) 15 in
    let mag_bits := Z.land rs 15 in
    do len <- get_at huff_size (Z.to_nat fast_v) ;
    if negb (mag_bits =? 0) && (len + mag_bits <=? 9) then
      let k := Z.shiftr (Z.land (i16 (Z.shiftl (Z.of_nat i) len)) 511) (9 - mag_bits) in
      let m := Z.shiftl 1 (mag_bits - 1) in
      let k := if k <? m then i16 (k + (i16 (Z.shiftl (-1) mag_bits) + 1)) else k in
      if (-128 <=? k) && (k <=? 127) then Ok (i16 (i16 (Z.shiftl k 8) + i16 (Z.shiftl run 4) + (len + mag_bits))) else Ok 0
    else Ok 0
  else Ok 0.
Fixpoint fast_entries (huff_size values : list Z) (i : nat) (fast : list Z) : res (list Z) :=
  match fast with
  | [] => Ok []
  | f :: fast' => do x <- fast_entry huff_size values i f ; do xs <- fast_entries huff_size values (i + 1) fast' ; Ok (x :: xs)
  end.
(** [HuffmanTable::new] — huffman.rs:52-264 *)
Definition new_table (is_dc : bool) (counts values : list Z) : res table :=
  let sizes := code_sizes 16 counts in
  let num := length sizes in
  if (256 <? num)%nat then Panic else
  let huff_size := sizes ++ repeat 0 (257 - num) in
  do si <- get_at huff_size 0 ;
  do (huff_code, mc) <- all_codes 20 huff_size si 0 0 (repeat 0 257) (repeat 0 18) ;
  do mc <- set_at mc 0 (-1) ;
  do (mc, off) <- offsets 1 counts 0 huff_code mc (repeat 0 18) ;
  do off <- set_at off 17 0 ;
  do mc <- set_at mc 17 1048575 ;
  let short := length (code_sizes 9 counts) in
  do lk <- fill_lookup huff_size huff_code values short (repeat (Z.shiftl 10 9) 512) ;
  do ac <- (if is_dc then Ok None else
            do fast <- fill_fast huff_size huff_code num (repeat 255 512) ;
            do a <- fast_entries huff_size values 0 fast ; Ok (Some a)) ;
  if is_dc && existsb (fun v => 15 <? v) (firstn num values) then Err EOther else
  Ok (Table mc off lk ac values).

(** * Bits *)

(** [BitStream] — bitstream.rs:109-136: [aligned] has the next bit at the top; [left] bits are valid *)
Record bits : Set := Bits { buffer : Z; aligned : Z; left : Z; marker : option Z; over : Z; eoi : bool; rd : list Z }.
Definition u64 (x : Z) : Z := x mod 2 ^ 64.

(** [read_u8] *)
Definition next_byte (l : list Z) : Z * list Z := match l with [] => (0, []) | b :: l' => (b, l') end.
(** bitstream.rs:201-209: the byte after 0xFF, skipping further 0xFF *)
Fixpoint after_ff (l : list Z) : Z * list Z :=
  match l with [] => (0, []) | b :: l' => if b =? 255 then after_ff l' else (b, l') end.
(** [Marker::from_u8] not [UNKNOWN] — marker.rs:57-95 *)
Definition known_marker (n : Z) : bool :=
  existsb (Z.eqb n) [254; 192; 193; 194; 196; 204; 208; 209; 210; 211; 212; 213; 214; 215; 216; 217; 218; 219; 220; 221; 224; 225; 226; 237; 238].
(** The macro [refill!] — bitstream.rs:183-240: [true] to go on *)
Definition refill_byte (s : bits) : res (bits * bool) :=
  let (b, r1) := next_byte (rd s) in
  let ov := over s + (match r1 with [] => 1 | _ => 0 end) in
  let buf := u64 (Z.lor (Z.shiftl (buffer s) 8) b) in
  let go := fun r => Ok (Bits buf (aligned s) (left s + 8) (marker s) ov (eoi s) r, true) in
  if b =? 255 then
    let (n, r2) := after_ff r1 in
    if n =? 0 then go r2 else
    let buf' := Z.shiftr buf 8 in
    let al := if left s =? 0 then aligned s else u64 (Z.shiftl buf' (64 - left s)) in
    if negb (known_marker n) then Err EOther else
    if n =? 217 then
      let buf'' := u64 (Z.shiftl buf' 8) in
      Ok (Bits buf'' (u64 (Z.shiftl buf'' (64 - (left s + 8)))) (left s + 8) (Some n) ov (eoi s) r2, false)
    else Ok (Bits buf' al (left s) (Some n) ov (eoi s) r2, false)
  else go r1.
Definition has_zero (v : Z) : bool :=
  (* [!((((v & 0x7F7F7F7F) + 0x7F7F7F7F) | v) | 0x7F7F7F7F) != 0] on [u32] *)
  negb (Z.lor (Z.lor (Z.land v 2139062143 + 2139062143) v) 2139062143 =? 4294967295).
(** [has_byte(b, 255)] — bitstream.rs:776-788: [(!0 / 255) * 255] is [!0] *)
Definition has_ff (v : Z) : bool := has_zero (Z.lxor v 4294967295).
Fixpoint refill_bytes (n : nat) (s : bits) : res bits :=
  match n with
  | O => Ok (Bits (buffer s) (u64 (Z.shiftl (buffer s) (64 - left s))) (left s) (marker s) (over s) (eoi s) (rd s))
  | S n' => do (s, go) <- refill_byte s ; if (go : bool) then refill_bytes n' s else Ok s
  end.
(** [refill] — bitstream.rs:173-283 (the boolean result is never used) *)
Definition refill (s : bits) : res bits :=
  if 32 <=? left s then Ok s else
  let add32 := fun v r => let buf := u64 (Z.lor (u64 (Z.shiftl (buffer s) 32)) v) in
    Ok (Bits buf (u64 (Z.shiftl buf (64 - (left s + 32)))) (left s + 32) (marker s) (over s) (eoi s) r) in
  if (match marker s with Some _ => true | None => false end) || (0 <? over s) || eoi s then add32 0 (rd s) else
  match rd s with
  | a :: b :: c :: d :: r =>
      let v := 16777216 * a + 65536 * b + 256 * c + d in
      if has_ff v then refill_bytes 4 s else add32 v r
  | _ => refill_bytes 4 s
  end.
(** bitstream.rs:446-476 *)
Definition peek (n : Z) (s : bits) : Z := Z.shiftr (aligned s) (64 - n).
Definition drop_bits (n : Z) (s : bits) : bits :=
  Bits (buffer s) (u64 (Z.shiftl (aligned s) n)) (Z.max 0 (left s - n)) (marker s) (over s) (eoi s) (rd s).
Definition get_bits (n : Z) (s : bits) : Z * bits :=
  let a := Z.lor (u64 (Z.shiftl (aligned s) n)) (Z.shiftr (aligned s) (64 - n)) in
  (Z.land a (Z.shiftl 1 n - 1), Bits (buffer s) a ((left s - n) mod 256) (marker s) (over s) (eoi s) (rd s)).

(** The macro [decode_huff!] — bitstream.rs:60-105; [symbol] is the entry of the table *)
Fixpoint find_length (fuel : nat) (t : table) (w : Z) (l : Z) : res Z :=
  match fuel with
  | O => Fuel
  | S f => if l <? 17 then do m <- get_at (maxcode t) (Z.to_nat l) ; if w <? m then Ok l else find_length f t w (l + 1) else Ok l
  end.
Definition decode_huff (t : table) (symbol : Z) (s : bits) : res (Z * bits) :=
  let l := Z.shiftr symbol 9 in
  let sym := Z.land symbol 511 in
  do (sym, l) <- (if 9 <? l then
       let w := peek 16 s in
       do l <- find_length 20 t w l ;
       if l =? 17 then Err EOther else
       do o <- get_at (offset t) (Z.to_nat l) ;
       do v <- get_at (values t) (Z.to_nat (Z.land (Z.shiftr w (16 - l) + o) 255)) ;
       Ok (v, l)
     else Ok (sym, l)) ;
  if left s <? l then Err EOther else Ok (sym, drop_bits l s).
(** [huff_extend] — bitstream.rs:769-772 *)
Definition huff_extend (x s : Z) : Z := x + Z.land (Z.shiftr (x - Z.shiftl 1 (s - 1)) 31) (Z.shiftl (-1) s + 1).

(** [decode_dc] — bitstream.rs:286-322; [discard_dc] reads the same bits. *)
Definition decode_dc (t : table) (pred : Z) (s : bits) : res (Z * bits) :=
  do s <- refill s ;
  do e <- get_at (lookup t) (Z.to_nat (peek 9 s)) ;
  do (sym, s) <- decode_huff t e s ;
  if sym =? 0 then Ok (i32 (pred + sym), s) else
  let (r, s) := get_bits sym s in
  Ok (i32 (pred + huff_extend r sym), s).
Definition discard_dc (t : table) (s : bits) : res bits :=
  do s <- refill s ;
  do e <- get_at (lookup t) (Z.to_nat (peek 9 s)) ;
  do (sym, s) <- decode_huff t e s ;
  if sym =? 0 then Ok s else Ok (snd (get_bits sym s)).

(** misc.rs:58-70 *)
Definition UN_ZIGZAG : list nat :=
 ([0; 1; 8; 16; 9; 2; 3; 10; 17; 24; 32; 25; 18; 11; 4; 5; 12; 19; 26; 33; 40; 48; 41; 34; 27; 20; 13; 6; 7; 14; 21; 28;
   35; 42; 49; 56; 57; 50; 43; 36; 29; 22; 15; 23; 30; 37; 44; 51; 58; 59; 52; 45; 38; 31; 39; 46; 53; 60; 61; 54; 47; 55; 62; 63;
   63; 63; 63; 63; 63; 63; 63; 63; 63; 63; 63; 63; 63; 63; 63; 63])%nat.
(** A product of [i32]: overflow is a panic in debug builds and wraps in release builds. *)
Definition mul_i32 (debug : bool) (a b : Z) : res Z :=
  if (- 2 ^ 31 <=? a * b) && (a * b <? 2 ^ 31) then Ok (a * b) else if debug then Panic else Ok (i32 (a * b)).
(** The loop of [decode_mcu_block] — bitstream.rs:372-408 *)
Fixpoint ac_loop (debug : bool) (fuel : nat) (t : table) (fast qt : list Z) (pos : nat) (block : list Z) (s : bits) : res (nat * list Z * bits) :=
  match fuel with
  | O => Fuel
  | S f =>
      if (64 <=? pos)%nat then Ok (64%nat, block, s) else
      do s <- refill s ;
      let w := Z.to_nat (peek 9 s) in
      do fa <- get_at fast w ;
      do e <- get_at (lookup t) w ;
      if negb (fa =? 0) then
        let pos := (pos + Z.to_nat (Z.land (Z.shiftr fa 4) 15))%nat in
        do z <- get_at UN_ZIGZAG (Nat.min pos 63) ;
        do q <- get_at qt z ;
        do v <- mul_i32 debug (Z.shiftr fa 8) q ;
        do block <- set_at block z v ;
        ac_loop debug f t fast qt (pos + 1) block (drop_bits (Z.land fa 15) s)
      else
        do (sym, s) <- decode_huff t e s ;
        let r := Z.shiftr sym 4 in
        let size := Z.land sym 15 in
        if negb (size =? 0) then
          let pos := (pos + Z.to_nat r)%nat in
          let (x, s) := get_bits size s in
          do z <- get_at UN_ZIGZAG (pos mod 64) ;
          do q <- get_at qt z ;
          do v <- mul_i32 debug (huff_extend x size) q ;
          do block <- set_at block z v ;
          ac_loop debug f t fast qt (pos + 1) block s
        else if negb (r =? 15) then Ok (pos, block, s)
        else ac_loop debug f t fast qt (pos + 16) block s
  end.
(** [decode_mcu_block] — bitstream.rs:337-411: the prediction, where the block ends, the block *)
Definition decode_block (debug : bool) (dc ac : table) (qt block : list Z) (pred : Z) (s : bits) : res (Z * nat * list Z * bits) :=
  match ac_lookup ac with
  | None => Panic
  | Some fast =>
      if (left s <? 1) && (match marker s with Some _ => true | None => false end) then Err EOther else
      do (pred, s) <- decode_dc dc pred s ;
      do q <- get_at qt 0 ;
      do v <- mul_i32 debug pred q ;
      do block <- set_at block 0 v ;
      do (pos, block, s) <- ac_loop debug 65 ac fast qt 1 block s ;
      Ok (pred, pos, block, s)
  end.
(** [discard_mcu_block] — bitstream.rs:417-467 *)
Fixpoint discard_loop (fuel : nat) (t : table) (fast : list Z) (pos : nat) (s : bits) : res (nat * bits) :=
  match fuel with
  | O => Fuel
  | S f =>
      if (64 <=? pos)%nat then Ok (64%nat, s) else
      do s <- refill s ;
      let w := Z.to_nat (peek 9 s) in
      do fa <- get_at fast w ;
      do e <- get_at (lookup t) w ;
      if negb (fa =? 0) then discard_loop f t fast (pos + Z.to_nat (Z.land (Z.shiftr fa 4) 15) + 1) (drop_bits (Z.land fa 15) s)
      else
        do (sym, s) <- decode_huff t e s ;
        let r := Z.shiftr sym 4 in
        let size := Z.land sym 15 in
        if negb (size =? 0) then discard_loop f t fast (pos + Z.to_nat r + 1) (snd (get_bits size s))
        else if negb (r =? 15) then Ok (pos, s)
        else discard_loop f t fast (pos + 16) s
  end.
Definition discard_block (dc ac : table) (s : bits) : res (nat * bits) :=
  match ac_lookup ac with
  | None => Panic
  | Some fast => do s <- discard_dc dc s ; discard_loop 65 ac fast 1 s
  end.
