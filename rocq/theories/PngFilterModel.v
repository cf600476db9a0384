(** Model of the PNG un-filtering routines, crates/zune-png/src/filters/de_filter.rs and sse4.rs, and of
    the encoder's filters, filters/filter.rs.

    Simplification: the [portable-simd] (nightly) variants are not modelled. *)
From Verif Require Import Base Loops.

(** [paeth] — de_filter.rs:242-258 ([i32] arithmetic, no overflow possible for bytes). *)
Definition paeth (a b c : Z) : Z :=
  let thresh := c * 3 - (a + b) in
  let lo := if a <? b then a else b in
  let hi := if a <? b then b else a in
  let t0 := if hi <=? thresh then lo else c in
  let t1 := if thresh <=? lo then hi else t0 in
  u8 t1.

(** [handle_avg], scalar path — de_filter.rs:10-69. *)
Definition handle_avg (prev raw current : list Z) (components : nat) : res (list Z) :=
  if (length raw <? components)%nat || (length current <? components)%nat then Ok current else
  do cur1 <- for_range 0 components (fun i cur =>
       do r <- get_at raw i ; do p <- get_at prev i ; set_at cur i (u8 (r + Z.shiftr p 1))) current ;
  let stop := Nat.min (Nat.min (length cur1) (length raw)) (length prev) in
  if (8 <? components)%nat then Ok cur1 else
  for_range components stop (fun i cur =>
       do a <- get_at cur (i - components) ;
       do b <- get_at prev i ;
       do r <- get_at raw i ;
       let c := Z.land a b + Z.shiftr (Z.lxor a b) 1 in
       set_at cur i (u8 (r + c))) cur1.

(** [handle_sub], scalar path — de_filter.rs:72-110. *)
Definition handle_sub (raw current : list Z) (components : nat) : res (list Z) :=
  if (length current <? components)%nat || (length raw <? components)%nat then Ok current else
  do cur1 <- for_range 0 components (fun i cur => do r <- get_at raw i ; set_at cur i r) current ;
  let stop := Nat.min (length cur1) (length raw) in
  for_range components stop (fun i cur =>
       do a <- get_at cur (i - components) ; do r <- get_at raw i ; set_at cur i (u8 (r + a))) cur1.

(** [handle_paeth], scalar path — de_filter.rs:113-189. *)
Definition handle_paeth (prev raw current : list Z) (components : nat) : res (list Z) :=
  if (length raw <? components)%nat || (length current <? components)%nat then Ok current else
  do cur1 <- for_range 0 components (fun i cur =>
       do r <- get_at raw i ; do p <- get_at prev i ; set_at cur i (u8 (r + paeth 0 p 0))) current ;
  let stop := Nat.min (Nat.min (length cur1) (length raw)) (length prev) in
  if (8 <? components)%nat then Ok cur1 else
  for_range components stop (fun i cur =>
       do a <- get_at cur (i - components) ;
       do b <- get_at prev i ;
       do c <- get_at prev (i - components) ;
       do r <- get_at raw i ;
       set_at cur i (u8 (r + paeth a b c))) cur1.

(** [handle_up] — de_filter.rs:191-195: zip of raw, current and previous row. *)
Fixpoint handle_up (prev raw current : list Z) : list Z :=
  match raw, current, prev with
  | f :: raw', _ :: cur', up :: prev' => u8 (f + up) :: handle_up prev' raw' cur'
  | _, _, _ => current
  end.

(** [handle_paeth_first] — de_filter.rs:201-217. *)
Definition handle_paeth_first (raw current : list Z) (components : nat) : res (list Z) :=
  if (length raw <? components)%nat || (length current <? components)%nat then Ok current else
  do cur1 <- for_range 0 components (fun i cur => do r <- get_at raw i ; set_at cur i r) current ;
  let stop := Nat.min (length cur1) (length raw) in
  for_range components stop (fun i cur =>
       do a <- get_at cur (i - components) ; do r <- get_at raw i ; set_at cur i (u8 (r + paeth a 0 0))) cur1.

(** [handle_avg_first] — de_filter.rs:223-239. *)
Definition handle_avg_first (raw current : list Z) (components : nat) : res (list Z) :=
  if (length raw <? components)%nat || (length current <? components)%nat then Ok current else
  do cur1 <- for_range 0 components (fun i cur => do r <- get_at raw i ; set_at cur i r) current ;
  let stop := Nat.min (length cur1) (length raw) in
  for_range components stop (fun i cur =>
       do a <- get_at cur (i - components) ; do r <- get_at raw i ; set_at cur i (u8 (r + Z.shiftr a 1))) cur1.

(** * Encoder filters — filters/filter.rs:10-31 *)
Definition sub_filter (input output : list Z) (components : nat) : res (list Z) :=
  (* [output[..components].copy_from_slice(&input[..components])] panics when either is shorter *)
  if (length output <? components)%nat || (length input <? components)%nat then Panic else
  let out1 := firstn components input ++ skipn components output in
  let stop := Nat.min (length input) (length output) in
  for_range components stop (fun i out =>
       do a <- get_at input (i - components) ; do x <- get_at input i ; set_at out i (u8 (x - a))) out1.

Fixpoint up_filter (input up output : list Z) : list Z :=
  match input, up, output with
  | i :: input', u :: up', _ :: out' => u8 (i - u) :: up_filter input' up' out'
  | _, _, _ => output
  end.

(** * SSE variants — filters/sse4.rs. A register of sixteen byte lanes is a list of 16 bytes; where the
    code works on 16-bit lanes a register is a list of eight words. *)
Fixpoint map2 {A B C} (f : A -> B -> C) (l1 : list A) (l2 : list B) : list C :=
  match l1, l2 with
  | x :: l1', y :: l2' => f x y :: map2 f l1' l2'
  | _, _ => []
  end.

Definition mm_add_epi8 := map2 (fun x y => u8 (x + y)).
Definition mm_sub_epi8 := map2 (fun x y => u8 (x - y)).
Definition mm_avg_epu8 := map2 (fun x y => Z.shiftr (x + y + 1) 1).
Definition mm_xor := map2 Z.lxor.
Definition mm_and := map2 Z.land.

(** [buf[0..SIZE].copy_from_slice(x)] *)
Definition load_low (buf x : list Z) : list Z := x ++ skipn (length x) buf.

(** [de_filter_sub_generic_sse2] — sse4.rs:171-187. State: scratch buffer [zero], register [d]. Returns
    the new contents of [current]. *)
Fixpoint sub_sse_loop (size : nat) (raws curs : list (list Z)) (zero d : list Z) : list (list Z) :=
  match raws, curs with
  | raw :: raws', _ :: curs' =>
      let zero1 := load_low zero raw in
      let a := d in
      let d1 := mm_add_epi8 zero1 a in
      firstn size d1 :: sub_sse_loop size raws' curs' d1 d1
  | _, _ => curs
  end.
(** [chunks_exact_mut] leaves the incomplete tail alone. *)
Definition tail_of (size : nat) (l : list Z) : list Z := skipn (length l / size * size) l.
Definition de_filter_sub_sse (size : nat) (raw current : list Z) : list Z :=
  concat (sub_sse_loop size (chunks_exact size raw) (chunks_exact size current) (repeat 0 16) (repeat 0 16))
  ++ tail_of size current.

(** [defilter_avg_sse2_inner] — sse4.rs:286-330. *)
Fixpoint avg_sse_loop (size : nat) (prevs raws curs : list (list Z)) (x y d : list Z) : list (list Z) :=
  match prevs, raws, curs with
  | prev :: prevs', raw :: raws', _ :: curs' =>
      let x1 := load_low x raw in
      let y1 := load_low y prev in
      let b := y1 in
      let a := d in
      let d1 := x1 in
      let avg := mm_avg_epu8 a b in
      let avg' := mm_sub_epi8 avg (mm_and (mm_xor a b) (repeat 1 16)) in
      let d2 := mm_add_epi8 d1 avg' in
      firstn size d2 :: avg_sse_loop size prevs' raws' curs' d2 y1 d2
  | _, _, _ => curs
  end.
Definition de_filter_avg_sse (size : nat) (prev raw current : list Z) : list Z :=
  concat (avg_sse_loop size (chunks_exact size prev) (chunks_exact size raw) (chunks_exact size current)
                       (repeat 0 16) (repeat 0 16) (repeat 0 16))
  ++ tail_of size current.

(** 16-bit lane operations. *)
Definition signed16 (x : Z) : Z := if x <? 32768 then x else x - 65536.
Definition mm_sub_epi16 := map2 (fun x y => u16 (x - y)).
Definition mm_add_epi16 := map2 (fun x y => u16 (x + y)).
Definition mm_abs_epi16 := map (fun x => u16 (Z.abs (signed16 x))).
Definition mm_min_epi16 := map2 (fun x y => if signed16 x <=? signed16 y then x else y).
Definition mm_cmpeq_epi16 := map2 (fun x y => if x =? y then 65535 else 0).
(** [_mm_add_epi8] and [_mm_blendv_epi8] on a register seen as words: both bytes separately. *)
Definition word_add_epi8 (x y : Z) : Z := u8 (x mod 256 + y mod 256) + 256 * u8 (x / 256 + y / 256).
Definition mm_add_epi8_w := map2 word_add_epi8.
Definition word_blendv (e t c : Z) : Z :=
  (if Z.testbit c 7 then t mod 256 else e mod 256) + 256 * (if Z.testbit c 15 then t / 256 else e / 256).
Fixpoint mm_if_then_else (c t e : list Z) : list Z :=
  match c, t, e with
  | x :: c', y :: t', z :: e' => word_blendv z y x :: mm_if_then_else c' t' e'
  | _, _, _ => []
  end.
(** [_mm_unpacklo_epi8(reg, zero)]: the low eight bytes zero-extended. *)
Definition unpacklo_zero (reg : list Z) : list Z := firstn 8 reg.
(** [_mm_packus_epi16(d, d)]: signed words saturated to bytes, twice. *)
Definition sat_u8 (x : Z) : Z := let s := signed16 x in if s <? 0 then 0 else if 255 <? s then 255 else s.
Definition packus_dup (d : list Z) : list Z := map sat_u8 d ++ map sat_u8 d.

(** [de_filter_paeth_sse41_inner] — sse4.rs:213-268. *)
Fixpoint paeth_sse_loop (size : nat) (prevs raws curs : list (list Z)) (f g b d : list Z) : list (list Z) :=
  match prevs, raws, curs with
  | prev :: prevs', raw :: raws', _ :: curs' =>
      let f1 := load_low f prev in
      let g1 := load_low g raw in
      let c := b in
      let b1 := unpacklo_zero f1 in
      let a := d in
      let d1 := unpacklo_zero g1 in
      let pa := mm_sub_epi16 b1 c in
      let pb := mm_sub_epi16 a c in
      let pc := mm_add_epi16 pa pb in
      let pa := mm_abs_epi16 pa in
      let pb := mm_abs_epi16 pb in
      let pc := mm_abs_epi16 pc in
      let smallest := mm_min_epi16 pc (mm_min_epi16 pa pb) in
      let nearest := mm_if_then_else (mm_cmpeq_epi16 smallest pa) a
                       (mm_if_then_else (mm_cmpeq_epi16 smallest pb) b1 c) in
      let d2 := mm_add_epi8_w d1 nearest in
      let f2 := packus_dup d2 in
      firstn size f2 :: paeth_sse_loop size prevs' raws' curs' f2 g1 b1 d2
  | _, _, _ => curs
  end.
Definition de_filter_paeth_sse (size : nat) (prev raw current : list Z) : list Z :=
  concat (paeth_sse_loop size (chunks_exact size prev) (chunks_exact size raw) (chunks_exact size current)
                         (repeat 0 16) (repeat 0 16) (repeat 0 8) (repeat 0 8))
  ++ tail_of size current.
