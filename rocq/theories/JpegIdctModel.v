(** Model of zune-jpeg's inverse DCT — crates/zune-jpeg/src/idct/scalar.rs, idct/avx2.rs, unsafe_utils_avx2.rs and the
    choice between the routines in mcu.rs:526-540. A block is a list of 64 coefficients ([i32]); its samples are written
    to rows [stride] apart in the output. The routines return the output and what they leave in the block. *)
From Verif Require Import Base Loops Slices JpegSimd.

(** scalar.rs:13-27 *)
Definition wa (a b : Z) : Z := i32 (a + b).
Definition ws (a b : Z) : Z := i32 (a - b).
Definition wm (a b : Z) : Z := i32 (a * b).
(** [x << 12] — scalar.rs:185-187 *)
Definition fsh (x : Z) : Z := i32 (Z.shiftl x 12).
(** scalar.rs:192-194 *)
Definition clamp (x : Z) : Z := clampz 0 255 x.
(** scalar.rs:13 and avx2.rs:40 *)
Definition SCALE_BITS : Z := 512 + 65536 + 128 * 2 ^ 17.

Definition get8 (v : list Z) (i : nat) : Z := nth i v 0.

(** One column of the vertical pass (scalar.rs:56-112, constant 512 and shift 10) or one row of the horizontal one
    (scalar.rs:116-174, [SCALE_BITS] and 17); the two have the same text otherwise ([f2f(1.175875602)] is 4816, see
    [f2f_4816] in JpegIdctProps.v). *)
Definition pass (bias sh : Z) (v : list Z) : list Z :=
  let p2 := get8 v 2 in let p3 := get8 v 6 in
  let p1 := wm (wa p2 p3) 2217 in
  let t2 := wa p1 (wm p3 (-7567)) in
  let t3 := wa p1 (wm p2 3135) in
  let p2 := get8 v 0 in let p3 := get8 v 4 in
  let t0 := fsh (wa p2 p3) in
  let t1 := fsh (ws p2 p3) in
  let x0 := wa (wa t0 t3) bias in
  let x3 := wa (ws t0 t3) bias in
  let x1 := wa (wa t1 t2) bias in
  let x2 := wa (ws t1 t2) bias in
  let t0 := get8 v 7 in let t1 := get8 v 5 in let t2 := get8 v 3 in let t3 := get8 v 1 in
  let p3 := wa t0 t2 in
  let p4 := wa t1 t3 in
  let p1 := wa t0 t3 in
  let p2 := wa t1 t2 in
  let p5 := wm (wa p3 p4) 4816 in
  let t0 := wm t0 1223 in
  let t1 := wm t1 8410 in
  let t2 := wm t2 12586 in
  let t3 := wm t3 6149 in
  let p1 := wa p5 (wm p1 (-3685)) in
  let p2 := wa p5 (wm p2 (-10497)) in
  let p3 := wm p3 (-8034) in
  let p4 := wm p4 (-1597) in
  let t3 := wa t3 (wa p1 p4) in
  let t2 := wa t2 (wa p2 p3) in
  let t1 := wa t1 (wa p2 p4) in
  let t0 := wa t0 (wa p1 p3) in
  map (fun x => Z.shiftr x sh)
    [wa x0 t3; wa x1 t2; wa x2 t1; wa x3 t0; ws x3 t0; ws x2 t1; ws x1 t2; ws x0 t3].

(** The same with the last four inputs taken as zero — scalar.rs:202-236 (vertical), 239-283 (horizontal) *)
Definition pass4 (bias sh : Z) (v : list Z) : list Z :=
  let i0 := wa (fsh (get8 v 0)) bias in
  let i2 := get8 v 2 in
  let p1 := wm i2 2217 in
  let p3 := wm i2 5352 in
  let x0 := wa i0 p3 in
  let x1 := wa i0 p1 in
  let x2 := ws i0 p1 in
  let x3 := ws i0 p3 in
  let i4 := get8 v 3 in let i3 := get8 v 1 in
  let p5 := wm (wa i4 i3) 4816 in
  let p1 := wa p5 (wm i3 (-3685)) in
  let p2 := wa p5 (wm i4 (-10497)) in
  let t3 := wa p5 (wm i3 867) in
  let t2 := wa p5 (wm i4 (-5945)) in
  let t1 := wa p2 (wm i3 (-1597)) in
  let t0 := wa p1 (wm i4 (-8034)) in
  map (fun x => Z.shiftr x sh)
    [wa x0 t3; wa x1 t2; wa x2 t1; wa x3 t0; ws x3 t0; ws x2 t1; ws x1 t2; ws x0 t3].

(** [in_vector[ptr + 8 * r]] and its update, [r] = 0..7; [in_vector] is a [[i32; 64]], so that no access can fail *)
Definition col (b : list Z) (p : nat) : list Z := map (fun r => nth (8 * r + p) b 0) (seq 0 8).
Definition set_col (b : list Z) (p : nat) (v : list Z) : list Z :=
  fold_left (fun b r => upd b (8 * r + p)%nat (nth r v 0)) (seq 0 8) b.
Definition row (b : list Z) (i : nat) : list Z := map (fun c => nth (8 * i + c) b 0) (seq 0 8).
(** The vertical loops, in place: [n] columns *)
Definition vertical (f : list Z -> list Z) (n : nat) (b : list Z) : list Z :=
  fold_left (fun b p => set_col b p (f (col b p))) (seq 0 n) b.
(** Rows written at [0], [stride], [2 * stride], … each with [get_mut(pos..pos + 8).unwrap()] *)
Definition store_rows (rows : nat -> list Z) (stride : nat) (out : list Z) : res (list Z) :=
  for_range 0 8 (fun i out => put_slice out (i * stride) (rows i)) out.

(** [idct_int_1x1] — scalar.rs:30-38 (stepping the slice by [stride] seven times) *)
Definition idct_1x1 (b out : list Z) (stride : nat) : res (list Z * list Z) :=
  let c := clamp (Z.shiftr (wa (wa (nth 0 b 0) 4) 1024) 3) in
  do out' <- store_rows (fun _ => repeat c 8) stride out ; Ok (out', b).
(** [idct_int] — scalar.rs:46-174 *)
Definition idct_int (b out : list Z) (stride : nat) : res (list Z * list Z) :=
  if forallb (Z.eqb 0) (skipn 1 b) then idct_1x1 b out stride else
  let b' := vertical (pass 512 10) 8 b in
  do out' <- store_rows (fun i => map clamp (pass SCALE_BITS 17 (row b' i))) stride out ;
  Ok (out', b').
(** [idct4x4] — scalar.rs:197-291 *)
Definition idct_4x4 (b out : list Z) (stride : nat) : res (list Z * list Z) :=
  let b' := vertical (pass4 512 10) 4 b in
  do out' <- store_rows (fun i => map clamp (pass4 SCALE_BITS 17 (row b' i))) stride out ;
  Ok (out', fold_left (fun b r => put b (8 * r) [0; 0; 0; 0]) (seq 4 4) b').

(** * AVX2 *)
Definition reg := list Z.
(** [YmmRegister] operators — unsafe_utils_avx2.rs:36-150 *)
Definition vadd (a b : reg) : reg := add_epi32 a b.
Definition vsub (a b : reg) : reg := sub_epi32 a b.
Definition vmulc (a : reg) (c : Z) : reg := mullo_epi32 a (set1_epi32 c).
Definition vaddc (a : reg) (c : Z) : reg := add_epi32 a (set1_epi32 c).

(** [transpose] — unsafe_utils_avx2.rs:158-223 *)
Definition merge_epi32 (v0 v1 : reg) : reg * reg :=
  let va := permute4x64 (shuffle 3 1 2 0) v0 in
  let vb := permute4x64 (shuffle 3 1 2 0) v1 in
  (unpacklo_epi32 va vb, unpackhi_epi32 va vb).
Definition merge_epi64 (v0 v1 : reg) : reg * reg :=
  let va := permute4x64 (shuffle 3 1 2 0) v0 in
  let vb := permute4x64 (shuffle 3 1 2 0) v1 in
  (unpacklo_epi64 va vb, unpackhi_epi64 va vb).
Definition merge_si128 (v0 v1 : reg) : reg * reg :=
  (permute2x128 (shuffle 0 2 0 0) v0 v1, permute2x128 (shuffle 0 3 0 1) v0 v1).
Definition reg_at (rs : list reg) (i : nat) : reg := nth i rs [].
Definition transpose (rs : list reg) : list reg :=
  let (w0, w1) := merge_epi32 (reg_at rs 0) (reg_at rs 1) in
  let (w2, w3) := merge_epi32 (reg_at rs 2) (reg_at rs 3) in
  let (w4, w5) := merge_epi32 (reg_at rs 4) (reg_at rs 5) in
  let (w6, w7) := merge_epi32 (reg_at rs 6) (reg_at rs 7) in
  let (x0, x1) := merge_epi64 w0 w2 in
  let (x2, x3) := merge_epi64 w1 w3 in
  let (x4, x5) := merge_epi64 w4 w6 in
  let (x6, x7) := merge_epi64 w5 w7 in
  let (v0, v1) := merge_si128 x0 x4 in
  let (v2, v3) := merge_si128 x1 x5 in
  let (v4, v5) := merge_si128 x2 x6 in
  let (v6, v7) := merge_si128 x3 x7 in
  [v0; v1; v2; v3; v4; v5; v6; v7].

(** [dct_pass!] — avx2.rs:181-236 *)
Definition dct_pass (bias sh : Z) (rs : list reg) : list reg :=
  let r := reg_at rs in
  let p1 := vmulc (vadd (r 2%nat) (r 6%nat)) 2217 in
  let t2 := vadd p1 (vmulc (r 6%nat) (-7567)) in
  let t3 := vadd p1 (vmulc (r 2%nat) 3135) in
  let t0 := slli_epi32 12 (vadd (r 0%nat) (r 4%nat)) in
  let t1 := slli_epi32 12 (vsub (r 0%nat) (r 4%nat)) in
  let x0 := vaddc (vadd t0 t3) bias in
  let x3 := vaddc (vsub t0 t3) bias in
  let x1 := vaddc (vadd t1 t2) bias in
  let x2 := vaddc (vsub t1 t2) bias in
  let p3 := vadd (r 7%nat) (r 3%nat) in
  let p4 := vadd (r 5%nat) (r 1%nat) in
  let p1 := vadd (r 7%nat) (r 1%nat) in
  let p2 := vadd (r 5%nat) (r 3%nat) in
  let p5 := vmulc (vadd p3 p4) 4816 in
  let t0 := vmulc (r 7%nat) 1223 in
  let t1 := vmulc (r 5%nat) 8410 in
  let t2 := vmulc (r 3%nat) 12586 in
  let t3 := vmulc (r 1%nat) 6149 in
  let p1 := vadd p5 (vmulc p1 (-3685)) in
  let p2 := vadd p5 (vmulc p2 (-10497)) in
  let p3 := vmulc p3 (-8034) in
  let p4 := vmulc p4 (-1597) in
  let t3 := vadd t3 (vadd p1 p4) in
  let t2 := vadd t2 (vadd p2 p3) in
  let t1 := vadd t1 (vadd p2 p4) in
  let t0 := vadd t0 (vadd p1 p3) in
  map (srai_epi32 sh)
    [vadd x0 t3; vadd x1 t2; vadd x2 t1; vadd x3 t0; vsub x3 t0; vsub x2 t1; vsub x1 t2; vsub x0 t3].
(** The two passes of [idct_avx2_4x4] — avx2.rs:287-325, 331-374; the first adds the rounding constant in place *)
Definition dct_pass4 (bias sh : Z) (rs : list reg) : list reg :=
  let r := reg_at rs in
  let r0 := vaddc (slli_epi32 12 (r 0%nat)) bias in
  let i2 := r 2%nat in
  let p1 := vmulc i2 2217 in
  let p3 := vmulc i2 5352 in
  let x0 := vadd r0 p3 in
  let x1 := vadd r0 p1 in
  let x2 := vsub r0 p1 in
  let x3 := vsub r0 p3 in
  let i4 := r 3%nat in let i3 := r 1%nat in
  let p5 := vmulc (vadd i4 i3) 4816 in
  let p1 := vadd p5 (vmulc i3 (-3685)) in
  let p2 := vadd p5 (vmulc i4 (-10497)) in
  let t3 := vadd p5 (vmulc i3 867) in
  let t2 := vadd p5 (vmulc i4 (-5945)) in
  let t1 := vadd p2 (vmulc i3 (-1597)) in
  let t0 := vadd p1 (vmulc i4 (-8034)) in
  map (srai_epi32 sh)
    [vadd x0 t3; vadd x1 t2; vadd x2 t1; vadd x3 t0; vsub x3 t0; vsub x2 t1; vsub x1 t2; vsub x0 t3].

(** [clamp_avx] — avx2.rs:391-399 *)
Definition clamp_avx (a : reg) : reg := min_epi16 (max_epi16 a (set1_epi16 0)) (set1_epi16 255).
(** [permute_store!] — avx2.rs:46-74: two rows *)
Definition permuted (x y : reg) : reg := permute4x64 (shuffle 3 1 2 0) (clamp_avx (packs_epi32 x y)).
Definition store_regs (rs : list reg) (stride : nat) (out : list Z) : res (list Z) :=
  for_range 0 4 (fun k out =>
    let c := permuted (reg_at rs (2 * k)) (reg_at rs (2 * k + 1)) in
    do out1 <- put_slice out (2 * k * stride) (lo128 c) ;
    put_slice out1 ((2 * k + 1) * stride) (hi128 c)) out.

(** Rows of the block as registers, loaded from index [i] *)
Definition load8 (b : list Z) (i : nat) : reg := firstn 8 (skipn i b).
(** [idct_avx2] — avx2.rs:84-257. [debug]: overflow checks are compiled in (they matter for the DC value, line 143). *)
Definition idct_avx2 (debug : bool) (b out : list Z) (stride : nat) : res (list Z * list Z) :=
  let rw := fun i => load8 b (8 * i)%nat in
  let bitmap := or_si256 (rw 1%nat) (rw 2%nat) in
  let bitmap := or_si256 bitmap (rw 3%nat) in
  let bitmap := or_si256 bitmap (rw 4%nat) in
  let bitmap := or_si256 bitmap (rw 5%nat) in
  let bitmap := or_si256 bitmap (rw 6%nat) in
  let bitmap := or_si256 bitmap (rw 7%nat) in
  let bitmap := or_si256 bitmap (load8 b 1) in
  if testz bitmap then
    if debug && (2 ^ 31 <=? nth 0 b 0 + 4 + 1024) then Panic else
    let c := clamp (Z.shiftr (wa (wa (nth 0 b 0) 4) 1024) 3) in
    do out' <- store_rows (fun _ => repeat c 8) stride out ; Ok (out', b)
  else
    let rs := [rw 0; rw 1; rw 2; rw 3; rw 4; rw 5; rw 6; rw 7]%nat in
    let rs := transpose (dct_pass 512 10 rs) in
    let rs := transpose (dct_pass SCALE_BITS 17 rs) in
    do out' <- store_regs rs stride out ; Ok (out', b).
(** [idct_avx2_4x4] — avx2.rs:269-389 *)
Definition idct_avx2_4x4 (b out : list Z) (stride : nat) : res (list Z * list Z) :=
  let rw := fun i => load8 b (8 * i)%nat in
  let rs := transpose (dct_pass4 512 10 [rw 0; rw 1; rw 2; rw 3]%nat) in
  let rs := transpose (dct_pass4 SCALE_BITS 17 rs) in
  do out' <- store_regs rs stride out ; Ok (out', b).

(** The choice of the routine by the number of coefficients read — mcu.rs:550-556; [avx] is [use_avx2]
    (idct.rs:48-110). *)
Definition idct_block (debug avx : bool) (len : nat) (b out : list Z) (stride : nat) : res (list Z * list Z) :=
  if (len <=? 1)%nat then idct_1x1 b out stride
  else if (len <=? 10)%nat then (if avx then idct_avx2_4x4 else idct_4x4) b out stride
  else (if avx then idct_avx2 debug else idct_int) b out stride.

(** One turn of the decoding loop — mcu.rs:440-560: the scratch block [tmp] is cleared (only its first half if the
    block before had few coefficients), the coefficients are written ([ws], the places and values; [len] is what the
    bit reader returns), and the samples are computed. *)
Definition clear_block (more : bool) (tmp : list Z) : list Z :=
  let n := if more then 64%nat else 32%nat in repeat 0 n ++ skipn n tmp.
Definition write_coeffs (ws : list (nat * Z)) (tmp : list Z) : list Z :=
  fold_left (fun t w => upd t (fst w) (snd w)) ws tmp.
Definition next_block (debug avx : bool) (st : list Z * bool) (ws : list (nat * Z)) (len : nat) (out : list Z) (stride : nat)
  : res (list Z * (list Z * bool)) :=
  let (tmp, more) := st in
  let tmp := write_coeffs ws (clear_block more tmp) in
  do (out', tmp') <- idct_block debug avx len tmp out stride ;
  Ok (out', (tmp', (10 <? len)%nat)).
(** All blocks of a stretch of the image, each with the place where its samples go *)
Fixpoint blocks (debug avx : bool) (st : list Z * bool) (bs : list (list (nat * Z) * nat)) (outs : list (list Z)) (stride : nat)
  : res (list (list Z)) :=
  match bs, outs with
  | (ws, len) :: bs', out :: outs' =>
      do (o, st') <- next_block debug avx st ws len out stride ;
      do os <- blocks debug avx st' bs' outs' stride ;
      Ok (o :: os)
  | _, _ => Ok []
  end.
