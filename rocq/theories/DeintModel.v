(** Model of splitting interleaved samples into channels and back — crates/zune-image/src/deinterleave.rs, deinterleave/,
    utils.rs, frame.rs. Channels are lists of samples; their storage is modelled in ChannelModel.v (within capacity, as
    here, it is a vector). Zipped iterators run as often as the shortest one has items. *)
From Verif Require Import Base Loops ChannelModel.

(** [ColorSpace] — crates/zune-core/src/colorspace.rs:14-40; [MultiBand] holds a non-zero count. *)
Inductive colorspace : Set :=
| RGB | RGBA | YCbCr | Luma | LumaA | YCCK | CMYK | BGR | BGRA | Unknown | ARGB | HSL | HSV | MultiBand (n : nat).
(** [num_components], [has_alpha], [alpha_position] — crates/zune-core/src/colorspace.rs *)
Definition num_components (c : colorspace) : nat :=
  match c with
  | RGB | YCbCr | BGR | HSV | HSL => 3
  | RGBA | YCCK | CMYK | BGRA | ARGB => 4
  | Luma => 1 | LumaA => 2 | Unknown => 0 | MultiBand n => n
  end.
Definition has_alpha (c : colorspace) : bool := match c with RGBA | LumaA | BGRA | ARGB => true | _ => false end.
Definition alpha_position (c : colorspace) : option nat :=
  match c with RGBA | BGRA => Some 3%nat | LumaA => Some 1%nat | ARGB => Some 0%nat | _ => None end.

Section Samples.
Context {A : Type} (d : A).   (* [d]: the value new channels are filled with (zero) *)

Definition min_len {B} (ls : list (list B)) (m : nat) : nat := fold_right (fun l n => Nat.min (length l) n) m ls.
(** The loops of scalar.rs:10-41 and the two-channel loops of deinterleave.rs: groups of samples zipped with the
    channels, each group written to one position of every channel. *)
Definition zip_split (groups : list (list A)) (outs : list (list A)) : list (list A) :=
  let m := min_len outs (length groups) in
  map (fun io => map (fun g => nth (fst io) g d) (firstn m groups) ++ skipn m (snd io)) (combine (seq 0 (length outs)) outs).
Definition scalar_split (n : nat) (source : list A) (outs : list (list A)) : list (list A) :=
  zip_split (chunks_exact n source) outs.

(** [deinterleave_generic], after the checks — deinterleave.rs:42-74: every write is bounds checked. *)
Fixpoint write_group (chs : list (list A)) (pos : nat) (g : list A) : res (list (list A)) :=
  match chs, g with
  | c :: cs, x :: g' => do c' <- set_at c pos x ; do cs' <- write_group cs pos g' ; Ok (c' :: cs')
  | cs, _ => Ok cs
  end.
Fixpoint write_groups (chs : list (list A)) (pos : nat) (gs : list (list A)) : res (list (list A)) :=
  match gs with
  | [] => Ok chs
  | g :: gs' => do chs' <- write_group chs pos g ; write_groups chs' (S pos) gs'
  end.
Definition deinterleave_generic (cs : colorspace) (px : list A) : res (list (list A)) :=
  let n := num_components cs in
  if (n =? 0)%nat then Panic else
  if negb (length px mod n =? 0)%nat then Err EOther else
  let size := (length px / n)%nat in
  if (size =? 0)%nat then Err EOther else
  write_groups (repeat (repeat d size) n) 0 (chunks_exact n px).

(** [deinterleave_u8], [_u16], [_f32] — deinterleave.rs:77-143, 146-212, 214-279. [three] and [four] are the routines
    for three and four channels. The remainder by zero of [ColorSpace::Unknown] panics. *)
Definition deinterleave (three four : list A -> list (list A) -> mres (list (list A))) (cs : colorspace) (px : list A)
  : mres (res (list (list A))) :=
  let n := num_components cs in
  if (n =? 0)%nat then Val Panic else
  if negb (length px mod n =? 0)%nat then Val (Err EOther) else
  let size := (length px / n)%nat in
  if (size =? 0)%nat then Val (Err EOther) else
  let blank := repeat d size in
  match n with
  | 1%nat => Val (Ok [px])
  | 2%nat => Val (Ok (scalar_split 2 px [blank; blank]))
  | 3%nat => mbind (three px [blank; blank; blank]) (fun c => Val (Ok c))
  | 4%nat => mbind (four px [blank; blank; blank; blank]) (fun c => Val (Ok c))
  | _ => Val (deinterleave_generic cs px)
  end.

(** The samples of all channels at one position *)
Definition column (chs : list (list A)) (p : nat) : list A := map (fun c => nth p c d) chs.
(** Bounds-checked, as in the generic loops *)
Fixpoint column_checked (chs : list (list A)) (p : nat) : res (list A) :=
  match chs with
  | [] => Ok []
  | c :: cs => do x <- get_at c p ; do r <- column_checked cs p ; Ok (x :: r)
  end.
Fixpoint columns_checked (chs : list (list A)) (p k : nat) : res (list (list A)) :=
  match k with
  | O => Ok []
  | S k' => do g <- column_checked chs p ; do gs <- columns_checked chs (S p) k' ; Ok (g :: gs)
  end.
(** [Frame::flatten] — frame.rs:327-386 *)
Definition flatten (chs : list (list A)) : res (list A) :=
  match chs with
  | [] => Ok []
  | [c] => Ok c
  | [_; _] | [_; _; _] | [_; _; _; _] => Ok (concat (map (column chs) (seq 0 (min_len chs (length (hd [] chs))))))
  | c :: _ => do gs <- columns_checked chs 0 (length c) ; Ok (concat gs)
  end.
(** [swizzle_channels] — utils.rs:118-189: the samples are written over [out]; the count is what is returned. *)
Definition swizzle (chs : list (list A)) (out : list A) : res (list A * nat) :=
  let n := length chs in
  match chs with
  | [] => Ok (out, 0%nat)
  | [c] => if (length c =? length out)%nat then Ok (c, length out) else Panic
  | [c; _] | [c; _; _] | [c; _; _; _] =>
      let m := min_len chs (length out / n) in
      Ok (concat (map (column chs) (seq 0 m)) ++ skipn (n * m) out, Nat.min (length c * n) (length out))
  | _ => do gs <- columns_checked chs 0 (length out / n) ;
         Ok (concat gs ++ skipn (n * (length out / n)) out, (n * (length out / n))%nat)
  end.

End Samples.

(** [separate_color_and_alpha_ref]/[_mut] — frame.rs:610-681: colour channels and alpha channel *)
Definition separate {C} (cs : colorspace) (chs : list C) : res (option (list C * C)) :=
  if negb (has_alpha cs) then Ok None else
  if negb (num_components cs =? length chs)%nat then Ok None else
  match alpha_position cs with
  | None => Panic
  | Some p =>
      let p := if (p =? 0)%nat then 1%nat else p in
      if (length chs <? p)%nat then Panic else
      let c1 := firstn p chs in let c2 := skipn p chs in
      if (p =? 1)%nat then do a <- get_at c1 0 ; Ok (Some (c2, a)) else do a <- get_at c2 0 ; Ok (Some (c1, a))
  end.
(** [channels_ref]/[channels_mut] — frame.rs:265-295 *)
Definition channels {C} (cs : colorspace) (ignore_alpha : bool) (chs : list C) : res (list C) :=
  if ignore_alpha && has_alpha cs then
    do s <- separate cs chs ; match s with Some (c, _) => Ok c | None => Panic end
  else if (num_components cs <=? length chs)%nat then Ok (firstn (num_components cs) chs) else Panic.

(** 128-bit registers as lists of sixteen bytes *)
Fixpoint interleave {A} (x y : list A) : list A := match x, y with a :: x', b :: y' => a :: b :: interleave x' y' | _, _ => [] end.
Section Registers.
Context {A : Type}.
(** [_mm_unpacklo_epi8], [_mm_unpackhi_epi8], and for groups of [k] bytes ([_epi32]: 4, [_epi64]: 8) *)
Definition unpacklo (x y : list A) : list A := interleave (firstn 8 x) (firstn 8 y).
Definition unpackhi (x y : list A) : list A := interleave (skipn 8 x) (skipn 8 y).
Definition unpacklo_k (k : nat) (x y : list A) : list A := concat (interleave (chunks_exact k (firstn 8 x)) (chunks_exact k (firstn 8 y))).
Definition unpackhi_k (k : nat) (x y : list A) : list A := concat (interleave (chunks_exact k (skipn 8 x)) (chunks_exact k (skipn 8 y))).
Definition load (s : list A) (o : nat) : list A := firstn 16 (skipn o s).

(** One layer of the network of sse2.rs:55-88: six registers to six *)
Definition layer (r : list A * list A * list A * list A * list A * list A) :=
  let '(c0, c1, c2, c3, c4, c5) := r in
  (unpacklo c0 c3, unpackhi c0 c3, unpacklo c1 c4, unpackhi c1 c4, unpacklo c2 c5, unpackhi c2 c5).
(** One block of [de_interleave_three_channels_sse2] — sse2.rs:44-98 *)
Definition sse2_block (s : list A) : list (list A) :=
  let l0 := (load s 0, load s 16, load s 32, load s 48, load s 64, load s 80) in
  let '(c0, c1, c2, c3, c4, c5) := layer (layer (layer (layer l0))) in
  [unpacklo c0 c3 ++ unpackhi c0 c3; unpacklo c1 c4 ++ unpackhi c1 c4; unpacklo c2 c5 ++ unpackhi c2 c5].
End Registers.

(** [_mm_shuffle_epi8]: a negative index gives zero. The index lists are written from byte 0 up ([_mm_set_epi8] takes
    them from byte 15 down). *)
Definition shuffle (x : list Z) (idx : list Z) : list Z := map (fun i => if i <? 0 then 0 else nth (Z.to_nat i) x 0) idx.
Definition or128 (x y : list Z) : list Z := map (fun ab => Z.lor (fst ab) (snd ab)) (combine x y).
Definition pick3 (c0 c1 c2 : list Z) (i0 i1 i2 : list Z) : list Z :=
  or128 (or128 (shuffle c0 (rev i0)) (shuffle c1 (rev i1))) (shuffle c2 (rev i2)).
(** One block of [de_interleave_three_channels_sse3_u8] — sse41.rs:32-91 *)
Definition sse3_block (s : list Z) : list (list Z) :=
  let c0 := load s 0 in let c1 := load s 16 in let c2 := load s 32 in
  [ pick3 c0 c1 c2 [-1; -1; -1; -1; -1; -1; -1; -1; -1; -1; 15; 12; 9; 6; 3; 0]
                   [-1; -1; -1; -1; -1; 14; 11; 8; 5; 2; -1; -1; -1; -1; -1; -1]
                   [13; 10; 7; 4; 1; -1; -1; -1; -1; -1; -1; -1; -1; -1; -1; -1];
    pick3 c0 c1 c2 [-1; -1; -1; -1; -1; -1; -1; -1; -1; -1; -1; 13; 10; 7; 4; 1]
                   [-1; -1; -1; -1; -1; 15; 12; 9; 6; 3; 0; -1; -1; -1; -1; -1]
                   [14; 11; 8; 5; 2; -1; -1; -1; -1; -1; -1; -1; -1; -1; -1; -1];
    pick3 c0 c1 c2 [-1; -1; -1; -1; -1; -1; -1; -1; -1; -1; -1; 14; 11; 8; 5; 2]
                   [-1; -1; -1; -1; -1; -1; 13; 10; 7; 4; 1; -1; -1; -1; -1; -1]
                   [15; 12; 9; 6; 3; 0; -1; -1; -1; -1; -1; -1; -1; -1; -1; -1] ].
(** One block of [de_interleave_four_channels_sse41] — sse41.rs:118-162 *)
Definition sse41_block4 (s : list Z) : list (list Z) :=
  let m := rev [15; 11; 7; 3; 14; 10; 6; 2; 13; 9; 5; 1; 12; 8; 4; 0] in
  let x1 := shuffle (load s 0) m in let x2 := shuffle (load s 8) m in
  let x3 := shuffle (load s 16) m in let x4 := shuffle (load s 24) m in
  let p1 := unpacklo_k 4 x1 x2 in let p2 := unpacklo_k 4 x3 x4 in
  let p3 := unpackhi_k 4 x1 x2 in let p4 := unpackhi_k 4 x3 x4 in
  [unpacklo_k 8 p1 p2; unpackhi_k 8 p1 p2; unpacklo_k 8 p3 p4; unpackhi_k 8 p3 p4].

(** The loops around the blocks — sse2.rs:39-44, 99-107, sse41.rs: whole blocks, then the scalar routine on what is
    left. [block] bytes in, [block / n] samples out per channel; the assertions are only in the three-channel
    routines ([checked]). *)
Definition block_split (checked : bool) (n block : nat) (f : list Z -> list (list Z)) (source : list Z) (outs : list (list Z))
  : res (list (list Z)) :=
  let same := forallb (fun o => (length o =? length (hd [] outs))%nat) outs in
  if checked && negb ((length source mod n =? 0)%nat && same) then Panic else
  let k := (block / n)%nat in
  let m := min_len (map (chunks_exact k) outs) (length source / block) in
  let blocks := map f (firstn m (chunks_exact block source)) in
  let outs := map (fun io => concat (map (fun b => nth (fst io) b []) blocks) ++ skipn (k * m) (snd io))
                  (combine (seq 0 (length outs)) outs) in
  let rem := (length source mod block)%nat in
  if (rem =? 0)%nat then Ok outs else
  let len1 := length (hd [] outs) in
  if (len1 <? rem / n)%nat then Panic else
  let start := (len1 - rem / n)%nat in
  if negb (forallb (fun o => (start <=? length o)%nat) outs) then Panic else
  let tails := scalar_split 0 n (skipn (length source - rem) source) (map (skipn start) outs) in
  Ok (map (fun ot => firstn start (fst ot) ++ snd ot) (combine outs tails)).

(** The instruction sets of the processor, and whether the crate is built with its vector code. Running a function
    compiled for an instruction set the processor lacks is undefined. *)
Record cpu : Set := Cpu { simd : bool; avx2 : bool; sse41 : bool; sse3 : bool; sse2 : bool }.
Definition lift (r : res (list (list Z))) : mres (list (list Z)) := match r with Ok x => Val x | _ => Abort end.
Definition needs (has : bool) (r : mres (list (list Z))) : mres (list (list Z)) := if has then r else Undefined.
(** [de_interleave_three_channels_u8] — deinterleave_impls.rs:11-46. The function called "sse3" is compiled for SSE4.1
    (sse41.rs:22). *)
Definition three_u8 (p : cpu) (source : list Z) (outs : list (list Z)) : mres (list (list Z)) :=
  if simd p && avx2 p then Val (scalar_split 0 3 source outs)
  else if simd p && sse3 p then needs (sse41 p) (lift (block_split true 3 48 sse3_block source outs))
  else if simd p && sse2 p then lift (block_split true 3 96 sse2_block source outs)
  else Val (scalar_split 0 3 source outs).
(** [deinterleave_four_channels_u8] — deinterleave_impls.rs:74-101: the AVX2 routine is chosen when SSE4.1 is there, so
    the SSE4.1 one behind it is never reached. *)
Definition four_u8 (p : cpu) (source : list Z) (outs : list (list Z)) : mres (list (list Z)) :=
  if simd p && sse41 p then needs (avx2 p) (Val (scalar_split 0 4 source outs))
  else if simd p && sse41 p then lift (block_split false 4 64 sse41_block4 source outs)
  else Val (scalar_split 0 4 source outs).
Definition deinterleave_u8 (p : cpu) : colorspace -> list Z -> mres (res (list (list Z))) := deinterleave 0 (three_u8 p) (four_u8 p).
(** u16 and f32 samples: every path ends in the scalar routine — deinterleave_impls.rs:48-72, 113-159 *)
Definition deinterleave_wide {A} (d : A) : colorspace -> list A -> mres (res (list (list A))) :=
  deinterleave d (fun s o => Val (scalar_split d 3 s o)) (fun s o => Val (scalar_split d 4 s o)).

(** [u16_to_big_endian] — frame.rs:505-594; [u16_to_native_endian] (411-498, little-endian machine) takes the number
    of channels for the components. *)
Definition to_endian (enc : Z -> list Z) (n : nat) (chs : list (list Z)) : res (list Z) :=
  match chs with
  | [] => Panic
  | c :: _ =>
      let total := (2 * length c * n)%nat in
      match n with
      | O => Panic
      | 1%nat | 2%nat | 3%nat | 4%nat =>
          if (length chs <? n)%nat then Panic else
          let m := min_len (firstn n chs) (length c) in
          Ok (concat (map enc (concat (map (column 0 (firstn n chs)) (seq 0 m)))) ++ repeat 0 (total - 2 * n * m))
      | _ =>
          do gs <- columns_checked (firstn n chs) 0 (length c) ;
          Ok (concat (map (fun g => concat (map enc g) ++ repeat 0 (2 * (n - length g))) gs))
      end
  end.
Definition u16_to_big_endian (cs : colorspace) (chs : list (list Z)) : res (list Z) := to_endian (be_bytes 2) (num_components cs) chs.
Definition u16_to_native_endian (chs : list (list Z)) : res (list Z) := to_endian (le_bytes 2) (length chs) chs.
