(** Model of upsampling in zune-jpeg — crates/zune-jpeg/src/upsampler/scalar.rs, upsampler/avx2.rs, worker.rs:406-577
    ([upsample]), mcu.rs:746-905 ([post_process]), components.rs:190-230. Not modelled: upsampler/neon.rs and
    portable_simd.rs. *)
From Verif Require Import Base Loops Slices JpegSimd.

(** * One row *)

(** [(3 * a + 2 + b) >> 2] in [i16] arithmetic *)
Definition tri (a b : Z) : Z := Z.shiftr (i16 (i16 (i16 (3 * a) + 2) + b)) 2.
(** [(a * 3 + b + 2) >> 2] *)
Definition tri' (a b : Z) : Z := Z.shiftr (i16 (i16 (i16 (a * 3) + b) + 2)) 2.

(** [upsample_horizontal] — scalar.rs:9-54 *)
Definition horizontal (input out : list Z) : res (list Z) :=
  let n := length input in
  if negb (n * 2 =? length out)%nat then Panic else
  if negb ((4 <? length out) && (2 <? n))%nat then Panic else
  do i0 <- get_at input 0 ; do i1 <- get_at input 1 ;
  do out <- set_at out 0 i0 ; do out <- set_at out 1 (tri' i0 i1) ;
  do out <- for_range 0 (Nat.min ((length out - 2) / 2) (n - 2))
    (fun k out => do a <- get_at input k ; do b <- get_at input (k + 1) ; do c <- get_at input (k + 2) ;
                  put_slice out (2 + 2 * k) [tri b a; tri b c]) out ;
  do a <- get_at input (n - 2) ; do b <- get_at input (n - 1) ;
  do out <- set_at out (length out - 2) (tri' b a) ;
  set_at out (length out - 1) b.
(** [upsample_vertical] — scalar.rs:55-75: both halves are overwritten *)
Definition vertical (input near far out : list Z) : res (list Z) :=
  if negb ((length input * 2 =? length out) && (length near =? length input) && (length far =? length input))%nat then Panic else
  Ok (map2 tri input near ++ map2 tri input far).
(** [upsample_hv] — scalar.rs:77-113. [scratch] is overwritten and not used afterwards: only its length matters. *)
Definition hv_with (v : list Z -> list Z -> list Z -> list Z -> res (list Z)) (h : list Z -> list Z -> res (list Z))
  (input near far : list Z) (scratch : nat) (out : list Z) : res (list Z) :=
  if negb ((length input * 4 =? length out) && (length input * 2 =? scratch))%nat then Panic else
  do s <- v input near far (repeat 0 scratch) ;
  let sh := (length s / 2)%nat in
  let oh := (length out / 2)%nat in
  do top <- h (firstn sh s) (firstn oh out) ;
  do bottom <- h (skipn sh s) (skipn oh out) ;
  Ok (top ++ bottom).
(** [upsample_generic] — scalar.rs:115-127: division by zero for an empty input *)
Fixpoint fill_chunks (d : nat) (xs out : list Z) : list Z :=
  match xs with
  | [] => out
  | x :: xs' => if (d <=? length out)%nat then repeat x d ++ fill_chunks d xs' (skipn d out) else out
  end.
Definition generic (input out : list Z) : res (list Z) :=
  if (length input =? 0)%nat then Panic else
  let d := (length out / length input)%nat in
  Ok (if (0 <? d)%nat then fill_chunks d input out else out).

(** AVX2: the closure [upsample16] of [upsample_horizontal_avx2] on a window of 18 — avx2.rs:38-67 *)
Definition h16 (w : list Z) : list Z :=
  let three := set1_epi16 3 in let two := set1_epi16 2 in
  let prev := slice w 0 16 in let curr := slice w 1 16 in let next := slice w 2 16 in
  let common := add_epi16 (mullo_epi16 curr three) two in
  let even := srai_epi16 2 (add_epi16 common prev) in
  let odd := srai_epi16 2 (add_epi16 common next) in
  let r1 := unpacklo_epi16 even odd in
  let r2 := unpackhi_epi16 even odd in
  permute2x128 32 r1 r2 ++ permute2x128 49 r1 r2.
(** [upsample_horizontal_avx2] — avx2.rs:15-91 *)
Definition horizontal_avx2 (input out : list Z) : res (list Z) :=
  let n := length input in
  if negb (n * 2 =? length out)%nat then Panic else
  if negb (2 <? n)%nat then Panic else
  if (n <? 18)%nat then horizontal input out else
  do i0 <- get_at input 0 ; do i1 <- get_at input 1 ;
  do out <- set_at out 0 i0 ; do out <- set_at out 1 (tri' i0 i1) ;
  (* [windows(18).step_by(16)] and [chunks_exact_mut(32)]: avx2.rs:69-75 *)
  do out <- for_range 0 (Nat.min ((n - 17 + 15) / 16) ((length out - 2) / 32))
    (fun k out => do w <- get_slice input (16 * k) 18 ; put_slice out (2 + 32 * k) (h16 w)) out ;
  (* avx2.rs:78-83: at least 18 samples, so both chunks exist *)
  do w <- get_slice input (n - 18) 18 ;
  do out <- put_slice out (length out - 2 - 32) (h16 w) ;
  do a <- get_at input (n - 2) ; do b <- get_at input (n - 1) ;
  do out <- set_at out (length out - 2) (tri' b a) ;
  set_at out (length out - 1) b.
(** [upsample_vertical_avx2] — avx2.rs:93-175 *)
Definition v16 (a b : list Z) : list Z :=
  srai_epi16 2 (add_epi16 (add_epi16 (mullo_epi16 a (set1_epi16 3)) (set1_epi16 2)) b).
Definition vertical_avx2 (input near far out : list Z) : res (list Z) :=
  let n := length input in
  if negb ((n * 2 =? length out) && (length near =? n) && (length far =? n))%nat then Panic else
  if (n <? 16)%nat then vertical input near far out else
  let half := fun other out =>
    do out <- for_range 0 (n / 16) (fun k out => do a <- get_slice input (16 * k) 16 ; do b <- get_slice other (16 * k) 16 ;
                                                 put_slice out (16 * k) (v16 a b)) out ;
    do a <- get_slice input (n - 16) 16 ; do b <- get_slice other (n - 16) 16 ;
    put_slice out (n - 16) (v16 a b) in
  let m := (length out / 2)%nat in
  do top <- half near (firstn m out) ;
  do bottom <- half far (skipn m out) ;
  Ok (top ++ bottom).

(** * One MCU row of one component *)

Inductive ratio : Set := RHV | RV | RH | RGen (h v : nat) | RNone.
(** components.rs:222-230 *)
Definition sample_of (r : ratio) : nat := match r with RHV => 4 | RV | RH => 2 | RGen a b => a * b | RNone => 1 end.
(** The function chosen by [set_upsampling] — decoder.rs:858-884, upsampler.rs:95-165 *)
Definition up_sampler (avx : bool) (r : ratio) (input near far : list Z) (scratch : nat) (out : list Z) : res (list Z) :=
  match r with
  | RH => (if avx then horizontal_avx2 else horizontal) input out
  | RV => (if avx then vertical_avx2 else vertical) input near far out
  | RHV => (if avx then hv_with vertical_avx2 horizontal_avx2 else hv_with vertical horizontal) input near far scratch out
  | RGen _ _ => generic input out
  | RNone => Ok out
  end.

(** The fields of [Components] used here *)
Record comp : Set := Comp { c_ratio : ratio; c_w : nat; c_vs : nat; raw : list Z;
                            row : list Z; row_up : list Z; first_dest : list Z; dest : list Z }.
(** [setup_upsample_scanline] — components.rs:190-197; [bug] is [fix_an_annoying_bug] *)
Definition new_comp (r : ratio) (w vs bug : nat) : comp :=
  Comp r w vs [] (repeat 0 (w * vs)) (repeat 0 (w * vs)) (repeat 128 (vs * w * sample_of r)) (repeat 0 (w * sample_of r * bug * 8)).

(** worker.rs:453-519: row [pos] of MCU row [i]; the state is [dest], where to write in it, [row], [row_up]. The flag
    [upsample] is false in the last turn only. *)
Definition up_row (avx : bool) (scratch mcu_height i : nat) (r : ratio) (w stride stop sb : nat) (raw : list Z) (pos : nat)
  (st : list Z * nat * list Z * list Z) : res (list Z * nat * list Z * list Z) :=
  let '(dest, start, row, row_up) := st in
  do curr <- get_slice raw (pos * w) w ;
  let go := fun up down =>
    do d <- get_slice dest start sb ;
    do u <- up_sampler avx r curr up down scratch d ;
    do dest <- put_slice dest start u ;
    Ok (dest, (start + sb)%nat, row, row_up) in
  if ((i =? 0) && (pos =? 0))%nat then
    do up <- get_slice raw (pos * stride) stride ; do down <- get_slice raw ((pos + 1) * stride) stride ; go up down
  else if ((0 <? i) && (pos =? 0))%nat then
    do down <- get_slice raw ((pos + 1) * stride) stride ; go row down
  else if ((i =? mcu_height - 1) && (pos =? stop - 1))%nat then
    do up <- get_slice raw ((pos - 1) * stride) stride ; do down <- get_slice raw (pos * stride) stride ; go up down
  else if ((0 <? pos) && (pos <? stop - 1))%nat then
    do up <- get_slice raw ((pos - 1) * stride) stride ; do down <- get_slice raw ((pos + 1) * stride) stride ; go up down
  else if (pos =? stop - 1)%nat then
    do prev <- get_slice raw ((pos - 1) * stride) stride ;
    if negb ((length row_up =? length prev) && (length row =? length curr))%nat then Panic else Ok (dest, start, curr, prev)
  else Panic.
(** [upsample] — worker.rs:406-577 *)
Definition upsample (avx : bool) (scratch mcu_height i : nat) (vert : bool) (c : comp) : res comp :=
  let w := c_w c in
  match c_ratio c with
  | RV | RHV =>
      let sb := (w * sample_of (c_ratio c))%nat in
      do first <- (if (0 <? i)%nat then
                     do d <- get_slice (first_dest c) 0 sb ;
                     do down <- get_slice (raw c) 0 w ;
                     do u <- up_sampler avx (c_ratio c) (row c) (row_up c) down scratch d ;
                     put_slice (first_dest c) 0 u
                   else Ok (first_dest c)) ;
      let stride := (w * c_vs c)%nat in
      let stop := (length (raw c) / w)%nat in
      if negb (length (raw c) =? stop * stride)%nat then Err EOther else
      do (d, s, r, ru) <- for_range 0 stop (up_row avx scratch mcu_height i (c_ratio c) w stride stop sb (raw c)) (dest c, 0%nat, row c, row_up c) ;
      Ok (Comp (c_ratio c) w (c_vs c) (raw c) r ru first d)
  | RH =>
      let d := resize (dest c) (length (raw c) * 2) 0 in
      do first <- (if vert then
                     let l := length (first_dest c) in
                     if (l =? 0)%nat || (length d <? l)%nat then Panic else Ok (skipn (length d - l) d)
                   else Ok (first_dest c)) ;
      do d <- for_range 0 (Nat.min (length (raw c) / w) (length d / (w * 2)))
                (fun k d => do x <- get_slice (raw c) (k * w) w ; do o <- get_slice d (k * (w * 2)) (w * 2) ;
                            do u <- up_sampler avx RH x [] [] 0 o ; put_slice d (k * (w * 2)) u) d ;
      Ok (Comp (c_ratio c) w (c_vs c) (raw c) (row c) (row_up c) first d)
  | RGen h v =>
      do d <- for_range 0 (Nat.min (length (raw c) / w) (length (dest c) / (w * h * v)))
                (fun k d => do x <- get_slice (raw c) (k * w) w ;
                   for_range 0 v (fun j d => do o <- get_slice d (k * (w * h * v) + j * (w * h)) (w * h) ;
                                             do u <- generic x o ; put_slice d (k * (w * h * v) + j * (w * h)) u) d) (dest c) ;
      Ok (Comp (c_ratio c) w (c_vs c) (raw c) (row c) (row_up c) (first_dest c) d)
  | RNone => Ok c
  end.

(** * Rows of pixels *)

Fixpoint mapM {A B} (f : A -> res B) (l : list A) : res (list B) :=
  match l with
  | [] => Ok []
  | x :: l' => do y <- f x ; do ys <- mapM f l' ; Ok (y :: ys)
  end.
Section Post.
  (** [convert rows out]: colour conversion of one row; [pw]: padded width; [n]: bytes in a row of pixels *)
  Variable convert : list (list Z) -> list Z -> res (list Z).
  Variables (pw n : nat).
  (** [color_conv_function] — mcu.rs:767-801: up to [iters] rows, as long as there is room. (The components are given as
      they are; a grayscale output looks at the first only.) *)
  Fixpoint conv_rows (iters pos : nat) (samples : list (list Z)) (pixels : list Z) (px : nat) : res (list Z * nat) :=
    match iters with
    | O => Ok (pixels, px)
    | S k =>
        if (px + n <=? length pixels)%nat then
          do rows <- mapM (fun s : list Z => if ((pos + 1) * pw <=? length s)%nat then Ok (slice s (pos * pw) pw) else Err EOther) samples ;
          do o <- convert rows (slice pixels px n) ;
          do pixels <- put_slice pixels px o ;
          conv_rows k (pos + 1) samples pixels (px + n)
        else Ok (pixels, px)
    end.
  Definition is_none (r : ratio) : bool := match r with RNone => true | _ => false end.
  Definition is_h (r : ratio) : bool := match r with RH => true | _ => false end.
  Definition is_vert (r : ratio) : bool := match r with RHV | RV => true | _ => false end.
  (** mcu.rs:843-862: keep the last rows ([rchunks_exact_mut(size).next().unwrap()], then [copy_from_slice]) *)
  Definition keep_last (c : comp) : res comp :=
    if is_h (c_ratio c) then Ok c else
    let size := (c_vs c * c_w c * sample_of (c_ratio c))%nat in
    if (size =? 0)%nat || (length (raw c) <? size)%nat || negb (length (first_dest c) =? size)%nat then Panic else
    Ok (Comp (c_ratio c) (c_w c) (c_vs c) (raw c) (row c) (row_up c) (skipn (length (raw c) - size) (raw c)) (dest c)).
  (** [post_process] of an interleaved image that is not converted to grayscale — mcu.rs:803-889. [coeff] is 1 here. *)
  Definition post_process (avx : bool) (scratch v_max mcu_height i : nat) (comps : list comp) (pixels : list Z) (px : nat)
    : res (list comp * list Z * nat) :=
    let vert := existsb (fun c => is_vert (c_ratio c)) comps in
    do comps <- mapM (upsample avx scratch mcu_height i vert) comps ;
    do (comps, pixels, px) <-
      (if vert then
         do (pixels, px) <- (if (0 <? i)%nat then conv_rows v_max 0 (map first_dest comps) pixels px else Ok (pixels, px)) ;
         do comps <- mapM keep_last comps ;
         Ok (comps, pixels, px)
       else Ok (comps, pixels, px)) ;
    let last := vert && negb (i =? mcu_height - 1)%nat in
    let iters := ((8 - (if last then 1 else 0)) * v_max)%nat in
    do (pixels, px) <- conv_rows iters 0 (map (fun c => if is_none (c_ratio c) then raw c else dest c) comps) pixels px ;
    Ok (comps, pixels, px).
  (** The loop over MCU rows — mcu.rs:200-270: before each turn the decoder fills [raw] of every component. *)
  Definition set_raw (c : comp) (r : list Z) : comp := Comp (c_ratio c) (c_w c) (c_vs c) r (row c) (row_up c) (first_dest c) (dest c).
  Fixpoint image_rows (avx : bool) (scratch v_max mcu_height i : nat) (todo : list (list (list Z))) (comps : list comp) (pixels : list Z) (px : nat)
    : res (list Z) :=
    match todo with
    | [] => Ok pixels
    | raws :: todo' =>
        do (comps, pixels, px) <- post_process avx scratch v_max mcu_height i (map2 set_raw comps raws) pixels px ;
        image_rows avx scratch v_max mcu_height (i + 1) todo' comps pixels px
    end.
End Post.
