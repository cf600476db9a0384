(** What a JPEG XL file says, read bit by bit: the parts of the format (ISO/IEC 18181-1) an encoder of one lossless
    frame needs. Written without reference to the encoder. Bits of a byte come lowest first. *)
From Verif Require Import Base.

Definition vbits (n : nat) (v : Z) : list bool := map (fun i => Z.testbit v (Z.of_nat i)) (seq 0 n).
Definition bits_of_bytes (l : list Z) : list bool := flat_map (vbits 8) l.
Fixpoint bits_val (l : list bool) : Z :=
  match l with [] => 0 | b :: l' => Z.b2z b + 2 * bits_val l' end.

(** Zeros up to a whole number of bytes *)
Definition pad8 (l : list bool) : list bool := l ++ repeat false ((8 - length l mod 8) mod 8)%nat.

Definition parser (A : Type) := list bool -> option (A * list bool).
Definition ret {A} (a : A) : parser A := fun s => Some (a, s).
Definition andthen {A B} (p : parser A) (f : A -> parser B) : parser B :=
  fun s => match p s with Some (a, s') => f a s' | None => None end.
Notation "'get' x <- p ; q" := (andthen p (fun x => q))
  (at level 200, x pattern, p at level 100, q at level 200, right associativity).
Definition fail {A} : parser A := fun _ => None.

Definition u (n : nat) : parser Z :=
  fun s => if (n <=? length s)%nat then Some (bits_val (firstn n s), skipn n s) else None.
Definition expect (n : nat) (v : Z) : parser unit := get x <- u n ; if x =? v then ret tt else fail.

(** The variable-length number [U32]: two bits select one of four offsets and widths. *)
Definition u32f (c0 c1 c2 c3 : Z * nat) : parser Z :=
  get s <- u 2 ;
  let c := if s =? 0 then c0 else if s =? 1 then c1 else if s =? 2 then c2 else c3 in
  get x <- u (snd c) ; ret (fst c + x).

(** Skip to the next whole byte; the bits skipped must be zero. The file is a whole number of bytes. *)
Definition align : parser unit := fun s =>
  let k := (length s mod 8)%nat in
  if forallb negb (firstn k s) then Some (tt, skipn k s) else None.

(** What the headers announce. [alpha_bits] is the depth of the extra channel for alpha. *)
Record info := { iwidth : Z; iheight : Z; ibits : Z; ialpha_bits : option Z; igrey : bool }.

Definition p_side : parser Z := u32f (1, 9%nat) (1, 13%nat) (1, 18%nat) (1, 30%nat).

(** SizeHeader, for files that use neither the short form nor a fixed ratio of the sides *)
Definition p_size : parser (Z * Z) :=
  get _ <- expect 1 0 ; get h <- p_side ; get _ <- expect 3 0 ; get w <- p_side ; ret (w, h).

(** An enumerated value *)
Definition p_enum : parser Z := u32f (0, 0%nat) (1, 0%nat) (2, 4%nat) (18, 6%nat).

(** ImageMetadata: integer samples; at most one extra channel, described by the defaults (alpha of 8 bits);
    not XYB; colours either the default (sRGB) or grey with D65 and the sRGB transfer function *)
Definition p_meta : parser (Z * option Z * bool) :=
  get _ <- expect 1 0 ; get _ <- expect 1 0 ; get _ <- expect 1 0 ;
  get bits <- u32f (8, 0%nat) (10, 0%nat) (12, 0%nat) (1, 6%nat) ;
  get _ <- u 1 ;
  get extra <- u32f (0, 0%nat) (1, 0%nat) (2, 4%nat) (1, 12%nat) ;
  get alpha <- (if extra =? 0 then ret None else if extra =? 1 then get _ <- expect 1 1 ; ret (Some 8) else fail) ;
  get _ <- expect 1 0 ;
  get d <- u 1 ;
  get grey <- (if d =? 1 then ret false
               else get _ <- expect 1 0 ; get space <- p_enum ; get white <- p_enum ; get _ <- expect 1 0 ;
                    get tf <- p_enum ; get intent <- p_enum ;
                    if (space =? 1) && (white =? 1) && (tf =? 13) then ret true else fail) ;
  get _ <- expect 2 0 ; get _ <- expect 1 1 ; get _ <- align ; ret (bits, alpha, grey).

(** FrameHeader: one regular, last, modular frame of groups of 256, without filters or upsampling *)
Definition p_frame (alpha : bool) : parser unit :=
  get _ <- expect 1 0 ; get _ <- expect 2 0 ; get _ <- expect 1 1 ; get _ <- expect 2 0 ; get _ <- expect 1 0 ;
  get _ <- expect 2 0 ; get _ <- (if alpha then expect 2 0 else ret tt) ;
  get _ <- expect 2 1 ; get _ <- expect 2 0 ; get _ <- expect 1 0 ; get _ <- expect 2 0 ;
  get _ <- (if alpha then expect 2 0 else ret tt) ;
  get _ <- expect 1 1 ; get _ <- expect 2 0 ; get _ <- expect 1 0 ; get _ <- expect 1 0 ; get _ <- expect 2 0 ;
  get _ <- expect 2 0 ; get _ <- expect 2 0 ; get _ <- expect 1 0 ; align.

(** The table of contents: the length in bytes of every section *)
Fixpoint p_toc (n : nat) : parser (list Z) :=
  match n with
  | O => get _ <- align ; ret []
  | S n' => get x <- u32f (0, 10%nat) (1024, 14%nat) (17408, 22%nat) (4211712, 30%nat) ;
            get l <- p_toc n' ; ret (x :: l)
  end.

(** Cut the rest of the file according to the table of contents; nothing may be left. *)
Fixpoint p_sections (toc : list Z) : parser (list (list bool)) :=
  match toc with
  | [] => fun s => match s with [] => Some ([], []) | _ => None end
  | n :: toc' => fun s =>
      let k := (8 * Z.to_nat n)%nat in
      if (k <=? length s)%nat
      then (get l <- p_sections toc' ; ret (firstn k s :: l)) (skipn k s) else None
  end.

Definition ceil_div (a b : Z) : Z := - (- a / b).

(** Sections of a frame: one when it has a single group of 256 by 256, otherwise one for the global data, one for
    each group of 2048 by 2048, one for the pass and one for each group *)
Definition sections_of (w h : Z) : Z :=
  let g := ceil_div w 256 * ceil_div h 256 in
  if g =? 1 then 1 else 1 + ceil_div w 2048 * ceil_div h 2048 + 1 + g.

Definition read_jxl (file : list Z) : option (info * list (list bool)) :=
  match (get _ <- expect 8 255 ; get _ <- expect 8 10 ;
         get wh <- p_size ; get m <- p_meta ;
         let '(bits, alpha, grey) := m in
         get _ <- p_frame (match alpha with Some _ => true | None => false end) ;
         get toc <- p_toc (Z.to_nat (sections_of (fst wh) (snd wh))) ;
         get secs <- p_sections toc ;
         ret ({| iwidth := fst wh; iheight := snd wh; ibits := bits; ialpha_bits := alpha; igrey := grey |}, secs))
        (bits_of_bytes file) with
  | Some (r, []) => Some r
  | _ => None
  end.

(** The inverse of the hybrid numbers with a split of [2 ^ k] and no kept bits: a token below the split is the
    value; a token above it says how many more bits follow the leading one. *)
Definition hybrid_value (k token bits : Z) : Z :=
  if token <? 2 ^ k then token else 2 ^ (token - 2 ^ k + k) + bits.
(** Signed numbers folded to unsigned ones: even for those from zero up, odd for the negative ones *)
Definition unfold_signed (x : Z) : Z := if Z.even x then x / 2 else - (x + 1) / 2.
