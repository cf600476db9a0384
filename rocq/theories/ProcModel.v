(** Model of the arithmetic and pointwise operations of crates/zune-imageprocs. Samples of a [b]-bit channel are
    integers in [0, 2^b); [b] is 8 or 16 in the code. Arithmetic that overflows its Rust type is a panic. *)
From Verif Require Import Base.

(** [compute_mod_u32] — mathops.rs:18-21: division by zero panics. *)
Definition compute_mod (d : Z) : res Z :=
  if d =? 0 then Panic else Ok ((2 ^ 64 - 1) / d + 1).

(** [fastdiv_u32] — mathops.rs:42-44: a 128-bit product, its upper part cut to 32 bits. *)
Definition fastdiv (a m : Z) : res Z :=
  if 2 ^ 128 <=? m * a then Panic else Ok ((m * a) / 2 ^ 64 mod 2 ^ 32).

(** Pointwise update of a channel; a panic on one sample is a panic of the whole operation. *)
Fixpoint map_res (f : Z -> res Z) (l : list Z) : res (list Z) :=
  match l with
  | [] => Ok []
  | x :: l' => do y <- f x ; do r <- map_res f l' ; Ok (y :: r)
  end.

(** [iter_mut().zip(alpha).for_each(..)]: samples beyond the end of alpha stay. *)
Fixpoint zip_update (f : Z -> Z -> res Z) (l al : list Z) : res (list Z) :=
  match l, al with
  | c :: l', a :: al' => do y <- f c a ; do r <- zip_update f l' al' ; Ok (y :: r)
  | _, _ => Ok l
  end.

(** ** Alpha — premul_alpha.rs *)

(** One step of [premultiply_u8] (240-248, in [u16]) and [premultiply_u16] (259-266, in [u32]). *)
Definition premul (b c a : Z) : res Z :=
  let temp := a * c + 2 ^ (b - 1) in
  if 2 ^ (2 * b) <=? temp then Panic else
  let s := temp + temp / 2 ^ b in
  if 2 ^ (2 * b) <=? s then Panic else
  Ok (s / (2 ^ b - 1) mod 2 ^ b).
Definition premultiply (b : Z) : list Z -> list Z -> res (list Z) := zip_update (premul b).

(** [create_unpremul_table_u8] / [_u16] (204-230), read at index [a]: entry 0 is 0. *)
Definition unpremul_table (a : Z) : res Z := if a =? 0 then Ok 0 else compute_mod a.

(** One step of [unpremultiply_u8] (274-288) and [unpremultiply_u16] (301-324). *)
Definition unpremul (b c a : Z) : res Z :=
  do m <- unpremul_table a ;
  let num := c * (2 ^ b - 1) + a / 2 in
  if 2 ^ 32 <=? num then Panic else
  do q <- fastdiv num m ;
  Ok (if q <? 2 ^ b then q else 2 ^ b - 1).
Definition unpremultiply (b : Z) : list Z -> list Z -> res (list Z) := zip_update (unpremul b).

(** ** Invert — invert.rs:82-89 *)
Definition invert1 (b x : Z) : res Z := if 2 ^ b - 1 <? x then Panic else Ok (2 ^ b - 1 - x).
Definition invert (b : Z) : list Z -> res (list Z) := map_res (invert1 b).

(** ** Threshold — threshold.rs:112-150 *)
Inductive threshold_method : Set := Binary | BinaryInv | ThreshTrunc | ThreshToZero.
Definition threshold1 (b t : Z) (m : threshold_method) (x : Z) : Z :=
  match m with
  | Binary => if t <? x then 2 ^ b - 1 else 0
  | BinaryInv => if t <? x then 0 else 2 ^ b - 1
  | ThreshTrunc => if t <? x then t else x
  | ThreshToZero => if t <? x then t else 0
  end.
Definition threshold (b t : Z) (m : threshold_method) (l : list Z) : list Z := map (threshold1 b t m) l.

(** ** Contrast stretch — stretch_contrast.rs:99-134, with [maximum] the largest sample value *)
Definition stretch1 (b lower upper m x : Z) : res Z :=
  if upper <=? x then Ok (2 ^ b - 1) else
  if x <=? lower then Ok 0 else
  let num := (2 ^ b - 1) * (x - lower) in
  if 2 ^ 32 <=? num then Panic else
  do q <- fastdiv num m ; Ok (q mod 2 ^ b).
Definition stretch (b lower upper : Z) (l : list Z) : res (list Z) :=
  if upper <? lower then Err EOther else
  let len := Z.min (2 ^ 32 - 1) (Z.max 0 (upper - lower) + 1) in
  do m <- compute_mod len ;
  map_res (stretch1 b lower upper m) l.

(** ** Composite — composite.rs *)

(** One row of [composite_over]: [dst.get_mut(start_x..)], then the common prefix is copied (360-367). *)
Definition over_row (sx : nat) (d s : list Z) : list Z :=
  if (sx <=? length d)%nat then
    let n := Nat.min (length d - sx) (length s) in
    firstn sx d ++ firstn n s ++ skipn (sx + n) d
  else d.
Fixpoint over_rows (sx : nat) (ds ss : list (list Z)) : list (list Z) :=
  match ds, ss with
  | d :: ds', s :: ss' => over_row sx d s :: over_rows sx ds' ss'
  | _, _ => ds
  end.
(** [composite_over] — composite.rs:352-368; [chunks_exact] panics on width 0. *)
Definition composite_over (src dst : list Z) (sx sy ws wd : nat) : res (list Z) :=
  if (wd =? 0)%nat || (ws =? 0)%nat then Panic else
  let ds := chunks_exact wd dst in
  Ok (concat (firstn sy ds ++ over_rows sx (skipn sy ds) (chunks_exact ws src)) ++ skipn (length ds * wd) dst).
(** [composite_src] — composite.rs:343-351: whitens the destination first. *)
Definition composite_src (b : Z) (src dst : list Z) (sx sy ws wd : nat) : res (list Z) :=
  composite_over src (map (fun _ => 2 ^ b - 1) dst) sx sy ws wd.

(** [calculate_gravity] — utils.rs:60-85; [-] is saturating. *)
Inductive gravity : Set := Center | TopLeft | TopRight | BottomLeft | BottomRight.
Definition calculate_gravity (sw sh dw dh : nat) (g : gravity) : nat * nat :=
  match g with
  | Center => (dw / 2 - sw / 2, dh / 2 - sh / 2)%nat
  | TopLeft => (0, 0)%nat
  | TopRight => (dw - sw, 0)%nat
  | BottomLeft => (0, dh - sh)%nat
  | BottomRight => (dw - sw, dh - sh)%nat
  end.
