(** Model of the conversion between floats and RGBE pixels of crates/zune-hdr (decoder.rs:460-519, encoder.rs:260-348)
    and of whole files of floats. *)
From Verif Require Import Base Loops Slices HdrModel F32.

(** ** Decoder *)

(** [1_u32.wrapping_shl(exp) as f32] — decoder.rs:484-491 *)
Definition pow2_u32 (exp : Z) : f32 := of_int (Z.shiftl 1 (exp mod 32) mod 2 ^ 32).
(** [convert_pos], [convert_neg] — decoder.rs:509-519 *)
Definition convert_pos (val exponent : Z) : f32 := fmul (fdiv (of_int val) (of_int 256)) (pow2_u32 (Z.land (Z.abs exponent) 31)).
Definition convert_neg (val exponent : Z) : f32 := fdiv (fdiv (of_int val) (of_int 256)) (pow2_u32 (Z.land (Z.abs exponent) 31)).
(** One pixel of [convert_scanline] — decoder.rs:460-482 *)
Definition from_rgbe (r g b e : Z) : list f32 :=
  if e =? 0 then [of_int 0; of_int 0; of_int 0]
  else let x := e - 128 in
       if 0 <? x then [convert_pos r x; convert_pos g x; convert_pos b x]
       else [convert_neg r x; convert_neg g x; convert_neg b x].
Fixpoint from_pixels (px : list Z) : list f32 :=
  match px with
  | r :: g :: b :: e :: px' => from_rgbe r g b e ++ from_pixels px'
  | _ => []
  end.
(** [decode] — decoder.rs:248-255, 295-394 *)
Definition hdr_decode_floats (max_w max_h : Z) (input : list Z) : res (nat * nat * list f32) :=
  do (w, h, data) <- hdr_decode max_w max_h input ; Ok (w, h, from_pixels data).

(** ** Encoder *)

(** [f32::to_bits] (of a NaN: the usual one) and [f32::from_bits] for numbers that are not special *)
Definition to_bits (x : f32) : Z :=
  let sign (s : bool) := if s then 2 ^ 31 else 0 in
  match x with
  | S754_zero s => sign s
  | S754_infinity s => sign s + 2139095040
  | S754_nan => 2143289344
  | S754_finite s m e => sign s + (if Zpos m <? 2 ^ 23 then Zpos m else (e + 150) * 2 ^ 23 + (Zpos m - 2 ^ 23))
  end.
Definition from_bits (b : Z) : f32 :=
  let s := Z.testbit b 31 in
  let ex := Z.land (Z.shiftr b 23) 255 in
  let fr := Z.land b (2 ^ 23 - 1) in
  let m := if ex =? 0 then fr else fr + 2 ^ 23 in
  match m with
  | Zpos p => S754_finite s p (if ex =? 0 then -149 else ex - 150)
  | _ => S754_zero s
  end.
(** [abs] — encoder.rs:279-285 *)
Definition habs (x : f32) : f32 :=
  match x with
  | S754_zero _ => S754_zero false | S754_infinity _ => S754_infinity false | S754_nan => S754_nan
  | S754_finite _ m e => S754_finite false m e
  end.
(** [signum] — encoder.rs:287-295 *)
Definition signum (x : f32) : f32 :=
  match x with
  | S754_nan => S754_nan
  | S754_infinity s => S754_zero s
  | S754_finite false _ _ => of_int 1
  | _ => of_int (-1)
  end.
(** [floor] — encoder.rs:297-310: the cast to [u64] makes negative numbers 0. *)
Definition hfloor (x : f32) : f32 :=
  match x with
  | S754_nan | S754_infinity _ => x
  | _ => let d := of_int (to_uint (2 ^ 64 - 1) x) in
         if SFeqb d x || negb (SFltb x (of_int 0)) then d else fsub d (of_int 1)
  end.
(** [fast_log2] — encoder.rs:312-331; the constants are the nearest floats. *)
Definition fast_log2 (x : f32) : f32 :=
  let vx := to_bits x in
  let mx := from_bits (Z.lor (Z.land vx 8388607) 1056964608) in
  let y := fmul (of_int vx) (S754_finite false 8388608 (-46)) in
  fsub (fsub (fsub y (S754_finite false 16282487 (-17))) (fmul (S754_finite false 12566389 (-23)) mx))
       (fdiv (S754_finite false 14477731 (-23)) (fadd (S754_finite false 11814137 (-25)) mx)).
(** [exp as i32] *)
Definition to_i32 (x : f32) : Z :=
  match x with
  | S754_finite s m e => let a := if 0 <=? e then Zpos m * 2 ^ e else Zpos m / 2 ^ (- e) in
                         if s then Z.max (- 2 ^ 31) (- a) else Z.min (2 ^ 31 - 1) a
  | S754_infinity s => if s then - 2 ^ 31 else 2 ^ 31 - 1
  | _ => 0
  end.

Section Encoder.
(** [f32::exp2] of the platform *)
Variable exp2 : f32 -> f32.

(** [frexp] — encoder.rs:333-348 *)
Definition frexp (s : f32) : f32 * Z :=
  if SFeqb (of_int 0) s then (s, 0)
  else
    let lg := fast_log2 (habs s) in
    let fl := hfloor lg in
    let x := exp2 (fsub (fsub lg fl) (of_int 1)) in
    (fmul (signum s) x, to_i32 (fadd fl (of_int 1))).

(** [f32::MIN] and [1e-32] *)
Definition f32_min : f32 := S754_finite true 16777215 104.
Definition tiny : f32 := S754_finite false 13611295 (-130).

(** [float_to_rgbe] — encoder.rs:260-277 *)
Definition float_to_rgbe (r g b : f32) : list Z :=
  let v := fmax (fmax (fmax f32_min r) g) b in
  if SFltb tiny v then
    let '(m, e) := frexp v in
    let k := fdiv (fmul m (of_int 256)) v in
    let q c := to_uint 255 (fclamp (fmul c k) (of_int 0) (of_int 255)) in
    [q r; q g; q b; (e + 128) mod 256]
  else [0; 0; 0; 0].
Fixpoint to_pixels (fs : list f32) : list Z :=
  match fs with
  | r :: g :: b :: fs' => float_to_rgbe r g b ++ to_pixels fs'
  | _ => []
  end.
(** [encode] of an RGB image — encoder.rs:129-204 *)
Definition hdr_encode_floats (w h : nat) (fs : list f32) : res (list Z) :=
  if negb (length fs =? w * h * 3)%nat then Err ESize else hdr_encode w h (to_pixels fs).
End Encoder.
