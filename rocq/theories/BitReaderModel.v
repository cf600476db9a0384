(** Model of the inflate bit reader, crates/zune-inflate/src/bitstream.rs. *)
From Verif Require Import Base.

(** [BitStreamReader] — bitstream.rs:14-23. *)
Record reader := mkReader {
  r_src : list Z;      (* src *)
  r_pos : nat;         (* position *)
  r_left : Z;          (* bits_left: u8 *)
  r_buf : Z;           (* buffer: u64 *)
  r_over : nat         (* over_read *)
}.

(** [BitStreamReader::new] — bitstream.rs:31-39. *)
Definition new_reader (src : list Z) : reader := mkReader src 0 0 0 0.

(** [src.get(position..position + 8)] *)
Definition get8 (r : reader) : option (list Z) :=
  if (r_pos r + 8 <=? length (r_src r))%nat then Some (firstn 8 (skipn (r_pos r) (r_src r))) else None.

(** The branch-free refill, the [Some] arm of bitstream.rs:53-66 and 79-94. The shift amount is [bits_left],
    reduced modulo 64 as a release build does; [rd_refill_fast] shows that it is below 64 unless an earlier
    [bits_left -= bits] wrapped around, and a build with overflow checks stops at that subtraction. *)
Definition refill_fast (r : reader) (bytes : list Z) : reader :=
  let new_buffer := le_val bytes in
  let num := Z.lxor 63 (r_left r) in
  mkReader (r_src r) (r_pos r + Z.to_nat (Z.shiftr num 3))
           (Z.lor (r_left r) 56)
           (Z.lor (r_buf r) (u64 (Z.shiftl new_buffer (Z.land (r_left r) 63))))
           (r_over r).

(** The byte loop of [refill_slow] — bitstream.rs:100-108. *)
Fixpoint refill_bytes (bytes : list Z) (r : reader) : reader :=
  match bytes with
  | [] => r
  | b :: bytes' =>
      if 56 <=? r_left r then r
      else refill_bytes bytes'
             (mkReader (r_src r) (r_pos r + 1) (r_left r + 8)
                       (Z.lor (r_buf r) (u64 (Z.shiftl b (r_left r)))) (r_over r))
  end.

(** [while bits_left < 56 { bits_left += 8; over_read += 1 }] — bitstream.rs:109-112. Seven rounds always
    suffice; [Fuel] is excluded by [rd_refill]. *)
Fixpoint refill_zeros (fuel : nat) (r : reader) : res reader :=
  if r_left r <? 56 then
    match fuel with
    | O => Fuel
    | S f => refill_zeros f (mkReader (r_src r) (r_pos r) (r_left r + 8) (r_buf r) (r_over r + 1))
    end
  else Ok r.

(** [refill_slow] — bitstream.rs:97-113. [&src[position..]] panics when position is past the end. *)
Definition refill_slow (r : reader) : res reader :=
  if (length (r_src r) <? r_pos r)%nat then Panic
  else refill_zeros 7 (refill_bytes (skipn (r_pos r) (r_src r)) r).

(** [refill] — bitstream.rs:44-69. *)
Definition refill (r : reader) : res reader :=
  match get8 r with
  | Some bytes => Ok (refill_fast r bytes)
  | None => refill_slow r
  end.

(** [refill_inner_loop] — bitstream.rs:71-95. *)
Definition refill_inner_loop (r : reader) : reader :=
  match get8 r with
  | Some bytes => refill_fast r bytes
  | None => r
  end.

(** [peek_bits] / [peek_var_bits] — bitstream.rs:116-124 (the debug assertion is the panic). *)
Definition peek_bits (k : Z) (r : reader) : res Z :=
  if r_left r <? k then Panic else Ok (Z.land (r_buf r) (Z.shiftl 1 k - 1)).

(** [drop_bits] — bitstream.rs:163-167. *)
Definition drop_bits (k : Z) (r : reader) : res reader :=
  if r_left r <? k then Panic
  else Ok (mkReader (r_src r) (r_pos r) (r_left r - k) (Z.shiftr (r_buf r) k) (r_over r)).

(** [get_bits] — bitstream.rs:127-139. *)
Definition get_bits (k : Z) (r : reader) : res (Z * reader) :=
  if r_left r <? k then Panic
  else Ok (Z.land (r_buf r) (Z.shiftl 1 k - 1),
           mkReader (r_src r) (r_pos r) (r_left r - k) (Z.shiftr (r_buf r) k) (r_over r)).

(** [get_position] — bitstream.rs:146-149: saturating subtraction, as on [nat]. *)
Definition get_position (r : reader) : nat := r_pos r - Z.to_nat (Z.shiftr (r_left r) 3).

(** [reset] — bitstream.rs:152-155 (note: [over_read] stays). *)
Definition reset (r : reader) : reader := mkReader (r_src r) (r_pos r) 0 0 (r_over r).

(** [has] — bitstream.rs:158-160; [remaining_bytes] — 172-174. *)
Definition has (k : Z) (r : reader) : bool := k <=? r_left r.
Definition remaining_bytes (r : reader) : nat := length (r_src r) - r_pos r.

(** Histories of reader operations and what they let the caller observe. *)
Inductive bop := ORefill | ORefillInner | OPeek (k : Z) | ODrop (k : Z) | OGet (k : Z).

Definition run_bop (o : bop) (r : reader) : res (list Z * reader) :=
  match o with
  | ORefill => do r' <- refill r ; Ok ([], r')
  | ORefillInner => Ok ([], refill_inner_loop r)
  | OPeek k => do v <- peek_bits k r ; Ok ([v], r)
  | ODrop k => do r' <- drop_bits k r ; Ok ([], r')
  | OGet k => do (v, r') <- get_bits k r ; Ok ([v], r')
  end.

Fixpoint run_bops (os : list bop) (r : reader) : res (list Z * reader) :=
  match os with
  | [] => Ok ([], r)
  | o :: os' =>
      do (v, r1) <- run_bop o r ;
      do (vs, r2) <- run_bops os' r1 ;
      Ok (v ++ vs, r2)
  end.
