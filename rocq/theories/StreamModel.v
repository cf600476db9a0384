(** Model of zune-core's byte streams (crates/zune-core/src/bytestream), built with the [std]
    feature, which is what every codec crate enables by default.

    Simplifications: positions are unbounded naturals (the [as i64]/[as usize] casts of offsets
    >= 2^63 are not modelled); only the in-memory [ZCursor] source is modelled, not files. *)
From Verif Require Import Base.

(** [ZCursor { stream, position }] — reader/no_std_readers.rs:9-12. The position may lie past the end. *)
Record cursor := { cdata : list Z; cpos : nat }.

Definition at_pos (c : cursor) (p : nat) : cursor := {| cdata := cdata c; cpos := p |}.

(** [ZCursor::peek_bytes_impl] — reader/no_std_readers.rs:105-116: bytes
    [stream[min(position,end) .. min(position+len,end)]]. *)
Definition peek_bytes (c : cursor) (n : nat) : list Z :=
  let stream_end := length (cdata c) in
  let start := Nat.min (cpos c) stream_end in
  let stop := Nat.min (cpos c + n) stream_end in
  firstn (stop - start) (skipn start (cdata c)).

(** [ZCursor::read_bytes_impl] — no_std_readers.rs:98-102 (peek, then skip what was peeked);
    this is [std::io::Read::read] for [ZCursor], std_readers.rs:102-107. *)
Definition cur_read (c : cursor) (n : nat) : list Z * cursor :=
  let b := peek_bytes c n in (b, at_pos c (cpos c + length b)).

(** [Seek::seek(SeekFrom::Current(off))] — std_readers.rs:119-140 ([checked_add_signed]). *)
Definition seek_cur (c : cursor) (off : Z) : res cursor :=
  let p := Z.of_nat (cpos c) + off in
  if p <? 0 then Err EOther else Ok (at_pos c (Z.to_nat p)).

(** Write [b] over the first bytes of [buf] starting at [i] (slice assignment [buf[i..i+|b|] = b]). *)
Definition splice (buf : list Z) (i : nat) (b : list Z) : list Z :=
  firstn i buf ++ b ++ skipn (i + length b) buf.

(** The loop of [read_exact_bytes] — std_readers.rs:17-41. Returns the status, the contents left in
    the caller's buffer, and the cursor. *)
Fixpoint read_exact_loop (fuel : nat) (c : cursor) (buf : list Z) (bytes_read : nat)
  : res unit * list Z * cursor :=
  if (bytes_read <? length buf)%nat then
    match fuel with
    | O => (Fuel, buf, c)
    | S f =>
        let '(b, c') := cur_read c (length buf - bytes_read) in
        match b with
        | [] =>
            match seek_cur c' (- Z.of_nat bytes_read) with
            | Ok c'' => (Err EEof, buf, c'')
            | _ => (Err EOther, buf, c')
            end
        | _ => read_exact_loop f c' (splice buf bytes_read b) (bytes_read + length b)
        end
    end
  else (Ok tt, buf, c).

(** Each iteration reads at least one byte or stops, so [|buf|+1] iterations suffice. *)
Definition read_exact (c : cursor) (buf : list Z) : res unit * list Z * cursor :=
  read_exact_loop (S (length buf)) c buf 0.

(** [ZReader::read_fixed_bytes_or_error::<N>] — reader.rs:268-274. *)
Definition read_fixed_or_error (n : nat) (c : cursor) : res (list Z) * cursor :=
  let '(st, buf, c') := read_exact c (repeat 0 n) in
  match st with
  | Ok _ => (Ok buf, c')
  | Err e => (Err e, c')
  | Panic => (Panic, c')
  | Fuel => (Fuel, c')
  end.

(** [ZReader::read_fixed_bytes_or_zero::<N>] — reader.rs:280-284 via [read_const_bytes_no_error],
    std_readers.rs:48-50: the error is dropped but the buffer is returned as the loop left it. *)
Definition read_fixed_or_zero (n : nat) (c : cursor) : list Z * cursor :=
  let '(st, buf, c') := read_exact c (repeat 0 n) in (buf, c').

(** [read_byte_no_error] — std_readers.rs:11-15. *)
Definition read_u8 (c : cursor) : Z * cursor :=
  let '(b, c') := cur_read c 1 in (nth 0 b 0, c').

(** [ZReader::read_u8_err] — reader.rs:217-221. *)
Definition read_u8_err (c : cursor) : res Z * cursor :=
  match read_fixed_or_error 1 c with
  | (Ok b, c') => (Ok (nth 0 b 0), c')
  | (Err e, c') => (Err e, c')
  | (Panic, c') => (Panic, c')
  | (Fuel, c') => (Fuel, c')
  end.

Inductive endian := BE | LE.
Definition of_bytes (e : endian) (l : list Z) : Z := match e with BE => be_val l | LE => le_val l end.
Definition to_bytes (e : endian) (k : nat) (x : Z) : list Z :=
  match e with BE => be_bytes k x | LE => le_bytes k x end.

(** [get_u16/u32/u64_be/le_err] — reader.rs:378-391, [k] = size in bytes. *)
Definition get_err (e : endian) (k : nat) (c : cursor) : res Z * cursor :=
  match read_fixed_or_error k c with
  | (Ok b, c') => (Ok (of_bytes e b), c')
  | (Err x, c') => (Err x, c')
  | (Panic, c') => (Panic, c')
  | (Fuel, c') => (Fuel, c')
  end.

(** [get_u16/u32/u64_be/le] — reader.rs:363-375. *)
Definition get_zero (e : endian) (k : nat) (c : cursor) : Z * cursor :=
  let '(b, c') := read_fixed_or_zero k c in (of_bytes e b, c').

(** [ZReader::skip]/[rewind] — reader.rs:161-179. *)
Definition skip (c : cursor) (n : nat) : res cursor := seek_cur c (Z.of_nat n).
Definition rewind (c : cursor) (n : nat) : res cursor := seek_cur c (- Z.of_nat n).

(** [peek_exact_bytes] — std_readers.rs:69-77. *)
Definition peek_exact (c : cursor) (n : nat) : res (list Z) * cursor :=
  match read_exact c (repeat 0 n) with
  | (Ok _, buf, c') =>
      match seek_cur c' (- Z.of_nat n) with
      | Ok c'' => (Ok buf, c'')
      | _ => (Err EOther, c')
      end
  | (Err e, _, c') => (Err e, c')
  | (Panic, _, c') => (Panic, c')
  | (Fuel, _, c') => (Fuel, c')
  end.

(** [ZReader::peek_at] — reader.rs:230-255. The 20 MB cap is [20*1024*1024]. *)
Definition peek_cap : Z := 20 * 1024 * 1024.
Definition peek_at (c : cursor) (position n : nat) : res (list Z) * cursor :=
  let after_skip :=
    if Nat.eqb position 0 then Ok c else skip c position in
  match after_skip with
  | Ok c1 =>
      if peek_cap <? Z.of_nat n then (Err EOther, c1)
      else
        match peek_exact c1 n with
        | (Ok b, c2) =>
            if Nat.eqb position 0 then (Ok b, c2)
            else match rewind c2 position with
                 | Ok c3 => (Ok b, c3)
                 | _ => (Err EOther, c2)
                 end
        | (Err e, c2) => (Err e, c2)
        | (Panic, c2) => (Panic, c2)
        | (Fuel, c2) => (Fuel, c2)
        end
  | Err e => (Err e, c)
  | Panic => (Panic, c)
  | Fuel => (Fuel, c)
  end.

(** [ZReader::eof] — reader.rs:310, std_readers.rs:85-89 via [fill_buf]/[split]. *)
Definition eof (c : cursor) : bool := Nat.eqb (length (skipn (Nat.min (cpos c) (length (cdata c))) (cdata c))) 0.

(** * Writers *)

(** Sinks. [VecSink]: [Vec<u8>] appends. [SliceStd]: a [&mut [u8]] through [std::io::Write]
    (writer/std_writer.rs:7-27): [write_all] on a slice copies as much as fits and then reports
    [WriteZero]. [SliceNoStd]: the all-or-nothing implementation of writer/no_std_writer.rs:6-46.
    A slice sink is (bytes stored so far, room left). *)
Inductive sink :=
| VecSink (out : list Z)
| SliceStd (out : list Z) (room : nat)
| SliceNoStd (out : list Z) (room : nat).

Definition sink_out (s : sink) : list Z :=
  match s with VecSink o => o | SliceStd o _ => o | SliceNoStd o _ => o end.
Definition sink_room (s : sink) : option nat :=
  match s with VecSink _ => None | SliceStd _ r => Some r | SliceNoStd _ r => Some r end.

(** [write_bytes]: short write allowed — std_writer.rs:8, no_std_writer.rs:7-14, 49-52. *)
Definition sink_write (s : sink) (b : list Z) : nat * sink :=
  match s with
  | VecSink o => (length b, VecSink (o ++ b))
  | SliceStd o r => let a := Nat.min (length b) r in (a, SliceStd (o ++ firstn a b) (r - a))
  | SliceNoStd o r => let a := Nat.min (length b) r in (a, SliceNoStd (o ++ firstn a b) (r - a))
  end.

(** [write_all_bytes] / [write_const_bytes] — std_writer.rs:12-18, no_std_writer.rs:16-37, 54-62. *)
Definition sink_write_all (s : sink) (b : list Z) : bool * sink :=
  match s with
  | VecSink o => (true, VecSink (o ++ b))
  | SliceStd o r =>
      let a := Nat.min (length b) r in
      (Nat.leb (length b) r, SliceStd (o ++ firstn a b) (r - a))
  | SliceNoStd o r =>
      if Nat.ltb r (length b) then (false, s)
      else (true, SliceNoStd (o ++ b) (r - length b))
  end.

(** [ZWriter { buffer, bytes_written }] — writer.rs:22-25. *)
Record writer := { wsink : sink; wcount : nat }.

Definition new_writer (s : sink) : writer := {| wsink := s; wcount := 0 |}.

(** The writer's public calls. Integer calls carry byte order, width in bytes and value. *)
Inductive wop :=
| OWrite (b : list Z)                       (* ZWriter::write, writer.rs:42-46 *)
| OWriteAll (b : list Z)                    (* ZWriter::write_all, writer.rs:57-61 *)
| OConst (b : list Z)                       (* ZWriter::write_const_bytes, writer.rs:101-107 *)
| OU8 (b : Z)                               (* ZWriter::write_u8, writer.rs:113-115 *)
| OU8Err (b : Z)                            (* ZWriter::write_u8_err, writer.rs:93-95 *)
| OInt (e : endian) (k : nat) (x : Z)       (* write_uN_be/le, writer.rs:183-198 *)
| OIntErr (e : endian) (k : nat) (x : Z).   (* write_uN_be_err/le_err, writer.rs:168-181 *)

Inductive wret := RUnit | RCount (n : nat) | RErr.

Definition w_all (w : writer) (b : list Z) : bool * writer :=
  match sink_write_all (wsink w) b with
  | (true, s) => (true, {| wsink := s; wcount := wcount w + length b |})
  | (false, s) => (false, {| wsink := s; wcount := wcount w |})
  end.

Definition wstep (w : writer) (o : wop) : wret * writer :=
  let err_call b := match w_all w b with (true, w') => (RUnit, w') | (false, w') => (RErr, w') end in
  let quiet_call b := (RUnit, snd (w_all w b)) in
  match o with
  | OWrite b =>
      let '(n, s) := sink_write (wsink w) b in (RCount n, {| wsink := s; wcount := wcount w + n |})
  | OWriteAll b => err_call b
  | OConst b => err_call b
  | OU8 b => quiet_call [b]
  | OU8Err b => err_call [b]
  | OInt e k x => quiet_call (to_bytes e k x)
  | OIntErr e k x => err_call (to_bytes e k x)
  end.

Definition wrun (w : writer) (ops : list wop) : writer :=
  fold_left (fun w o => snd (wstep w o)) ops w.
