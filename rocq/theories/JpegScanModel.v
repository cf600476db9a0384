(** Model of the scan loop of the baseline JPEG decoder: zune-jpeg/src/mcu.rs (and [handle_rst_main], [get_marker] of
    mcu_prog.rs). *)
From Verif Require Import Base Loops JpegHuffModel JpegIdctModel.

(** What the loop uses of [Components] — components.rs:58-110: [raw_coeff] (or the [progressive] array, when the components come
    in several scans) is kept in [chans] below. *)
Record comp : Set := Comp { needed : bool; dct : table; act : table; qt : list Z; hs : nat; vs : nat; stride : nat; pred : Z }.
Definition with_pred (c : comp) (p : Z) : comp := Comp (needed c) (dct c) (act c) (qt c) (hs c) (vs c) (stride c) p.
(** [self.todo], [self.restart_interval], the scratch block [tmp] and [clobber_more_than_4x4] *)
Record scan : Set := Scan { str : bits; comps : list comp; chans : list (list Z); todo : Z; interval : Z; tmp : list Z; more : bool }.
(** [McuContinuation] *)
Inductive cont : Set := CGo | CSos | CMarker (m : Z) | CTerminate.

(** One block of component [k] at [v], [h] of MCU [j] in MCU row [row] — mcu.rs:454-557. [prog] is the constant
    [PROGRESSIVE]: the samples of all rows are kept. *)
Definition one_block (debug avx prog : bool) (row j k v h : nat) (s : scan) : res scan :=
  do c <- get_at (comps s) k ;
  if needed c then
    do (p, len, t, b) <- decode_block debug (dct c) (act c) (qt c) (clear_block (more s) (tmp s)) (pred c) (str s) ;
    do ch <- get_at (chans s) k ;
    let offset := (if prog then row * stride c * 8 * vs c else 0)%nat in
    let pos := (stride c * (v * 8) + (j * hs c + h) * 8)%nat in
    if (length ch <? offset + pos)%nat then Panic else
    do (out, t) <- idct_block debug avx len t (skipn (offset + pos) ch) (stride c) ;
    Ok (Scan b (upd (comps s) k (with_pred c p)) (upd (chans s) k (firstn (offset + pos) ch ++ out)) (todo s) (interval s) t (10 <? len)%nat)
  else
    do (len, b) <- discard_block (dct c) (act c) (str s) ;
    Ok (Scan b (comps s) (chans s) (todo s) (interval s) (tmp s) (more s)).

(** The blocks of one MCU — mcu.rs:440-495: for each component of the scan, [vertical_sample] times [horizontal_sample] blocks, or one
    if no component of the scan is sampled ([SAMPLED]) *)
Definition slots (sampled : bool) (order : list nat) (cs : list comp) : list (nat * nat * nat) :=
  flat_map (fun k => match nth_error cs k with
    | None => []
    | Some c => flat_map (fun v => map (fun h => (k, v, h)) (seq 0 (if sampled then hs c else 1)%nat)) (seq 0 (if sampled then vs c else 1)%nat)
    end) order.
(** An error ends the row: mcu.rs:515-527. *)
Fixpoint run_slots (debug avx prog : bool) (row j : nat) (l : list (nat * nat * nat)) (s : scan) : res (scan * option err) :=
  match l with
  | [] => Ok (s, None)
  | (k, v, h) :: l' =>
      match one_block debug avx prog row j k v h s with
      | Ok s' => run_slots debug avx prog row j l' s'
      | Err e => Ok (s, Some e)
      | Panic => Panic
      | Fuel => Fuel
      end
  end.

(** [BitStream::reset] — bitstream.rs:766-772 *)
Definition reset (b : bits) : bits := Bits 0 0 0 None (over b) (eoi b) (rd b).
(** [get_marker] — mcu_prog.rs:657-685, when no marker is held: the next marker, [None] if the file ends, and what is left *)
Fixpoint skip_ff (l : list Z) : option (Z * list Z) :=
  match l with [] => None | b :: l' => if b =? 255 then skip_ff l' else Some (b, l') end.
Fixpoint get_marker (fuel : nat) (l : list Z) : option Z * list Z :=
  match fuel with
  | O => (None, l)
  | S f =>
      match l with
      | [] => (None, [])
      | b :: l' =>
          if b =? 255 then
            match skip_ff l' with
            | None => (None, [])
            | Some (r, l'') => if r =? 0 then get_marker f l'' else (Some r, l'')
            end
          else get_marker f l'
      end
  end.
Definition is_rst (m : Z) : bool := (208 <=? m) && (m <=? 215).
(** [handle_rst] — mcu.rs:718-747 *)
Definition handle_rst (s : scan) : res scan :=
  match marker (str s) with
  | None => Ok (Scan (str s) (comps s) (chans s) (interval s) (interval s) (tmp s) (more s))
  | Some m =>
      if is_rst m then Ok (Scan (reset (str s)) (map (fun c => with_pred c 0) (comps s)) (chans s) (interval s) (interval s) (tmp s) (more s))
      else if m =? 217 then Ok (Scan (str s) (comps s) (chans s) (interval s) (interval s) (tmp s) (more s))
      else Err EOther
  end.
(** [handle_rst_main] — mcu_prog.rs:442-482, called when [todo] is zero *)
Definition with_str (s : scan) (b : bits) : scan := Scan b (comps s) (chans s) (todo s) (interval s) (tmp s) (more s).
Definition rst_main (s : scan) : res scan :=
  do b <- refill (str s) ;
  let b := if negb (interval s =? 0) && (match marker b with None => true | Some _ => false end) && negb (eoi b) then
             let (m, r) := get_marker (S (length (rd b))) (rd b) in
             Bits (buffer b) (aligned b) (left b) m (over b) (eoi b) r
           else b in
  handle_rst (with_str s b).

(** The MCUs of a row — mcu.rs:440-573; [true]: an error outside strict mode *)
Definition with_todo (s : scan) (t : Z) : scan := Scan (str s) (comps s) (chans s) t (interval s) (tmp s) (more s).
Fixpoint run_mcus (debug avx prog strict sampled : bool) (order : list nat) (row : nat) (js : list nat) (s : scan) : res (scan * bool) :=
  match js with
  | [] => Ok (s, false)
  | j :: js' =>
      do (s, e) <- run_slots debug avx prog row j (slots sampled order (comps s)) s ;
      match e with
      | Some e => if strict then Err e else Ok (s, true)
      | None =>
          let s := with_todo s ((todo s - 1) mod 2 ^ 64) in
          if todo s =? 0 then do s <- rst_main s ; run_mcus debug avx prog strict sampled order row js' s
          else if (match marker (str s) with Some _ => true | None => false end) && (left (str s) =? 0) then Ok (s, false)
          else run_mcus debug avx prog strict sampled order row js' s
      end
  end.
(** [check_stream_marker_after_mcu_width] — mcu.rs:578-637. The header behind the marker is read by the caller here:
    [CSos] and [CMarker] mean that the scan is left at that marker. *)
Definition after_row (strict : bool) (s : scan) : res (scan * cont) :=
  let b := str s in
  match marker b with
  | None => Ok (s, CGo)
  | Some m =>
      let b' := Bits (buffer b) (aligned b) (left b) None (over b) (if m =? 217 then true else eoi b) (rd b) in
      if m =? 217 then Ok (with_str s b', CGo)
      else if is_rst m then if todo s =? 0 then do s <- handle_rst s ; Ok (s, CGo) else Ok (s, CGo)
      else if m =? 218 then Ok (with_str s (reset b'), CSos)
      else if existsb (Z.eqb m) [196; 219; 221; 254; 224; 225; 226; 237; 238] then Ok (with_str s b', CMarker m)
      else if strict then Err EOther else Ok (with_str s (reset b'), CTerminate)
  end.
(** [inner_decode_mcu_width] — mcu.rs:436-576 *)
Definition decode_row (debug avx prog strict sampled : bool) (order : list nat) (mcus row : nat) (s : scan) : res (scan * cont) :=
  let s := Scan (str s) (comps s) (chans s) (todo s) (interval s) (tmp s) true in
  do (s, t) <- run_mcus debug avx prog strict sampled order row (seq 0 mcus) s ;
  if t : bool then Ok (s, CTerminate) else after_row strict s.

(** The rows of a scan — mcu.rs:191-296. The result is why the loop ended ([None]: all rows done; [Some None]: the end of the
    file was met before), and for each row done the samples of all components, which go to [post_process]. *)
Inductive stop : Set := AllRows | EndOfFile | Left (c : cont).
Fixpoint run_rows (debug avx prog strict sampled : bool) (order : list nat) (mcus : nat) (rows : list nat) (s : scan) : res (stop * list (list (list Z)) * scan) :=
  match rows with
  | [] => Ok (AllRows, [], s)
  | row :: rows' =>
      if 0 <? over (str s) then if strict then Err EOther else Ok (EndOfFile, [], s) else
      do (s, c) <- decode_row debug avx prog strict sampled order mcus row s ;
      match c with
      | CGo => do (e, out, s') <- run_rows debug avx prog strict sampled order mcus rows' s ; Ok (e, chans s :: out, s')
      | c => Ok (Left c, [chans s], s)
      end
  end.
(** A new decoder: mcu.rs:146-180, decoder.rs:189-197, 572-580; [dri] is the restart interval if there is a DRI segment. *)
Definition start_scan (file : list Z) (cs : list comp) (chans : list (list Z)) (dri : option Z) : scan :=
  Scan (Bits 0 0 0 None 0 false file) cs chans (match dri with None => 2147483647 | Some d => d end) (match dri with None => 0 | Some d => d end) (repeat 0 64) true.
Definition run_scan (debug avx prog strict sampled : bool) (order : list nat) (mcus rows : nat) (s : scan) :=
  run_rows debug avx prog strict sampled order mcus (seq 0 rows) s.
