(** Model of progressive JPEG decoding — crates/zune-jpeg/src/mcu_prog.rs and bitstream.rs:508-772. Functions that fail leave
    behind what they have written so far (outside strict mode the picture is made of that), so results are pairs of what is
    written and a [res]. *)
From Verif Require Import Base Loops Slices JpegSimd JpegHuffModel JpegIdctModel JpegScanModel.

(** What is written, and how it went on *)
Definition then_ {S A B : Type} (x : S * res A) (f : S -> A -> S * res B) : S * res B :=
  match x with
  | (s, Ok a) => f s a
  | (s, Err e) => (s, Err e)
  | (s, Panic) => (s, Panic)
  | (s, Fuel) => (s, Fuel)
  end.

(** * Blocks: 64 coefficients of type [i16] *)

(** [get_bit] — bitstream.rs:565-571 *)
Definition get_bit (s : bits) : bool * bits := (Z.shiftr (aligned s) 63 =? 1, drop_bits 1 s).
(** [decode_prog_dc_first] — bitstream.rs:523-535: the prediction and the coefficient; [bit] is [1 << Al] *)
Definition dc_first (t : table) (bit pred : Z) (s : bits) : res (Z * Z * bits) :=
  do (p, s) <- decode_dc t pred s ; Ok (p, i16 (i16 p * bit), s).
(** [decode_prog_dc_refine] — bitstream.rs:536-560 *)
Definition dc_refine (bit x : Z) (s : bits) : res (Z * bits) :=
  do s <- (if left s <? 1 then do s <- refill s ; if left s <? 1 then Err EOther else Ok s else Ok s) ;
  let (b, s) := get_bit s in
  Ok (if b then i16 (x + bit) else x, s).
(** [decode_mcu_ac_first] — bitstream.rs:572-631: the block, the remaining run of blocks without coefficients *)
Fixpoint ac_first (fuel : nat) (t : table) (fast : list Z) (bit : Z) (se k : nat) (block : list Z) (s : bits) : list Z * res (Z * bits) :=
  match fuel with
  | O => (block, Fuel)
  | S f =>
      then_ (block, refill s) (fun block s =>
      let w := Z.to_nat (peek 9 s) in
      then_ (block, get_at fast w) (fun block fa =>
      then_ (block, get_at (lookup t) w) (fun block e =>
      let next k block s := if (se <? k)%nat then (block, Ok (0, s)) else ac_first f t fast bit se k block s in
      if negb (fa =? 0) then
        let k := (k + Z.to_nat (Z.land (Z.shiftr fa 4) 15))%nat in
        then_ (block, get_at UN_ZIGZAG (Nat.min k 63)) (fun block z =>
        then_ (block, set_at block z (i16 (Z.shiftr fa 8 * bit))) (fun _ block =>
        next (k + 1)%nat block (drop_bits (Z.land fa 15) s)))
      else
        then_ (block, decode_huff t e s) (fun block '(sym, s) =>
        let r := Z.shiftr sym 4 in
        let size := Z.land sym 15 in
        if negb (size =? 0) then
          let k := (k + Z.to_nat r)%nat in
          let (x, s) := get_bits size s in
          then_ (block, get_at UN_ZIGZAG (k mod 64)) (fun block z =>
          then_ (block, set_at block z (i16 (i16 (huff_extend x size) * bit))) (fun _ block =>
          next (k + 1)%nat block s))
        else if negb (r =? 15) then
          let (x, s) := get_bits r s in (block, Ok (2 ^ r + x - 1, s))
        else next (k + 16)%nat block s))))
  end.
(** [i16] sums: overflow is a panic in debug builds. *)
Definition add_i16 (debug : bool) (a b : Z) : res Z :=
  if (- 2 ^ 15 <=? a + b) && (a + b <? 2 ^ 15) then Ok (a + b) else if debug then Panic else Ok (i16 (a + b)).
(** The loop ['advance_nonzero] — bitstream.rs:692-727: where it stops *)
Fixpoint advance (debug : bool) (fuel : nat) (bit : Z) (se k : nat) (r : Z) (block : list Z) (s : bits) : list Z * res (nat * bits) :=
  match fuel with
  | O => (block, Fuel)
  | S f =>
      then_ (block, get_at UN_ZIGZAG (k mod 64)) (fun block z =>
      then_ (block, get_at block z) (fun block c =>
      if negb (c =? 0) then
        then_ (block, if left s <? 1 then
                        do s <- refill s ;
                        if (left s <? 1) && (match marker s with Some _ => true | None => false end) then Err EOther else Ok s
                      else Ok s) (fun block s =>
        let (b, s) := get_bit s in
        then_ (if b && (Z.land c bit =? 0) then
                 then_ (block, add_i16 debug c (if 0 <=? c then bit else - bit)) (fun block x =>
                 then_ (block, set_at block z x) (fun _ block => (block, Ok tt)))
               else (block, Ok tt)) (fun block _ =>
        if (k =? se)%nat then (block, Ok (k, s)) else advance debug f bit se (k + 1) r block s))
      else if r - 1 <? 0 then (block, Ok (k, s))
      else if (k =? se)%nat then (block, Ok (k, s)) else advance debug f bit se (k + 1) (r - 1) block s))
  end.
(** The loop ['no_eob] — bitstream.rs:648-740: where it stops, the run of blocks without new coefficients *)
Fixpoint refine_loop (debug : bool) (fuel : nat) (t : table) (bit : Z) (se k : nat) (block : list Z) (s : bits) : list Z * res (nat * Z * bits) :=
  match fuel with
  | O => (block, Fuel)
  | S f =>
      then_ (block, refill s) (fun block s =>
      then_ (block, get_at (lookup t) (Z.to_nat (peek 9 s))) (fun block e =>
      then_ (block, decode_huff t e s) (fun block '(sym, s) =>
      let r := Z.shiftr sym 4 in
      let size := Z.land sym 15 in
      let go x s :=
        then_ (if (k <=? se)%nat then advance debug 65 bit se k r block s else (block, Ok (k, s))) (fun block '(k, s) =>
        then_ (if negb (x =? 0) then
                 then_ (block, get_at UN_ZIGZAG (k mod 64)) (fun block z =>
                 then_ (block, set_at block z (i16 x)) (fun _ block => (block, Ok tt)))
               else (block, Ok tt)) (fun block _ =>
        if (se <? k + 1)%nat then (block, Ok ((k + 1)%nat, 0, s)) else refine_loop debug f t bit se (k + 1) block s)) in
      if size =? 0 then
        if negb (r =? 15) then let (x, s) := get_bits r s in (block, Ok (k, 2 ^ r + x, s))
        else go 0 s
      else if negb (size =? 1) then (block, Err EOther)
      else let (b, s) := get_bit s in go (if b : bool then bit else - bit) s)))
  end.
(** bitstream.rs:746-768: correction bits for the rest of a block without new coefficients *)
Fixpoint correct (n : nat) (bit : Z) (k : nat) (block : list Z) (s : bits) : list Z * res bits :=
  match n with
  | O => (block, Ok s)
  | S n' =>
      then_ (block, get_at UN_ZIGZAG (k mod 64)) (fun block z =>
      then_ (block, get_at block z) (fun block c =>
      let (b, s) := if negb (c =? 0) then get_bit s else (false, s) in
      then_ (if b && (Z.land c bit =? 0) then
               then_ (block, set_at block z (i16 (c + (if 0 <=? c then bit else - bit)))) (fun _ block => (block, Ok tt))
             else (block, Ok tt)) (fun block _ =>
      then_ (block, if left s <? 1 then refill s else Ok s) (fun block s =>
      correct n' bit (k + 1) block s))))
  end.
(** [decode_mcu_ac_refine] — bitstream.rs:632-775 *)
Definition ac_refine (debug : bool) (t : table) (bit : Z) (ss se : nat) (eob : Z) (block : list Z) (s : bits) : list Z * res (Z * bits) :=
  then_ (if eob =? 0 then refine_loop debug 65 t bit se ss block s else (block, Ok (ss, eob, s))) (fun block '(k, eob, s) =>
  if 0 <? eob then
    then_ (if existsb (fun x => negb (x =? 0)) (skipn 1 block) then
             then_ (block, refill s) (fun block s => correct (se + 1 - k) bit k block s)
           else (block, Ok s)) (fun block s =>
    (block, Ok (eob - 1, s)))
  else (block, Ok (eob, s))).

(** * Scans *)

(** What a scan header and the tables before it say, as used by [parse_entropy_coded_data]: [z_order] up to [num_scans], spectral
    selection, successive approximation, restart interval, and for each component of the frame the tables that it refers to. *)
Record head : Set := Head { order : list nat; ss : nat; se : nat; ah : Z; al : Z; dri : Z; dctab : list (option table); actab : list (option table) }.
(** The frame: [is_interleaved], [mcu_x], [mcu_y], width and height in blocks ([div_ceil(8)]), and the components *)
Record geo : Set := Geo { ghs : nat; gvs : nat; gstride : nat; gqt : list Z }.
Record frame : Set := Frame { inter : bool; mx : nat; my : nat; bw : nat; bh : nat; geos : list geo }.
(** The state besides the coefficients: bit reader, [eob_run], [dc_pred] of the components, [todo] *)
Record pst : Set := PSt { pb : bits; eob : Z; preds : list Z; ptodo : Z }.

Definition the_table (l : list (option table)) (k : nat) : res table :=
  match nth_error l k with Some (Some t) => Ok t | _ => Err EOther end.
(** One block of a scan of component [k] alone — mcu_prog.rs:254-329: [pos] is where its coefficients start in the buffer. *)
Definition single_block (debug : bool) (h : head) (k pos : nat) (bufs : list (list Z)) (st : pst) : list (list Z) * res pst :=
  if negb (ss h =? 0)%nat && (ah h =? 0) && (0 <? eob st) then (bufs, Ok (PSt (pb st) (eob st - 1) (preds st) (ptodo st))) else
  then_ (bufs, get_at bufs k) (fun bufs buf =>
  if (length buf <? pos + 64)%nat then (bufs, Err EOther) else
  let block := slice buf pos 64 in
  let bit := Z.shiftl 1 (al h) in
  let put_back (x : list Z * res (Z * bits)) :=
    let (block, r) := x in
    then_ (upd bufs k (firstn pos buf ++ block ++ skipn (pos + 64) buf), r) (fun bufs '(e, s) => (bufs, Ok (PSt s e (preds st) (ptodo st)))) in
  if (ss h =? 0)%nat then
    then_ (bufs, the_table (dctab h) k) (fun bufs t =>
    then_ (bufs, get_at block 0) (fun bufs x =>
    if ah h =? 0 then
      then_ (bufs, get_at (preds st) k) (fun bufs p =>
      then_ (bufs, dc_first t bit p (pb st)) (fun bufs '(p, x, s) =>
      (upd bufs k (upd buf pos x), Ok (PSt s (eob st) (upd (preds st) k p) (ptodo st)))))
    else
      then_ (bufs, dc_refine bit x (pb st)) (fun bufs '(x, s) =>
      (upd bufs k (upd buf pos x), Ok (PSt s (eob st) (preds st) (ptodo st))))))
  else
    then_ (bufs, the_table (actab h) k) (fun bufs t =>
    if ah h =? 0 then
      match ac_lookup t with
      | None => (bufs, Panic)
      | Some fast => put_back (ac_first 65 t fast bit (se h) (ss h) block (pb st))
      end
    else put_back (ac_refine debug t bit (ss h) (se h) (eob st) block (pb st)))).
(** One block of a scan of several components — mcu_prog.rs:392-430 *)
Definition inter_block (h : head) (k pos : nat) (bufs : list (list Z)) (st : pst) : list (list Z) * res pst :=
  then_ (bufs, the_table (dctab h) k) (fun bufs t =>
  then_ (bufs, get_at bufs k) (fun bufs buf =>
  match nth_error buf pos with
  | None => (bufs, Err EOther)
  | Some x =>
      let bit := Z.shiftl 1 (al h) in
      if ah h =? 0 then
        then_ (bufs, get_at (preds st) k) (fun bufs p =>
        then_ (bufs, dc_first t bit p (pb st)) (fun bufs '(p, x, s) =>
        (upd bufs k (upd buf pos x), Ok (PSt s (eob st) (upd (preds st) k p) (ptodo st)))))
      else
        then_ (bufs, dc_refine bit x (pb st)) (fun bufs '(x, s) =>
        (upd bufs k (upd buf pos x), Ok (PSt s (eob st) (preds st) (ptodo st))))
  end)).
(** [handle_rst_main] and [handle_rst] — mcu_prog.rs:442-482, mcu.rs:718-747: called with [todo] zero *)
Definition prog_rst (h : head) (st : pst) : res pst :=
  do b <- refill (pb st) ;
  let b := if negb (dri h =? 0) && (match marker b with None => true | Some _ => false end) && negb (eoi b) then
             let (m, r) := get_marker (S (length (rd b))) (rd b) in
             Bits (buffer b) (aligned b) (left b) m (over b) (eoi b) r
           else b in
  match marker b with
  | None => Ok (PSt b (eob st) (preds st) (dri h))
  | Some m =>
      if is_rst m then Ok (PSt (reset b) 0 (map (fun _ => 0) (preds st)) (dri h))
      else if m =? 217 then Ok (PSt b (eob st) (preds st) (dri h))
      else Err EOther
  end.
(** The MCUs of a scan, each a list of blocks (component and position) *)
Fixpoint run_block_list (f : nat -> nat -> list (list Z) -> pst -> list (list Z) * res pst) (l : list (nat * nat)) (bufs : list (list Z)) (st : pst)
  : list (list Z) * res pst :=
  match l with
  | [] => (bufs, Ok st)
  | (k, pos) :: l' => then_ (f k pos bufs st) (fun bufs st => run_block_list f l' bufs st)
  end.
Fixpoint run_units (h : head) (f : nat -> nat -> list (list Z) -> pst -> list (list Z) * res pst) (us : list (list (nat * nat))) (bufs : list (list Z)) (st : pst)
  : list (list Z) * res pst :=
  match us with
  | [] => (bufs, Ok st)
  | u :: us' =>
      then_ (run_block_list f u bufs st) (fun bufs st =>
      let st := PSt (pb st) (eob st) (preds st) (ptodo st - 1) in
      then_ (bufs, if ptodo st =? 0 then prog_rst h st else Ok st) (fun bufs st => run_units h f us' bufs st))
  end.
(** The blocks of a scan — mcu_prog.rs:236-257, 384-405 *)
Definition single_units (fr : frame) (k : nat) (g : geo) : list (list (nat * nat)) :=
  let (w, h) := if negb (gvs g =? 1)%nat || negb (ghs g =? 1)%nat || negb (inter fr) then (bw fr, bh fr) else (mx fr, my fr) in
  flat_map (fun i => map (fun j => [(k, (64 * (j + i * (gstride g / 8)))%nat)]) (seq 0 w)) (seq 0 h).
Definition inter_units (fr : frame) (order : list nat) : list (list (nat * nat)) :=
  flat_map (fun i => map (fun j =>
    flat_map (fun k => match nth_error (geos fr) k with
      | None => []
      | Some g => flat_map (fun v => map (fun h => (k, (64 * (j * ghs g + h + (i * gvs g + v) * gstride g / 8))%nat)) (seq 0 (ghs g))) (seq 0 (gvs g))
      end) order) (seq 0 (mx fr))) (seq 0 (my fr)).
(** [parse_entropy_coded_data] — mcu_prog.rs:214-440; [rest] is the file after the scan header. *)
Definition scan_data (debug : bool) (fr : frame) (h : head) (bufs : list (list Z)) (b : bits) : list (list Z) * res pst :=
  let n := length (geos fr) in
  let st := PSt (reset b) 0 (repeat 0 n) (if dri h =? 0 then 2 ^ 64 - 1 else dri h) in
  if (n <? length (order h))%nat then (bufs, Err EOther) else
  match order h with
  | [k] =>
      if negb (se h =? 0)%nat && (ss h =? 0)%nat then (bufs, Err EOther) else
      match nth_error (geos fr) k with
      | None => (bufs, Err EOther)
      | Some g => run_units h (single_block debug h) (single_units fr k g) bufs st
      end
  | _ =>
      if negb (se h =? 0)%nat then (bufs, Err EOther) else
      if existsb (fun k => match nth_error (geos fr) k, nth_error (dctab h) k with Some _, Some (Some _) => false | _, _ => true end) (order h) then (bufs, Err EOther) else
      run_units h (inter_block h) (inter_units fr (order h)) bufs st
  end.

(** [setup_component_params] and [reset_params] — misc.rs:213-250, mcu_prog.rs:633-650: [h_max] and [v_max] grow while the components
    are gone through. A component is its sampling factors and its quantisation table. *)
Definition div_ceil (a b : nat) : nat := ((a + b - 1) / b)%nat.
Fixpoint setup_components (width hm vm : nat) (l : list (nat * nat * list Z)) : nat * nat * list geo :=
  match l with
  | [] => (hm, vm, [])
  | (hs, vs, q) :: l' =>
      let hm := Nat.max hm hs in
      let vm := Nat.max vm vs in
      let g := Geo hs vs (hs * (div_ceil width (hm * 8) * 8)) q in
      let '(hm, vm, gs) := setup_components width hm vm l' in (hm, vm, g :: gs)
  end.
Definition setup (width height : nat) (l : list (nat * nat * list Z)) : frame :=
  let '(hm, vm, gs) := setup_components width 1 1 l in
  let mx := div_ceil width (hm * 8) in
  let my := div_ceil height (vm * 8) in
  let bw := div_ceil width 8 in
  let bh := div_ceil height 8 in
  match l with
  | [(_, _, q)] => Frame false mx my bw bh [Geo 1 1 (bw * 8) q]
  | _ => Frame (negb (hm =? 1)%nat || negb (vm =? 1)%nat) mx my bw bh gs
  end.
(** The buffers of the coefficients — mcu_prog.rs:64-104 (output colours other than grayscale) *)
Definition new_bufs (fr : frame) : list (list Z) :=
  let (w, h) := if inter fr then (mx fr, my fr) else (bw fr, bh fr) in
  map (fun g => repeat 0 (w * 64 * gvs g * ghs g * h)%nat) (geos fr).

(** * Files *)

Section File.
  (** Reading the markers and headers up to the next scan: from what the headers said before, a marker and what follows it to the
      header and the data of the scan, or an error ([None]: the end of the image). See [next_scan] in JpegHeadModel.v. *)
  Variable D : Type.
  Variable headers : D -> Z -> list Z -> res (option (D * head * list Z)).
  Variables (debug strict : bool) (fr : frame) (max_scans : nat).
  (** mcu_prog.rs:133-205: the loop ['eoi]. [seen] scans so far. The result is the coefficients of all components. *)
  Fixpoint more_scans (fuel : nat) (seen : nat) (d : D) (m : Z) (b : bits) (bufs : list (list Z)) : res (list (list Z)) :=
    match fuel with
    | O => Fuel
    | S f =>
        if m =? 217 then Ok bufs else
        do nx <- headers d m (rd b) ;
        match nx with
        | None => Ok bufs
        | Some (d, h, r) =>
            let b := Bits (buffer b) (aligned b) (left b) (marker b) (over b) (eoi b) r in
            match scan_data debug fr h bufs b with
            | (bufs, Ok st) =>
                let (m, b) := match marker (pb st) with
                  | Some m => (Some m, pb st)
                  | None => let (m, r) := get_marker (S (length (rd (pb st)))) (rd (pb st)) in
                            (m, Bits (buffer (pb st)) (aligned (pb st)) (left (pb st)) None (over (pb st)) (eoi (pb st)) r)
                  end in
                match m with
                | Some m =>
                    if (max_scans <? seen + 1)%nat then Err EOther else
                    more_scans f (seen + 1) d m (reset b) bufs
                | None => if strict then Err EOther else Ok bufs
                end
            | (bufs, Err e) => if strict then Err e else Ok bufs
            | (_, Panic) => Panic
            | (_, Fuel) => Fuel
            end
        end
    end.
  (** mcu_prog.rs:48-205 up to [finish_progressive_decoding]; [h] and [file] are the first scan. *)
  Definition coefficients (fuel : nat) (d : D) (h : head) (file : list Z) (bufs : list (list Z)) : res (list (list Z)) :=
    match scan_data debug fr h bufs (Bits 0 0 0 None 0 false file) with
    | (bufs, Ok st) =>
        match marker (pb st) with
        | None => Err EOther
        | Some m => more_scans fuel 1 d m (Bits (buffer (pb st)) (aligned (pb st)) (left (pb st)) None (over (pb st)) (eoi (pb st)) (rd (pb st))) bufs
        end
    | (bufs, Err e) => if strict then Err e else Ok bufs
    | (_, Panic) => Panic
    | (_, Fuel) => Fuel
    end.
End File.
Arguments more_scans {D}.
Arguments coefficients {D}.

(** * From coefficients to samples *)

(** One component of one MCU row in [finish_progressive_decoding] — mcu_prog.rs:558-607: dequantisation and transform. Reading is
    by [get]: an error if out of range. The product of [i16] and [u16] values fits [i32]. *)
Definition prog_block (debug avx : bool) (q : list Z) (coefs : list Z) (stride pos : nat) (ch : list Z) : res (list Z) :=
  if (length ch <? pos)%nat then Panic else
  do (out, t) <- (if avx then idct_avx2 debug else idct_int) (map (fun '(x, q) => x * q) (combine coefs q)) (skipn pos ch) stride ;
  Ok (firstn pos ch ++ out).
Definition prog_channel (debug avx : bool) (g : geo) (slice_ : list Z) (ch : list Z) : res (list Z) :=
  for_range 0 (gvs g) (fun v ch =>
    for_range 0 (gstride g / 8) (fun j ch =>
      let start := (j * 64 + v * 8 * gstride g)%nat in
      if (length slice_ <? start + 64)%nat then Err EOther else
      prog_block debug avx (gqt g) (slice slice_ start 64) (gstride g) (v * 8 * gstride g + j * 8) ch) ch) ch.
(** The rows handed to [post_process]; all components needed — mcu_prog.rs:484-622 *)
Fixpoint prog_channels (debug avx : bool) (rows i : nat) (gs : list geo) (bufs chs : list (list Z)) : res (list (list Z)) :=
  match gs, bufs, chs with
  | g :: gs', buf :: bufs', ch :: chs' =>
      let step := (length buf / rows)%nat in
      if (length buf <? i * step + step)%nat then Panic else
      do ch <- prog_channel debug avx g (slice buf (i * step) step) ch ;
      do chs <- prog_channels debug avx rows i gs' bufs' chs' ;
      Ok (ch :: chs)
  | _, _, _ => Ok []
  end.
Fixpoint prog_rows (debug avx : bool) (rows : nat) (l : list nat) (gs : list geo) (bufs chs : list (list Z)) : res (list (list (list Z))) :=
  match l with
  | [] => Ok []
  | i :: l' =>
      do chs <- prog_channels debug avx rows i gs bufs chs ;
      do out <- prog_rows debug avx rows l' gs bufs chs ;
      Ok (chs :: out)
  end.
(** [finish_progressive_decoding] up to [post_process]: [raw_coeff] starts with zeros. *)
Definition finish (debug avx : bool) (fr : frame) (bufs : list (list Z)) : res (list (list (list Z))) :=
  let rows := if inter fr then my fr else bh fr in
  prog_rows debug avx rows (seq 0 rows) (geos fr) bufs (map (fun g => repeat 0 (gstride g * gvs g * 8)%nat) (geos fr)).
