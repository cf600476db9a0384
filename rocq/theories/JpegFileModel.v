(** Whole JPEG files: [decode_into] of zune-jpeg/src/decoder.rs:776-795 for pictures with three components in YCbCr and output in RGB, RGBA, BGR or BGRA. *)
From Verif Require Import Base Loops DeintModel JpegColorModel JpegIdctModel JpegUpsampleModel JpegHuffModel JpegScanModel JpegProgModel JpegHeadModel.

(** Quantisation tables of the components — misc.rs:229-238 *)
Fixpoint quantisers (d : dec) (cs : list fcomp) : res (list (nat * nat * list Z)) :=
  match cs with
  | [] => Ok []
  | c :: cs' =>
      match nth (c_tq c) (d_qt d) None with
      | None => Err EOther
      | Some q => do r <- quantisers d cs' ; Ok ((c_hs c, c_vs c, q) :: r)
      end
  end.
Definition setup_frame (d : dec) : res frame :=
  do l <- quantisers d (d_comps d) ; Ok (setup (Z.to_nat (d_w d)) (Z.to_nat (d_h d)) l).

(** Progressive files: mcu_prog.rs:48-205. [max_scans] scans at most, so the loop is entered at most that often. *)
Definition prog_headers (o : hopts) (d : dec) (m : Z) (l : list Z) : res (option (dec * head * list Z)) :=
  do r <- next_scan (S (length l)) o d m l ;
  match r with None => Ok None | Some (d, l) => Ok (Some (d, head_of d, l)) end.
Definition prog_coefficients (debug : bool) (o : hopts) (max_scans : nat) (d : dec) (fr : frame) (l : list Z) : res (list (list Z)) :=
  coefficients (prog_headers o) debug (h_strict o) fr max_scans (S max_scans) d (head_of d) l (new_bufs fr).

(** Baseline files with all components in the first scan — mcu.rs:82-260. Where the width or height is added to 7 this is done with 16 bits
    (mcu.rs:107-108). A DRI segment with interval 0 leaves [todo] at 0 instead of [i32::MAX]; neither is counted down to 0. *)
Definition blocks_u16 (debug : bool) (x : Z) : res nat :=
  if (65536 <=? x + 7) && debug then Panic else Ok (Z.to_nat ((x + 7) mod 65536 / 8)).
Fixpoint scan_comps (d : dec) (cs : list fcomp) (gs : list geo) : res (list JpegScanModel.comp) :=
  match cs, gs with
  | c :: cs', g :: gs' =>
      match nth (c_dc c) (d_dc d) None, nth (c_ac c) (d_ac d) None with
      | Some t, Some a => do r <- scan_comps d cs' gs' ; Ok (JpegScanModel.Comp true t a (gqt g) (ghs g) (gvs g) (gstride g) 0 :: r)
      | _, _ => Err EOther
      end
  | _, _ => Ok []
  end.
Definition base_rows (debug avx : bool) (o : hopts) (d : dec) (fr : frame) (l : list Z) : res (list (list (list Z))) :=
  do cs <- scan_comps d (d_comps d) (geos fr) ;
  do (w, h) <- (if inter fr then Ok (mx fr, my fr) else do w <- blocks_u16 debug (d_w d) ; do h <- blocks_u16 debug (d_h d) ; Ok (w, h)) ;
  let order := o_order (d_sos d) in
  if negb (length order =? length (d_comps d))%nat then Err EOther (* several scans: not modelled here, see JpegScanProps.v *) else
  let sampled := existsb (fun k => match nth_error (geos fr) k with Some g => negb (ghs g =? 1)%nat || negb (gvs g =? 1)%nat | None => false end) order in
  do (e, rows, s) <- run_scan debug avx false (h_strict o) sampled order w h
    (start_scan l cs (map (fun g => repeat 0 (gstride g * gvs g * 8)%nat) (geos fr)) (if d_dri d =? 0 then None else Some (d_dri d))) ;
  match e with AllRows => Ok rows | _ => Err EOther (* damaged files: not modelled here *) end.

(** Ratios — decoder.rs:832-890; [fix_an_annoying_bug] — misc.rs:252-289; [calculate_padded_width] — misc.rs:361-378 *)
Definition ratio_of (h v : nat) : ratio :=
  match h, v with
  | 1%nat, 1%nat => RNone
  | 2%nat, 1%nat => RH
  | 1%nat, 2%nat => RV
  | 2%nat, 2%nat => RHV
  | _, _ => RGen h v
  end.
Definition padded_width (width : nat) (r : ratio) : nat :=
  match r with
  | RNone | RV => ((width + 7) / 8 * 8)%nat
  | RH | RHV => ((width + 15) / 16 * 16)%nat
  | RGen h _ => ((width + (h * 8 - 1)) / (h * 8) * (h * 8))%nat
  end.
Definition up_comps (hm vm : nat) (gs : list geo) : list JpegUpsampleModel.comp :=
  let odd := match gs with g :: _ => (ghs g =? 2)%nat || (gvs g =? 2)%nat | [] => false end in
  map (fun '(i, g) => new_comp (ratio_of (hm / ghs g) (vm / gvs g)) (gstride g) (gvs g)
    (if odd && negb (i =? 0)%nat && (negb (ghs g =? 1)%nat || negb (gvs g =? 1)%nat) then 2%nat else 1%nat)) (combine (seq 0 (length gs)) gs).
(** The pixels of the rows — mcu.rs:804-930. (The scratch space of a picture without sampling is empty, and not used: its size is taken from the first component always.) *)
Definition to_pixels (avx : bool) (c : colorspace) (width height : nat) (fr : frame) (rows : list (list (list Z))) : res (list Z) :=
  let hm := fold_right Nat.max 1%nat (map ghs (geos fr)) in
  let vm := fold_right Nat.max 1%nat (map gvs (geos fr)) in
  let pw := padded_width width (ratio_of hm vm) in
  let n := (width * num_components c)%nat in
  let m := if inter fr then my fr else bh fr in
  let scratch := match geos fr with g :: _ => gstride g | [] => 0%nat end in
  image_rows (fun rows o => convert_row avx YCbCr c rows width o) pw n avx scratch vm m 0 rows (up_comps hm vm (geos fr)) (repeat 0 (height * n)%nat) 0.

Definition decode_jpeg (debug avx : bool) (o : hopts) (max_scans : nat) (c : colorspace) (file : list Z) : res (list Z) :=
  do (d, l) <- decode_headers o file ;
  do fr <- setup_frame d ;
  do col <- setup_color o d ;
  match col with
  | Some CYCbCr =>
      if negb (length (d_comps d) =? 3)%nat then Err EOther (* not modelled *) else
      do rows <- (if d_prog d then do bufs <- prog_coefficients debug o max_scans d fr l ; finish debug avx fr bufs
                  else base_rows debug avx o d fr l) ;
      to_pixels avx c (Z.to_nat (d_w d)) (Z.to_nat (d_h d)) fr rows
  | _ => Err EOther (* other colours: not modelled here *)
  end.
