(** The headers of a JPEG file — zune-jpeg/src/headers.rs, decoder.rs:338-600, components.rs:83-176. A reader is what is left of the
    file. Errors are not told apart. Not modelled: the 20 MB limit of [peek_at] (segments are below 64 kB), logging. *)
From Verif Require Import Base Loops JpegHuffModel JpegScanModel JpegProgModel.

(** * Reading — zune-core/src/bytestream/reader.rs *)
Definition rd_u8 (l : list Z) : res (Z * list Z) := match l with b :: l' => Ok (b, l') | [] => Err EOther end.
Definition rd_u16 (l : list Z) : res (Z * list Z) := match l with a :: b :: l' => Ok (a * 256 + b, l') | _ => Err EOther end.
(** [read_u8], [get_u16_be]: zero at the end *)
Definition rd_u8_0 (l : list Z) : Z * list Z := match l with b :: l' => (b, l') | [] => (0, []) end.
Definition rd_u16_0 (l : list Z) : Z * list Z := match l with a :: b :: l' => (a * 256 + b, l') | _ => (0, l) end.
Definition rd_n (n : nat) (l : list Z) : res (list Z * list Z) := if (length l <? n)%nat then Err EOther else Ok (firstn n l, skipn n l).
Definition peek (n : nat) (l : list Z) : res (list Z) := if (length l <? n)%nat then Err EOther else Ok (firstn n l).
Definition list_eqb (a b : list Z) : bool := if list_eq_dec Z.eq_dec a b then true else false.

(** * The decoder — decoder.rs:60-175 *)
Inductive incolor : Set := CLuma | CYCbCr | CCMYK | CYCCK | CRGB.
(** A component: id, sampling factors, quantisation table, Huffman tables *)
Record fcomp : Set := FComp { c_id : Z; c_hs : nat; c_vs : nat; c_tq : nat; c_dc : nat; c_ac : nat }.
Record meta : Set := Meta { m_exif : option (list Z); m_xmp : option (list Z); m_iptc : option (list Z); m_mpf : option (list Z);
  m_icc : list (Z * Z * list Z); m_gain : list (list Z) }.
(** Order, [spec_start], [spec_end], [succ_high], [succ_low] of the scan *)
Record sosd : Set := Sos { o_order : list nat; o_ss : Z; o_se : Z; o_ah : Z; o_al : Z }.
Record dec : Set := Dec { d_prog : bool; d_sof : bool; d_mjpeg : bool; d_w : Z; d_h : Z; d_comps : list fcomp; d_color : incolor;
  d_qt : list (option (list Z)); d_dc : list (option table); d_ac : list (option table); d_dri : Z; d_sos : sosd; d_meta : meta }.
Definition start_dec : dec := Dec false false false 0 0 [] CYCbCr (repeat None 4) (repeat None 4) (repeat None 4) 0 (Sos [] 0 0 0 0) (Meta None None None None [] []).
Definition with_qt (d : dec) x := Dec (d_prog d) (d_sof d) (d_mjpeg d) (d_w d) (d_h d) (d_comps d) (d_color d) x (d_dc d) (d_ac d) (d_dri d) (d_sos d) (d_meta d).
Definition with_dc (d : dec) x := Dec (d_prog d) (d_sof d) (d_mjpeg d) (d_w d) (d_h d) (d_comps d) (d_color d) (d_qt d) x (d_ac d) (d_dri d) (d_sos d) (d_meta d).
Definition with_ac (d : dec) x := Dec (d_prog d) (d_sof d) (d_mjpeg d) (d_w d) (d_h d) (d_comps d) (d_color d) (d_qt d) (d_dc d) x (d_dri d) (d_sos d) (d_meta d).
Definition with_dri (d : dec) x := Dec (d_prog d) (d_sof d) (d_mjpeg d) (d_w d) (d_h d) (d_comps d) (d_color d) (d_qt d) (d_dc d) (d_ac d) x (d_sos d) (d_meta d).
Definition with_meta (d : dec) x := Dec (d_prog d) (d_sof d) (d_mjpeg d) (d_w d) (d_h d) (d_comps d) (d_color d) (d_qt d) (d_dc d) (d_ac d) (d_dri d) (d_sos d) x.
Definition with_color (d : dec) x := Dec (d_prog d) (d_sof d) (d_mjpeg d) (d_w d) (d_h d) (d_comps d) x (d_qt d) (d_dc d) (d_ac d) (d_dri d) (d_sos d) (d_meta d).
Definition with_mjpeg (d : dec) := Dec (d_prog d) (d_sof d) true (d_w d) (d_h d) (d_comps d) (d_color d) (d_qt d) (d_dc d) (d_ac d) (d_dri d) (d_sos d) (d_meta d).
Definition with_scan (d : dec) cs s := Dec (d_prog d) (d_sof d) (d_mjpeg d) (d_w d) (d_h d) cs (d_color d) (d_qt d) (d_dc d) (d_ac d) (d_dri d) s (d_meta d).

(** * Segments *)

(** [parse_huffman] — headers.rs:29-105 *)
Fixpoint dht_loop (fuel : nat) (left : Z) (d : dec) (l : list Z) : res (dec * list Z) :=
  match fuel with
  | O => Fuel
  | S f =>
      if 16 <? left then
        do (info, l) <- rd_u8 l ;
        let kind := Z.shiftr info 4 in
        let index := Z.to_nat (Z.land info 15) in
        if (4 <=? index)%nat then Err EOther else
        if 1 <? kind then Err EOther else
        do (counts, l) <- rd_n 16 l ;
        let left := left - 17 in
        let sum := fold_right Z.add 0 counts in
        if 256 <? sum then Err EOther else
        if left <? sum then Err EOther else
        let left := left - sum in
        do (syms, l) <- rd_n (Z.to_nat sum) l ;
        let values := syms ++ repeat 0 (256 - Z.to_nat sum) in
        if kind =? 0 then do t <- new_table true counts values ; dht_loop f left (with_dc d (upd (d_dc d) index (Some t))) l
        else do t <- new_table false counts values ; dht_loop f left (with_ac d (upd (d_ac d) index (Some t))) l
      else if 0 <? left then Err EOther else Ok (d, l)
  end.
Definition parse_dht (d : dec) (l : list Z) : res (dec * list Z) :=
  do (len, l) <- rd_u16 l ;
  if len <? 2 then Err EOther else dht_loop (Z.to_nat len) (len - 2) d l.

(** [un_zig_zag] — headers.rs:616-629 *)
Definition un_zig_zag (a : list Z) : list Z := fold_left (fun out p => upd out (fst p) (snd p)) (combine (firstn 64 UN_ZIGZAG) a) (repeat 0 64).
Fixpoint pairs (l : list Z) : list Z := match l with a :: b :: l' => a * 256 + b :: pairs l' | _ => [] end.
(** [parse_dqt] — headers.rs:107-178 *)
Fixpoint dqt_loop (fuel : nat) (left : Z) (d : dec) (l : list Z) : res (dec * list Z) :=
  match fuel with
  | O => Fuel
  | S f =>
      if 0 <? left then
        do (info, l) <- rd_u8 l ;
        let precision := Z.shiftr info 4 in
        let index := Z.to_nat (Z.land info 15) in
        let size := 64 * (precision + 1) in
        if left <? size + 1 then Err EOther else
        if 1 <? precision then Err EOther else
        do (q, l) <- (if precision =? 0 then rd_n 64 l else do (q, l) <- rd_n 128 l ; Ok (pairs q, l)) ;
        if (4 <=? index)%nat then Err EOther else
        dqt_loop f (left - (size + 1)) (with_qt d (upd (d_qt d) index (Some (un_zig_zag q)))) l
      else Ok (d, l)
  end.
Definition parse_dqt (d : dec) (l : list Z) : res (dec * list Z) :=
  do (len, l) <- rd_u16 l ;
  if len <? 2 then Err EOther else dqt_loop (Z.to_nat len) (len - 2) d l.

(** [Components::from] — components.rs:83-176; [MAX_SAMP_FACTOR] is 4 *)
Definition new_fcomp (pos : nat) (a b c : Z) : res fcomp :=
  if (4 <=? pos)%nat then Err EOther else
  let hs := Z.shiftr b 4 in
  let vs := Z.land b 15 in
  if 4 <? hs then Err EOther else
  if 4 <? vs then Err EOther else
  if 4 <=? c then Err EOther else
  if negb ((hs =? 1) || (hs =? 2) || (hs =? 4)) then Err EOther else
  if vs =? 0 then Err EOther else
  Ok (FComp a (Z.to_nat hs) (Z.to_nat vs) (Z.to_nat c) 0 0).
Fixpoint sof_comps (n pos : nat) (l : list Z) : res (list fcomp * list Z) :=
  match n with
  | O => Ok ([], l)
  | S n' =>
      do (t, l) <- rd_n 3 l ;
      do c <- new_fcomp pos (nth 0 t 0) (nth 1 t 0) (nth 2 t 0) ;
      do (cs, l) <- sof_comps n' (pos + 1) l ;
      Ok (c :: cs, l)
  end.
(** Options of the decoder: limits of width and height, strict mode *)
Record hopts : Set := HOpts { max_w : Z; max_h : Z; h_strict : bool }.
(** [parse_start_of_frame] — headers.rs:180-281; [prog] for SOF2 *)
Definition parse_sof (o : hopts) (prog : bool) (d : dec) (l : list Z) : res (dec * list Z) :=
  if d_sof d then Err EOther else
  do (len, l) <- rd_u16 l ;
  do (prec, l) <- rd_u8 l ;
  if negb (prec =? 8) then Err EOther else
  do (h, l) <- rd_u16 l ;
  do (w, l) <- rd_u16 l ;
  if max_w o <? w then Err EOther else
  if max_h o <? h then Err EOther else
  if (w =? 0) || (h =? 0) then Err EOther else
  do (n, l) <- rd_u8 l ;
  if n =? 0 then Err EOther else
  if negb (len =? 8 + 3 * n) then Err EOther else
  let col := if n =? 1 then CLuma else if (n =? 4) && (match d_color d with CYCbCr => true | _ => false end) then CCMYK else d_color d in
  do (cs, l) <- sof_comps (Z.to_nat n) 0 l ;
  Ok (Dec (d_prog d || prog) true (d_mjpeg d) w h cs col (d_qt d) (d_dc d) (d_ac d) (d_dri d) (d_sos d) (d_meta d), l).

(** [parse_sos] — headers.rs:284-420 *)
Fixpoint find_comp (cs : list fcomp) (id : Z) (j : nat) : option nat :=
  match cs with [] => None | c :: cs' => if c_id c =? id then Some j else find_comp cs' id (j + 1) end.
Fixpoint sos_comps (n : nat) (seen : list Z) (cs : list fcomp) (order : list nat) (l : list Z) : res (list fcomp * list nat * list Z) :=
  match n with
  | O => Ok (cs, order, l)
  | S n' =>
      do (id, l) <- rd_u8 l ;
      if existsb (Z.eqb id) seen then Err EOther else
      do (y, l) <- rd_u8 l ;
      match find_comp cs id 0 with
      | None => Err EOther
      | Some j =>
          let c := nth j cs (FComp 0 0 0 0 0 0) in
          sos_comps n' (id :: seen) (upd cs j (FComp (c_id c) (c_hs c) (c_vs c) (c_tq c) (Z.to_nat (Z.shiftr y 4)) (Z.to_nat (Z.land y 15)))) (order ++ [j]) l
      end
  end.
Definition parse_sos (d : dec) (l : list Z) : res (dec * list Z) :=
  do (ls, l) <- rd_u16 l ;
  do (ns, l) <- rd_u8 l ;
  if negb (ls =? 6 + 2 * ns) then Err EOther else
  if (ns <? 1) || (5 <=? ns) then Err EOther else
  if (length (d_comps d) =? 0)%nat then Err EOther else
  do (cs, order, l) <- sos_comps (Z.to_nat ns) [] (d_comps d) [] l ;
  do (ss, l) <- rd_u8 l ;
  do (se, l) <- rd_u8 l ;
  do (a, l) <- rd_u8 l ;
  let ah := Z.shiftr a 4 in
  let al := Z.land a 15 in
  if 63 <? se then Err EOther else
  if 63 <? ss then Err EOther else
  if 13 <? ah then Err EOther else
  if 13 <? al then Err EOther else
  Ok (with_scan d cs (Sos order ss se ah al), l).

(** Application segments — headers.rs:423-614. [after n] is what is left of the file after the data. *)
Definition pre_exif : list Z := [69; 120; 105; 102; 0; 0].
Definition pre_xmp : list Z := [104; 116; 116; 112; 58; 47; 47; 110; 115; 46; 97; 100; 111; 98; 101; 46; 99; 111; 109; 47; 120; 97; 112; 47; 49; 46; 48; 47; 0].
Definition pre_iptc : list Z := [80; 104; 111; 116; 111; 115; 104; 111; 112; 32; 51; 46; 48; 0].
Definition pre_icc : list Z := [73; 67; 67; 95; 80; 82; 79; 70; 73; 76; 69; 0].
Definition pre_hdr : list Z := [117; 114; 110; 58; 105; 115; 111; 58; 115; 116; 100; 58; 105; 115; 111; 58; 116; 115; 58; 50; 49; 52; 57; 54; 58; 45; 49; 0].
Definition pre_mpf : list Z := [77; 80; 70; 0].
Definition adobe : list Z := [65; 100; 111; 98; 101].
(** [length > prefix.len() && peek_at(0, prefix.len())? == prefix] *)
Definition starts (n : nat) (pre : list Z) (min : nat) (l : list Z) : res bool :=
  if (min <? n)%nat then do p <- peek (length pre) l ; Ok (list_eqb p pre) else Ok false.
Definition parse_app1 (d : dec) (l : list Z) : res (dec * list Z) :=
  let (len, l) := rd_u16_0 l in
  if len <? 2 then Err EOther else
  let n := (Z.to_nat len - 2)%nat in
  let m := d_meta d in
  do e <- starts n pre_exif 6 l ;
  if e : bool then
    let l := skipn 6 l in
    let n := (n - 6)%nat in
    do x <- peek n l ;
    Ok (with_meta d (Meta (Some x) (m_xmp m) (m_iptc m) (m_mpf m) (m_icc m) (m_gain m)), skipn n l)
  else
    do e <- starts n pre_xmp (length pre_xmp) l ;
    if e : bool then
      let l := skipn (length pre_xmp) l in
      let n := (n - length pre_xmp)%nat in
      do x <- peek n l ;
      Ok (with_meta d (Meta (m_exif m) (Some x) (m_iptc m) (m_mpf m) (m_icc m) (m_gain m)), skipn n l)
    else Ok (d, skipn n l).
Definition parse_app13 (d : dec) (l : list Z) : res (dec * list Z) :=
  let (len, l) := rd_u16_0 l in
  if len <? 2 then Err EOther else
  let n := (Z.to_nat len - 2)%nat in
  let m := d_meta d in
  do e <- starts n pre_iptc (length pre_iptc) l ;
  if e : bool then
    let l := skipn (length pre_iptc) l in
    let n := (n - length pre_iptc)%nat in
    do x <- peek n l ;
    Ok (with_meta d (Meta (m_exif m) (m_xmp m) (Some x) (m_mpf m) (m_icc m) (m_gain m)), skipn n l)
  else Ok (d, skipn n l).
Definition parse_app2 (d : dec) (l : list Z) : res (dec * list Z) :=
  let (len, l) := rd_u16_0 l in
  if len <? 2 then Err EOther else
  let n := (Z.to_nat len - 2)%nat in
  let m := d_meta d in
  do e <- starts n pre_icc 14 l ;
  if e : bool then
    let l := skipn 12 l in
    let (seq, l) := rd_u8_0 l in
    let (num, l) := rd_u8_0 l in
    let n := (n - 12 - 2)%nat in
    do x <- peek n l ;
    Ok (with_meta d (Meta (m_exif m) (m_xmp m) (m_iptc m) (m_mpf m) (m_icc m ++ [(seq, num, x)]) (m_gain m)), skipn n l)
  else
    do e <- starts n pre_hdr (length pre_hdr) l ;
    if e : bool then
      let l := skipn (length pre_hdr) l in
      let n := (n - length pre_hdr)%nat in
      if (n =? 4)%nat then
        let (_, l) := rd_u16_0 l in
        let (_, l) := rd_u16_0 l in
        Ok (with_meta d (Meta (m_exif m) (m_xmp m) (m_iptc m) (m_mpf m) (m_icc m) (m_gain m ++ [[]])), l)
      else if (4 <? n)%nat then
        do x <- peek n l ;
        Ok (with_meta d (Meta (m_exif m) (m_xmp m) (m_iptc m) (m_mpf m) (m_icc m) (m_gain m ++ [x])), skipn n l)
      else Ok (d, skipn n l)
    else
      do e <- starts n pre_mpf (length pre_mpf) l ;
      if e : bool then
        let l := skipn (length pre_mpf) l in
        let n := (n - length pre_mpf)%nat in
        do x <- peek n l ;
        Ok (with_meta d (Meta (m_exif m) (m_xmp m) (m_iptc m) (Some x) (m_icc m) (m_gain m)), skipn n l)
      else Ok (d, skipn n l).
Definition parse_app14 (d : dec) (l : list Z) : res (dec * list Z) :=
  let (len, l) := rd_u16_0 l in
  if len <? 2 then Err EOther else
  do p <- peek 5 l ;
  if list_eqb p adobe then
    if len <? 14 then Err EOther else
    let (t, l) := rd_u8_0 (skipn 11 l) in
    let rest := skipn (Z.to_nat len - 14) l in
    if t =? 0 then Ok (with_color d CCMYK, rest)
    else if t =? 1 then Ok (with_color d CYCbCr, rest)
    else if t =? 2 then Ok (with_color d CYCCK, rest)
    else Err EOther
  else Ok (d, skipn (Z.to_nat len) l).
Definition skip_segment (d : dec) (l : list Z) : res (dec * list Z) :=
  do (len, l) <- rd_u16 l ;
  if len <? 2 then Err EOther else Ok (d, skipn (Z.to_nat len - 2) l).
(** [parse_marker_inner] — decoder.rs:492-597. Markers that [Marker::from_u8] (marker.rs:59-92) does not name are skipped. *)
Definition parse_marker (o : hopts) (d : dec) (m : Z) (l : list Z) : res (dec * list Z) :=
  if (m =? 192) || (m =? 193) then parse_sof o false d l else
  if m =? 194 then parse_sof o true d l else
  if m =? 224 then
    do (len, l) <- rd_u16 l ;
    if len <? 2 then Err EOther else
    if 5 <? len then
      do (p, l) <- rd_n 5 l ;
      Ok (if list_eqb p [65; 86; 73; 49; 0] then with_mjpeg d else d, skipn (Z.to_nat (len - 5) - 2) l)
    else Ok (d, skipn (Z.to_nat len - 2) l)
  else if m =? 225 then parse_app1 d l
  else if m =? 226 then parse_app2 d l
  else if m =? 219 then parse_dqt d l
  else if m =? 196 then parse_dht d l
  else if m =? 218 then parse_sos d l
  else if m =? 217 then Err EOther
  else if (m =? 204) || (m =? 220) then Err EOther
  else if m =? 221 then
    do (len, l) <- rd_u16 l ;
    if negb (len =? 4) then Err EOther else
    do (x, l) <- rd_u16 l ;
    Ok (with_dri d x, l)
  else if m =? 238 then parse_app14 d l
  else if m =? 237 then parse_app13 d l
  else skip_segment d l.

(** * The file up to the first scan *)

(** decoder.rs:395-411 *)
Fixpoint skip_fill (last m : Z) (l : list Z) : res (Z * Z * list Z) :=
  if (m =? 255) || (m =? 0) then match l with [] => Err EOther | b :: l' => skip_fill m b l' end else Ok (last, m, l).
(** [decode_headers_internal] — decoder.rs:355-489: the loop; [before] counts bytes before the next marker. *)
Fixpoint head_loop (fuel : nat) (o : hopts) (last before : Z) (d : dec) (l : list Z) : res (dec * list Z) :=
  match fuel with
  | O => Fuel
  | S f =>
      do (m, l) <- rd_u8 l ;
      do (last, m, l) <- (if ((m =? 255) || (m =? 0)) && (last =? 255) then skip_fill last m l else Ok (last, m, l)) ;
      if last =? 255 then
        if (3 <? before) && h_strict o then Err EOther else
        do (d, l) <- parse_marker o d m l ;
        if m =? 218 then Ok (d, l) else head_loop f o m 1 d l
      else head_loop f o m (before + 1) d l
  end.
(** decoder.rs:455-474: components called R, G and B *)
Definition rgb_ids (d : dec) : dec := if list_eqb (map c_id (d_comps d)) [82; 71; 66] then with_color d CRGB else d.
Definition decode_headers (o : hopts) (file : list Z) : res (dec * list Z) :=
  do (magic, l) <- rd_u16 file ;
  if negb (magic =? 65496) then Err EOther else
  do (d, l) <- head_loop (S (length l)) o 0 0 start_dec l ;
  Ok (rgb_ids d, l).

(** The colours of the samples — misc.rs:199-211, 296-345; [None]: several bands without a meaning. Strict mode fails instead. *)
Definition needs (c : incolor) : nat := match c with CLuma => 1 | CYCbCr | CRGB => 3 | CCMYK | CYCCK => 4 end.
Definition setup_color (o : hopts) (d : dec) : res (option incolor) :=
  let n := length (d_comps d) in
  let c := if (n =? 3)%nat then match d_color d with CCMYK => CRGB | c => c end else d_color d in
  if (n <? needs c)%nat then
    match c with
    | CYCCK => Ok (Some CYCbCr)
    | _ => if h_strict o then Err EOther else Ok None
    end
  else Ok (Some c).

(** * Between scans of a progressive file — mcu_prog.rs:133-205 *)
Fixpoint next_scan (fuel : nat) (o : hopts) (d : dec) (m : Z) (l : list Z) : res (option (dec * list Z)) :=
  match fuel with
  | O => Fuel
  | S f =>
      if m =? 217 then Ok None else
      if m =? 218 then do (d, l) <- parse_sos d l ; Ok (Some (d, l)) else
      do (d, l) <- (if is_rst m then Ok (d, l) else parse_marker o d m l) ;
      match get_marker (S (length l)) l with
      | (Some m, l) => next_scan f o d m l
      | (None, _) => if h_strict o then Err EOther else Ok None
      end
  end.
(** The scan that the headers announce. The DC table of a single component is looked up modulo 4. — mcu_prog.rs:284-320, 365-400 *)
Definition head_of (d : dec) : head :=
  let s := d_sos d in
  let one := match o_order s with [_] => true | _ => false end in
  Head (o_order s) (Z.to_nat (o_ss s)) (Z.to_nat (o_se s)) (o_ah s) (o_al s) (d_dri d)
    (map (fun c => nth (if one then c_dc c mod 4 else c_dc c)%nat (d_dc d) None) (d_comps d))
    (map (fun c => nth (c_ac c) (d_ac d) None) (d_comps d)).

(** * ICC profiles — decoder.rs:599-647 *)
Definition at_most_once (l : list (Z * Z * list Z)) : option (list (option (list Z))) :=
  fold_left (fun acc c => match acc with
    | None => None
    | Some slots =>
        let '(seq, num, data) := c in
        if negb (num =? Z.of_nat (length l)) then None else
        if seq =? 0 then None else
        match nth_error slots (Z.to_nat seq) with
        | Some (Some _) => None
        | _ => Some (upd slots (Z.to_nat seq) (Some data))
        end
    end) l (Some (repeat None 256)).
Fixpoint gather (l : list (option (list Z))) : option (list Z) :=
  match l with
  | [] => Some []
  | Some x :: l' => match gather l' with Some r => Some (x ++ r) | None => None end
  | None :: _ => None
  end.
Definition icc_profile (chunks : list (Z * Z * list Z)) : option (list Z) :=
  let n := length chunks in
  if (n =? 0)%nat || (255 <=? n)%nat then None else
  match at_most_once chunks with
  | None => None
  | Some slots => gather (firstn n (skipn 1 slots))
  end.
