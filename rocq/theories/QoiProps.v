(** Properties C05-C09: the QOI codec. *)
From Verif Require Import Base BaseProof Bits StreamModel StreamSpec StreamProof QoiModel QoiProof QoiProof2.

(** A default-like option set, used in the examples. *)
Definition opts16k (s : bool) : qopts := {| max_width := 2 ^ 14; max_height := 2 ^ 14; strict := s |}.

(** C05. *)
Theorem qoi_round_trip : forall o w h cs pixels extra,
  (cs = CsRGB \/ cs = CsRGBA) ->
  0 < w < 2 ^ 32 -> 0 < h < 2 ^ 32 -> w <= max_width o -> h <= max_height o ->
  bytes pixels -> Z.of_nat (length pixels) = w * h * Z.of_nat (num_components cs) ->
  Z.of_nat (length pixels) < 2 ^ 63 ->
  exists out,
    qoi_encode (VecSink []) w h cs pixels = (Ok (length out), {| wsink := VecSink out; wcount := length out |})
    /\ decode o {| cdata := out ++ extra; cpos := 0 |}
       = Ok ({| qw := w; qh := h; qcspace := cs; qlayout := 0 |}, pixels).
Proof.
  intros o w h cs pixels extra Hcs Hw Hh Hmw Hmh Hb Hl H63.
  assert (Hi : image_ok w h cs pixels) by (repeat split; auto; lia).
  exists (file_bytes w h cs pixels). split; [now apply qoi_encode_vec|].
  set (c0 := {| cdata := _; cpos := 0 |}).
  assert (R0 : remaining c0 = hdr_bytes w h cs ++ op_bytes (body_ops cs pixels) ++ extra).
  { unfold c0, remaining. cbn [cpos cdata skipn]. unfold file_bytes. now rewrite app_assoc. }
  destruct (decode_headers_ok o c0 w h cs _ Hcs Hw Hh Hmw Hmh R0) as (c1 & E1 & R1).
  set (hd := {| qw := w; qh := h; qcspace := cs; qlayout := 0 |}) in *.
  assert (Es : output_size hd = Ok (Z.of_nat (length pixels))).
  { rewrite Hl. apply (output_size_ok hd); cbn; auto; lia. }
  unfold decode, decode_into. rewrite E1, Es.
  replace (2 ^ 63 - 1 <? Z.of_nat (length pixels)) with false by lia.
  rewrite Nat2Z.id, repeat_length. rewrite Z.ltb_irrefl.
  set (size := num_components cs).
  assert (Hsz : (size = 3 \/ size = 4)%nat) by (destruct Hcs as [-> | ->]; cbn; auto).
  set (chunks := chunks_exact size pixels).
  assert (Hn : (length pixels / size)%nat = length chunks).
  { subst chunks. rewrite chunks_exact_length; [reflexivity|lia]. }
  assert (Hmod : (length pixels mod size = 0)%nat).
  { apply Nat2Z.inj. rewrite Nat2Z.inj_mod, Hl. apply Z.mod_mul. lia. }
  unfold body_ops in R1. fold size in R1. fold chunks in R1. rewrite op_bytes_app, <- app_assoc in R1.
  assert (Hch : Forall (fun c => length c = size /\ bytes c) chunks).
  { apply Forall_forall. intros x Hx. split.
    - pose proof (chunks_exact_lengths size pixels) as F. rewrite Forall_forall in F. apply F, Hx.
    - unfold bytes. apply Forall_forall. intros b Hbx. unfold bytes in Hb. rewrite Forall_forall in Hb. apply Hb.
      rewrite <- (chunks_exact_concat size pixels) by (auto; lia). apply in_concat. eauto. }
  destruct (sim size chunks Hsz Hch enc_start (dec_start c1) _ (inv_start c1) R1) as (ps & d' & D1 & D2 & D3).
  cbn [erun enc_start Z.to_nat Nat.add] in D1, D2.
  destruct (read_err_app 8 (dcur d') (be_bytes 8 1) extra eq_refl D3) as (c2 & E2 & R2).
  assert (Hdi : decode_inner o size c1 (repeat 0 (length pixels)) = (Ok tt, pixels, c2)).
  { unfold decode_inner. rewrite repeat_length, Hn. cbv zeta. rewrite D1, E2, D2.
    assert (Et : forallb (fun '(a, b) => a =? b) (combine (be_bytes 8 1) LAST_BYTES) = true) by reflexivity.
    rewrite Et. cbn [negb andb repeat app]. f_equal. f_equal.
    rewrite skipn_all2.
    - rewrite app_nil_r. apply chunks_exact_concat; [lia|exact Hmod].
    - rewrite repeat_length, <- Hn. pose proof (Nat.div_mod (length pixels) size ltac:(lia)). lia. }
  replace (qcspace hd) with cs by reflexivity. fold size. rewrite Hdi.
  destruct Hcs as [-> | ->]; reflexivity.
Qed.
Print Assumptions qoi_round_trip.
Definition ex_pixels := [0;0;0;255; 0;0;0;255; 1;2;3;255; 250;2;3;255; 250;2;3;9; 0;0;0;255].
Example qoi_round_trip_ex :
  match qoi_encode (VecSink []) 3 2 CsRGBA ex_pixels with
  | (Ok n, w) => n = 37%nat /\ decode (opts16k true) {| cdata := sink_out (wsink w) ++ [7; 7]; cpos := 0 |}
                 = Ok ({| qw := 3; qh := 2; qcspace := CsRGBA; qlayout := 0 |}, ex_pixels)
  | _ => False
  end.
Proof. vm_compute. split; reflexivity. Qed.

(** C06: the encoder needs at most [max_size] bytes; with that much room in a slice (either sink
    implementation) it succeeds with the same bytes, and with less room than needed it reports an
    error although one of its writes ignores failures. *)
Theorem qoi_max_size_sufficient : forall w h cs pixels,
  (cs = CsRGB \/ cs = CsRGBA) -> 0 < w < 2 ^ 32 -> 0 < h < 2 ^ 32 ->
  bytes pixels -> Z.of_nat (length pixels) = w * h * Z.of_nat (num_components cs) ->
  exists out,
    qoi_encode (VecSink []) w h cs pixels = (Ok (length out), {| wsink := VecSink out; wcount := length out |})
    /\ Z.of_nat (length out) <= w * h * (Z.of_nat (num_components cs) + 1) + 14 + 8
    /\ qoi_max_size w h cs = w * h * (Z.of_nat (num_components cs) + 1) + 14 + 8
    /\ forall cap s, (s = SliceStd [] cap \/ s = SliceNoStd [] cap) ->
         ((length out <= cap)%nat ->
            exists wr, qoi_encode s w h cs pixels = (Ok (length out), wr) /\ sink_out (wsink wr) = out)
         /\ ((cap < length out)%nat -> fst (qoi_encode s w h cs pixels) = Err ENoSpace).
Proof.
  intros w h cs pixels Hcs Hw Hh Hb Hl.
  assert (Hi : image_ok w h cs pixels) by (repeat split; auto; lia).
  exists (file_bytes w h cs pixels). split; [now apply qoi_encode_vec|].
  split; [apply file_bytes_len in Hi; exact Hi|]. split; [reflexivity|].
  intros cap s Hs.
  assert (Es : exists nostd, s = slice nostd [] cap) by (destruct Hs as [-> | ->]; [exists false|exists true]; reflexivity).
  destruct Es as (nostd & ->). split; intros Hc.
  - eexists. split; [apply qoi_encode_slice; auto|]. destruct nostd; reflexivity.
  - now apply qoi_encode_short.
Qed.
Print Assumptions qoi_max_size_sufficient.
Example qoi_max_size_ex :
  (* an incompressible 2x1 RGB image attains the bound *)
  fst (qoi_encode (SliceStd [] 30) 2 1 CsRGB [100;50;200; 10;150;90]) = Ok 30%nat
  /\ fst (qoi_encode (SliceStd [] 29) 2 1 CsRGB [100;50;200; 10;150;90]) = Err ENoSpace
  /\ qoi_max_size 2 1 CsRGB = 30.
Proof. vm_compute. repeat split. Qed.

(** C07: on arbitrary bytes the decoder returns an error or a full image matching the header. *)
Theorem qoi_decode_total : forall o data,
  max_width o * max_height o * 4 < 2 ^ 63 -> bytes data ->
  match decode o {| cdata := data; cpos := 0 |} with
  | Ok (h, px) =>
      Z.of_nat (length px) = qw h * qh h * Z.of_nat (num_components (qcspace h))
      /\ firstn 4 data = [113; 111; 105; 102]
      /\ qw h = be_val (firstn 4 (skipn 4 data)) /\ qh h = be_val (firstn 4 (skipn 8 data))
      /\ nth 12 data 0 = Z.of_nat (num_components (qcspace h))
      /\ (22 <= length data)%nat
  | Err _ => True
  | Panic | Fuel => False
  end.
Proof.
  intros o data Ho Hb. set (c0 := {| cdata := data; cpos := 0 |}).
  assert (R0 : remaining c0 = data) by reflexivity.
  unfold decode, decode_into. destruct (decode_headers o c0) as [[h|e| |] c1] eqn:E; try exact I.
  - destruct (decode_headers_inv o c0 h c1 Hb E) as (Hcs & Hw & Hh & Hw32 & Hh32 & Hlen & Hfld).
    assert (Hc : 3 <= Z.of_nat (num_components (qcspace h)) <= 4) by (destruct Hcs as [-> | ->]; cbn; lia).
    assert (Hp : 0 < qw h * qh h <= max_width o * max_height o) by nia.
    assert (Hs : 0 < qw h * qh h * Z.of_nat (num_components (qcspace h)) < 2 ^ 63) by nia.
    rewrite (output_size_ok h) by (auto; lia).
    set (s := qw h * qh h * Z.of_nat (num_components (qcspace h))) in *.
    replace (2 ^ 63 - 1 <? s) with false by lia.
    rewrite repeat_length. replace (Z.of_nat (Z.to_nat s) <? s) with false by lia.
    set (size := num_components (qcspace h)) in *.
    assert (Hsz : (size = 3 \/ size = 4)%nat) by (subst size; destruct Hcs as [-> | ->]; cbn; auto).
    assert (G : match decode_inner o size c1 (repeat 0 (Z.to_nat s)) with
                | (Ok _, b, _) => Z.of_nat (length b) = s /\ (8 <= length (remaining c1))%nat
                | (Err _, _, _) => True | _ => False end).
    { pose proof (decode_inner_length o size c1 (repeat 0 (Z.to_nat s)) Hsz) as L. rewrite repeat_length in L.
      destruct (decode_inner_spec o size c1 (repeat 0 (Z.to_nat s)) Hsz) as (ps & d' & D1 & D2 & D3 & D4).
      rewrite D4 in *. cbn [fst snd] in L. cbv zeta.
      destruct (Nat.leb_spec 8 (length (remaining (dcur d')))) as [H8|H8]; [|exact I].
      destruct (_ && _); [exact I|]. split; lia. }
    assert (Go : forall (P : res (qhdr * list Z)),
       P = match decode_inner o size c1 (repeat 0 (Z.to_nat s)) with
           | (Ok _, b, _) => Ok (h, b) | (Err e, _, _) => Err e | (Panic, _, _) => Panic | (Fuel, _, _) => Fuel end ->
       match P with Ok (h, px) => Z.of_nat (length px) = qw h * qh h * Z.of_nat (num_components (qcspace h))
      /\ firstn 4 data = [113; 111; 105; 102]
      /\ qw h = be_val (firstn 4 (skipn 4 data)) /\ qh h = be_val (firstn 4 (skipn 8 data))
      /\ nth 12 data 0 = Z.of_nat (num_components (qcspace h))
      /\ (22 <= length data)%nat
        | Err _ => True | Panic | Fuel => False end).
    { intros P ->. destruct (decode_inner o size c1 _) as [[[u|e| |] b] c2]; try exact G; try exact I.
      destruct G as [G1 G2]. rewrite R0 in Hfld. destruct (Hfld G2) as (F1 & F2 & F3 & F4 & F5).
      rewrite F5, skipn_length in G2. fold size. split; [exact G1|]. repeat split; auto. lia. }
    apply Go. destruct Hcs as [E'|E']; rewrite E';
      destruct (decode_inner o size c1 _) as [[[u|e| |] b] c2]; reflexivity.
  - unfold decode_headers in E. rewrite read_fixed_or_error_spec in E.
    destruct (4 <=? _)%nat; [|discriminate]. destruct (negb _); [discriminate|].
    destruct (get_zero BE 4 _) as [w c2]. destruct (get_zero BE 4 c2) as [hh c3].
    destruct (read_u8 c3) as [x c4]. destruct (read_u8 c4) as [y c5].
    repeat match type of E with context [if ?b then _ else _] => destruct b end; discriminate.
  - unfold decode_headers in E. rewrite read_fixed_or_error_spec in E.
    destruct (4 <=? _)%nat; [|discriminate]. destruct (negb _); [discriminate|].
    destruct (get_zero BE 4 _) as [w c2]. destruct (get_zero BE 4 c2) as [hh c3].
    destruct (read_u8 c3) as [x c4]. destruct (read_u8 c4) as [y c5].
    repeat match type of E with context [if ?b then _ else _] => destruct b end; discriminate.
Qed.
Print Assumptions qoi_decode_total.
Example qoi_decode_total_ex :
  decode (opts16k false) {| cdata := [113;111;105;102; 0;0;0;2; 0;0;0;1; 3; 9; 254;7;8;9; 192; 5;5;5;5;5;5;5;5]; cpos := 0 |}
    = Ok ({| qw := 2; qh := 1; qcspace := CsRGB; qlayout := 0 |}, [7;8;9;7;8;9])
  /\ decode (opts16k true) {| cdata := [113;111;105;102; 0;0;0;2; 0;0;0;1; 3; 0; 254;7]; cpos := 0 |} = Err EEof
  /\ max_width (opts16k true) * max_height (opts16k true) * 4 < 2 ^ 63.
Proof. vm_compute. repeat split. Qed.

(** C08: successful header decoding respects the configured limits. *)
Theorem qoi_header_limits : forall o data p h c',
  bytes data ->
  decode_headers o {| cdata := data; cpos := p |} = (Ok h, c') ->
  0 < qw h <= max_width o /\ 0 < qh h <= max_height o
  /\ (qcspace h = CsRGB \/ qcspace h = CsRGBA)
  /\ (qw h * qh h * Z.of_nat (num_components (qcspace h)) < 2 ^ 64 ->
      output_size h = Ok (qw h * qh h * Z.of_nat (num_components (qcspace h)))).
Proof.
  intros o data p h c' Hb E.
  destruct (decode_headers_inv o {| cdata := data; cpos := p |} h c' Hb E) as (Hcs & Hw & Hh & _).
  repeat split; try lia; auto. intros Hs. now apply output_size_ok.
Qed.
Print Assumptions qoi_header_limits.
Example qoi_header_limits_ex :
  let d := [113;111;105;102; 0;0;64;0; 0;0;0;1; 4; 1] in
  fst (decode_headers (opts16k false) {| cdata := d; cpos := 0 |})
    = Ok {| qw := 2 ^ 14; qh := 1; qcspace := CsRGBA; qlayout := 1 |}
  /\ fst (decode_headers {| max_width := 2 ^ 14 - 1; max_height := 1; strict := false |} {| cdata := d; cpos := 0 |}) = Err ELimit.
Proof. vm_compute. split; reflexivity. Qed.

(** C09 (full claim: any buffer that is large enough gives the same result) is false: a buffer with
    room for one more pixel makes the decoder consume trailer bytes as pixels and fail. *)
Theorem qoi_decode_into_larger_refuted :
  exists o data h px buf,
    decode o {| cdata := data; cpos := 0 |} = Ok (h, px)
    /\ (length px <= length buf)%nat
    /\ forall h', fst (decode_into o {| cdata := data; cpos := 0 |} buf) <> Ok h'.
Proof.
  exists (opts16k false), [113;111;105;102; 0;0;0;1; 0;0;0;1; 3; 0; 254;7;8;9; 0;0;0;0;0;0;0;1].
  exists {| qw := 1; qh := 1; qcspace := CsRGB; qlayout := 0 |}, [7;8;9], (repeat 0 6).
  split; [vm_compute; reflexivity|]. split; [cbn; lia|]. intros h'. vm_compute. discriminate.
Qed.
Print Assumptions qoi_decode_into_larger_refuted.

(** What does hold: the image is always in the first bytes of the buffer; with less than one extra
    pixel of room the call also succeeds and leaves the excess alone; shorter buffers are refused
    untouched. *)
Theorem qoi_decode_into_partial : forall o data h px buf,
  decode o {| cdata := data; cpos := 0 |} = Ok (h, px) ->
  ((length px <= length buf)%nat ->
     firstn (length px) (snd (decode_into o {| cdata := data; cpos := 0 |} buf)) = px)
  /\ ((length px <= length buf < length px + num_components (qcspace h))%nat ->
     decode_into o {| cdata := data; cpos := 0 |} buf = (Ok h, px ++ skipn (length px) buf))
  /\ ((length buf < length px)%nat ->
     decode_into o {| cdata := data; cpos := 0 |} buf = (Err ESize, buf)).
Proof.
  intros o data h px buf E. unfold decode, decode_into in *.
  destruct (decode_headers o _) as [[h0|e| |] c1] eqn:Eh; try discriminate.
  destruct (output_size h0) as [s| | |] eqn:Es; try discriminate.
  destruct (Z.ltb_spec (2 ^ 63 - 1) s); [discriminate|]. rewrite repeat_length in E.
  destruct (Z.ltb_spec (Z.of_nat (Z.to_nat s)) s) as [Hneg|Hs0]; [discriminate|].
  assert (K : exists size, num_components (qcspace h0) = size /\ (size = 3 \/ size = 4)%nat /\
     s = qw h0 * qh h0 * Z.of_nat size /\
     match decode_inner o size c1 (repeat 0 (Z.to_nat s)) with (Ok _, b, _) => (h, px) = (h0, b) | _ => False end /\
     (forall b, match qcspace h0 with
               | CsRGB | CsRGBA => match decode_inner o size c1 b with
                   | (Ok _, b, _) => (Ok h0, b) | (Err e, b, _) => (Err e, b)
                   | (Panic, b, _) => (Panic, b) | (Fuel, b, _) => (Fuel, b) end
               | CsOther _ => (Panic, b) end =
               match decode_inner o size c1 b with
                   | (Ok _, b, _) => (Ok h0, b) | (Err e, b, _) => (Err e, b)
                   | (Panic, b, _) => (Panic, b) | (Fuel, b, _) => (Fuel, b) end)).
  { assert (Es' : s = qw h0 * qh h0 * Z.of_nat (num_components (qcspace h0))).
    { clear - Es. unfold output_size, checked_mul in Es. destruct (_ <? _); [|discriminate].
      destruct (_ <? _); [|discriminate]. congruence. }
    exists (num_components (qcspace h0)).
    destruct (qcspace h0) eqn:Ec; cbn [num_components] in *; [| |discriminate];
      (split; [reflexivity|]); (split; [auto|]); (split; [exact Es'|]);
      (split; [|reflexivity]);
      destruct (decode_inner o _ c1 _) as [[[u|e| |] b] c2]; try discriminate; congruence. }
  destruct K as (size & Hsize & Hsz & Hs & K & Hsel).
  assert (Hpos : (0 < size)%nat) by lia.
  (* the exact-size run *)
  destruct (decode_inner_spec o size c1 (repeat 0 (Z.to_nat s)) Hsz) as (ps & d1 & D1 & D2 & D3 & D4).
  rewrite D4 in K. cbv zeta in K. rewrite repeat_length in *.
  assert (Hn : (Z.to_nat s / size * size = Z.to_nat s)%nat).
  { rewrite Hs. replace (Z.to_nat (qw h0 * qh h0 * Z.of_nat size)) with (Z.to_nat (qw h0 * qh h0) * size)%nat by lia.
    rewrite Nat.div_mul by lia. reflexivity. }
  set (n := (Z.to_nat s / size)%nat) in *.
  assert (Hpx : h = h0 /\ px = concat (map (px_out size) ps) /\ (8 <= length (remaining (dcur d1)))%nat /\
     negb (forallb (fun '(a, b) => a =? b) (combine (firstn 8 (remaining (dcur d1))) LAST_BYTES)) && strict o = false).
  { destruct (Nat.leb_spec 8 (length (remaining (dcur d1)))) as [H8|H8]; [|destruct K].
    destruct (negb _ && _) eqn:En; [destruct K|]. injection K as -> ->.
    rewrite Hn, skipn_all2, app_nil_r by (rewrite repeat_length; lia). auto. }
  destruct Hpx as (-> & Epx & H8 & Hst). clear K.
  assert (Hlpx : length px = Z.to_nat s).
  { rewrite Epx, px_concat_length, D2 by exact Hsz. lia. }
  rewrite Hsize, Hsel, Hlpx. split; [|split].
  - intros Hb. replace (Z.of_nat (length buf) <? s) with false by lia.
    destruct (decode_inner_spec o size c1 buf Hsz) as (qs & d2 & Q1 & Q2 & Q3 & Q4).
    assert (Hdiv : (n <= length buf / size)%nat).
    { apply Nat.div_le_mono; lia. }
    replace (length buf / size)%nat with (n + (length buf / size - n))%nat in Q1 by lia.
    rewrite dec_loop_app, D1 in Q1. cbn [bind] in Q1.
    destruct (dec_loop (length buf / size - n) d1) as [[rs d3]| | |] eqn:Er; try discriminate.
    injection Q1 as <- <-.
    assert (Ebuf : snd (match decode_inner o size c1 buf with
                   | (Ok _, b, _) => (Ok h0, b) | (Err e, b, _) => (Err e, b)
                   | (Panic, b, _) => (Panic, b) | (Fuel, b, _) => (Fuel, b) end)
              = snd (fst (decode_inner o size c1 buf))) by (destruct (decode_inner o size c1 buf) as [[[| | |] ?] ?]; reflexivity).
    rewrite Ebuf, Q4. cbn [fst snd]. rewrite map_app, concat_app, <- app_assoc, <- Epx, <- Hlpx.
    rewrite firstn_app, Nat.sub_diag, firstn_all. cbn [firstn]. apply app_nil_r.
  - intros Hb. replace (Z.of_nat (length buf) <? s) with false by lia.
    assert (Hdiv : (length buf / size = n)%nat).
    { symmetry. apply (Nat.div_unique _ _ _ (length buf - Z.to_nat s)); lia. }
    destruct (decode_inner_spec o size c1 buf Hsz) as (qs & d2 & Q1 & Q2 & Q3 & Q4).
    rewrite Hdiv in Q1. rewrite D1 in Q1. injection Q1 as <- <-.
    rewrite Q4, Hdiv, Hn. cbv zeta. replace (8 <=? length (remaining (dcur d1)))%nat with true by lia.
    rewrite Hst, <- Epx. reflexivity.
  - intros Hb. replace (Z.of_nat (length buf) <? s) with true by lia. reflexivity.
Qed.
Print Assumptions qoi_decode_into_partial.
Example qoi_decode_into_ex :
  decode_into (opts16k false)
    {| cdata := [113;111;105;102; 0;0;0;1; 0;0;0;1; 3; 0; 254;7;8;9; 0;0;0;0;0;0;0;1]; cpos := 0 |} [1;2;3;4;5]
  = (Ok {| qw := 1; qh := 1; qcspace := CsRGB; qlayout := 0 |}, [7;8;9;4;5]).
Proof. vm_compute. reflexivity. Qed.
