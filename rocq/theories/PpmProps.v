(** Properties of zune-ppm and zune-farbfeld: C24, C25, C49 (PFM rows), C50 (no panic). *)
From Verif Require Import Base BaseProof Loops Slices DecText PpmModel PpmProof.

(** What the caller passed in: bytes for 8-bit images, native-endian pairs for 16-bit images. *)
Definition given (d : depth) (data : list Z) : samples := match d with D16 => SU16 (u16s data) | _ => SU8 data end.

(** ** C24 *)

(** The full claim fails: the decoder skips white space and comments after the header, eating pixels. *)
Theorem ppm_round_trip_refuted : exists cs d w h data c, bytes data /\
  ppm_encode cs d w h data = Ok c /\ (forall nf, total (ppm_decode nf 16384 16384 c)) /\
  (forall nf, ppm_decode nf 16384 16384 c <> Ok (Z.of_nat w, Z.of_nat h, cs, given d data)).
Proof.
  exists CLuma, D8, 2%nat, 1%nat, [32; 200]. eexists. split; [repeat constructor; unfold is_byte; lia|].
  split; [vm_compute; reflexivity|]. split; intros nf; [exact I|]. vm_compute. discriminate.
Qed.
Print Assumptions ppm_round_trip_refuted.

(** It can even return wrong pixels without an error when more bytes follow the image. *)
Theorem ppm_round_trip_silent_refuted : exists c tail, ppm_encode CLuma D8 2 1 [10; 200] = Ok c /\
  (forall nf, ppm_decode nf 16384 16384 (c ++ tail) = Ok (2, 1, CLuma, SU8 [200; 7])).
Proof. eexists. exists [7]. split; [vm_compute; reflexivity|]. intros nf. vm_compute. reflexivity. Qed.
Print Assumptions ppm_round_trip_silent_refuted.

(** Proved: every image whose first stored byte (the high byte for 16-bit samples) is neither white space nor
    ['#']. Missing: images where it is. *)
Theorem ppm_round_trip_partial : forall nf mw mh cs d w h data rest,
  pnm_cs cs -> d = D8 \/ d = D16 -> (1 <= w)%nat -> (1 <= h)%nat -> Z.of_nat w <= mw -> Z.of_nat h <= mh ->
  bytes data -> length data = (w * size_of d * h * comps cs)%nat -> Z.of_nat (length data) < 2 ^ 63 ->
  blank (nth (size_of d - 1) data 0) = false ->
  exists c, ppm_encode cs d w h data = Ok c /\
    ppm_decode nf mw mh (c ++ rest) = Ok (Z.of_nat w, Z.of_nat h, cs, given d data).
Proof.
  intros nf mw mh cs d w h data rest Hcs Hd Hw Hh Hmw Hmh Hb Hl H64 Hbl.
  assert (Hc : (1 <= comps cs)%nat) by (destruct Hcs as [->|[->|[->| ->]]]; cbn [comps]; lia).
  assert (Hs : (1 <= size_of d)%nat) by (destruct d; cbn [size_of]; lia).
  assert (Hw64 : 0 <= Z.of_nat w < 2 ^ 64) by nia. assert (Hh64 : 0 <= Z.of_nat h < 2 ^ 64) by nia.
  set (body := match d with D16 => swap_pairs data | _ => data end).
  assert (Hlen : length body = length data).
  { unfold body. destruct Hd as [-> | ->]; [reflexivity|]. rewrite swap_pairs_u16s.
    rewrite (concat_len 2) by (apply Forall_forall; intros x Hx; apply in_map_iff in Hx; destruct Hx as (v & <- & _); apply be_bytes_length).
    rewrite map_length, u16s_length. cbn [size_of] in Hl. replace (length data) with (w * h * comps cs * 2)%nat by lia.
    now rewrite Nat.div_mul by lia. }
  assert (Hsol : solid (body ++ rest)).
  { unfold body. destruct Hd as [-> | ->]; cbn [size_of Nat.sub] in *.
    - destruct data as [|c data]; [cbn [length] in Hl; nia|]. exact Hbl.
    - destruct data as [|c0 [|c1 data]]; [cbn [length] in Hl; nia|cbn [length] in Hl; nia|].
      rewrite swap_pairs_u16s. unfold u16s. change (c0 :: c1 :: data) with ([c0; c1] ++ data) in *. rewrite chunks_exact_cons by (cbn [length]; lia).
      cbn [map concat app]. cbn [nth app] in Hbl. apply Forall_cons_iff in Hb. destruct Hb as [B0 Hb]. apply Forall_cons_iff in Hb. destruct Hb as [B1 Hb].
      unfold is_byte in *. cbn [le_val be_bytes le_bytes rev app solid].
      replace ((c0 + 256 * (c1 + 256 * 0)) / 256 mod 256) with c1 by lia. exact Hbl. }
  destruct (ppm_headers_ok nf mw mh cs d (Z.of_nat w) (Z.of_nat h) (body ++ rest)) as (hd & E & D); try assumption; try lia.
  exists (hd ++ body). split.
  - unfold ppm_encode. replace (length data =? w * size_of d * h * comps cs)%nat with true by lia. cbn [negb]. rewrite E. cbn [bind].
    unfold body. destruct Hd as [-> | ->]; reflexivity.
  - unfold ppm_decode. rewrite <- app_assoc, D. cbn [bind i_w i_h i_cs i_depth i_le].
    replace (Z.of_nat w =? 0) with false by lia. replace (Z.of_nat h =? 0) with false by lia. cbn [orb].
    assert (Hsz : Z.of_nat w * Z.of_nat h * Z.of_nat (comps cs) * Z.of_nat (size_of d) = Z.of_nat (length data)) by (rewrite Hl; lia).
    rewrite Hsz. replace (2 ^ 64 <=? Z.of_nat (length data)) with false by lia.
    destruct Hd as [-> | ->]; unfold body, given.
    + replace (Z.of_nat (length (data ++ rest)) <? Z.of_nat (length data)) with false by (rewrite app_length; lia).
      rewrite Nat2Z.id, firstn_app_exact by reflexivity. reflexivity.
    + rewrite swap_pairs_u16s.
      replace (Z.to_nat (Z.of_nat (length data) / 2)) with (length (u16s data)).
      * rewrite read_swapped by now apply u16s_range. reflexivity.
      * rewrite u16s_length. rewrite <- (Nat2Z.id (length data / 2)). f_equal. now rewrite Nat2Z.inj_div.
Qed.
Example ppm_round_trip_partial_ex :
  (exists c, ppm_encode CRGBA D16 1 2 [1; 200; 35; 35; 0; 0; 9; 10; 32; 32; 7; 7; 255; 255; 1; 2] = Ok c /\
    forall nf, ppm_decode nf 16384 16384 c = Ok (1, 2, CRGBA, SU16 [51201; 8995; 0; 2569; 8224; 1799; 65535; 513])) /\
  (exists c, ppm_encode CRGB D8 2 1 [4; 32; 35; 10; 10; 10] = Ok c /\
    forall nf, ppm_decode nf 16384 16384 c = Ok (2, 1, CRGB, SU8 [4; 32; 35; 10; 10; 10])).
Proof. split; eexists; (split; [vm_compute; reflexivity|]); intros nf; vm_compute; reflexivity. Qed.
Print Assumptions ppm_round_trip_partial.

(** Encoding a 32-bit float image in a supported colorspace panics instead of reporting an error. *)
Theorem ppm_encode_float_panics : exists cs w h data, pnm_cs cs /\ length data = (w * 4 * h * comps cs)%nat /\
  ppm_encode cs DF32 w h data = Panic.
Proof. exists CLuma, 1%nat, 1%nat, [0; 0; 128; 63]. unfold pnm_cs. split; [auto|]. split; reflexivity. Qed.
Print Assumptions ppm_encode_float_panics.

(** ** C50 *)

(** Every input: no panic as long as the configured limits bound the image size to the address space; accepted
    images respect the limits and are complete. *)
Theorem ppm_decode_safe_partial : forall nf mw mh input, 0 <= mw -> 0 <= mh -> mw * mh * 16 < 2 ^ 64 ->
  match ppm_decode nf mw mh input with
  | Ok (w, h, cs, s) => 1 <= w <= mw /\ 1 <= h <= mh /\ pnm_cs cs /\
      Z.of_nat (length (match s with SU8 l | SU16 l | SF32 l => l end)) = w * h * Z.of_nat (comps cs)
  | Err _ => True
  | _ => False
  end.
Proof.
  intros nf mw mh input Hmw Hmh Hlim. unfold ppm_decode.
  pose proof (ppm_headers_total nf mw mh input) as T. destruct (ppm_headers nf mw mh input) as [[i rest]| | |]; cbn [bind]; try assumption.
  destruct T as (Tw & Th & Tc). destruct (Z.eqb_spec (i_w i) 0) as [|Nw]; [exact I|]. destruct (Z.eqb_spec (i_h i) 0) as [|Nh]; [exact I|]. cbn [orb].
  assert (Hc : 1 <= Z.of_nat (comps (i_cs i)) <= 4) by (destruct Tc as [->|[->|[->| ->]]]; cbn [comps]; lia).
  set (w := i_w i) in *. set (h := i_h i) in *. set (c := Z.of_nat (comps (i_cs i))) in *.
  assert (Hwh : w * h <= mw * mh) by (apply Z.mul_le_mono_nonneg; lia).
  assert (Hwh1 : 1 <= w * h) by nia.
  assert (Hn : 1 <= w * h * c <= mw * mh * 4) by nia.
  assert (Hs : forall d, 1 <= Z.of_nat (size_of d) <= 4) by (intros []; cbn [size_of]; lia).
  specialize (Hs (i_depth i)).
  assert (Hsz : w * h * c * Z.of_nat (size_of (i_depth i)) < 2 ^ 64) by nia.
  replace (2 ^ 64 <=? w * h * c * Z.of_nat (size_of (i_depth i))) with false by lia.
  assert (B : 1 <= w <= mw /\ 1 <= h <= mh) by lia.
  destruct (i_depth i) eqn:Ed; cbn [size_of] in *.
  - destruct (Z.ltb_spec (Z.of_nat (length rest)) (w * h * c * Z.of_nat 1)); [exact I|].
    split; [lia|]. split; [lia|]. split; [exact Tc|]. rewrite firstn_length. fold c. lia.
  - pose proof (read_items_total be_val 2 (Z.to_nat (w * h * c * Z.of_nat 2 / 2)) rest) as R.
    destruct (read_items be_val 2 (Z.to_nat (w * h * c * Z.of_nat 2 / 2)) rest) as [[xs r2]| | |]; cbn [bind]; try assumption.
    split; [lia|]. split; [lia|]. split; [exact Tc|]. rewrite R. fold c. change (Z.of_nat 2) with 2. rewrite Z.div_mul by lia. lia.
  - pose proof (read_items_total (if i_le i then le_val else be_val) 4 (Z.to_nat (w * h * c)) rest) as R.
    destruct (read_items (if i_le i then le_val else be_val) 4 (Z.to_nat (w * h * c)) rest) as [[xs r2]| | |]; cbn [bind]; try assumption.
    destruct (pfm_flip_total (Z.to_nat w * comps (i_cs i)) xs) as (img & E & L); [unfold c in *; nia|]. rewrite E. cbn [bind].
    split; [lia|]. split; [lia|]. split; [exact Tc|]. rewrite L, R. fold c. lia.
Qed.
Example ppm_decode_safe_ex : forall nf,
  ppm_decode nf 16384 16384 [80; 53; 32; 50; 32; 35; 120; 10; 49; 32; 50; 53; 53; 32; 9] = Err EEof /\
  ppm_decode nf 16384 16384 [80; 53; 32; 50; 32; 35; 120; 10; 49; 32; 50; 53; 53; 32; 65; 66] = Ok (2, 1, CLuma, SU8 [65; 66]).
Proof. intros nf. split; vm_compute; reflexivity. Qed.
Print Assumptions ppm_decode_safe_partial.

(** With the limits raised the size product overflows: the decoder panics in a checked build. *)
Theorem ppm_decode_overflow_refuted : exists mw mh input, 0 <= mw < 2 ^ 64 /\ 0 <= mh < 2 ^ 64 /\ bytes input /\
  forall nf, ppm_decode nf mw mh input = Panic.
Proof.
  exists (2 ^ 63), (2 ^ 63), ([80; 53; 32] ++ dec (2 ^ 40) ++ [32] ++ dec (2 ^ 40) ++ [32; 49; 32; 65]).
  split; [lia|]. split; [lia|]. split.
  - apply bytes_app. split; [repeat constructor; unfold is_byte; lia|]. apply bytes_app. split; [apply dec_bytes; lia|].
    apply bytes_app. split; [repeat constructor; unfold is_byte; lia|]. apply bytes_app. split; [apply dec_bytes; lia|].
    repeat constructor; unfold is_byte; lia.
  - intros nf. vm_compute. reflexivity.
Qed.
Print Assumptions ppm_decode_overflow_refuted.

(** ** C49 — PFM files store rows bottom to top *)

(** Even heights: exactly the reversal of the rows. Missing: odd heights, where the claim is false. *)
Theorem pfm_rows_partial : forall s rows, (1 <= s)%nat -> Forall (fun r => length r = s) rows ->
  Nat.even (length rows) = true -> pfm_flip s (concat rows) = Ok (concat (rev rows)).
Proof.
  intros s rows Hs F He. apply Nat.even_spec in He. destruct He as [k Hk].
  rewrite <- (firstn_skipn k rows). apply pfm_flip_even; [lia| | |].
  - rewrite firstn_length, skipn_length. lia.
  - now apply Forall_firstn'.
  - now apply Forall_skipn'.
Qed.
Example pfm_rows_partial_ex : pfm_flip 3 [1; 2; 3; 4; 5; 6; 7; 8; 9; 10; 11; 12] = Ok [10; 11; 12; 7; 8; 9; 4; 5; 6; 1; 2; 3].
Proof. vm_compute. reflexivity. Qed.
Print Assumptions pfm_rows_partial.

Theorem pfm_rows_refuted : exists s rows, (1 <= s)%nat /\ Forall (fun r => length r = s) rows /\
  pfm_flip s (concat rows) <> Ok (concat (rev rows)).
Proof. exists 1%nat, [[1]; [2]; [3]]. split; [lia|]. split; [repeat constructor|]. vm_compute. discriminate. Qed.
Print Assumptions pfm_rows_refuted.

(** ** C25 — farbfeld *)

(** [decode] fails on every file that has at least one pixel: it allocates half the samples [decode_into] asks for. *)
Theorem farbfeld_decode_never : forall mw mh input w h data, bytes input ->
  ff_decode mw mh input = Ok (w, h, data) -> w = 0 \/ h = 0.
Proof.
  intros mw mh input w h data Hb E. unfold ff_decode in E.
  destruct (ff_headers mw mh input) as [[[w' h'] body]| | |] eqn:Eh; cbn [bind] in E; try discriminate E.
  assert (R : 0 <= w' /\ 0 <= h').
  { unfold ff_headers in Eh. destruct (length input <? 8)%nat; [discriminate Eh|]. destruct (negb _); [discriminate Eh|].
    destruct (length (skipn 8 input) <? 8)%nat; [discriminate Eh|].
    destruct (mh <? _); [discriminate Eh|]. destruct (mw <? _); [discriminate Eh|]. injection Eh as <- <- _.
    assert (B1 : bytes (skipn 8 input)) by (now apply Forall_skipn').
    split; [apply (be_val_bound (firstn 4 (skipn 8 input))); now apply Forall_firstn'|].
    apply (be_val_bound (slice (skipn 8 input) 4 4)). unfold slice. apply Forall_firstn'. now apply Forall_skipn'. }
  unfold ff_decode_into, ff_output_size in E.
  destruct (2 ^ 64 <=? 4 * w' * h' * 2); cbn [bind] in E; [discriminate E|].
  rewrite repeat_length in E. destruct (Z.ltb_spec (Z.of_nat (Z.to_nat (4 * w' * h'))) (4 * w' * h' * 2)) as [|H]; cbn [bind] in E; [discriminate E|].
  destruct (read_items _ _ _ _) as [[xs r2]| | |]; cbn [bind] in E; try discriminate E.
  destruct (put_slice _ _ _); cbn [bind] in E; try discriminate E. injection E as -> -> _. nia.
Qed.
Example farbfeld_decode_never_ex : ff_decode 16384 16384 (ff_magic ++ be_bytes 4 0 ++ be_bytes 4 5) = Ok (0, 5, []).
Proof. vm_compute. reflexivity. Qed.
Print Assumptions farbfeld_decode_never.

Theorem farbfeld_round_trip_refuted : exists w h data c, bytes data /\ 1 <= w /\ 1 <= h /\ ff_encode w h data = Ok c /\
  ff_decode 16384 16384 c = Err ENoSpace.
Proof.
  exists 1, 1, [1; 2; 3; 4; 5; 6; 7; 8]. eexists. split; [repeat constructor; unfold is_byte; lia|]. split; [lia|]. split; [lia|].
  split; vm_compute; reflexivity.
Qed.
Print Assumptions farbfeld_round_trip_refuted.

(** What does hold: the encoder writes a correct file (signature, big-endian dimensions, big-endian samples in order),
    the header is read back, and [decode_into] with a sink of twice the needed size — provided as many bytes again follow
    the image — starts with the image. Missing: [decode] itself, and [decode_into] on the file alone. *)
Theorem farbfeld_round_trip_partial : forall mw mh w h data tail sink,
  0 <= w <= mw -> 0 <= h <= mh -> w < 2 ^ 32 -> h < 2 ^ 32 -> bytes data -> Z.of_nat (length data) = 8 * w * h -> 8 * w * h < 2 ^ 63 ->
  bytes tail -> (length data <= length tail)%nat -> (length data <= length sink)%nat ->
  exists c body, ff_encode w h data = Ok c /\ c = ff_magic ++ be_bytes 4 w ++ be_bytes 4 h ++ concat (map (be_bytes 2) (u16s data)) /\
    ff_headers mw mh (c ++ tail) = Ok (w, h, body) /\
    exists out, ff_decode_into w h sink body = Ok out /\ firstn (length (u16s data)) out = u16s data.
Proof.
  intros mw mh w h data tail sink Hw Hh Hw32 Hh32 Hb Hl H63 Hbt Htail Hsink.
  exists (ff_magic ++ be_bytes 4 w ++ be_bytes 4 h ++ concat (map (be_bytes 2) (u16s data))).
  exists (concat (map (be_bytes 2) (u16s data)) ++ tail). split.
  { unfold ff_encode. replace (Z.of_nat (length data) =? w * 2 * h * 4) with true by lia. cbn [negb].
    replace (2 ^ 32 <=? w) with false by lia. replace (2 ^ 32 <=? h) with false by lia. now rewrite swap_pairs_u16s. }
  split; [reflexivity|]. split.
  { unfold ff_headers. rewrite <- !app_assoc.
    replace (length (ff_magic ++ be_bytes 4 w ++ be_bytes 4 h ++ concat (map (be_bytes 2) (u16s data)) ++ tail) <? 8)%nat with false
      by (rewrite !app_length; cbn [ff_magic length]; lia).
    rewrite firstn_app_exact, skipn_app_exact by reflexivity. change (negb (zeqb_list ff_magic ff_magic)) with false. cbv iota.
    replace (length (be_bytes 4 w ++ be_bytes 4 h ++ concat (map (be_bytes 2) (u16s data)) ++ tail) <? 8)%nat with false
      by (rewrite !app_length, !be_bytes_length; lia).
    rewrite firstn_app_exact by apply be_bytes_length.
    replace (slice (be_bytes 4 w ++ be_bytes 4 h ++ concat (map (be_bytes 2) (u16s data)) ++ tail) 4 4) with (be_bytes 4 h).
    2:{ unfold slice. rewrite skipn_app_exact by apply be_bytes_length. now rewrite firstn_app_exact by apply be_bytes_length. }
    rewrite !be_val_be_bytes by (change (256 ^ Z.of_nat 4) with (2 ^ 32); lia).
    replace (mh <? h) with false by lia. replace (mw <? w) with false by lia.
    rewrite app_assoc. rewrite skipn_app_exact by (rewrite app_length, !be_bytes_length; reflexivity). reflexivity. }
  unfold ff_decode_into, ff_output_size. replace (2 ^ 64 <=? 4 * w * h * 2) with false by lia. cbn [bind].
  replace (Z.of_nat (length sink) <? 4 * w * h * 2) with false by lia.
  assert (Lu : Z.of_nat (length (u16s data)) = 4 * w * h).
  { rewrite u16s_length, Nat2Z.inj_div. change (Z.of_nat 2) with 2. replace (Z.of_nat (length data)) with (4 * w * h * 2) by lia. apply Z.div_mul. lia. }
  assert (RI : forall n m a b rest, read_items be_val 2 n (a ++ rest) = Ok (b, rest) -> forall r2 rest',
     read_items be_val 2 m rest = Ok (r2, rest') -> read_items be_val 2 (n + m) (a ++ rest) = Ok (b ++ r2, rest')).
  { clear. induction n as [|n IH]; intros m a b rest E1 r2 rest' E2.
    - cbn [read_items Nat.add] in *. injection E1 as <- E1. rewrite E1. exact E2.
    - cbn [read_items Nat.add] in *. destruct (length (a ++ rest) <? 2)%nat; [discriminate E1|].
      destruct (read_items be_val 2 n (skipn 2 (a ++ rest))) as [[xs r]| | |] eqn:E3; cbn [bind] in E1; try discriminate E1.
      injection E1 as <- ->.
      assert (G : forall n l xs r, read_items be_val 2 n l = Ok (xs, r) -> exists p, l = p ++ r).
      { clear. induction n as [|n IH]; intros l xs r E; cbn [read_items] in E; [injection E as _ <-; now exists []|].
        destruct (length l <? 2)%nat; [discriminate E|]. destruct (read_items be_val 2 n (skipn 2 l)) as [[ys r']| | |] eqn:E'; cbn [bind] in E; try discriminate E.
        injection E as _ <-. destruct (IH _ _ _ E') as [p Hp]. exists (firstn 2 l ++ p). rewrite <- app_assoc, <- Hp. symmetry. apply firstn_skipn. }
      destruct (G _ _ _ _ E3) as [p Hp]. rewrite Hp in E3 |- *. rewrite (IH m p xs rest E3 r2 rest' E2). reflexivity. }
  assert (RT : forall n l, (2 * n <= length l)%nat -> exists xs r, read_items be_val 2 n l = Ok (xs, r) /\ length xs = n).
  { clear. induction n as [|n IH]; intros l H; cbn [read_items]; [exists [], l; auto|].
    replace (length l <? 2)%nat with false by lia. destruct (IH (skipn 2 l)) as (xs & r & E & L); [rewrite skipn_length; lia|].
    rewrite E. cbn [bind]. do 2 eexists. split; [reflexivity|]. cbn [length]. lia. }
  replace (Z.to_nat (4 * w * h * 2)) with (length (u16s data) + length (u16s data))%nat by lia.
  destruct (RT (length (u16s data)) tail) as (xs & r & E & L).
  { assert (Z.of_nat (length data) = 2 * Z.of_nat (length (u16s data))) by lia. lia. }
  rewrite (RI _ _ _ _ _ (read_swapped (u16s data) (u16s_range data Hb) tail) _ _ E). cbn [bind].
  rewrite put_slice_ok by (rewrite app_length; lia). eexists. split; [reflexivity|].
  unfold put. cbn [firstn app]. rewrite <- app_assoc. now apply firstn_app_exact.
Qed.
Example farbfeld_round_trip_partial_ex :
  exists c body, ff_encode 1 1 [1; 2; 3; 4; 5; 6; 7; 8] = Ok c /\ ff_headers 9 9 (c ++ repeat 0 8) = Ok (1, 1, body) /\
    ff_decode_into 1 1 (repeat 0 8) body = Ok [513; 1027; 1541; 2055; 0; 0; 0; 0].
Proof. do 2 eexists. split; [vm_compute; reflexivity|]. split; vm_compute; reflexivity. Qed.
Print Assumptions farbfeld_round_trip_partial.
