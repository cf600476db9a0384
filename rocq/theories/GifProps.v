(** The GIF decoder (C135 - C137). *)
From Verif Require Import Base BaseProof Loops StreamModel StreamSpec StreamProof GifModel GifSpec.

Lemma read_u8_cons c b l : remaining c = b :: l ->
  exists c', read_u8 c = (b, c') /\ remaining c' = l /\ cdata c' = cdata c /\ cpos c' = S (cpos c).
Proof.
  intros H. rewrite read_u8_spec, H. eexists. split; [reflexivity|]. rewrite remaining_at, H. cbn. repeat split. lia.
Qed.
Lemma read_u8_any c : exists c', read_u8 c = (nth 0 (remaining c) 0, c') /\ remaining c' = skipn 1 (remaining c) /\
  cdata c' = cdata c /\ cpos c' = (cpos c + Nat.min 1 (length (remaining c)))%nat.
Proof.
  destruct (remaining c) as [|b l] eqn:E.
  - rewrite read_u8_spec, E. exists c. rewrite E. cbn. repeat split. lia.
  - destruct (read_u8_cons c b l E) as (c' & -> & H1 & H2 & H3). exists c'. cbn. repeat split; try easy. lia.
Qed.
Lemma read_u8_err_cons c b l : remaining c = b :: l ->
  exists c', read_u8_err c = (Ok b, c') /\ remaining c' = l /\ cdata c' = cdata c /\ cpos c' = S (cpos c).
Proof.
  intros H. unfold read_u8_err. rewrite read_fixed_or_error_spec, H. cbn. eexists. split; [reflexivity|].
  rewrite remaining_at, H. cbn. repeat split. lia.
Qed.
Lemma get16_cons c a b l : remaining c = a :: b :: l ->
  exists c', get_err LE 2 c = (Ok (a + 256 * b), c') /\ remaining c' = l /\ cdata c' = cdata c /\ cpos c' = (cpos c + 2)%nat.
Proof.
  intros H. rewrite get_err_spec, H. cbn [length Nat.leb firstn]. eexists. split.
  - f_equal. f_equal. cbn [of_bytes le_val]. lia.
  - rewrite remaining_at, H. cbn. repeat split.
Qed.

Lemma expect_ok p c b l k : remaining c = b :: l -> p b = true ->
  exists c', expect p c k = k c' /\ remaining c' = l /\ cdata c' = cdata c /\ cpos c' = S (cpos c).
Proof.
  intros H P. destruct (read_u8_cons c b l H) as (c' & E & R). exists c'. unfold expect. rewrite E, P. auto.
Qed.

Lemma signature_ok c v l : gif_version v -> remaining c = [71; 73; 70; 56; v; 97] ++ l ->
  exists c', test_gif c = (true, c') /\ remaining c' = l /\ cdata c' = cdata c /\ cpos c' = (cpos c + 6)%nat.
Proof.
  intros Hv R. unfold test_gif. cbn [app] in R.
  destruct (expect_ok (fun b => b =? 71) c 71 _ (fun c => expect (fun b => b =? 73) c (fun c => expect (fun b => b =? 70) c (fun c =>
    expect (fun b => b =? 56) c (fun c => expect (fun b => (b =? 57) || (b =? 55)) c (fun c => expect (fun b => b =? 97) c (fun c =>
    (true, c))))))) R eq_refl) as (c1 & -> & R1 & D1 & P1).
  edestruct (expect_ok (fun b => b =? 73) c1) as (c2 & -> & R2 & D2 & P2); [exact R1|reflexivity|].
  edestruct (expect_ok (fun b => b =? 70) c2) as (c3 & -> & R3 & D3 & P3); [exact R2|reflexivity|].
  edestruct (expect_ok (fun b => b =? 56) c3) as (c4 & -> & R4 & D4 & P4); [exact R3|reflexivity|].
  edestruct (expect_ok (fun b => (b =? 57) || (b =? 55)) c4) as (c5 & -> & R5 & D5 & P5);
    [exact R4|destruct Hv as [-> | ->]; reflexivity|].
  edestruct (expect_ok (fun b => b =? 97) c5) as (c6 & -> & R6 & D6 & P6); [exact R5|reflexivity|].
  exists c6. split; [reflexivity|]. split; [exact R6|]. split; [congruence|lia].
Qed.

Lemma expect_true p c k c' : p 0 = false -> expect p c k = (true, c') ->
  exists b l c1, remaining c = b :: l /\ p b = true /\ remaining c1 = l /\ k c1 = (true, c').
Proof.
  intros P0 H. unfold expect in H. rewrite read_u8_spec in H. destruct (remaining c) as [|b l] eqn:E; [now rewrite P0 in H|].
  destruct (p b) eqn:P; [|easy]. exists b, l, (at_pos c (cpos c + 1)). rewrite remaining_at, E. auto.
Qed.

Lemma signature_only c c' : test_gif c = (true, c') -> exists v l, gif_version v /\ remaining c = [71; 73; 70; 56; v; 97] ++ l.
Proof.
  unfold test_gif. intros H.
  apply expect_true in H as (b1 & l1 & c1 & E1 & P1 & R1 & H); [|reflexivity].
  apply expect_true in H as (b2 & l2 & c2 & E2 & P2 & R2 & H); [|reflexivity].
  apply expect_true in H as (b3 & l3 & c3 & E3 & P3 & R3 & H); [|reflexivity].
  apply expect_true in H as (b4 & l4 & c4 & E4 & P4 & R4 & H); [|reflexivity].
  apply expect_true in H as (b5 & l5 & c5 & E5 & P5 & R5 & H); [|reflexivity].
  apply expect_true in H as (b6 & l6 & c6 & E6 & P6 & R6 & H); [|reflexivity].
  exists b5, l6. split; [unfold gif_version; apply orb_true_iff in P5; lia|].
  rewrite E1, <- R1, E2, <- R2, E3, <- R3, E4, <- R4, E5, <- R5, E6, <- R6. cbn [app].
  apply Z.eqb_eq in P1, P2, P3, P4, P6. rewrite R6. congruence.
Qed.

Lemma nth_skip3 rest j : nth (3 + j) rest 0 = nth j (skipn 3 rest) 0.
Proof. destruct rest as [|a [|b [|c l]]]; cbn; destruct j; reflexivity. Qed.

Lemma colortable_ok n : forall pos pal c, (n <= length pal)%nat -> (pos + n <= 256)%nat ->
  exists c', parse_colortable pos (2 ^ 64 - 1) n pal c = (map (table_colour (remaining c)) (seq 0 n) ++ skipn n pal, c') /\
    remaining c' = skipn (3 * n) (remaining c).
Proof.
  induction n as [|n IH]; intros pos pal c Hn Hp.
  - exists c. destruct pal; split; reflexivity.
  - destruct pal as [|e pal]; [cbn in Hn; lia|]. cbn [parse_colortable].
    destruct (read_u8_any c) as (c1 & -> & R1 & _). destruct (read_u8_any c1) as (c2 & -> & R2 & _).
    destruct (read_u8_any c2) as (c3 & -> & R3 & _).
    destruct (IH (S pos) pal c3) as (c4 & -> & R4); [cbn in Hn; lia|lia|].
    assert (R : remaining c3 = skipn 3 (remaining c)).
    { rewrite R3, R2, R1, !skipn_skipn'. reflexivity. }
    exists c4. split.
    + replace (2 ^ 64 - 1 =? Z.of_nat pos) with false by lia. cbn [seq map app skipn]. f_equal. f_equal.
      * unfold table_colour. rewrite R2, R1. rewrite !skipn_skipn'. f_equal; [|f_equal]; destruct (remaining c) as [|? [|? [|? ?]]]; reflexivity.
      * f_equal. rewrite <- seq_shift, map_map. apply map_ext. intros i. rewrite R. unfold table_colour.
        replace (3 * S i + 2)%nat with (3 + (3 * i + 2))%nat by lia. replace (3 * S i + 1)%nat with (3 + (3 * i + 1))%nat by lia.
        replace (3 * S i)%nat with (3 + 3 * i)%nat by lia. now rewrite !nth_skip3.
    + rewrite R4, R, skipn_skipn'. f_equal. lia.
Qed.

Lemma table_flags flags : 0 <= flags < 256 ->
  (0 <? Z.land flags 0x80) = negb (flags <? 128) /\ Z.shiftl 2 (Z.land flags 7) = 2 ^ (flags mod 8 + 1) /\ (table_size flags <= 256)%nat.
Proof.
  intros H.
  assert (A : forallb (fun k => let f := Z.of_nat k in Bool.eqb (0 <? Z.land f 0x80) (negb (f <? 128)) &&
     (Z.shiftl 2 (Z.land f 7) =? 2 ^ (f mod 8 + 1)) && (table_size f <=? 256)%nat) (seq 0 256) = true) by (vm_compute; reflexivity).
  rewrite forallb_forall in A. specialize (A (Z.to_nat flags)). rewrite in_seq in A. specialize (A ltac:(lia)). cbv zeta in A.
  rewrite Z2Nat.id in A by lia. apply andb_true_iff in A as [A A3]. apply andb_true_iff in A as [A1 A2].
  apply Bool.eqb_prop in A1. apply Z.eqb_eq in A2. apply Nat.leb_le in A3. auto.
Qed.

Lemma screen_ok v w h flags bg ratio rest : gif_version v -> 0 <= w < 65536 -> 0 <= h < 65536 ->
  exists c1 c2 c3 c4 c5 c6, test_gif (gs (gif_new (gif_file v w h flags bg ratio rest))) = (true, c1) /\
    get_err LE 2 c1 = (Ok w, c2) /\ get_err LE 2 c2 = (Ok h, c3) /\ read_u8_err c3 = (Ok flags, c4) /\
    read_u8_err c4 = (Ok bg, c5) /\ read_u8_err c5 = (Ok ratio, c6) /\ remaining c6 = rest.
Proof.
  intros Hv Hw Hh. unfold gif_file.
  edestruct (signature_ok (gs (gif_new ([71; 73; 70; 56; v; 97] ++ [w mod 256; w / 256] ++ [h mod 256; h / 256] ++ [flags; bg; ratio] ++ rest))) v)
    as (c1 & E1 & R1 & _); [exact Hv|reflexivity|].
  cbn [app] in R1.
  edestruct (get16_cons c1) as (c2 & E2 & R2 & _); [exact R1|]. edestruct (get16_cons c2) as (c3 & E3 & R3 & _); [exact R2|].
  edestruct (read_u8_err_cons c3) as (c4 & E4 & R4 & _); [exact R3|]. edestruct (read_u8_err_cons c4) as (c5 & E5 & R5 & _); [exact R4|].
  edestruct (read_u8_err_cons c5) as (c6 & E6 & R6 & _); [exact R5|].
  exists c1, c2, c3, c4, c5, c6. replace (w mod 256 + 256 * (w / 256)) with w in E2 by lia.
  replace (h mod 256 + 256 * (h / 256)) with h in E3 by lia. auto 10.
Qed.

(** For every file that starts as the specification says, within the limits on sides: the sides, the flags and the colours
    of the table are read, the colours are opaque in the order blue, green, red, the size of the output is four bytes for
    each pixel, and the stream stands behind the table. *)
Theorem gif_headers_read mw mh v w h flags bg ratio rest : gif_version v -> 0 <= w < 65536 -> 0 <= h < 65536 -> 0 <= flags < 256 ->
  w <= mw -> h <= mh ->
  exists g, decode_headers mw mh (gif_new (gif_file v w h flags bg ratio rest)) = (Ok tt, g) /\
    gwidth g = w /\ gheight g = h /\ gflags g = flags /\ gbgindex g = bg /\ gratio g = ratio /\
    output_buf_size g = Some (4 * w * h) /\ length (gpal g) = 256%nat /\
    (forall i, (i < table_size flags)%nat -> nth i (gpal g) [] = table_colour rest i) /\
    (forall i, (table_size flags <= i < 256)%nat -> nth i (gpal g) [] = [0; 0; 0; 0]) /\
    remaining (gs g) = skipn (3 * table_size flags) rest.
Proof.
  intros Hv Hw Hh Hf Lw Lh. destruct (screen_ok v w h flags bg ratio rest Hv Hw Hh) as (c1 & c2 & c3 & c4 & c5 & c6 & E1 & E2 & E3 & E4 & E5 & E6 & R).
  destruct (table_flags flags Hf) as (F1 & F2 & F3).
  unfold decode_headers. change (gread (gif_new (gif_file v w h flags bg ratio rest))) with false. cbv iota. rewrite E1. cbn [negb].
  rewrite E2, E3, E4, E5, E6. cbv zeta. replace (mw <? w) with false by lia. replace (mh <? h) with false by lia.
  cbn [gpal gif_new]. rewrite F1, F2.
  assert (P : exists c', (if negb (flags <? 128)
      then parse_colortable 0 (2 ^ 64 - 1) (Z.to_nat (2 ^ (flags mod 8 + 1))) (repeat [0; 0; 0; 0] 256) c6 else (repeat [0; 0; 0; 0] 256, c6)) =
      (map (table_colour rest) (seq 0 (table_size flags)) ++ skipn (table_size flags) (repeat [0; 0; 0; 0] 256), c') /\
      remaining c' = skipn (3 * table_size flags) rest).
  { unfold table_size in *. destruct (flags <? 128); cbn [negb].
    - exists c6. split; [reflexivity|]. exact R.
    - rewrite <- R. apply colortable_ok; [rewrite repeat_length|]; lia. }
  destruct P as (c' & -> & R'). eexists. split; [reflexivity|]. cbn [gwidth gheight gflags gbgindex gratio gpal gs].
  split; [reflexivity|]. split; [reflexivity|]. split; [reflexivity|]. split; [reflexivity|]. split; [reflexivity|].
  assert (B : w * h <= 65535 * 65535) by (apply Z.mul_le_mono_nonneg; lia).
  assert (L : length (map (table_colour rest) (seq 0 (table_size flags))) = table_size flags) by now rewrite map_length, seq_length.
  split; [|split; [|split; [|split]]].
  - unfold output_buf_size. cbn [gread gwidth gheight]. replace (2 ^ 64 <=? w * h) with false by (clear - B; lia).
    replace (2 ^ 64 <=? w * h * 4) with false by (clear - B; lia). f_equal. ring.
  - rewrite app_length, L, skipn_length, repeat_length. lia.
  - intros i Hi. rewrite app_nth1 by lia. rewrite nth_indep with (d' := table_colour rest 0) by lia.
    rewrite map_nth, seq_nth by lia. reflexivity.
  - intros i Hi. rewrite app_nth2 by lia. rewrite L, skipn_repeat. rewrite nth_indep with (d' := [0; 0; 0; 0]);
    [apply nth_repeat|rewrite repeat_length; lia].
  - exact R'.
Qed.
Print Assumptions gif_headers_read.

Example gif_headers_ex :
  match decode_headers 1000 1000 (gif_new (gif_file 57 300 2 0x80 1 0 [1; 2; 3; 4; 5; 6; 44; 9])) with
  | (Ok _, g) => gwidth g = 300 /\ gheight g = 2 /\ nth 0 (gpal g) [] = [3; 2; 1; 255] /\ nth 1 (gpal g) [] = [6; 5; 4; 255] /\
      output_buf_size g = Some 2400 /\ remaining (gs g) = [44; 9]
  | _ => False
  end.
Proof. vm_compute. repeat split. Qed.

(** Data without one of the two signatures is refused, however short, and the decoder has no size for an output. *)
Theorem gif_headers_reject mw mh data : (forall v l, gif_version v -> data <> [71; 73; 70; 56; v; 97] ++ l) ->
  exists g, decode_headers mw mh (gif_new data) = (Err EMagic, g) /\ output_buf_size g = None.
Proof.
  intros H. unfold decode_headers. change (gread (gif_new data)) with false. cbv iota.
  destruct (test_gif (gs (gif_new data))) as [[|] c] eqn:E.
  - apply signature_only in E as (v & l & Hv & R). now destruct (H v l Hv).
  - cbn [negb]. eexists. split; reflexivity.
Qed.
Print Assumptions gif_headers_reject.
Example gif_headers_reject_ex : fst (decode_headers 9 9 (gif_new [71; 73; 70; 56; 56; 97; 1; 0; 1; 0; 0; 0; 0])) = Err EMagic /\
  fst (decode_headers 9 9 (gif_new [71; 73])) = Err EMagic.
Proof. vm_compute. split; reflexivity. Qed.

(** A file that ends inside the screen descriptor is refused. *)
Theorem gif_headers_short mw mh v w h flags bg ratio rest n : gif_version v -> 0 <= w < 65536 -> 0 <= h < 65536 -> (6 <= n < 13)%nat ->
  exists g, decode_headers mw mh (gif_new (firstn n (gif_file v w h flags bg ratio rest))) = (Err EEof, g) /\ output_buf_size g = None.
Proof.
  intros Hv Hw Hh Hn. unfold decode_headers.
  set (data := firstn n (gif_file v w h flags bg ratio rest)). change (gread (gif_new data)) with false. cbv iota.
  assert (K : exists l, data = [71; 73; 70; 56; v; 97] ++ l /\ l = firstn (n - 6) [w mod 256; w / 256; h mod 256; h / 256; flags; bg; ratio]).
  { eexists. split; [|reflexivity]. unfold data, gif_file. destruct n as [|[|[|[|[|[|n]]]]]]; try lia. cbn [app firstn].
    replace (S (S (S (S (S (S n))))) - 6)%nat with n by lia. do 7 (destruct n as [|n]; [reflexivity|]). lia. }
  destruct K as (l & D & L). edestruct (signature_ok (gs (gif_new data)) v l Hv) as (c1 & E1 & R1 & _); [rewrite D; reflexivity|].
  rewrite E1. cbn [negb]. clear E1 D. clearbody data.
  assert (N : (n = 6 \/ n = 7 \/ n = 8 \/ n = 9 \/ n = 10 \/ n = 11 \/ n = 12)%nat) by lia. rewrite L in R1. clear L Hn.
  assert (G2 : forall c, (length (remaining c) < 2)%nat -> get_err LE 2 c = (Err EEof, c)).
  { intros c Hc. rewrite get_err_spec. replace (2 <=? length (remaining c))%nat with false by lia. reflexivity. }
  assert (G1 : forall c, remaining c = [] -> read_u8_err c = (Err EEof, c)).
  { intros c Hc. unfold read_u8_err. rewrite read_fixed_or_error_spec, Hc. reflexivity. }
  destruct N as [-> | [-> | [-> | [-> | [-> | [-> | ->]]]]]]; cbn [Nat.sub firstn] in R1.
  1, 2: rewrite G2 by (rewrite R1; cbn; lia); eexists; split; reflexivity.
  all: edestruct (get16_cons c1) as (c2 & -> & R2 & _); [exact R1|].
  1, 2: rewrite G2 by (rewrite R2; cbn; lia); eexists; split; reflexivity.
  all: edestruct (get16_cons c2) as (c3 & -> & R3 & _); [exact R2|].
  1: rewrite (G1 c3 R3); eexists; split; reflexivity.
  all: edestruct (read_u8_err_cons c3) as (c4 & -> & R4 & _); [exact R3|].
  1: rewrite (G1 c4 R4); eexists; split; reflexivity.
  all: edestruct (read_u8_err_cons c4) as (c5 & -> & R5 & _); [exact R4|].
  rewrite (G1 c5 R5). eexists; split; reflexivity.
Qed.
Print Assumptions gif_headers_short.
Example gif_headers_short_ex : fst (decode_headers 9 9 (gif_new (firstn 12 (gif_file 55 4 5 0 0 0 [])))) = Err EEof.
Proof. vm_compute. reflexivity. Qed.

(** A side above the limit is refused, without a size for an output. *)
Theorem gif_headers_limits mw mh v w h flags bg ratio rest : gif_version v -> 0 <= w < 65536 -> 0 <= h < 65536 -> mw < w \/ mh < h ->
  exists g, decode_headers mw mh (gif_new (gif_file v w h flags bg ratio rest)) = (Err ELimit, g) /\ output_buf_size g = None.
Proof.
  intros Hv Hw Hh HL. destruct (screen_ok v w h flags bg ratio rest Hv Hw Hh) as (c1 & c2 & c3 & c4 & c5 & c6 & E1 & E2 & E3 & E4 & E5 & E6 & R).
  unfold decode_headers. change (gread (gif_new (gif_file v w h flags bg ratio rest))) with false. cbv iota. rewrite E1. cbn [negb].
  rewrite E2, E3, E4, E5, E6. cbv zeta. destruct (Z.ltb_spec mw w); [eexists; split; reflexivity|].
  destruct (Z.ltb_spec mh h); [eexists; split; reflexivity|]. lia.
Qed.
Print Assumptions gif_headers_limits.
Example gif_headers_limits_ex : fst (decode_headers 9 9 (gif_new (gif_file 55 4 10 0 0 0 []))) = Err ELimit.
Proof. vm_compute. reflexivity. Qed.

(** Once the headers were read, reading them again changes nothing; reading them never changes a decoder after success. *)
Theorem gif_headers_once mw mh g g1 : decode_headers mw mh g = (Ok tt, g1) -> gread g1 = true /\ decode_headers mw mh g1 = (Ok tt, g1).
Proof.
  intros H. assert (R : gread g1 = true).
  { unfold decode_headers in H. destruct (gread g) eqn:G; [congruence|]. destruct (test_gif (gs g)) as [[|] c]; cbn [negb] in H; [|discriminate].
    destruct (get_err LE 2 c) as [[| | |] c2]; try discriminate H. destruct (get_err LE 2 c2) as [[| | |] c3]; try discriminate H.
    destruct (read_u8_err c3) as [[f| | |] c4]; try discriminate H. destruct (read_u8_err c4) as [[| | |] c5]; try discriminate H.
    destruct (read_u8_err c5) as [[| | |] c6]; try discriminate H. cbv zeta in H.
    destruct (mw <? a); [discriminate H|]. destruct (mh <? a0); [discriminate H|].
    match type of H with (let '(_, _) := ?e in _) = _ => destruct e as [pal c7] end. apply (f_equal snd) in H. cbn [snd] in H. now subst g1. }
  split; [exact R|]. unfold decode_headers. now rewrite R.
Qed.
Print Assumptions gif_headers_once.

(** The claim that a table of colours cut off by the end of the file is reported is false: the missing colours are black. *)
Theorem gif_truncated_table_refuted :
  match decode_headers 9 9 (gif_new (gif_file 57 4 4 0x81 0 0 [10; 20])) with
  | (Ok _, g) => (length [10; 20] < 3 * table_size 0x81)%nat /\ nth 0 (gpal g) [] = [0; 20; 10; 255] /\ nth 3 (gpal g) [] = [0; 0; 0; 255]
  | _ => False
  end.
Proof. vm_compute. repeat split. lia. Qed.
Print Assumptions gif_truncated_table_refuted.

(** The claim that decoding yields the picture is false for every file: whatever follows the screen descriptor, even
    nothing, the first call succeeds and the output is transparent black; nothing behind the output is touched. *)
Theorem gif_blank_refuted mw mh v w h flags bg ratio rest output : gif_version v -> 0 <= w < 65536 -> 0 <= h < 65536 -> 0 <= flags < 256 ->
  w <= mw -> h <= mh -> 4 * w * h <= Z.of_nat (length output) ->
  exists g, decode_into mw mh (gif_new (gif_file v w h flags bg ratio rest)) output =
    (Ok tt, repeat 0 (Z.to_nat (4 * w * h)) ++ skipn (Z.to_nat (4 * w * h)) output, g).
Proof.
  intros Hv Hw Hh Hf Lw Lh HO. destruct (gif_headers_read mw mh v w h flags bg ratio rest Hv Hw Hh Hf Lw Lh) as (g & E & _ & _ & _ & _ & _ & S & _).
  assert (F : gframe g = 0%nat).
  { destruct (screen_ok v w h flags bg ratio rest Hv Hw Hh) as (c1 & c2 & c3 & c4 & c5 & c6 & E1 & E2 & E3 & E4 & E5 & E6 & R).
    unfold decode_headers in E. change (gread (gif_new (gif_file v w h flags bg ratio rest))) with false in E. cbv iota in E.
    rewrite E1 in E. cbn [negb] in E. rewrite E2, E3, E4, E5, E6 in E. cbv zeta in E. replace (mw <? w) with false in E by lia.
    replace (mh <? h) with false in E by lia.
    match type of E with (let '(_, _) := ?e in _) = _ => destruct e as [pal c7] end. apply (f_equal snd) in E. cbn [snd] in E. now subst g. }
  unfold decode_into. rewrite E, S. replace (Z.of_nat (length output) <? 4 * w * h) with false by (clear - HO; lia).
  rewrite F. cbn [Nat.eqb]. eexists. reflexivity.
Qed.
Print Assumptions gif_blank_refuted.
Example gif_blank_ex : fst (decode_into 9 9 (gif_new (gif_file 57 1 1 0 0 0 [44; 0; 0; 0; 0; 1; 0; 1; 0; 0; 2; 2; 76; 1; 0; 59])) [7; 7; 7; 7; 7]) =
  (Ok tt, [0; 0; 0; 0; 7]).
Proof. vm_compute. reflexivity. Qed.

(** A call never fails for want of room without saying so: with a buffer smaller than the size announced the call is
    refused and the buffer is left as it was. *)
Theorem gif_small_buffer mw mh v w h flags bg ratio rest output : gif_version v -> 0 <= w < 65536 -> 0 <= h < 65536 -> 0 <= flags < 256 ->
  w <= mw -> h <= mh -> Z.of_nat (length output) < 4 * w * h ->
  exists g, decode_into mw mh (gif_new (gif_file v w h flags bg ratio rest)) output = (Err ESize, output, g) /\ output_buf_size g = Some (4 * w * h).
Proof.
  intros Hv Hw Hh Hf Lw Lh HO. destruct (gif_headers_read mw mh v w h flags bg ratio rest Hv Hw Hh Hf Lw Lh) as (g & E & _ & _ & _ & _ & _ & S & _).
  unfold decode_into. rewrite E, S. replace (Z.of_nat (length output) <? 4 * w * h) with true by (clear - HO; lia). exists g. auto.
Qed.
Print Assumptions gif_small_buffer.
Example gif_small_buffer_ex : fst (decode_into 9 9 (gif_new (gif_file 57 1 1 0 0 0 [])) [7; 7; 7]) = (Err ESize, [7; 7; 7]).
Proof. vm_compute. reflexivity. Qed.

(** In every state, on every call: the buffer keeps its length, and a call that fails leaves its contents alone. *)
Theorem gif_buffer_safe mw mh g output st out g' : decode_into mw mh g output = (st, out, g') ->
  length out = length output /\ (st <> Ok tt -> out = output) /\ st <> Panic.
Proof.
  assert (NP : fst (decode_headers mw mh g) <> Panic).
  { unfold decode_headers. destruct (gread g); [easy|]. destruct (test_gif (gs g)) as [[|] c]; cbn [negb]; [|easy].
    destruct (get_err LE 2 c) as [[| | |] c2]; try easy. destruct (get_err LE 2 c2) as [[| | |] c3]; try easy.
    destruct (read_u8_err c3) as [[f| | |] c4]; try easy. destruct (read_u8_err c4) as [[| | |] c5]; try easy.
    destruct (read_u8_err c5) as [[| | |] c6]; try easy. cbv zeta. destruct (mw <? a); [easy|]. destruct (mh <? a0); [easy|].
    match goal with |- context [let '(_, _) := ?e in _] => destruct e as [pal c7] end. easy. }
  unfold decode_into. destruct (decode_headers mw mh g) as [[u|e| |] g1]; cbn [fst] in NP; try congruence.
  - destruct (output_buf_size g1) as [size|].
    + destruct (Z.ltb_spec (Z.of_nat (length output)) size) as [H|H].
      * intros E. injection E as <- <- <-. easy.
      * cbv zeta. destruct (gframe g1 =? 0)%nat.
        -- intros E. apply (f_equal fst) in E. injection E as <- <-. split; [|easy]. rewrite app_length, repeat_length, skipn_length.
           clear - H. lia.
        -- intros E. apply (f_equal fst) in E. injection E as <- <-. easy.
    + intros E. injection E as <- <- <-. easy.
  - intros E. injection E as <- <- <-. easy.
  - intros E. injection E as <- <- <-. easy.
Qed.
Print Assumptions gif_buffer_safe.
