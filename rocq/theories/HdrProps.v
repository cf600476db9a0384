(** Properties of zune-hdr: C22 (run-length scanlines), C23 (published buffer size). *)
From Verif Require Import Base BaseProof Loops Slices DecText HdrModel HdrSpec HdrProof.

(** ** C22 *)

(** The coder terminates without a panic on every plane and emits well-formed packets for exactly that plane. *)
Theorem hdr_rle_well_formed : forall p, exists c, rle (S (length p)) p (length p) 0 = Ok c /\ plane_code c p.
Proof.
  intros p. destruct (rle_ok (S (length p)) p (length p) 0) as (c & E & C & _); [reflexivity|lia|lia|]. eauto.
Qed.
Example hdr_rle_well_formed_ex :
  rle 20 [5; 5; 9; 9; 9; 9; 9; 1; 2; 2; 3] 11 0 = Ok [130; 5; 133; 9; 4; 1; 2; 2; 3].
Proof. vm_compute. reflexivity. Qed.
Print Assumptions hdr_rle_well_formed.

(** The decoder expands every well-formed plane, whoever wrote it, and stops at its end. *)
Theorem hdr_plane_decodes : forall c p rest, plane_code c p ->
  decode_plane (length (c ++ rest)) (length p) (c ++ rest) [] = Ok (p, rest).
Proof.
  intros c p rest H. apply (decode_plane_code c p H); [rewrite app_length; lia|reflexivity].
Qed.
Example hdr_plane_decodes_ex :
  plane_code [129; 7; 2; 4; 4; 130; 1] [7; 4; 4; 1; 1] /\
  decode_plane 9 5 [129; 7; 2; 4; 4; 130; 1; 99; 98] [] = Ok ([7; 4; 4; 1; 1], [99; 98]).
Proof.
  split; [|vm_compute; reflexivity].
  apply (pc_run 1 7 _ [4; 4; 1; 1]); [lia|]. apply (pc_lit [4; 4] _ [1; 1]); [cbn [length]; lia|].
  apply (pc_run 2 1 _ []); [lia|constructor].
Qed.
Print Assumptions hdr_plane_decodes.

Theorem hdr_plane_round_trip : forall p rest, exists c, rle (S (length p)) p (length p) 0 = Ok c /\
  decode_plane (length (c ++ rest)) (length p) (c ++ rest) [] = Ok (p, rest).
Proof.
  intros p rest. destruct (hdr_rle_well_formed p) as (c & E & C). exists c. split; [exact E|]. now apply hdr_plane_decodes.
Qed.
Example hdr_plane_round_trip_ex :
  exists c, rle 301 (repeat 8 290 ++ [1; 2; 2; 2; 2; 2; 3; 3; 4; 4]) 300 0 = Ok c /\ length c = 15%nat /\
  decode_plane 18 300 (c ++ [77]) [] = Ok (repeat 8 290 ++ [1; 2; 2; 2; 2; 2; 3; 3; 4; 4], [77]).
Proof. eexists. split; [vm_compute; reflexivity|]. split; vm_compute; reflexivity. Qed.
Print Assumptions hdr_plane_round_trip.

Lemma data_rows w h (data : list Z) : (1 <= w)%nat -> length data = (4 * w * h)%nat ->
  length (chunks_exact (4 * w) data) = h /\ concat (chunks_exact (4 * w) data) = data /\
  Forall (fun sc => length sc = (4 * w)%nat) (chunks_exact (4 * w) data).
Proof.
  intros Hw Hl.
  assert (Lr : length (chunks_exact (4 * w) data) = h).
  { rewrite chunks_exact_length by lia. rewrite Hl, Nat.mul_comm. apply Nat.div_mul. lia. }
  split; [exact Lr|]. split; [|apply chunks_exact_lengths].
  apply chunks_exact_concat; [lia|]. rewrite Hl, Nat.mul_comm. apply Nat.mod_mul. lia.
Qed.

(** Whole files, header included: for every image whose width selects run-length coding the decoder returns the
    dimensions and the pixel bytes, whatever follows in the input. *)
Theorem hdr_image_round_trip : forall w h data mw mh rest, 8 <= Z.of_nat w <= 32767 -> Z.of_nat h < 2 ^ 64 ->
  Z.of_nat w <= mw -> Z.of_nat h <= mh -> length data = (4 * w * h)%nat ->
  exists c, hdr_encode w h data = Ok c /\ hdr_decode mw mh (c ++ rest) = Ok (w, h, data).
Proof.
  intros w h data mw mh rest Hw Hh Hmw Hmh Hl. unfold hdr_encode, hdr_decode.
  replace (length data =? 4 * w * h)%nat with true by lia. cbn [negb].
  destruct (data_rows w h data) as (A & B & C); [lia|exact Hl|].
  assert (Hu : use_rle w = true) by (unfold use_rle; lia).
  destruct (encode_scanlines_rle w _ Hu C) as (c & E & D & _). rewrite E. cbn [bind].
  eexists. split; [reflexivity|]. rewrite <- !app_assoc. rewrite hdr_headers_ok by lia. cbn [bind].
  rewrite !Nat2Z.id. replace (w =? 0)%nat with false by lia. rewrite A, B in D. rewrite D. reflexivity.
Qed.
Definition ex_px : list Z := [130; 5; 1; 120; 130; 5; 1; 120; 130; 6; 1; 120; 130; 7; 1; 120; 130; 5; 1; 121; 2; 5; 200; 120; 2; 5; 200; 120; 0; 0; 0; 0].
Example hdr_image_round_trip_ex :
  exists c, hdr_encode 8 2 (ex_px ++ rev ex_px) = Ok c /\ length c = 127%nat /\
    hdr_decode 16384 16384 c = Ok (8%nat, 2%nat, ex_px ++ rev ex_px).
Proof. eexists. split; [vm_compute; reflexivity|]. split; vm_compute; reflexivity. Qed.
Print Assumptions hdr_image_round_trip.

(** A pixel as RGBE intends: black, or with one component of at least 128. (The encoder's own conversion leaves others
    for dark colours, see [hdr_narrow_dark_refuted] in HdrFloatProps.) *)
Fixpoint normalised (px : list Z) : Prop :=
  match px with
  | [] => True
  | r :: g :: b :: e :: px' => ((r = 0 /\ g = 0 /\ b = 0 /\ e = 0) \/ 128 <= r \/ 128 <= g \/ 128 <= b) /\ normalised px'
  | _ => False
  end.
Lemma normalised_split n px : normalised px -> normalised (firstn (4 * n) px) /\ normalised (skipn (4 * n) px).
Proof.
  revert px. induction n as [|n IH]; intros px H; [split; [exact I|exact H]|].
  destruct px as [|r [|g [|b [|e px]]]]; cbn [normalised] in H; try contradiction; [split; rewrite ?firstn_nil, ?skipn_nil; exact I|].
  replace (4 * S n)%nat with (S (S (S (S (4 * n))))) by lia. cbn [firstn skipn normalised].
  destruct H as [H1 H2]. destruct (IH px H2). auto.
Qed.
Lemma normalised_marker_free n : forall px, length px = (4 * n)%nat -> normalised px -> marker_free px.
Proof.
  induction n as [|n IH]; intros px Hl H k Hk; [lia|].
  destruct px as [|r [|g [|b [|e px]]]]; cbn [length] in Hl; try lia. cbn [normalised] in H. destruct H as [H1 H2].
  destruct k as [|k].
  - cbn [Nat.mul Nat.add nth]. lia.
  - replace (4 * S k + 1)%nat with (S (S (S (S (4 * k + 1))))) by lia.
    replace (4 * S k + 2)%nat with (S (S (S (S (4 * k + 2))))) by lia.
    replace (4 * S k)%nat with (S (S (S (S (4 * k))))) by lia. cbn [nth length] in *. apply IH; [lia|exact H2|lia].
Qed.
Lemma normalised_rows w (data : list Z) : (1 <= w)%nat -> normalised data -> Forall normalised (chunks_exact (4 * w) data).
Proof.
  intros Hw. unfold chunks_exact. destruct (4 * w)%nat eqn:E; [lia|]. rewrite <- E.
  generalize (length data) at 1. intros f. clear E. revert data. induction f as [|f IH]; intros data H; cbn [chunks_exact_aux]; [constructor|].
  destruct (4 * w <=? length data)%nat; [|constructor]. destruct (normalised_split w data H). constructor; auto.
Qed.

(** Narrow and very wide images are stored flat; the round trip holds for every pixel the encoder can write. *)
Theorem hdr_flat_round_trip : forall w h data mw mh rest, (1 <= w)%nat -> ~ 8 <= Z.of_nat w <= 32767 ->
  Z.of_nat w < 2 ^ 31 -> Z.of_nat h < 2 ^ 64 -> Z.of_nat w <= mw -> Z.of_nat h <= mh -> length data = (4 * w * h)%nat ->
  normalised data ->
  exists c, hdr_encode w h data = Ok c /\ hdr_decode mw mh (c ++ rest) = Ok (w, h, data).
Proof.
  intros w h data mw mh rest Hw Hu Hw31 Hh Hmw Hmh Hl Hn. unfold hdr_encode, hdr_decode.
  replace (length data =? 4 * w * h)%nat with true by lia. cbn [negb].
  destruct (data_rows w h data Hw Hl) as (A & B & C).
  assert (Hu' : use_rle w = false) by (unfold use_rle; lia).
  assert (F : Forall (fun sc => length sc = (4 * w)%nat /\ marker_free sc) (chunks_exact (4 * w) data)).
  { pose proof (normalised_rows w data Hw Hn) as N. apply Forall_forall. intros sc Hs. rewrite Forall_forall in C, N.
    split; [now apply C|]. apply (normalised_marker_free w); [now apply C|now apply N]. }
  destruct (encode_scanlines_flat w _ Hu' Hw F (repeat 0 (4 * w)) rest) as [E D]; [apply repeat_length|].
  rewrite E. cbn [bind]. eexists. split; [reflexivity|]. rewrite <- !app_assoc. rewrite hdr_headers_ok by lia. cbn [bind].
  rewrite !Nat2Z.id. replace (w =? 0)%nat with false by lia. rewrite A, B in *. rewrite D. reflexivity.
Qed.
Example hdr_flat_round_trip_ex :
  normalised [1; 1; 200; 9; 0; 0; 0; 0; 128; 1; 1; 1] /\
  exists c, hdr_encode 3 1 [1; 1; 200; 9; 0; 0; 0; 0; 128; 1; 1; 1] = Ok c /\
    hdr_decode 16384 16384 c = Ok (3%nat, 1%nat, [1; 1; 200; 9; 0; 0; 0; 0; 128; 1; 1; 1]).
Proof.
  split; [cbn [normalised]; lia|]. eexists. split; [vm_compute; reflexivity|]. vm_compute. reflexivity.
Qed.
Print Assumptions hdr_flat_round_trip.

(** Every input, however malformed: the decoder stops with an error or with exactly [w * h] pixels, within the
    limits set by the caller. *)
Theorem hdr_decode_safe : forall mw mh input,
  match hdr_decode mw mh input with
  | Ok (w, h, data) => length data = (4 * w * h)%nat /\ Z.of_nat w <= mw /\ Z.of_nat h <= mh
  | Err _ => True
  | _ => False
  end.
Proof.
  intros mw mh input. unfold hdr_decode.
  assert (H : match hdr_headers mw mh input with
    | Ok (w, h, _) => Z.of_nat w <= mw /\ Z.of_nat h <= mh | Err _ => True | _ => False end).
  { pose proof (hdr_headers_total mw mh input) as T. unfold hdr_headers in *. destruct (until 10 input) as [line i0].
    destruct (negb _); [exact I|]. destruct (skip_lines_total (length i0) i0 (le_n _)) as (i1 & E1). rewrite E1 in *. cbn [bind] in *.
    destruct (until 32 i1) as [t1 i2], (until 32 i2) as [c1 i3], (until 32 i3) as [t2 i4], (until 10 i4) as [c2 i5].
    assert (P : forall l z, parse_usize l = Some z -> 0 <= z).
    { clear. intros l z. unfold parse_usize. set (l' := match l with 43 :: _ => _ | _ => _ end).
      destruct l' as [|c l0] eqn:El; [discriminate|]. rewrite <- El. clear El l0 c.
      destruct (forallb is_digit l' && _) eqn:E; [|discriminate]. intros X. injection X as <-.
      apply andb_true_iff in E. destruct E as [E _]. clearbody l'. clear l. rename l' into l.
      unfold dec_val. assert (G : forall l a, forallb is_digit l = true -> 0 <= a -> 0 <= fold_left (fun a c => a * 10 + (c - 48)) l a).
      { clear. induction l as [|c l IH]; intros a H Ha; cbn [fold_left forallb] in *; [exact Ha|].
        apply andb_true_iff in H. destruct H as [Hc Hl]. unfold is_digit in Hc. apply IH; [exact Hl|lia]. }
      apply G; [exact E|lia]. }
    destruct (if zeqb_list (trim t1) [45; 89] && zeqb_list (trim t2) [43; 88] then _ else _) as [[hs ws]| | |]; cbn [bind] in *; try assumption.
    destruct (parse_usize hs) eqn:Eh, (parse_usize ws) eqn:Ew; try exact I.
    apply P in Eh. apply P in Ew. destruct (Z.ltb_spec mh z); [exact I|]. destruct (Z.ltb_spec mw z0); [exact I|]. lia. }
  destruct (hdr_headers mw mh input) as [[[w h] body]| | |]; cbn [bind]; try assumption.
  destruct (w =? 0)%nat; [exact I|].
  pose proof (decode_scanlines_total h w (repeat 0 (4 * w)) body (repeat_length _ _)) as D.
  destruct (decode_scanlines h w (repeat 0 (4 * w)) body); cbn [bind]; auto.
Qed.
Example hdr_decode_safe_ex :
  hdr_decode 100 100 (hdr_magic ++ [10] ++ hdr_dims 1 3 ++ [9; 9; 9; 9; 1; 1; 1; 255; 8; 8; 8; 8]) = Err EEof /\
  hdr_decode 100 100 (hdr_magic ++ [10] ++ hdr_dims 1 4 ++ [9; 9; 9; 9; 8; 7; 6; 5; 1; 1; 1; 3]) =
    Ok (4%nat, 1%nat, [9; 9; 9; 9; 8; 7; 6; 5; 1; 1; 1; 3; 0; 0; 0; 0]).
Proof. split; vm_compute; reflexivity. Qed.
Print Assumptions hdr_decode_safe.

(** ** C23 *)

(** The published size does not always suffice: incompressible rows grow. *)
Definition noisy (n : nat) : list Z := map (fun i => (Z.of_nat i * 37) mod 256) (seq 0 n).
Theorem hdr_buffer_size_refuted : exists w h data c, bytes data /\ hdr_encode w h data = Ok c /\
  (expected_buffer_size w h < length c)%nat.
Proof.
  assert (L : match hdr_encode 8 128 (noisy 4096) with Ok c => (expected_buffer_size 8 128 <? length c)%nat | _ => false end = true)
    by (vm_compute; reflexivity).
  exists 8%nat, 128%nat, (noisy 4096).
  destruct (hdr_encode 8 128 (noisy 4096)) as [c| | |]; [|discriminate L..].
  exists c. split; [|split; [reflexivity|now apply Nat.ltb_lt]].
  apply Forall_forall. intros x Hx. apply in_map_iff in Hx. destruct Hx as (i & <- & _). unfold is_byte. lia.
Qed.
Print Assumptions hdr_buffer_size_refuted.

(** The true worst case: each plane of a row costs one extra byte per started group of 128 entries, and each row
    four marker bytes. *)
Theorem hdr_size_bound : forall w h data c, 8 <= Z.of_nat w <= 32767 -> Z.of_nat h < 2 ^ 64 -> hdr_encode w h data = Ok c ->
  Z.of_nat (length c) <= 101 + Z.of_nat h * (4 + 4 * (Z.of_nat w + (Z.of_nat w + 127) / 128)).
Proof.
  intros w h data c Hw Hh E. unfold hdr_encode in E.
  destruct (Nat.eqb_spec (length data) (4 * w * h)) as [Hl|]; cbn [negb] in E; [|discriminate E].
  destruct (data_rows w h data) as (A & B & C); [lia|exact Hl|].
  assert (Hu : use_rle w = true) by (unfold use_rle; lia).
  assert (R : forall scs, Forall (fun sc => length sc = (4 * w)%nat) scs -> exists c, encode_scanlines w scs = Ok c /\
    Z.of_nat (length c) <= Z.of_nat (length scs) * (4 + 4 * (Z.of_nat w + (Z.of_nat w + 127) / 128))).
  { induction scs as [|sc scs IH]; intros HF; [exists []; split; [reflexivity|cbn [length]; lia]|].
    apply Forall_cons_iff in HF. destruct HF as [Hs HF]. destruct (IH HF) as (c1 & E1 & S1).
    cbn [encode_scanlines]. unfold encode_scanline. rewrite Hu.
    destruct (rle_ok (S w) (plane 0 sc w) w 0) as (c0' & E0' & _ & L0 & _); [apply plane_length|lia|lia|].
    destruct (rle_ok (S w) (plane 1 sc w) w 0) as (c1' & E1' & _ & L1 & _); [apply plane_length|lia|lia|].
    destruct (rle_ok (S w) (plane 2 sc w) w 0) as (c2' & E2' & _ & L2 & _); [apply plane_length|lia|lia|].
    destruct (rle_ok (S w) (plane 3 sc w) w 0) as (c3' & E3' & _ & L3 & _); [apply plane_length|lia|lia|].
    rewrite E0', E1', E2', E3'. cbn [bind]. rewrite E1. cbn [bind]. eexists. split; [reflexivity|].
    rewrite !app_length. cbn [length]. rewrite Nat.sub_0_r in *. clear - L0 L1 L2 L3 S1 Hw.
    set (q := (Z.of_nat w + 127) / 128) in *. assert (Q : 128 * q <= Z.of_nat w + 127 < 128 * q + 128) by (unfold q; lia). clearbody q.
    set (U := 4 + 4 * (Z.of_nat w + q)) in *.
    assert (Z.of_nat (length c0') <= Z.of_nat w + q) by lia. assert (Z.of_nat (length c1') <= Z.of_nat w + q) by lia.
    assert (Z.of_nat (length c2') <= Z.of_nat w + q) by lia. assert (Z.of_nat (length c3') <= Z.of_nat w + q) by lia.
    assert (Z.of_nat (S (length scs)) * U = Z.of_nat (length scs) * U + U) by lia. unfold U in *. lia. }
  destruct (R _ C) as (body & E1 & S1). rewrite E1 in E. cbn [bind] in E. apply (f_equal (fun r => match r with Ok x => length x | _ => O end)) in E. cbv beta iota in E. rewrite <- E. rewrite A in S1.
  unfold hdr_dims. pose proof (dec_length 20 (Z.of_nat h)). pose proof (dec_length 20 (Z.of_nat w)). unfold dec.
  rewrite !app_length. cbn [length hdr_magic hdr_software hdr_format]. lia.
Qed.
Example hdr_size_bound_ex : exists c, hdr_encode 8 3 (noisy 96) = Ok c /\ length c = 183%nat.
Proof. eexists. split; vm_compute; reflexivity. Qed.
Print Assumptions hdr_size_bound.

(** The published size suffices for flat images and for run-length images of few enough rows. *)
Theorem hdr_buffer_size_partial : forall w h data c, (1 <= w)%nat -> Z.of_nat h < 2 ^ 64 -> Z.of_nat w < 2 ^ 64 ->
  (8 <= Z.of_nat w <= 32767 -> Z.of_nat h * (4 + 4 * ((Z.of_nat w + 127) / 128)) <= 923) ->
  hdr_encode w h data = Ok c -> (length c <= expected_buffer_size w h)%nat.
Proof.
  intros w h data c Hw Hh Hw64 Hfew E. unfold expected_buffer_size.
  destruct (use_rle w) eqn:Hu.
  - assert (Hr : 8 <= Z.of_nat w <= 32767) by (unfold use_rle in Hu; lia).
    pose proof (hdr_size_bound w h data c Hr Hh E) as S1. specialize (Hfew Hr).
    set (q := (Z.of_nat w + 127) / 128) in *. clearbody q. nia.
  - unfold hdr_encode in E. destruct (Nat.eqb_spec (length data) (4 * w * h)) as [Hl|]; cbn [negb] in E; [|discriminate E].
    destruct (data_rows w h data Hw Hl) as (A & B & C). rewrite flat_any, B in E by exact Hu. cbn [bind] in E. apply (f_equal (fun r => match r with Ok x => length x | _ => O end)) in E. cbv beta iota in E. rewrite <- E.
    unfold hdr_dims. pose proof (dec_length 20 (Z.of_nat h)). pose proof (dec_length 20 (Z.of_nat w)). unfold dec.
    rewrite !app_length. cbn [length hdr_magic hdr_software hdr_format]. lia.
Qed.
Example hdr_buffer_size_partial_ex : exists c, hdr_encode 8 115 (noisy 3680) = Ok c /\ (length c <= expected_buffer_size 8 115)%nat.
Proof. eexists. split; [vm_compute; reflexivity|]. apply Nat.leb_le. vm_compute. reflexivity. Qed.
Print Assumptions hdr_buffer_size_partial.
