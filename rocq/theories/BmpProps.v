(** Properties of the BMP decoder: C26, C27, C51, C52. *)
From Verif Require Import Base BaseProof Loops Slices BmpModel BmpSpec BmpProof.

(** C26: any payload, any size the headers allow, any depth field: no panic, no endless loop, and a result is
    exactly the buffer that was allocated. *)
Theorem bmp_rle_safe d w h data : bytes data -> (0 < h)%nat -> Z.of_nat h <= 2 ^ 31 -> 0 <= d ->
  Z.of_nat (length data) < 2 ^ 55 ->
  match decode_rle d w h data with
  | Ok px => bytes px /\ Z.of_nat (length px) = (Z.of_nat w * Z.of_nat h * Z.max 8 d + 7) / 8
  | Err _ => True
  | Panic | Fuel => False
  end.
Proof.
  intros Hd Hh Hh2 Hdp Hlen. unfold decode_rle. rewrite as_i32_small by lia.
  replace (if d <? 8 then 8 else d) with (Z.max 8 d) by (destruct (d <? 8) eqn:E; lia).
  set (A := Z.of_nat w * Z.of_nat h). set (bits := A * Z.max 8 d).
  destruct ((2 ^ 64 <=? A) || (2 ^ 64 <=? bits) || (2 ^ 64 <=? bits + 7)) eqn:Eo; [easy|].
  assert (HA : 0 <= A) by (unfold A; nia).
  assert (HAb : A * 8 <= bits) by (unfold bits; nia).
  set (alloc := Z.to_nat ((bits + 7) / 8)).
  assert (Hal : (w * h <= alloc)%nat) by (unfold alloc, A in *; lia).
  replace (h =? 0)%nat with false by lia. replace (Z.of_nat h - 1 <? 0) with false by lia.
  replace (Z.to_nat (Z.of_nat h - 1)) with (h - 1)%nat by lia.
  assert (RB : ((h - 1) * w + w = w * h)%nat) by (destruct h; [lia|]; replace (S h - 1)%nat with h by lia; lia).
  replace (alloc <? (h - 1) * w)%nat with false by lia.
  destruct (negb _) eqn:Ed; [easy|].
  set (s := Rle data (repeat 0 alloc) (Z.of_nat h - 1) 0 ((h - 1) * w) (alloc - (h - 1) * w)).
  assert (W : wf alloc h s).
  { unfold wf, s. cbn [r_in r_pix r_line r_off r_len]. split; [easy|]. split; [apply repeat0_bytes|].
    split; [apply repeat_length|]. lia. }
  assert (Hw : Z.of_nat w < 2 ^ 62) by (unfold A in *; nia).
  assert (Hfin : Z.of_nat alloc = (bits + 7) / 8) by (unfold alloc; lia).
  destruct (d =? 4) eqn:E4.
  - assert (alloc = w * h)%nat by (unfold alloc, bits, A; rewrite Z.max_l by lia; lia).
    pose proof (loop4_safe alloc h w Hal Hw (length data + (h - 1) + 1) s W) as L.
    destruct (loop4 _ w s) as [px|e| |]; cbn [s r_len r_in r_line] in L;
      (specialize (L ltac:(lia) ltac:(lia)) || exact I); try easy.
    destruct L as [L1 L2]. split; [easy|]. now rewrite L2.
  - pose proof (loop8_safe alloc h w (Z.to_nat (d / 8)) (Z.of_nat alloc + 255 * Z.of_nat (length data)) Hal) as L.
    assert (Hk : (1 <= Z.to_nat (d / 8) <= 4)%nat) by lia.
    specialize (L Hk ltac:(lia) (length data) s W). cbn [s r_in r_pos] in L.
    specialize (L ltac:(lia) ltac:(lia) ltac:(lia)). fold s in L.
    destruct (loop8 _ _ w s) as [px|e| |]; try easy.
    destruct L as [L1 L2]. split; [easy|]. now rewrite L2.
Qed.
Print Assumptions bmp_rle_safe.
(** A run, a literal, a line end, a delta out to the right edge and an end mark. *)
Example bmp_rle_safe_ex :
  decode_rle 8 4 2 [3; 7;  0; 0;  0; 3; 9; 8; 7; 0;  0; 1] = Ok [9; 8; 7; 0; 7; 7; 7; 0].
Proof. vm_compute. reflexivity. Qed.
Example bmp_rle_safe_hostile : decode_rle 8 4 2 [0; 2; 255; 0;  0; 255; 1; 2; 3; 4; 5] = Err ECorrupt.
Proof. vm_compute. reflexivity. Qed.

(** C51: a conforming command stream ending in the end-of-bitmap mark draws what the commands say. *)
Theorem bmp_rle8_meaning w h l junk : (0 < h)%nat -> Z.of_nat h <= 2 ^ 31 -> (0 < w)%nat -> Z.of_nat w * Z.of_nat h < 2 ^ 60 ->
  Forall (cmd_ok 256) l -> fits w h (map act8 l) 0 0 ->
  exists px, decode_rle 8 w h (stream8 l ++ [0; 1] ++ junk) = Ok px /\ length px = (w * h)%nat /\
    forall x y, (x < w)%nat -> (y < h)%nat -> nth ((h - 1 - y) * w + x) px 0 = draw (map act8 l) 0 0 blank x y.
Proof. intros. now apply rle8_meaning. Qed.
Print Assumptions bmp_rle8_meaning.
Definition ex_cmds : list cmd := [Run 3 200; Eol; Delta 1 0; Lit [1; 2; 3]].
Example bmp_rle8_meaning_ex : Forall (cmd_ok 256) ex_cmds /\ fits 4 2 (map act8 ex_cmds) 0 0 /\
  draw (map act8 ex_cmds) 0 0 blank 2%nat 0%nat = 200 /\ draw (map act8 ex_cmds) 0 0 blank 2%nat 1%nat = 2.
Proof.
  split; [unfold ex_cmds; repeat apply Forall_cons; try apply Forall_nil; cbn; repeat split; try lia; repeat apply Forall_cons; try apply Forall_nil; lia|].
  split; [cbn; lia|]. split; reflexivity.
Qed.

Theorem bmp_rle8_last_eol w h l junk : (0 < h)%nat -> Z.of_nat h <= 2 ^ 31 -> (0 < w)%nat -> Z.of_nat w * Z.of_nat h < 2 ^ 60 ->
  Forall (cmd_ok 256) l -> fits w h (map act8 l) 0 0 -> end_y (map act8 l) 0 = (h - 1)%nat ->
  exists px, decode_rle 8 w h (stream8 l ++ [0; 0; 0; 1] ++ junk) = Ok px /\ length px = (w * h)%nat /\
    forall x y, (x < w)%nat -> (y < h)%nat -> nth ((h - 1 - y) * w + x) px 0 = draw (map act8 l) 0 0 blank x y.
Proof. intros. now apply rle8_meaning_eol. Qed.
Print Assumptions bmp_rle8_last_eol.
Example bmp_rle8_last_eol_ex : end_y (map act8 ex_cmds) 0 = (2 - 1)%nat.
Proof. reflexivity. Qed.

Theorem bmp_rle4_meaning_partial w h l junk : (0 < h)%nat -> Z.of_nat h <= 2 ^ 31 -> (0 < w)%nat -> Z.of_nat w * Z.of_nat h < 2 ^ 60 ->
  Forall (cmd_ok 16) l -> fits w h (map act4 l) 0 0 ->
  exists px, decode_rle 4 w h (stream4 l ++ [0; 1] ++ junk) = Ok px /\ length px = (w * h)%nat /\
    forall x y, (x < w)%nat -> (y < h)%nat -> nth ((h - 1 - y) * w + x) px 0 = draw (map act4 l) 0 0 blank x y.
Proof. intros. now apply rle4_meaning. Qed.
Print Assumptions bmp_rle4_meaning_partial.
Definition ex_cmds4 : list cmd := [Run 5 0x12; Eol; Lit [1; 2; 3]; Delta 1 0].
Example bmp_rle4_meaning_ex : Forall (cmd_ok 16) ex_cmds4 /\ fits 5 2 (map act4 ex_cmds4) 0 0 /\
  decode_rle 4 5 2 (stream4 ex_cmds4 ++ [0; 1]) = Ok [1; 2; 3; 0; 0; 1; 2; 1; 2; 1].
Proof.
  split; [unfold ex_cmds4; repeat apply Forall_cons; try apply Forall_nil; cbn; repeat split; try lia; repeat apply Forall_cons; try apply Forall_nil; lia|].
  split; [cbn; lia|]. vm_compute. reflexivity.
Qed.

(** Finding: the same line end after the last row that RLE8 accepts makes RLE4 fail. *)
Theorem bmp_rle4_last_eol_refuted : exists w h l, Forall (cmd_ok 16) l /\ fits w h (map act4 l) 0 0 /\
  end_y (map act4 l) 0 = (h - 1)%nat /\ (0 < w)%nat /\
  (exists px, decode_rle 4 w h (stream4 l ++ [0; 1]) = Ok px) /\
  decode_rle 4 w h (stream4 l ++ [0; 0; 0; 1]) = Err ECorrupt.
Proof.
  exists 5%nat, 2%nat, ex_cmds4. destruct bmp_rle4_meaning_ex as (A & B & C). split; [easy|]. split; [easy|]. split; [reflexivity|].
  split; [lia|]. split; [eexists; exact C|]. vm_compute. reflexivity.
Qed.
Print Assumptions bmp_rle4_last_eol_refuted.

(** C51, through the palette: the picture a caller receives. *)
Theorem bmp_rle_image pal four w h l junk : length pal = 256%nat ->
  (0 < h)%nat -> Z.of_nat h <= 2 ^ 31 -> (0 < w)%nat -> Z.of_nat w * Z.of_nat h < 2 ^ 60 ->
  bytes junk -> Z.of_nat (length ((if four : bool then stream4 l else stream8 l) ++ [0; 1] ++ junk)) < 2 ^ 55 ->
  Forall (cmd_ok (if four then 16 else 256)) l -> fits w h (map (if four then act4 else act8) l) 0 0 ->
  exists out, decode_rle_image pal (if four then 4 else 8) w h ((if four then stream4 l else stream8 l) ++ [0; 1] ++ junk) = Ok out /\
    length out = (w * h * 3)%nat /\
    forall x y c, (x < w)%nat -> (y < h)%nat -> (c < 3)%nat ->
      nth ((y * w + x) * 3 + c) out 0 =
      nth c (let '(r, g, b) := nth (Z.to_nat (draw (map (if four then act4 else act8) l) 0 0 blank x (h - 1 - y)%nat)) pal (0, 0, 0) in [r; g; b]) 0.
Proof.
  intros Hp Hh Hh2 Hw Hwh Hj Hlen Hok Hf. unfold decode_rle_image.
  assert (Hb : bytes ((if four then stream4 l else stream8 l) ++ [0; 1] ++ junk)).
  { apply bytes_app. split; [|apply bytes_app; split; [repeat apply Forall_cons; try apply Forall_nil; unfold is_byte; lia|easy]].
    assert (P4 : forall vs, Forall (fun v => 0 <= v < 16) vs -> bytes (pack4 vs)).
    { intros vs. induction vs as [|a|a b vs IH] using list_ind2; intros H; cbn [pack4]; [apply Forall_nil| |].
      - apply Forall_cons_iff in H as [H _]. apply Forall_cons; [unfold is_byte; lia|apply Forall_nil].
      - apply Forall_cons_iff in H as [H1 H]. apply Forall_cons_iff in H as [H2 H]. apply Forall_cons; [unfold is_byte; lia|exact (IH H)]. }
    assert (Z0 : forall n, bytes (repeat 0 n)) by (intros; apply repeat0_bytes).
    destruct four; [unfold stream4|unfold stream8]; apply Forall_forall; intros z Hz; apply in_concat in Hz as (e & He & Hz);
      apply in_map_iff in He as (cm & <- & Hc); rewrite Forall_forall in Hok; specialize (Hok cm Hc); revert Hz; apply Forall_forall; clear Hc.
    - destruct cm as [n v|vs| |dx dy]; cbn [enc4 cmd_ok] in *; repeat apply Forall_cons; try apply Forall_nil; unfold is_byte; try lia.
      apply bytes_app. split; [now apply P4|apply Z0].
    - destruct cm as [n v|vs| |dx dy]; cbn [enc8 cmd_ok] in *; repeat apply Forall_cons; try apply Forall_nil; unfold is_byte; try lia.
      apply bytes_app. split; [apply Hok|apply Z0]. }
  assert (D : exists px, decode_rle (if four then 4 else 8) w h ((if four then stream4 l else stream8 l) ++ [0; 1] ++ junk) = Ok px /\
     shows w h px (draw (map (if four then act4 else act8) l) 0 0 blank)).
  { destruct four; [now apply rle4_meaning|now apply rle8_meaning]. }
  destruct D as (px & E & S).
  pose proof (bmp_rle_safe (if four then 4 else 8) w h _ Hb Hh Hh2 ltac:(destruct four; lia) Hlen) as B. rewrite E in B.
  rewrite E. cbn [bind]. destruct (rle_image_spec pal w h _ px Hp Hw Hh (proj1 B) S) as (out & E2 & L & N).
  exists out. now repeat split.
Qed.
Print Assumptions bmp_rle_image.
Definition ex_pal : list (Z * Z * Z) := map (fun i => (Z.of_nat i, 255 - Z.of_nat i, 7)) (seq 0 256).
Example bmp_rle_image_ex : length ex_pal = 256%nat /\
  decode_rle_image ex_pal 8 2 2 (stream8 [Run 2 5; Eol; Run 1 9] ++ [0; 1]) =
    Ok [9; 246; 7; 0; 255; 7;  5; 250; 7; 5; 250; 7].
Proof. split; vm_compute; reflexivity. Qed.

(** C27: a contiguous field of up to eight bits is replicated to eight; of a wider one the top eight are kept. *)
Theorem bmp_field_replicates s n v : 0 <= s -> 1 <= n <= 8 -> s + n <= 32 -> is_u32 v ->
  field (mask s n) v = Ok (replicate n ((v / 2 ^ s) mod 2 ^ n)).
Proof. intros Hs Hn Hsn [Hv _]. rewrite field_spec by lia. cbv zeta. now replace (n <=? 8) with true by lia. Qed.
Print Assumptions bmp_field_replicates.
Example bmp_field_replicates_ex : field (mask 11 5) 0xA800 = Ok 0xAD /\ mask 11 5 = 0xF800.
Proof. split; reflexivity. Qed.

Theorem bmp_field_range n : 1 <= n <= 8 ->
  replicate n 0 = 0 /\ replicate n (2 ^ n - 1) = 255 /\
  (forall f, 0 <= f < 2 ^ n -> 0 <= replicate n f <= 255) /\
  (forall f g, 0 <= f -> f < g -> g < 2 ^ n -> replicate n f < replicate n g).
Proof.
  intros Hn. split; [|split; [|split]].
  - assert (n = 1 \/ n = 2 \/ n = 3 \/ n = 4 \/ n = 5 \/ n = 6 \/ n = 7 \/ n = 8) as H by lia.
    decompose [or] H; subst; reflexivity.
  - assert (n = 1 \/ n = 2 \/ n = 3 \/ n = 4 \/ n = 5 \/ n = 6 \/ n = 7 \/ n = 8) as H by lia.
    decompose [or] H; subst; reflexivity.
  - intros f Hf. destruct (mul_facts n f Hn Hf) as (_ & _ & H & _). lia.
  - intros f g. now apply replicate_mono.
Qed.
Print Assumptions bmp_field_range.
Example bmp_field_range_ex : map (replicate 2) [0; 1; 2; 3] = [0; 85; 170; 255] /\ replicate 3 5 = 0xB6.
Proof. split; reflexivity. Qed.

Theorem bmp_field_wide s n v : 0 <= s -> 8 < n -> s + n <= 32 -> is_u32 v ->
  field (mask s n) v = Ok (((v / 2 ^ s) mod 2 ^ n) / 2 ^ (n - 8)).
Proof. intros Hs Hn Hsn [Hv _]. rewrite field_spec by lia. cbv zeta. now replace (n <=? 8) with false by lia. Qed.
Print Assumptions bmp_field_wide.
Example bmp_field_wide_ex : field (mask 20 10) 0x2AB00000 = Ok 0xAA.
Proof. reflexivity. Qed.

(** Whatever the masks in the file are (overlapping, with gaps, empty), extraction cannot panic. *)
Theorem bmp_field_safe m v : is_u32 m -> is_u32 v -> exists r, field m v = Ok r /\ is_byte r.
Proof. apply field_total. Qed.
Print Assumptions bmp_field_safe.
Example bmp_field_safe_ex : field 0xF0F00001 0xFFFFFFFF = Ok 240.
Proof. reflexivity. Qed.

(** C52: every pixel of a 24-bit image is the triple at its place in the file, and a file too short for its
    rows is an error (the padding of the last row may be missing). *)
Theorem bmp24_pixels bgra down w h data : (0 < w)%nat -> (0 < h)%nat -> ((h - 1) * stride w 24 + w * 3 <= length data)%nat ->
  exists out, decode24 bgra down w h data = Ok out /\ length out = (w * h * 3)%nat /\
    forall x y c, (x < w)%nat -> (y < h)%nat -> (c < 3)%nat ->
      nth ((y * w + x) * 3 + c) out 0 =
      nth (stored_row down h y * stride w 24 + x * 3 + (if bgra then c else 2 - c)) data 0.
Proof.
  intros Hw Hh Hl. pose proof (decode24_spec bgra down w h data Hw) as H.
  now replace ((h =? 0) || ((h - 1) * stride w 24 + w * 3 <=? length data))%nat with true in H by lia.
Qed.
Print Assumptions bmp24_pixels.
Example bmp24_pixels_ex : stride 1 24 = 4%nat /\ decode24 false false 1 2 [1; 2; 3; 0; 4; 5; 6; 0] = Ok [6; 5; 4; 3; 2; 1]
  /\ decode24 false true 1 3 [1; 2; 3; 0; 4; 5; 6; 0; 7; 8; 9; 0] = Ok [3; 2; 1; 6; 5; 4; 9; 8; 7].
Proof. repeat split; vm_compute; reflexivity. Qed.

Theorem bmp24_short bgra down w h data : (0 < w)%nat -> (0 < h)%nat -> (length data < (h - 1) * stride w 24 + w * 3)%nat ->
  decode24 bgra down w h data = Err EEof.
Proof.
  intros Hw Hh Hl. pose proof (decode24_spec bgra down w h data Hw) as H.
  now replace ((h =? 0) || ((h - 1) * stride w 24 + w * 3 <=? length data))%nat with false in H by lia.
Qed.
Print Assumptions bmp24_short.
Example bmp24_short_ex : decode24 false false 1 2 [1; 2; 3; 0; 4; 5] = Err EEof.
Proof. reflexivity. Qed.

(** Every pixel of an 8-bit palette image is the palette entry of the index at its place in the file; bytes
    missing at the end of the file count as index 0. *)
Theorem bmp8_pixels pal down w h data : length pal = 256%nat -> (0 < w)%nat -> bytes data ->
  exists out, decode_pal8 pal down w h data = Ok out /\ length out = (w * h * 3)%nat /\
    forall x y c, (x < w)%nat -> (y < h)%nat -> (c < 3)%nat ->
      nth ((y * w + x) * 3 + c) out 0 =
      nth c (let '(r, g, b) := nth (Z.to_nat (nth (stored_row down h y * stride w 8 + x) data 0)) pal (0, 0, 0) in [r; g; b]) 0.
Proof. intros. now apply decode_pal8_spec. Qed.
Print Assumptions bmp8_pixels.
Example bmp8_pixels_ex : decode_pal8 ex_pal false 2 2 [1; 2; 99; 99; 3] = Ok [3; 252; 7; 0; 255; 7; 1; 254; 7; 2; 253; 7].
Proof. vm_compute. reflexivity. Qed.
