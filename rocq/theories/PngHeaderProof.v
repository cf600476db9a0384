From Verif Require Import Base BaseProof Loops Slices StreamModel StreamSpec StreamProof CrcModel CrcSpec CrcProof PngFilterModel PngFilterSpec PngFilterProps
  BitReaderProof InflateModel PngRowModel PngModel PngSpec PngFileSpec PngRowProof PngChunkProof PngNoteProof PngLoopProof PngInterProof PngFileProof.

(** * Files that are accepted *)
(** Whatever header is read, nothing but the place changes and as many bytes as announced are there *)
Lemma header_inv s len name s' : read_chunk_header s = Ok (len, name, s') ->
  let r := remaining (strm s) in
  s' = advance s 8 /\ (12 + len <= length r)%nat /\ len = Z.to_nat (be_val (firstn 4 r)) /\ name = firstn 4 (skipn 4 r) /\
  (o_crc (opts s) = true -> bytes r -> be_val (firstn 4 (skipn (8 + len) r)) = crc32 (firstn (4 + len) (skipn 4 r))).
Proof.
  cbv zeta. unfold read_chunk_header. rewrite get_err_spec. destruct (Nat.leb_spec 4 (length (remaining (strm s)))) as [L4|]; [|discriminate]. cbn [bind].
  set (c4 := at_pos (strm s) (cpos (strm s) + 4)). assert (R4 : remaining c4 = skipn 4 (remaining (strm s))) by apply remaining_at.
  rewrite read_fixed_or_error_spec, R4. destruct (Nat.leb_spec 4 (length (skipn 4 (remaining (strm s))))) as [L8|]; [|discriminate]. cbn [bind].
  set (c8 := at_pos c4 (cpos c4 + 4)). assert (R8 : remaining c8 = skipn 8 (remaining (strm s))).
  { unfold c8. rewrite remaining_at, R4. now rewrite skipn_skipn'. }
  rewrite peek_at_spec, R8. change (of_bytes BE) with be_val. set (n := Z.to_nat (be_val (firstn 4 (remaining (strm s))))).
  replace (peek_cap <? Z.of_nat 4) with false by reflexivity. change (4 =? 0)%nat with false. rewrite orb_false_r.
  assert (E8 : at_cursor c8 s = advance s 8) by (unfold advance, c8, c4, at_pos; cbn [cpos cdata]; rewrite <- Nat.add_assoc; reflexivity).
  rewrite skipn_length in *.
  destruct ((4 <=? length (remaining (strm s)) - 8 - n)%nat && (n <=? length (remaining (strm s)) - 8)%nat) eqn:P; [|discriminate]. apply andb_true_iff in P. destruct P as [P1 P2]. cbn [bind].
  destruct (o_crc (opts s)).
  - unfold rewind, c8. rewrite seek_cur_back by (unfold c4, at_pos; cbn [cpos]; lia). replace (cpos c4 + 4 - 4)%nat with (cpos c4) by lia. rewrite at_pos_same. cbn [bind].
    rewrite peek_at_spec.
    destruct (peek_cap <? Z.of_nat (n + 4)); [discriminate|]. rewrite R4, skipn_length.
    destruct ((n + 4 <=? _)%nat && _); [|discriminate]. cbn [bind]. rewrite skipn_O.
    destruct (calc_crc (firstn (n + 4) (skipn 4 (remaining (strm s))))) as [calc| | |] eqn:C; try discriminate. cbn [bind].
    destruct (Z.eqb_spec (be_val (firstn 4 (skipn n (skipn 8 (remaining (strm s)))))) calc) as [Q|]; [|discriminate]. cbn [negb]. rewrite skip_spec. cbn [bind].
    intros H. injection H as H1 H2 H3. subst len name s'. split; [exact E8|]. split; [lia|]. split; [reflexivity|]. split; [reflexivity|]. intros _ B.
    rewrite png_crc_is_crc32 in C by now apply bytes_firstn', bytes_skipn'. injection C as C. replace (skipn (8 + n) (remaining (strm s))) with (skipn n (skipn 8 (remaining (strm s)))) by (rewrite skipn_skipn'; f_equal; lia). rewrite (Nat.add_comm 4 n). 
    rewrite Q. symmetry. exact C.
  - intros H. injection H as H1 H2 H3. subst len name s'. split; [exact E8|]. split; [lia|]. split; [reflexivity|]. split; [reflexivity|]. discriminate.
Qed.

(** ** C17 — the header *)
Definition limits (o : popts) (i : info) : Prop :=
  (0 < i_w i <= o_max_w o)%nat /\ (0 < i_h i <= o_max_h o)%nat /\ In (i_depth i) [1; 2; 4; 8; 16]%nat /\ (i_color i = CPalette -> i_depth i <> 16%nat).
(** Of the thirteen bytes *)
Definition reads_ihdr (i : info) (d : list Z) : Prop :=
  i_w i = Z.to_nat (be_val (firstn 4 d)) /\ i_h i = Z.to_nat (be_val (firstn 4 (skipn 4 d))) /\ i_depth i = Z.to_nat (nth 8 d 0) /\
  color_of_int (nth 9 d 0) = Some (i_color i) /\ nth 10 d 0 = 0 /\ 0 <= nth 11 d 0 <= 4 /\ (if i_adam7 i then nth 12 d 0 = 1 else nth 12 d 0 = 0).
Lemma ihdr_inv s len s' d R : parse_ihdr len s = Ok s' -> ahead s (d ++ R) -> length d = 13%nat -> bytes d ->
  hdr s = None /\ len = 13%nat /\ exists i, s' = advance (with_hdr i s) 17 /\ limits (opts s) i /\ reads_ihdr i d.
Proof.
  intros H A L B. unfold parse_ihdr in H. destruct (hdr s) eqn:Hh; [discriminate|]. split; [reflexivity|].
  destruct (Nat.eqb_spec len 13) as [E|]; [|discriminate]. cbn [negb] in H. split; [exact E|]. unfold ahead in A.
  destruct d as [|w0 [|w1 [|w2 [|w3 [|h0 [|h1 [|h2 [|h3 [|d [|k [|z [|f [|a [|]]]]]]]]]]]]]]; try discriminate L. cbn [app] in A.
  set (T1 := h0 :: h1 :: h2 :: h3 :: d :: k :: z :: f :: a :: R). assert (A' : remaining (strm s) = [w0; w1; w2; w3] ++ T1) by exact A.
  rewrite (get_zero_ok 4 _ _ _ A' eq_refl) in H. pose proof (fwd_remaining _ _ _ _ A' eq_refl) as A1. unfold T1 in A1. cbn [length] in A1.
  set (T2 := d :: k :: z :: f :: a :: R). assert (A1' : remaining (fwd (strm s) 4) = [h0; h1; h2; h3] ++ T2) by exact A1.
  rewrite (get_zero_ok 4 _ _ _ A1' eq_refl) in H. pose proof (fwd_remaining _ _ _ _ A1' eq_refl) as A2. unfold T2 in A2. cbn [length] in A2.
  assert (Pw : 0 <= be_val [w0; w1; w2; w3]) by (apply be_val_bound; exact (bytes_firstn' 4 _ B)).
  assert (Ph : 0 <= be_val [h0; h1; h2; h3]) by (apply be_val_bound; exact (bytes_firstn' 4 _ (bytes_skipn' 4 _ B))).
  set (w := be_val [w0; w1; w2; w3]) in *. set (h := be_val [h0; h1; h2; h3]) in *.
  destruct ((w =? 0) || (h =? 0)) eqn:Z0; [discriminate|]. destruct (Z.ltb_spec (Z.of_nat (o_max_w (opts s))) w); [discriminate|]. destruct (Z.ltb_spec (Z.of_nat (o_max_h (opts s))) h); [discriminate|].
  destruct (read_u8_ok _ _ _ A2) as [U A3]. rewrite U in H. destruct (read_u8_ok _ _ _ A3) as [U1 A4]. rewrite U1 in H.
  destruct (color_of_int k) as [col|] eqn:K; [|discriminate].
  destruct (negb ((d =? 1) || (d =? 2) || (d =? 4) || (d =? 8) || (d =? 16))) eqn:D; [discriminate|]. destruct ((d =? 16) && is_palette col) eqn:Dp; [discriminate|].
  destruct (read_u8_ok _ _ _ A4) as [U2 A5]. rewrite U2 in H. destruct (Z.eqb_spec z 0) as [Ez|]; [|discriminate]. cbn [negb] in H.
  destruct (read_u8_ok _ _ _ A5) as [U3 A6]. rewrite U3 in H. destruct (negb ((0 <=? f) && (f <=? 4))) eqn:F; [discriminate|].
  destruct (read_u8_ok _ _ _ A6) as [U4 A7]. rewrite U4 in H. destruct (negb ((a =? 0) || (a =? 1))) eqn:M; [discriminate|].
  rewrite skip_fwd in H. cbn [bind] in H. rewrite !fwd_fwd in H. injection H as H. exists (mkInfo (Z.to_nat w) (Z.to_nat h) (Z.to_nat d) col (a =? 1)).
  split; [rewrite <- H; reflexivity|]. split; [|].
  - unfold limits. cbn [i_w i_h i_depth i_color In]. clear - Z0 H0 H1 D Dp Pw Ph. repeat split; try lia. intros ->. cbn [is_palette] in Dp. lia.
  - unfold reads_ihdr. cbn [i_w i_h i_depth i_color i_adam7 firstn skipn nth]. repeat split; try lia; try exact K. destruct (Z.eqb_spec a 1); [assumption|lia].
Qed.

(** The other chunks leave the header as it is *)
Definition kept (s s' : png) : Prop := opts s' = opts s /\ hdr s' = hdr s.
Lemma kept_refl s : kept s s. Proof. split; reflexivity. Qed.
Lemma kept_trans s1 s2 s3 : kept s1 s2 -> kept s2 s3 -> kept s1 s3.
Proof. intros [A B] [C D]. split; congruence. Qed.
Ltac got H := injection H as H; rewrite <- H; split; reflexivity.
Ltac opened H := repeat match type of H with
  | context [let '(_, _) := ?e in _] => destruct e as [? ?]
  | bind ?e _ = Ok _ => destruct e as [?| | |] eqn:?; cbn [bind] in H; try discriminate H
  | (if ?b then _ else _) = Ok _ => destruct b eqn:?; try discriminate H
  | match ?e with _ => _ end = Ok _ => destruct e eqn:?; try discriminate H
  end.
Lemma plte_kept len s s' : parse_plte len s = Ok s' -> kept s s'.
Proof. unfold parse_plte. intros H. opened H. got H. Qed.
Lemma idat_kept len s s' : parse_idat len s = Ok s' -> kept s s'.
Proof. unfold parse_idat. intros H. opened H. got H. Qed.
Lemma trns_kept len s s' : parse_trns len s = Ok s' -> kept s s'.
Proof. unfold parse_trns. intros H. destruct (hdr s) eqn:Hh; [|discriminate H]. opened H; injection H as H; rewrite <- H; (split; [reflexivity|]); cbn [hdr]; congruence. Qed.
Lemma gama_kept len s s' : parse_gama len s = Ok s' -> kept s s'.
Proof. unfold parse_gama. intros H. opened H. rewrite skip_to_ok in H. got H. Qed.
Lemma time_kept len s s' : parse_time len s = Ok s' -> kept s s'.
Proof. unfold parse_time. intros H. opened H; rewrite skip_to_ok in H; got H. Qed.
Lemma exif_kept len s s' : parse_exif len s = Ok s' -> kept s s'.
Proof. unfold parse_exif. intros H. opened H; rewrite skip_to_ok in H; got H. Qed.
Ltac skips H := repeat match type of H with context [skip_to ?n ?s] => rewrite (skip_to_ok n s) in H; cbn [bind] in H end.
Section Keep.
Variables (huff : Z -> dstate -> res dstate) (anim : nat -> list Z -> png -> res png).
Lemma word_kept len s k : keyword len s = Ok k -> True. Proof. auto. Qed.
Lemma iccp_kept len s s' : parse_iccp huff len s = Ok s' -> kept s s'.
Proof. unfold parse_iccp. intros H. destruct (keyword len s) as [[k|]| | |]; try discriminate H; cbn [bind] in H; skips H; opened H; skips H; got H. Qed.
Lemma text_kept len s s' : parse_text len s = Ok s' -> kept s s'.
Proof. unfold parse_text. intros H. destruct (keyword len s) as [[k|]| | |]; try discriminate H; cbn [bind] in H; skips H; opened H; skips H; got H. Qed.
Lemma itxt_kept len s s' : parse_itxt len s = Ok s' -> kept s s'.
Proof. unfold parse_itxt. intros H. destruct (keyword len s) as [[k|]| | |]; try discriminate H; cbn [bind] in H; skips H; opened H; skips H; got H. Qed.
Lemma ztxt_kept len s s' : parse_ztxt huff len s = Ok s' -> kept s s'.
Proof. unfold parse_ztxt. intros H. destruct (keyword len s) as [[k|]| | |]; try discriminate H; cbn [bind] in H; skips H; opened H; skips H; got H. Qed.
Lemma unknown_kept len n s s' : parse_unknown len n s = Ok s' -> kept s s'.
Proof. unfold parse_unknown. intros H. opened H. skips H. got H. Qed.

Hypothesis AK : forall len name s s', anim len name s = Ok s' -> kept s s'.
Lemma some_kept s s' i : kept s s' -> hdr s = Some i -> hdr s' = Some i.
Proof. intros [_ K] H. congruence. Qed.
Lemma header_kept len name s s' i : parse_header huff anim len name s = Ok s' -> hdr s = Some i -> kept s s'.
Proof.
  unfold parse_header. intros H Hh.
  match type of H with bind ?e _ = _ => destruct e as [s1| | |] eqn:E; try discriminate H; cbn [bind] in H end.
  assert (K : kept s s1).
  { destruct (zlist_eqb name n_IHDR). { unfold parse_ihdr in E. rewrite Hh in E. discriminate E. }
    repeat match type of E with (if ?b then _ else _) = _ => destruct b end.
    - now apply plte_kept in E. - now apply idat_kept in E. - now apply trns_kept in E. - now apply gama_kept in E. - now apply AK in E. - now apply time_kept in E.
    - now apply exif_kept in E. - now apply iccp_kept in E. - now apply itxt_kept in E. - now apply ztxt_kept in E. - now apply text_kept in E. - got E. - now apply unknown_kept in E. }
  destruct (hdr s1); [|discriminate H]. injection H as <-. exact K.
Qed.
Lemma loop_kept fuel : forall s s' i, chunk_loop huff anim fuel s = Ok s' -> hdr s = Some i -> kept s s'.
Proof.
  induction fuel as [|fuel IH]; intros s s' i H Hh; [discriminate H|]. cbn [chunk_loop] in H.
  destruct (read_chunk_header s) as [[[len name] s1]| | |] eqn:E; try discriminate H. cbn [bind] in H. apply header_inv in E. destruct E as [E _].
  assert (K1 : kept s s1) by (rewrite E; split; reflexivity).
  destruct (parse_header huff anim len name s1) as [s2| | |] eqn:E2; try discriminate H. cbn [bind] in H.
  pose proof (header_kept _ _ _ _ i E2 (some_kept _ _ _ K1 Hh)) as K2.
  destruct (zlist_eqb name n_IEND || zlist_eqb name n_fcTL).
  - injection H as <-. now apply (kept_trans s s1).
  - apply IH with (i := i) in H; [|now apply (some_kept s1), (some_kept s)]. apply (kept_trans s s1); [assumption|]. now apply (kept_trans s1 s2).
Qed.
(** An accepted file begins with the signature and a header of thirteen bytes, which are the information kept *)
Lemma accepted_header o data s : decode_headers huff anim (new_png o data) = Ok s -> bytes data ->
  (33 <= length data)%nat /\ firstn 8 data = magic /\ firstn 8 (skipn 8 data) = [0; 0; 0; 13] ++ IHDR /\
  exists i, hdr s = Some i /\ limits o i /\ reads_ihdr i (firstn 13 (skipn 16 data)).
Proof.
  intros H B. unfold decode_headers in H. cbn [new_png p_headers p_iend andb hdr strm] in H. rewrite get_err_spec in H.
  change (remaining {| cdata := data; cpos := 0 |}) with data in H. destruct (Nat.leb_spec 8 (length data)) as [L8|]; [|discriminate H]. cbn [bind] in H.
  destruct (Z.eqb_spec (of_bytes BE (firstn 8 data)) (be_val signature)) as [Sg|]; [|discriminate H]. cbn [negb] in H.
  set (c8 := at_pos {| cdata := data; cpos := 0 |} (cpos {| cdata := data; cpos := 0 |} + 8)) in *. assert (R8 : remaining c8 = skipn 8 data) by reflexivity.
  rewrite peek_at_spec, R8 in H. change (peek_cap <? Z.of_nat 4) with false in H. cbv iota in H.
  match type of H with context [if ?b then (Ok _, _) else _] => destruct b; [|discriminate H] end. cbn [bind] in H.
  destruct (zlist_eqb (firstn 4 (skipn 4 (skipn 8 data))) n_IHDR) eqn:N; [|discriminate H]. cbn [negb bind] in H.
  match type of H with context [chunk_loop huff anim ?f ?q] => set (f0 := f) in *; set (s0 := q) in * end.
  destruct (chunk_loop huff anim f0 s0) as [s9| | |] eqn:EL; try discriminate H. cbn [bind] in H. injection H as H.
  assert (H9 : hdr s = hdr s9) by now rewrite <- H. clear H. assert (Ef : exists f1, f0 = S f1) by (eexists; reflexivity). destruct Ef as [f1 Ef]. rewrite Ef in EL. cbn [chunk_loop] in EL.
  destruct (read_chunk_header s0) as [[[len name] s1]| | |] eqn:E; try discriminate EL. cbn [bind] in EL. apply header_inv in E. cbv zeta in E. destruct E as (E1 & E2 & E3 & E4 & _).
  change (remaining (strm s0)) with (skipn 8 data) in *. rewrite skipn_length in E2.
  assert (Nm : name = n_IHDR) by (unfold zlist_eqb in N; destruct (list_eq_dec _ _ _) as [Q|]; [congruence|discriminate N]).
  destruct (parse_header huff anim len name s1) as [s2| | |] eqn:P; try discriminate EL. cbn [bind] in EL. pose proof P as P'. unfold parse_header in P. rewrite Nm in P.
  change (zlist_eqb n_IHDR n_IHDR) with true in P. cbv iota in P. destruct (parse_ihdr len s1) as [s1'| | |] eqn:PI; try discriminate P. cbn [bind] in P.
  assert (L13 : len = 13%nat). { unfold parse_ihdr in PI. destruct (hdr s1); [discriminate PI|]. destruct (Nat.eqb_spec len 13); [assumption|discriminate PI]. }
  assert (R16 : remaining (strm s1) = firstn 13 (skipn 16 data) ++ skipn 13 (skipn 16 data)) by (rewrite firstn_skipn, E1; reflexivity).
  destruct (ihdr_inv s1 len s1' (firstn 13 (skipn 16 data)) _ PI R16) as (_ & _ & i & Ei & Li & Ri).
  { rewrite firstn_length, skipn_length. lia. } { now apply bytes_firstn', bytes_skipn'. }
  assert (H1 : hdr s1' = Some i) by (rewrite Ei; reflexivity). rewrite H1 in P. injection P as P. subst s2.
  split; [lia|]. split.
  { change (of_bytes BE (firstn 8 data)) with (be_val (firstn 8 data)) in Sg. apply (f_equal (be_bytes 8)) in Sg. change 8%nat with (length signature) in Sg at 3.
    rewrite (be_bytes_be_val signature) in Sg by (repeat constructor; unfold is_byte; lia). rewrite <- (be_bytes_be_val (firstn 8 data)) by now apply bytes_firstn'.
    rewrite firstn_length, Nat.min_l by exact L8. exact Sg. }
  split.
  { rewrite <- (firstn_skipn 4 (firstn 8 (skipn 8 data))), firstn_firstn, skipn_firstn_comm. change (Nat.min 4 8) with 4%nat. change (8 - 4)%nat with 4%nat. rewrite <- E4, Nm. f_equal.
    assert (L4 : length (firstn 4 (skipn 8 data)) = 4%nat) by (rewrite firstn_length, skipn_length; lia).
    assert (B4 : bytes (firstn 4 (skipn 8 data))) by now apply bytes_firstn', bytes_skipn'. rewrite <- (be_bytes_be_val _ B4), L4.
    pose proof (be_val_bound _ B4) as Bd. replace (be_val (firstn 4 (skipn 8 data))) with 13 by lia. reflexivity. }
  exists i. rewrite H9. assert (O1 : opts s1 = o) by now rewrite E1. rewrite O1 in Li. split; [|split; assumption].
  rewrite Nm in EL. change (zlist_eqb n_IHDR n_IEND || zlist_eqb n_IHDR n_fcTL) with false in EL. cbv iota in EL. apply (some_kept s1' s9); [|exact H1]. now apply (loop_kept _ _ _ i EL).
Qed.
End Keep.

(** ** C64, C68 — from chunk to chunk *)
(** Chunks the decoder reads to their end. [t]: the colour type of the image *)
Definition regular (t : Z) (k : chunk) : Prop :=
  ~ In (c_name k) [IEND; acTL; fcTL] /\ (c_name k = PLTE -> (length (c_data k) <= 768)%nat) /\ (c_name k = gAMA -> length (c_data k) = 4%nat) /\
  (c_name k = tRNS -> (t = 0 -> length (c_data k) = 2%nat) /\ (t = 2 -> length (c_data k) = 6%nat)) /\
  (c_name k = iTXt -> forall w r, split0 (c_data k) = Some (w, r) -> (4 <= length r)%nat) /\
  (In (c_name k) [zTXt; iCCP] -> forall w r, split0 (c_data k) = Some (w, r) -> (1 <= length r)%nat).
Definition moved (s s' : png) (n : nat) (d : list Z) : Prop := fdat s' = fdat s ++ d /\ strm s' = fwd (strm s) n.
Lemma Ok_inj {A} (a b : A) : Ok a = Ok b -> a = b.
Proof. congruence. Qed.
Ltac went := split; [cbn [fdat advance at_cursor with_meta]; now rewrite app_nil_r|].
Lemma fwd_0 c : fwd c 0 = c. Proof. unfold fwd. now rewrite Nat.add_0_r, at_pos_same. Qed.
Lemma read_u8_fwd c : (1 <= length (remaining c))%nat -> exists b, read_u8 c = (b, fwd c 1) /\ length (remaining (fwd c 1)) = (length (remaining c) - 1)%nat.
Proof.
  intros H. destruct (remaining c) as [|b l] eqn:E; [cbn in H; lia|]. exists b. destruct (read_u8_ok c b l E) as [-> A]. split; [reflexivity|]. rewrite A. cbn. lia.
Qed.
Lemma fwd_length c n : length (remaining (fwd c n)) = (length (remaining c) - n)%nat.
Proof. unfold fwd. now rewrite remaining_at, skipn_length. Qed.
Lemma read_entries_fwd n : forall p c, (n <= length p)%nat -> (3 * n <= length (remaining c))%nat -> snd (read_entries n p c) = fwd c (3 * n).
Proof.
  induction n as [|n IH]; intros p c Lp Lc; [cbn [read_entries]; destruct p as [|[[[? ?] ?] ?] p]; cbn [snd]; now rewrite fwd_0|].
  destruct p as [|[[[r g] b] a] p]; [cbn in Lp; lia|]. cbn [read_entries].
  destruct (read_u8_fwd c) as (x & -> & Lx); [lia|]. destruct (read_u8_fwd (fwd c 1)) as (y & -> & Ly); [lia|]. destruct (read_u8_fwd (fwd (fwd c 1) 1)) as (z & -> & Lz); [lia|].
  specialize (IH p (fwd (fwd (fwd c 1) 1) 1) ltac:(cbn in Lp; lia) ltac:(lia)). destruct (read_entries n p (fwd (fwd (fwd c 1) 1) 1)) as [q c']. cbn [snd] in *. rewrite IH, !fwd_fwd. f_equal. lia.
Qed.
Lemma read_alphas_fwd n : forall p c, (n <= length p)%nat -> (n <= length (remaining c))%nat -> snd (read_alphas n p c) = fwd c n.
Proof.
  induction n as [|n IH]; intros p c Lp Lc; [cbn [read_alphas]; destruct p as [|[[[? ?] ?] ?] p]; cbn [snd]; now rewrite fwd_0|].
  destruct p as [|[[[r g] b] a] p]; [cbn in Lp; lia|]. cbn [read_alphas].
  destruct (read_u8_fwd c) as (x & -> & Lx); [lia|]. specialize (IH p (fwd c 1) ltac:(cbn in Lp; lia) ltac:(lia)). destruct (read_alphas n p (fwd c 1)) as [q c']. cbn [snd] in *. rewrite IH, fwd_fwd. reflexivity.
Qed.
Lemma get_zero_fwd k c : (k <= length (remaining c))%nat -> exists v, get_zero BE k c = (v, fwd c k).
Proof. intros H. eexists. apply (get_zero_ok k c (firstn k (remaining c)) (skipn k (remaining c))); [now rewrite firstn_skipn|rewrite firstn_length; lia]. Qed.
Lemma resize_len {A} (l : list A) n x : length (resize l n x) = n.
Proof. apply resize_length. Qed.
Lemma plte_moved len s s' : parse_plte len s = Ok s' -> (len <= 768)%nat -> (len <= length (remaining (strm s)))%nat -> moved s s' (len + 4) [].
Proof.
  unfold parse_plte. intros H L R. destruct (Nat.eqb_spec (len mod 3) 0) as [E|]; [|discriminate H]. cbn [negb] in H.
  assert (D : (3 * (len / 3))%nat = len) by lia.
  pose proof (read_entries_fwd (len / 3) (resize (pal s) 256 (0, 0, 0, 255)) (strm s)) as F.
  destruct (read_entries (len / 3) _ (strm s)) as [p c]. cbn [snd] in F. rewrite F in H by (rewrite ?resize_len; lia). rewrite skip_fwd in H. cbn [bind] in H. apply Ok_inj in H. subst s'.
  split; [cbn [fdat]; now rewrite app_nil_r|]. cbn [strm]. now rewrite fwd_fwd, D.
Qed.
Lemma idat_moved s s' d R : parse_idat (length d) s = Ok s' -> ahead s (d ++ R) -> moved s s' (length d + 4) d.
Proof.
  unfold parse_idat, ahead. intros H A. rewrite (read_exact_spec _ (length d)) in H by apply repeat_length. rewrite A, app_length in H.
  replace (length d <=? length d + _)%nat with true in H by lia. rewrite skip_fwd in H. cbn [bind] in H. injection H as <-. split; cbn [fdat strm].
  - now rewrite firstn_app_exact by reflexivity.
  - change (at_pos (strm s) (cpos (strm s) + length d)) with (fwd (strm s) (length d)). apply fwd_fwd.
Qed.
Lemma trns_moved len s s' i t : parse_trns len s = Ok s' -> hdr s = Some i -> color_of_int t = Some (i_color i) ->
  (t = 0 -> len = 2%nat) -> (t = 2 -> len = 6%nat) -> (len <= length (remaining (strm s)))%nat -> moved s s' (len + 4) [].
Proof.
  unfold parse_trns. intros H Hh T T0 T2 R. rewrite Hh in H.
  assert (TC : (i_color i = CLuma -> t = 0) /\ (i_color i = CRGB -> t = 2)).
  { unfold color_of_int in T. split; intros Q; rewrite Q in T; repeat match type of T with (if ?a =? ?b then _ else _) = _ => destruct (Z.eqb_spec a b); [solve [assumption|discriminate T]|] end; discriminate T. }
  destruct TC as [TC0 TC2].
  destruct (i_color i); try discriminate H.
  - specialize (T0 (TC0 eq_refl)). destruct (get_zero_fwd 2 (strm s)) as [v E]; [lia|]. rewrite E in H. rewrite skip_fwd in H. cbn [bind] in H. injection H as <-. split; cbn [fdat strm]; [now rewrite app_nil_r|]. rewrite fwd_fwd. f_equal. lia.
  - specialize (T2 (TC2 eq_refl)). destruct (get_zero_fwd 2 (strm s)) as [v E]; [lia|]. rewrite E in H.
    destruct (get_zero_fwd 2 (fwd (strm s) 2)) as [v2 E2]; [rewrite fwd_length; lia|]. rewrite E2 in H.
    destruct (get_zero_fwd 2 (fwd (fwd (strm s) 2) 2)) as [v3 E3]; [rewrite !fwd_length; lia|]. rewrite E3 in H.
    rewrite skip_fwd in H. cbn [bind] in H. injection H as <-. split; cbn [fdat strm]; [now rewrite app_nil_r|]. rewrite !fwd_fwd. f_equal. lia.
  - destruct (length (pal s) =? 0)%nat; [discriminate H|]. destruct (Nat.ltb_spec (length (pal s)) len); [discriminate H|].
    pose proof (read_alphas_fwd len (pal s) (strm s)) as F. destruct (read_alphas len (pal s) (strm s)) as [p c]. cbn [snd] in F. rewrite F in H by lia.
    rewrite skip_fwd in H. cbn [bind] in H. injection H as <-. split; cbn [fdat strm]; [now rewrite app_nil_r|]. apply fwd_fwd.
Qed.
Ltac closed H := skips H; injection H as H; rewrite <- H; went; cbn [strm advance at_cursor with_meta].
Lemma gama_moved s s' : parse_gama 4 s = Ok s' -> (4 <= length (remaining (strm s)))%nat -> moved s s' 8 [].
Proof.
  unfold parse_gama. intros H R. destruct (_ && _); [discriminate H|]. destruct (get_zero_fwd 4 (strm s)) as [v E]; [lia|]. rewrite E in H. closed H. apply fwd_fwd.
Qed.
Lemma time_moved len s s' : parse_time len s = Ok s' -> (len <= length (remaining (strm s)))%nat -> moved s s' (len + 4) [].
Proof.
  unfold parse_time. intros H R. destruct (Nat.eqb_spec len 7) as [->|]; cbn [negb] in H.
  - destruct (get_zero_fwd 2 (strm s)) as [v E]; [lia|]. rewrite E in H.
    pose proof (fwd_length (strm s) 2) as L0.
    destruct (read_u8_fwd (fwd (strm s) 2)) as (? & E1 & L1); [lia|]. rewrite E1 in H. destruct (read_u8_fwd (fwd (fwd (strm s) 2) 1)) as (? & E2 & L2); [lia|]. rewrite E2 in H.
    destruct (read_u8_fwd (fwd (fwd (fwd (strm s) 2) 1) 1)) as (? & E3 & L3); [lia|]. rewrite E3 in H.
    destruct (read_u8_fwd (fwd (fwd (fwd (fwd (strm s) 2) 1) 1) 1)) as (? & E4 & L4); [lia|]. rewrite E4 in H.
    destruct (read_u8_fwd (fwd (fwd (fwd (fwd (fwd (strm s) 2) 1) 1) 1) 1)) as (? & E5 & L5); [lia|]. rewrite E5 in H.
    closed H. unfold fwd, at_pos. cbn [cpos cdata]. f_equal. lia.
  - destruct (strict (opts s)); [discriminate H|]. closed H. reflexivity.
Qed.
Lemma exif_moved len s s' : parse_exif len s = Ok s' -> moved s s' (len + 4) [].
Proof. unfold parse_exif. intros H. opened H; closed H; reflexivity. Qed.
Lemma unknown_moved len n s s' : parse_unknown len n s = Ok s' -> moved s s' (len + 4) [].
Proof. unfold parse_unknown. intros H. opened H. closed H. reflexivity. Qed.
Lemma small_split d w t : small_word d = Some (w, t) -> split0 d = Some (w, t).
Proof. unfold small_word. destruct (split0 d) as [[w' t']|]; [|discriminate]. destruct (length w' <? 79)%nat; [auto|discriminate]. Qed.
Lemma text_moved s s' d R : parse_text (length d) s = Ok s' -> ahead s (d ++ R) -> moved s s' (length d + 4) [].
Proof.
  unfold parse_text. intros H A. rewrite (keyword_ok s d R A) in H. cbn [bind] in H. destruct (small_word d) as [[w t]|] eqn:W; cbn [option_map fst] in H.
  - apply small_word_inv in W. destruct W as [W _]. assert (L : length d = (length w + 1 + length t)%nat) by (rewrite W, app_length; cbn [length]; lia).
    skips H. opened H. closed H. unfold fwd, at_pos. cbn [cpos cdata]. f_equal. lia.
  - closed H. reflexivity.
Qed.
Lemma itxt_moved s s' d R : parse_itxt (length d) s = Ok s' -> ahead s (d ++ R) -> (forall w r, split0 d = Some (w, r) -> (4 <= length r)%nat) -> moved s s' (length d + 4) [].
Proof.
  unfold parse_itxt. intros H A F. rewrite (keyword_ok s d R A) in H. cbn [bind] in H. destruct (small_word d) as [[w t]|] eqn:W; cbn [option_map fst] in H.
  - specialize (F _ _ (small_split _ _ _ W)). apply small_word_inv in W. destruct W as [W _]. assert (L : length d = (length w + 1 + length t)%nat) by (rewrite W, app_length; cbn [length]; lia).
    skips H. opened H. closed H. unfold fwd, at_pos. cbn [cpos cdata]. f_equal. lia.
  - closed H. reflexivity.
Qed.
Lemma chunk_bytes_bytes k : chunk_ok k -> bytes (chunk_bytes k).
Proof. intros (_ & _ & Bn & Bd & Bs & _). unfold chunk_bytes. rewrite !bytes_app. auto using be_bytes_bytes. Qed.
(** A chunk whose sum is wrong is not accepted *)
Lemma header_chunk s k R len name s' : read_chunk_header s = Ok (len, name, s') -> ahead s (chunk_bytes k ++ R) -> chunk_ok k -> 
  len = length (c_data k) /\ name = c_name k /\ s' = advance s 8 /\ (o_crc (opts s) = true -> bytes R -> sum_ok k).
Proof.
  intros H A (Ln & Ls & Bn & Bd & Bs & Ld). apply header_inv in H. cbv zeta in H. rewrite A in H. unfold chunk_bytes in H. rewrite <- !app_assoc in H.
  set (lb := be_bytes 4 (Z.of_nat (length (c_data k)))) in *. assert (Ll : length lb = 4%nat) by apply be_bytes_length.
  destruct H as (E1 & E2 & E3 & E4 & E5). rewrite firstn_app_exact in E3 by exact Ll. assert (S4 : skipn 4 (lb ++ c_name k ++ c_data k ++ c_sum k ++ R) = c_name k ++ c_data k ++ c_sum k ++ R) by now apply skipn_app_exact. rewrite S4 in E4, E5. rewrite firstn_app_exact in E4 by exact Ln.
  assert (EL : len = length (c_data k)). { rewrite E3. unfold lb. rewrite be_val_be_bytes by (change (256 ^ Z.of_nat 4) with (2 ^ 32); lia). apply Nat2Z.id. }
  split; [exact EL|]. split; [exact E4|]. split; [exact E1|]. intros C BR.
  assert (BB : bytes (lb ++ c_name k ++ c_data k ++ c_sum k ++ R)) by (rewrite !bytes_app; unfold lb; auto using be_bytes_bytes).
  specialize (E5 C BB). unfold sum_ok. rewrite (app_assoc (c_name k)) in E5. rewrite firstn_app_exact in E5 by (rewrite app_length; lia).
  rewrite <- E5. f_equal. replace (lb ++ (c_name k ++ c_data k) ++ c_sum k ++ R) with ((lb ++ c_name k ++ c_data k) ++ c_sum k ++ R) by now rewrite <- !app_assoc.
  rewrite skipn_app_exact by (rewrite !app_length; lia). now rewrite firstn_app_exact by exact Ls.
Qed.
Section Moves.
Variables (huff : Z -> dstate -> res dstate) (anim : nat -> list Z -> png -> res png).
Lemma ztxt_moved s s' d R : parse_ztxt huff (length d) s = Ok s' -> ahead s (d ++ R) -> (forall w r, split0 d = Some (w, r) -> (1 <= length r)%nat) -> moved s s' (length d + 4) [].
Proof.
  unfold parse_ztxt. intros H A F. rewrite (keyword_ok s d R A) in H. cbn [bind] in H. destruct (small_word d) as [[w t]|] eqn:W; cbn [option_map fst] in H.
  - specialize (F _ _ (small_split _ _ _ W)). apply small_word_inv in W. destruct W as [W _]. assert (L : length d = (length w + 1 + length t)%nat) by (rewrite W, app_length; cbn [length]; lia).
    skips H. destruct (read_u8_fwd (strm (advance s (length w + 1)))) as (b & E & _).
    { unfold ahead in A. unfold advance. cbn [strm at_cursor]. rewrite remaining_at, skipn_length, A, app_length. lia. }
    rewrite E in H. cbn [snd] in H. opened H; closed H; unfold fwd, at_pos; cbn [cpos cdata]; f_equal; lia.
  - closed H. reflexivity.
Qed.
Lemma iccp_moved s s' d R : parse_iccp huff (length d) s = Ok s' -> ahead s (d ++ R) -> (forall w r, split0 d = Some (w, r) -> (1 <= length r)%nat) -> moved s s' (length d + 4) [].
Proof.
  unfold parse_iccp. intros H A F. rewrite (keyword_ok s d R A) in H. cbn [bind] in H. destruct (small_word d) as [[w t]|] eqn:W; cbn [option_map fst] in H.
  - specialize (F _ _ (small_split _ _ _ W)). apply small_word_inv in W. destruct W as [W _]. assert (L : length d = (length w + 1 + length t)%nat) by (rewrite W, app_length; cbn [length]; lia).
    skips H. destruct (read_u8_fwd (strm (advance s (length w + 1)))) as (b & E & _).
    { unfold ahead in A. unfold advance. cbn [strm at_cursor]. rewrite remaining_at, skipn_length, A, app_length. lia. }
    rewrite E in H. cbn [snd] in H. opened H; closed H; unfold fwd, at_pos; cbn [cpos cdata]; f_equal; lia.
  - closed H. reflexivity.
Qed.
Lemma zlist_true a b : zlist_eqb a b = true -> a = b.
Proof. unfold zlist_eqb. destruct (list_eq_dec _ a b); [auto|discriminate]. Qed.
Lemma zlist_false a b : zlist_eqb a b = false -> a <> b.
Proof. unfold zlist_eqb. destruct (list_eq_dec _ a b); [discriminate|auto]. Qed.
Definition idat_part (k : chunk) : list Z := if list_eq_dec Z.eq_dec (c_name k) IDAT then c_data k else [].
(** One chunk, the header having been read before *)
Lemma chunk_moved s s' k R i t : parse_header huff anim (length (c_data k)) (c_name k) s = Ok s' -> hdr s = Some i -> color_of_int t = Some (i_color i) ->
  ahead s (c_data k ++ R) -> regular t k -> kept s s' /\ moved s s' (length (c_data k) + 4) (idat_part k).
Proof.
  intros H Hh T A (N & G1 & G2 & G3 & G4 & G5).
  assert (R0 : (length (c_data k) <= length (remaining (strm s)))%nat) by (rewrite A, app_length; lia).
  unfold parse_header in H. match type of H with bind ?e _ = _ => destruct e as [s1| | |] eqn:E; try discriminate H; cbn [bind] in H end.
  assert (Es : s1 = s') by (destruct (hdr s1); [congruence|discriminate H]). clear H. subst s1.
  assert (NI : c_name k <> IDAT -> idat_part k = []) by (intros Q; unfold idat_part; destruct (list_eq_dec _ _ _); [contradiction|reflexivity]).
  destruct (zlist_eqb (c_name k) n_IHDR) eqn:B1. { unfold parse_ihdr in E. rewrite Hh in E. discriminate E. }
  destruct (zlist_eqb (c_name k) n_PLTE) eqn:B2. { apply zlist_true in B2. rewrite NI by (rewrite B2; discriminate). split; [now apply plte_kept in E|]. exact (plte_moved _ _ _ E (G1 B2) R0). }
  destruct (zlist_eqb (c_name k) n_IDAT) eqn:B3. { apply zlist_true in B3. split; [now apply idat_kept in E|]. unfold idat_part. destruct (list_eq_dec _ _ _); [|contradiction]. now apply (idat_moved _ _ _ R). }
  apply zlist_false in B3. rewrite (NI B3).
  destruct (zlist_eqb (c_name k) n_tRNS) eqn:B4. { apply zlist_true in B4. split; [now apply trns_kept in E|]. destruct (G3 B4). now apply (trns_moved _ _ _ i t). }
  destruct (zlist_eqb (c_name k) n_gAMA) eqn:B5. { apply zlist_true in B5. split; [now apply gama_kept in E|]. rewrite (G2 B5) in *. now apply gama_moved. }
  destruct (zlist_eqb (c_name k) n_acTL || zlist_eqb (c_name k) n_fcTL) eqn:B6. { exfalso. apply N. apply orb_true_iff in B6. destruct B6 as [B6|B6]; apply zlist_true in B6; rewrite B6; cbn; tauto. }
  destruct (zlist_eqb (c_name k) n_tIME) eqn:B7. { split; [now apply time_kept in E|]. now apply time_moved. }
  destruct (zlist_eqb (c_name k) n_eXIf) eqn:B8. { split; [now apply exif_kept in E|]. now apply exif_moved. }
  destruct (zlist_eqb (c_name k) n_iCCP) eqn:B9. { apply zlist_true in B9. split; [now apply iccp_kept in E|]. apply (iccp_moved _ _ _ R); auto. apply G5. rewrite B9. cbn. tauto. }
  destruct (zlist_eqb (c_name k) n_iTXt) eqn:B10. { apply zlist_true in B10. split; [now apply itxt_kept in E|]. exact (itxt_moved _ _ _ R E A (G4 B10)). }
  destruct (zlist_eqb (c_name k) n_zTXt) eqn:B11. { apply zlist_true in B11. split; [now apply ztxt_kept in E|]. apply (ztxt_moved _ _ _ R); auto. apply G5. rewrite B11. cbn. tauto. }
  destruct (zlist_eqb (c_name k) n_tEXt) eqn:B12. { split; [now apply text_kept in E|]. now apply (text_moved _ _ _ R). }
  destruct (zlist_eqb (c_name k) n_IEND) eqn:B13. { exfalso. apply N. apply zlist_true in B13. rewrite B13. cbn. tauto. }
  split; [now apply unknown_kept in E|now apply unknown_moved in E].
Qed.

(** The loop over regular chunks *)
Lemma loop_moved t i : color_of_int t = Some (i_color i) -> forall cs fuel s s' en tail,
  chunk_loop huff anim fuel s = Ok s' -> hdr s = Some i -> ahead s (concat (map chunk_bytes cs) ++ chunk_bytes en ++ tail) ->
  Forall chunk_ok cs -> Forall (regular t) cs -> chunk_ok en -> c_name en = IEND -> bytes tail ->
  hdr s' = Some i /\ fdat s' = fdat s ++ concat (map idat_part cs) /\ strm s' = fwd (strm s) (size cs + 8) /\ p_iend s' = true /\
  (o_crc (opts s) = true -> Forall sum_ok (cs ++ [en])).
Proof.
  intros T. induction cs as [|k cs IH]; intros fuel s s' en tail H Hh A Ok1 Rg Oe Ne Bt; (destruct fuel as [|fuel]; [discriminate H|]); cbn [chunk_loop] in H;
    (destruct (read_chunk_header s) as [[[len name] s1]| | |] eqn:E; try discriminate H); cbn [bind] in H.
  - cbn [map concat app] in A. destruct (header_chunk s en tail _ _ _ E A Oe) as (-> & -> & -> & C). rewrite Ne in H.
    unfold parse_header in H. change (hdr (advance s 8)) with (hdr s) in H.
    match type of H with context [zlist_eqb IEND n_IHDR] => idtac end.
    replace (zlist_eqb IEND n_IHDR) with false in H by reflexivity. replace (zlist_eqb IEND n_PLTE) with false in H by reflexivity. replace (zlist_eqb IEND n_IDAT) with false in H by reflexivity.
    replace (zlist_eqb IEND n_tRNS) with false in H by reflexivity. replace (zlist_eqb IEND n_gAMA) with false in H by reflexivity. replace (zlist_eqb IEND n_acTL || zlist_eqb IEND n_fcTL) with false in H by reflexivity.
    replace (zlist_eqb IEND n_tIME) with false in H by reflexivity. replace (zlist_eqb IEND n_eXIf) with false in H by reflexivity. replace (zlist_eqb IEND n_iCCP) with false in H by reflexivity.
    replace (zlist_eqb IEND n_iTXt) with false in H by reflexivity. replace (zlist_eqb IEND n_zTXt) with false in H by reflexivity. replace (zlist_eqb IEND n_tEXt) with false in H by reflexivity.
    replace (zlist_eqb IEND n_IEND) with true in H by reflexivity. cbv iota in H. cbn [bind hdr] in H. change (hdr (advance s 8)) with (hdr s) in H. rewrite Hh in H. cbn [bind orb] in H.
    apply Ok_inj in H. subst s'. cbn [hdr fdat strm p_iend map concat app]. rewrite app_nil_r. repeat split; auto.
  - cbn [map concat] in A. rewrite <- app_assoc in A. inversion Ok1 as [|? ? Kk Kc]; subst. inversion Rg as [|? ? Gk Gc]; subst.
    destruct (header_chunk s k _ _ _ _ E A Kk) as (-> & -> & -> & C).
    destruct (parse_header huff anim (length (c_data k)) (c_name k) (advance s 8)) as [s2| | |] eqn:P; try discriminate H. cbn [bind] in H.
    pose proof (chunk_tail s k _ Kk A) as A8.
    destruct (chunk_moved _ _ k _ i t P Hh T A8 Gk) as [[Ko Kh] [Mf Ms]].
    assert (NN : zlist_eqb (c_name k) n_IEND || zlist_eqb (c_name k) n_fcTL = false).
    { destruct Gk as [G _]. rewrite !zlist_neq; [reflexivity|..]; intros Q; apply G; rewrite Q; cbn; tauto. }
    rewrite NN in H. assert (S2 : strm s2 = fwd (strm s) (12 + length (c_data k))).
    { rewrite Ms. unfold advance, fwd, at_pos. cbn [strm at_cursor cpos cdata]. f_equal. lia. }
    assert (A2 : ahead s2 (concat (map chunk_bytes cs) ++ chunk_bytes en ++ tail)).
    { unfold ahead. rewrite S2. apply (fwd_remaining _ (chunk_bytes k)); [exact A|now apply chunk_len]. }
    destruct (IH fuel s2 s' en tail H) as (I1 & I2 & I3 & I4 & I5); auto. { rewrite Kh. exact Hh. }
    split; [exact I1|]. split. { rewrite I2, Mf. cbn [map concat]. change (fdat (advance s 8)) with (fdat s). now rewrite <- app_assoc. }
    split. { rewrite I3, S2, fwd_fwd. f_equal. change (k :: cs) with ([k] ++ cs). rewrite size_app. unfold size at 2. cbn [map concat]. rewrite app_nil_r, chunk_len by exact Kk. lia. }
    split; [exact I4|]. intros Cr. cbn [app]. constructor.
    + apply C; [exact Cr|]. rewrite !bytes_app. split; [|split; [|exact Bt]].
      * clear - Kc. induction cs as [|q cs IH]; [constructor|]. inversion Kc; subst. cbn [map concat]. rewrite bytes_app. split; [now apply chunk_bytes_bytes|auto].
      * now apply chunk_bytes_bytes.
    + apply I5. rewrite Ko. exact Cr.
Qed.
End Moves.

Section Whole.
Variables (huff : Z -> dstate -> res dstate) (anim : nat -> list Z -> png -> res png).
(** The first chunk *)
Lemma first_round o hd R s : decode_headers huff anim (new_png o (file_bytes [hd] R)) = Ok s -> chunk_ok hd -> bytes R ->
  exists f s1 s9 i, chunk_loop huff anim f s1 = Ok s9 /\ hdr s1 = Some i /\ opts s1 = o /\ ahead s1 R /\ strm s1 = fwd (strm (new_png o (file_bytes [hd] R))) (8 + size [hd]) /\ fdat s1 = [] /\
    color_of_int (nth 9 (c_data hd) 0) = Some (i_color i) /\ (o_crc o = true -> sum_ok hd) /\ hdr s = hdr s9 /\ fdat s = fdat s9 /\ strm s = strm s9.
Proof.
  intros H Kh BR. set (data := file_bytes [hd] R) in *.
  assert (S8 : skipn 8 data = chunk_bytes hd ++ R) by (unfold data, file_bytes; cbn [map concat]; rewrite app_nil_r; now apply skipn_app_exact).
  unfold decode_headers in H. cbn [new_png p_headers p_iend andb hdr strm] in H. rewrite get_err_spec in H.
  change (remaining {| cdata := data; cpos := 0 |}) with data in H. destruct (Nat.leb_spec 8 (length data)) as [L8|]; [|discriminate H]. cbn [bind] in H.
  destruct (Z.eqb_spec (of_bytes BE (firstn 8 data)) (be_val signature)) as [Sg|]; [|discriminate H]. cbn [negb] in H.
  set (c8 := at_pos {| cdata := data; cpos := 0 |} (cpos {| cdata := data; cpos := 0 |} + 8)) in *. assert (R8 : remaining c8 = skipn 8 data) by reflexivity.
  rewrite peek_at_spec, R8 in H. change (peek_cap <? Z.of_nat 4) with false in H. cbv iota in H.
  match type of H with context [if ?b then (Ok _, _) else _] => destruct b; [|discriminate H] end. cbn [bind] in H.
  destruct (zlist_eqb (firstn 4 (skipn 4 (skipn 8 data))) n_IHDR) eqn:N; [|discriminate H]. cbn [negb bind] in H.
  match type of H with context [chunk_loop huff anim ?f ?q] => set (f0 := f) in *; set (s0 := q) in * end.
  destruct (chunk_loop huff anim f0 s0) as [s9| | |] eqn:EL; try discriminate H. cbn [bind] in H. apply Ok_inj in H.
  assert (Ef : exists f1, f0 = S f1) by (eexists; reflexivity). destruct Ef as [f1 Ef]. rewrite Ef in EL. cbn [chunk_loop] in EL.
  destruct (read_chunk_header s0) as [[[len name] s1]| | |] eqn:E; try discriminate EL. cbn [bind] in EL.
  assert (A0 : ahead s0 (chunk_bytes hd ++ R)) by (rewrite <- S8; exact R8).
  pose proof E as E'. apply header_inv in E'. cbv zeta in E'. destruct E' as (_ & _ & _ & E4 & _). change (remaining (strm s0)) with (skipn 8 data) in E4.
  destruct (header_chunk s0 hd R _ _ _ E A0 Kh) as (-> & EN & -> & C).
  assert (Nm : c_name hd = n_IHDR). { rewrite <- EN, E4. now apply zlist_true. } rewrite EN in EL.
  destruct (parse_header huff anim (length (c_data hd)) (c_name hd) (advance s0 8)) as [s2| | |] eqn:P; try discriminate EL. cbn [bind] in EL. unfold parse_header in P. rewrite Nm in P.
  change (zlist_eqb n_IHDR n_IHDR) with true in P. cbv iota in P. destruct (parse_ihdr (length (c_data hd)) (advance s0 8)) as [s1'| | |] eqn:PI; try discriminate P. cbn [bind] in P.
  assert (L13 : length (c_data hd) = 13%nat). { unfold parse_ihdr in PI. destruct (hdr (advance s0 8)); [discriminate PI|]. destruct (Nat.eqb_spec (length (c_data hd)) 13); [assumption|discriminate PI]. }
  pose proof (chunk_tail s0 hd R Kh A0) as A8.
  destruct (ihdr_inv _ _ s1' (c_data hd) _ PI A8 L13) as (_ & _ & i & Ei & Li & Ri). { apply Kh. }
  assert (H1 : hdr s1' = Some i) by (rewrite Ei; reflexivity). rewrite H1 in P. apply Ok_inj in P. subst s2.
  rewrite Nm in EL. change (zlist_eqb n_IHDR n_IEND || zlist_eqb n_IHDR n_fcTL) with false in EL. cbv iota in EL.
  assert (Sz : size [hd] = 25%nat) by (unfold size; cbn [map concat]; rewrite app_nil_r, chunk_len by exact Kh; lia).
  exists f1, s1', s9, i. split; [exact EL|]. split; [exact H1|]. split; [rewrite Ei; reflexivity|].
  assert (St : strm s1' = fwd (strm (new_png o data)) (8 + size [hd])) by (rewrite Ei, Sz; reflexivity).
  split. { unfold ahead. rewrite St. apply (fwd_remaining _ (magic ++ chunk_bytes hd)).
    - change (remaining (strm (new_png o data))) with data. unfold data, file_bytes. cbn [map concat]. now rewrite app_nil_r, app_assoc.
    - unfold size. cbn [map concat]. now rewrite app_nil_r, app_length. }
  split; [exact St|]. split; [rewrite Ei; reflexivity|]. split; [apply Ri|]. split; [intros Cr; now apply C|]. rewrite <- H. auto.
Qed.
Lemma chunks_followed o hd cs en tail s : decode_headers huff anim (new_png o (file_bytes (hd :: cs ++ [en]) tail)) = Ok s ->
  Forall chunk_ok (hd :: cs ++ [en]) -> c_name en = IEND -> bytes tail -> Forall (regular (nth 9 (c_data hd) 0)) cs ->
  fdat s = concat (map idat_part cs) /\ cpos (strm s) = (8 + size (hd :: cs ++ [en]) - length (c_data en) - 4)%nat /\ (o_crc o = true -> Forall sum_ok (hd :: cs ++ [en])).
Proof.
  intros H K Ne Bt Rg. inversion K as [|? ? Kh Kc]; subst. apply Forall_app in Kc. destruct Kc as [Kc Ke]. inversion Ke as [|? ? Ke1 _]; subst.
  set (R := concat (map chunk_bytes cs) ++ chunk_bytes en ++ tail).
  assert (F : file_bytes (hd :: cs ++ [en]) tail = file_bytes [hd] R).
  { unfold file_bytes, R. cbn [map concat]. rewrite map_app, concat_app. cbn [map concat]. rewrite !app_nil_r, <- !app_assoc. reflexivity. }
  rewrite F in H. apply first_round in H; [|exact Kh|].
  - destruct H as (f & s1 & s9 & i & EL & H1 & O1 & A1 & St & F1 & T & C & E1 & E2 & E3).
    destruct (loop_moved huff anim _ i T cs f s1 s9 en tail EL H1 A1 Kc Rg Ke1 Ne Bt) as (_ & I2 & I3 & _ & I5).
    split; [rewrite E2, I2, F1; reflexivity|]. split.
    + rewrite E3, I3, St. unfold fwd, at_pos. cbn [cpos strm new_png]. change (hd :: cs ++ [en]) with ([hd] ++ cs ++ [en]). rewrite !size_app.
      assert (Se : size [en] = (12 + length (c_data en))%nat) by (unfold size; cbn [map concat]; rewrite app_nil_r; now apply chunk_len). lia.
    + intros Cr. constructor; [now apply C|]. apply I5. now rewrite O1.
  - unfold R. rewrite !bytes_app. split; [|split; [now apply chunk_bytes_bytes|exact Bt]]. clear - Kc. induction cs as [|q cs IH]; [constructor|]. inversion Kc; subst. cbn [map concat]. rewrite bytes_app. split; [now apply chunk_bytes_bytes|auto].
Qed.
End Whole.
