(** Proofs about the HDR run-length coder and decoder. *)
From Verif Require Import Base BaseProof Loops Slices DecText HdrModel HdrSpec.

(** ** The coder *)

(** [n] equal entries from position [i]. *)
Definition same (p : list Z) (i n : nat) : Prop := forall k, (k < n)%nat -> nth (i + k) p 0 = nth i p 0.

Lemma nth_repeat_lt {A} (x d : A) n k : (k < n)%nat -> nth k (repeat x n) d = x.
Proof. revert k. induction n as [|n IH]; intros k H; [lia|]. destruct k; cbn [repeat nth]; [reflexivity|]. apply IH. lia. Qed.

Lemma slice_same p i n : (i + n <= length p)%nat -> same p i n -> slice p i n = repeat (nth i p 0) n.
Proof.
  intros H Hs. apply (list_eq_nth 0).
  - rewrite slice_length, repeat_length by exact H. reflexivity.
  - intros k Hk. rewrite slice_length in Hk by exact H. rewrite slice_nth, Hs by exact Hk.
    now rewrite nth_repeat_lt.
Qed.

Lemma skipn_slice {A} (p : list A) i n : (i + n <= length p)%nat -> skipn i p = slice p i n ++ skipn (i + n) p.
Proof. intros H. unfold slice. rewrite <- (firstn_skipn n (skipn i p)) at 1. now rewrite skipn_skipn'. Qed.

Lemma run_from_ok fuel : forall p width beg rc, length p = width -> (127 <= fuel + rc)%nat ->
  (1 <= rc <= 127)%nat -> (beg + rc <= width)%nat -> same p beg rc ->
  exists rc', run_from fuel p width beg rc = Ok rc' /\ (rc <= rc' <= 127)%nat /\ (beg + rc' <= width)%nat /\ same p beg rc'.
Proof.
  induction fuel as [|f IH]; intros p width beg rc Hp Hf Hrc Hb Hs; cbn [run_from].
  - replace (rc <? 127)%nat with false by lia. rewrite andb_false_r. exists rc; split; [reflexivity|]; split; [lia|]; split; [lia|exact Hs].
  - destruct ((beg + rc <? width)%nat && (rc <? 127)%nat) eqn:E; [|exists rc; split; [reflexivity|]; split; [lia|]; split; [lia|exact Hs]].
    rewrite (get_at_ok p beg 0), (get_at_ok p (beg + rc) 0) by lia. cbn [bind].
    destruct (Z.eqb_spec (nth beg p 0) (nth (beg + rc) p 0)) as [He|He]; [|exists rc; split; [reflexivity|]; split; [lia|]; split; [lia|exact Hs]].
    destruct (IH p width beg (rc + 1)%nat) as (rc' & A & B & C & D); try lia.
    + intros k Hk. destruct (Nat.eq_dec k rc) as [->|]; [congruence|]. apply Hs. lia.
    + exists rc'. split; [exact A|]. split; [lia|]. auto.
Qed.

Lemma run_from_first p width beg : length p = width -> (beg < width)%nat ->
  exists rc', run_from 127 p width beg 1 = Ok rc' /\ (1 <= rc' <= 127)%nat /\ (beg + rc' <= width)%nat /\ same p beg rc'.
Proof.
  intros Hp Hb. apply run_from_ok; try lia. intros k Hk. replace k with 0%nat by lia. f_equal. lia.
Qed.
Lemma run_from_end p width : length p = width -> run_from 127 p width width 1 = Ok 1%nat.
Proof. intros Hp. unfold run_from. now replace (width + 1 <? width)%nat with false by lia. Qed.

(** What the look-ahead loop delivers. *)
Definition found (p : list Z) (width cur beg old rc : nat) : Prop :=
  (cur <= beg <= width)%nat /\ (old < 4)%nat /\ (cur + old <= beg)%nat /\ same p (beg - old) old /\
  ((beg < width /\ 4 <= rc <= 127 /\ beg + rc <= width /\ same p beg rc)%nat \/ (beg = width /\ rc = 1)%nat).

Lemma search_ok fuel : forall p width cur beg old rc, length p = width -> (width < fuel + beg + rc)%nat ->
  (cur <= beg)%nat -> (beg < width)%nat -> (beg + rc <= width)%nat ->
  (1 <= rc <= 127)%nat -> (old < 4)%nat -> (cur + old <= beg)%nat -> same p (beg - old) old -> same p beg rc ->
  exists beg' old' rc', search fuel p width beg old rc = Ok (beg', old', rc') /\ found p width cur beg' old' rc'.
Proof.
  induction fuel as [|f IH]; intros p width cur beg old rc Hp Hf Hc Hw Hb Hrc Ho Hco Hso Hs; cbn [search]; unfold min_rle in *.
  - lia.
  - destruct (Nat.ltb_spec rc 4) as [H4|H4]; cbn [andb].
    + replace (beg <? width)%nat with true by lia.
      destruct (Nat.eq_dec (beg + rc) width) as [E|E].
      * rewrite E, run_from_end by exact Hp. cbn [bind].
        exists width, rc, 1%nat. split.
        -- destruct f; cbn [search]; unfold min_rle; replace (width <? width)%nat with false by lia; now rewrite andb_false_r.
        -- unfold found. split; [lia|]. split; [lia|]. split; [lia|]. split; [|right; lia].
           replace (width - rc)%nat with beg by lia. exact Hs.
      * destruct (run_from_first p width (beg + rc) Hp) as (rc' & A & B & C & D); [lia|].
        rewrite A. cbn [bind]. apply IH; try lia; auto.
        replace (beg + rc - rc)%nat with beg by lia. exact Hs.
    + exists beg, old, rc. split; [reflexivity|]. unfold found.
      split; [lia|]. split; [lia|]. split; [lia|]. split; [exact Hso|]. left. split; [lia|]. split; [lia|]. split; [lia|exact Hs].
Qed.

Lemma search_start p width cur : length p = width -> (cur < width)%nat ->
  exists beg old rc, search (S width) p width cur 0 0 = Ok (beg, old, rc) /\ found p width cur beg old rc.
Proof.
  intros Hp Hc. cbn [search]. unfold min_rle. replace (cur <? width)%nat with true by lia. cbn [Nat.ltb Nat.leb andb].
  rewrite Nat.add_0_r. destruct (run_from_first p width cur Hp Hc) as (rc & A & B & C & D). rewrite A. cbn [bind].
  apply search_ok; try lia; auto. intros k Hk. lia.
Qed.

Lemma literals_ok fuel : forall p cur beg, (beg <= length p)%nat -> (beg < fuel + cur)%nat ->
  exists c, literals fuel p cur beg = Ok c /\
    (forall c' p', plane_code c' p' -> plane_code (c ++ c') (slice p cur (beg - cur) ++ p')) /\
    128 * Z.of_nat (length c) <= 129 * Z.of_nat (beg - cur) + 127 /\ (beg <= cur -> c = [])%nat.
Proof.
  induction fuel as [|f IH]; intros p cur beg Hb Hf; cbn [literals].
  - replace (cur <? beg)%nat with false by lia. exists []. split; [reflexivity|].
    replace (beg - cur)%nat with 0%nat by lia. split; [|split; [cbn [length]; lia|reflexivity]]. intros c' p' H. exact H.
  - destruct (Nat.ltb_spec cur beg) as [H|H].
    + set (n := Nat.min 128 (beg - cur)). rewrite get_slice_ok by lia. cbn [bind].
      destruct (IH p (cur + n)%nat beg) as (c & A & B & C & D); [lia|lia|]. rewrite A. cbn [bind].
      eexists. split; [reflexivity|]. split; [|split; [|lia]].
      * intros c' p' H'. replace (slice p cur (beg - cur)) with (slice p cur n ++ slice p (cur + n) (beg - (cur + n))).
        -- rewrite <- !app_assoc. cbn [app]. replace (u8 (Z.of_nat n)) with (Z.of_nat (length (slice p cur n))).
           ++ rewrite <- app_assoc. apply pc_lit; [rewrite slice_length by lia; lia|]. now apply B.
           ++ rewrite slice_length by lia. unfold u8. lia.
        -- unfold slice. rewrite <- skipn_skipn'. rewrite <- (firstn_skipn n (firstn (beg - cur) (skipn cur p))).
           rewrite firstn_firstn, Nat.min_l by lia. f_equal. rewrite firstn_skipn_comm. f_equal. f_equal. lia.
      * cbn [length]. rewrite app_length, slice_length by lia.
        destruct (Nat.le_gt_cases (beg - cur) 128) as [Hn|Hn].
        -- replace n with (beg - cur)%nat in * by lia. rewrite D by lia. cbn [length]. lia.
        -- replace n with 128%nat in * by lia. lia.
    + exists []. split; [reflexivity|]. replace (beg - cur)%nat with 0%nat by lia.
      split; [|split; [cbn [length]; lia|reflexivity]]. intros c' p' H'. exact H'.
Qed.

Lemma rle_ok fuel : forall p width cur, length p = width -> (cur <= width)%nat -> (width < fuel + cur)%nat ->
  exists c, rle fuel p width cur = Ok c /\ plane_code c (skipn cur p) /\
    128 * Z.of_nat (length c) <= 129 * Z.of_nat (width - cur) + 127 /\ (cur = width -> c = []).
Proof.
  induction fuel as [|f IH]; intros p width cur Hp Hc Hf.
  - lia.
  - cbn [rle]. destruct (Nat.ltb_spec cur width) as [H|H].
    2:{ exists []. split; [reflexivity|]. rewrite skipn_all2 by lia. split; [constructor|]. split; [cbn [length]; lia|reflexivity]. }
    destruct (search_start p width cur Hp H) as (beg & old & rc & E & Hcb & Ho4 & Hob & Hso & Hrc).
    rewrite E. cbn [bind]. unfold min_rle.
    set (isshort := (1 <? old)%nat && (old =? beg - cur)%nat).
    assert (HS : exists short cur1, (if isshort then do v <- get_at p cur ; Ok ([u8 (128 + Z.of_nat old); v], beg) else Ok ([], cur))
        = Ok (short, cur1) /\ (cur <= cur1 <= beg)%nat /\
        (forall c' p', plane_code c' p' -> plane_code (short ++ c') (slice p cur (cur1 - cur) ++ p')) /\
        ((short = [] /\ cur1 = cur)%nat \/ (length short = 2 /\ cur1 = beg /\ cur + 2 <= beg)%nat)).
    { unfold isshort. destruct ((1 <? old)%nat && (old =? beg - cur)%nat) eqn:Es.
      - rewrite (get_at_ok p cur 0) by lia. cbn [bind]. do 2 eexists. split; [reflexivity|]. split; [lia|]. split.
        + intros c' p' H'. replace (beg - cur)%nat with old by lia. replace (beg - old)%nat with cur in Hso by lia.
          rewrite slice_same by (try assumption; lia). replace (u8 (128 + Z.of_nat old)) with (128 + Z.of_nat old) by (unfold u8; lia).
          cbn [app]. apply pc_run; [lia|exact H'].
        + right. cbn [length]. lia.
      - do 2 eexists. split; [reflexivity|]. split; [lia|]. split.
        + intros c' p' H'. rewrite Nat.sub_diag. exact H'.
        + left. auto. }
    destruct HS as (short & cur1 & E1 & Hcur1 & HS & Hshort). rewrite E1. cbn [bind].
    destruct (literals_ok (S width) p cur1 beg) as (lits & E2 & HL & HLs & HLe); [lia|lia|]. rewrite E2. cbn [bind].
    rewrite Nat.max_r by lia.
    destruct Hrc as [(Hbw & Hrc & Hbr & Hs)|[Hbw Hrc]].
    + replace (4 <=? rc)%nat with true by lia. rewrite (get_at_ok p beg 0) by lia. cbn [bind].
      destruct (IH p width (beg + rc)%nat) as (rest & E3 & HR & HRs & HRe); [lia|lia|lia|]. rewrite E3. cbn [bind].
      eexists. split; [reflexivity|]. split; [|split; [|lia]].
      * rewrite (skipn_slice p cur (cur1 - cur)) by lia. apply HS.
        replace (cur + (cur1 - cur))%nat with cur1 by lia. rewrite (skipn_slice p cur1 (beg - cur1)) by lia. apply HL.
        replace (cur1 + (beg - cur1))%nat with beg by lia. rewrite (skipn_slice p beg rc) by lia.
        rewrite (slice_same p beg rc) by (try assumption; lia).
        replace (u8 (128 + Z.of_nat rc)) with (128 + Z.of_nat rc) by (unfold u8; lia). cbn [app]. apply pc_run; [lia|exact HR].
      * rewrite !app_length. cbn [length].
        destruct Hshort as [[-> ->]|(Hl & -> & Hc2)]; [|rewrite HLe by lia]; cbn [length]; lia.
    + subst beg rc. replace (4 <=? 1)%nat with false by lia. cbn [bind].
      destruct (IH p width width) as (rest & E3 & HR & HRs & HRe); [lia|lia|lia|]. rewrite E3. cbn [bind].
      rewrite HRe by reflexivity. rewrite app_nil_r. cbn [app].
      eexists. split; [reflexivity|]. split; [|split; [|lia]].
      * rewrite (skipn_slice p cur (cur1 - cur)) by lia. apply HS.
        replace (cur + (cur1 - cur))%nat with cur1 by lia. rewrite (skipn_slice p cur1 (width - cur1)) by lia.
        rewrite <- (app_nil_r lits). apply HL. rewrite HRe in HR by reflexivity.
        replace (cur1 + (width - cur1))%nat with width by lia. exact HR.
      * rewrite !app_length.
        destruct Hshort as [[-> ->]|(Hl & -> & Hc2)]; [|rewrite HLe by lia]; cbn [length]; lia.
Qed.

(** ** The plane decoder *)

Lemma decode_plane_code c p : plane_code c p -> forall fuel w rest acc, (length c <= fuel)%nat -> (length acc + length p = w)%nat ->
  decode_plane fuel w (c ++ rest) acc = Ok (acc ++ p, rest).
Proof.
  induction 1 as [|n v c p Hn H IH|xs c p Hn H IH]; intros fuel w rest acc Hf Hw.
  - cbn [length] in Hw. rewrite app_nil_r. destruct fuel; cbn [decode_plane app];
    replace (w <=? length acc)%nat with true by lia; reflexivity.
  - rewrite app_length, repeat_length in Hw. cbn [app length] in *.
    destruct fuel as [|f]; [lia|]. cbn [decode_plane]. replace (w <=? length acc)%nat with false by lia.
    replace (128 <? 128 + Z.of_nat n) with true by lia. cbn [hd tl].
    replace (Z.land (128 + Z.of_nat n) 127) with (Z.of_nat n).
    2:{ change 127 with (Z.ones 7). rewrite Z.land_ones by lia. change (2 ^ 7) with 128. lia. }
    rewrite Nat2Z.id, Nat.min_l by lia. rewrite IH; [now rewrite <- app_assoc|lia|].
    rewrite app_length, repeat_length. lia.
  - rewrite app_length in Hw. cbn [app length] in *. rewrite app_length in Hf.
    destruct fuel as [|f]; [lia|]. cbn [decode_plane]. replace (w <=? length acc)%nat with false by lia.
    replace (128 <? Z.of_nat (length xs)) with false by lia.
    rewrite Nat2Z.id, Nat.min_l by lia. rewrite <- app_assoc, firstn_app_exact, skipn_app_exact by reflexivity.
    rewrite app_length. replace (length xs - (length xs + length (c ++ rest)))%nat with 0%nat by lia.
    cbn [repeat]. rewrite app_nil_r. rewrite IH; [now rewrite <- app_assoc|lia|]. rewrite app_length. lia.
Qed.

Lemma decode_plane_total fuel : forall w input acc, (length input <= fuel)%nat ->
  match decode_plane fuel w input acc with
  | Ok (acc', rest) => (length rest <= length input)%nat /\ (length acc <= w -> length acc' = w)%nat
  | Err _ => True | _ => False
  end.
Proof.
  induction fuel as [|f IH]; intros w input acc Hf; cbn [decode_plane].
  - destruct (Nat.leb_spec w (length acc)); [split; lia|]. destruct input; [exact I|cbn [length] in Hf; lia].
  - destruct (Nat.leb_spec w (length acc)); [split; lia|]. destruct input as [|run input]; [exact I|].
    cbn [length] in Hf. destruct (128 <? run).
    + set (n := Nat.min _ _). specialize (IH w (tl input) (acc ++ repeat (hd 0 input) n)).
      assert (L : (length (tl input) <= length input)%nat) by (destruct input; cbn [tl length]; lia).
      rewrite app_length, repeat_length in IH. specialize (IH ltac:(lia)).
      destruct (decode_plane f w (tl input) _) as [[acc' rest]| | |]; try assumption. cbn [length]. lia.
    + set (n := Nat.min _ _). specialize (IH w (skipn n input) (acc ++ firstn n input ++ repeat 0 (n - length input))).
      rewrite skipn_length in IH. specialize (IH ltac:(lia)).
      rewrite !app_length, firstn_length, repeat_length in IH.
      destruct (decode_plane f w (skipn n input) _) as [[acc' rest]| | |]; try assumption. cbn [length]. lia.
Qed.

(** ** Scanlines *)

Lemma plane_length i sc w : length (plane i sc w) = w.
Proof. unfold plane. now rewrite map_length, seq_length. Qed.
Lemma plane_nth i sc w k : (k < w)%nat -> nth k (plane i sc w) 0 = nth (4 * k + i) sc 0.
Proof.
  intros H. unfold plane. rewrite (map_nth_in _ (seq 0 w) k 0%nat 0) by (rewrite seq_length; exact H).
  now rewrite seq_nth by exact H.
Qed.

Lemma concat4_nth (f : nat -> list Z) (n : nat) : (forall k, length (f k) = 4%nat) -> forall a i j, (i < n)%nat -> (j < 4)%nat ->
  nth (4 * i + j) (concat (map f (seq a n))) 0 = nth j (f (a + i)%nat) 0.
Proof.
  intros Hf. induction n as [|n IH]; intros a i j Hi Hj; [lia|]. cbn [seq map concat]. destruct i as [|i].
  - rewrite app_nth1 by (rewrite Hf; lia). f_equal. now rewrite Nat.add_0_r.
  - rewrite app_nth2 by (rewrite Hf; lia). rewrite Hf. replace (4 * S i + j - 4)%nat with (4 * i + j)%nat by lia.
    rewrite IH by lia. do 2 f_equal. lia.
Qed.
Lemma weave_length w p0 p1 p2 p3 : length (weave w p0 p1 p2 p3) = (4 * w)%nat.
Proof.
  unfold weave. rewrite (concat_length_const 4).
  - rewrite map_length, seq_length. lia.
  - apply Forall_forall. intros x Hx. apply in_map_iff in Hx. destruct Hx as (k & <- & _). reflexivity.
Qed.
Lemma weave_nth w p0 p1 p2 p3 k j : (k < w)%nat -> (j < 4)%nat ->
  nth (4 * k + j) (weave w p0 p1 p2 p3) 0 = nth j [nth k p0 0; nth k p1 0; nth k p2 0; nth k p3 0] 0.
Proof.
  intros Hk Hj. unfold weave.
  exact (concat4_nth (fun k => [nth k p0 0; nth k p1 0; nth k p2 0; nth k p3 0]) w (fun _ => eq_refl) 0 k j Hk Hj).
Qed.

Lemma every4_weave w px p0 p1 p2 p3 : length p0 = w -> length p1 = w -> length p2 = w -> length p3 = w ->
  every4 0 px p0 -> every4 1 px p1 -> every4 2 px p2 -> every4 3 px p3 -> weave w p0 p1 p2 p3 = px.
Proof.
  intros L0 L1 L2 L3 [E H0] [_ H1] [_ H2] [_ H3]. apply (list_eq_nth 0).
  - rewrite weave_length. lia.
  - intros i Hi. rewrite weave_length in Hi.
    pose proof (Nat.div_mod i 4 ltac:(lia)) as D. pose proof (Nat.mod_upper_bound i 4 ltac:(lia)) as M.
    assert (Hq : (i / 4 < w)%nat) by lia.
    rewrite D. rewrite weave_nth by assumption. clear D.
    set (q := (i / 4)%nat) in *. set (r := (i mod 4)%nat) in *. clearbody q r.
    destruct r as [|[|[|[|r]]]]; [..|lia]; cbn [nth]; [apply H0|apply H1|apply H2|apply H3]; lia.
Qed.

Lemma every4_plane i w px : length px = (4 * w)%nat -> every4 i px (plane i px w).
Proof.
  intros H. split; [rewrite plane_length; exact H|]. intros k Hk. rewrite plane_length in Hk. now apply plane_nth.
Qed.

Lemma encode_scanline_ok w sc : use_rle w = true -> length sc = (4 * w)%nat ->
  exists c, encode_scanline w sc = Ok c /\ scanline_code w c sc /\
    128 * Z.of_nat (length c) <= 512 + 4 * (129 * Z.of_nat w + 127).
Proof.
  intros Hu Hl. unfold encode_scanline. rewrite Hu. unfold use_rle in Hu.
  destruct (rle_ok (S w) (plane 0 sc w) w 0) as (c0 & E0 & P0 & S0 & _); [apply plane_length|lia|lia|].
  destruct (rle_ok (S w) (plane 1 sc w) w 0) as (c1 & E1 & P1 & S1 & _); [apply plane_length|lia|lia|].
  destruct (rle_ok (S w) (plane 2 sc w) w 0) as (c2 & E2 & P2 & S2 & _); [apply plane_length|lia|lia|].
  destruct (rle_ok (S w) (plane 3 sc w) w 0) as (c3 & E3 & P3 & S3 & _); [apply plane_length|lia|lia|].
  rewrite E0, E1, E2, E3. cbn [bind]. cbn [skipn] in *. rewrite Nat.sub_0_r in *.
  eexists. split; [reflexivity|]. split.
  - exists c0, c1, c2, c3, (plane 0 sc w), (plane 1 sc w), (plane 2 sc w), (plane 3 sc w).
    rewrite !plane_length. split; [|repeat (split; [first [reflexivity | assumption | now apply every4_plane]|]); now apply every4_plane].
    cbn [app]. do 2 f_equal. unfold be_bytes, le_bytes. cbn [rev app].
    unfold u8. rewrite Z.shiftr_div_pow2 by lia. change (2 ^ 8) with 256.
    f_equal. f_equal. change 255 with (Z.ones 8). rewrite Z.land_ones by lia. change (2 ^ 8) with 256. lia.
  - rewrite !app_length. cbn [length]. lia.
Qed.

Lemma decode_scanline_code w sc c px rest : use_rle w = true -> scanline_code w c px ->
  decode_scanline w sc (c ++ rest) = Ok (px, rest).
Proof.
  intros Hu (c0 & c1 & c2 & c3 & p0 & p1 & p2 & p3 & -> & L0 & L1 & L2 & L3 & P0 & P1 & P2 & P3 & V0 & V1 & V2 & V3).
  unfold decode_scanline. rewrite Hu. cbn [negb]. unfold use_rle in Hu.
  change (be_bytes 2 (Z.of_nat w)) with [Z.of_nat w / 256 mod 256; Z.of_nat w mod 256].
  cbn [app].
  replace (negb (2 =? 2)) with false by reflexivity. cbn [orb].
  assert (Hb : Z.land (Z.of_nat w / 256 mod 256) 128 = 0).
  { replace (Z.of_nat w / 256 mod 256) with (Z.of_nat w / 256) by lia.
    assert (Hq : 0 <= Z.of_nat w / 256 < 128) by lia. set (q := Z.of_nat w / 256) in *. clearbody q.
    change 128 with (2 ^ 7). apply Z.bits_inj'. intros i Hi. rewrite Z.land_spec, Z.bits_0, Z.pow2_bits_eqb by lia.
    destruct (Z.eqb_spec 7 i) as [<-|]; [|apply andb_false_r]. rewrite andb_true_r.
    destruct (Z.eq_dec q 0) as [->|]; [apply Z.bits_0|]. apply Z.bits_above_log2; [lia|]. apply Z.log2_lt_pow2; lia. }
  rewrite Hb. cbn [negb Z.eqb]. rewrite <- !app_assoc.
  rewrite (decode_plane_code c0 p0 P0); [|cbn [length]; rewrite app_length; lia|cbn [length]; lia]. cbn [bind].
  rewrite (decode_plane_code c1 p1 P1); [|cbn [length]; rewrite !app_length; lia|cbn [length]; lia]. cbn [bind].
  rewrite (decode_plane_code c2 p2 P2); [|cbn [length]; rewrite !app_length; lia|cbn [length]; lia]. cbn [bind].
  rewrite (decode_plane_code c3 p3 P3); [|cbn [length]; rewrite !app_length; lia|cbn [length]; lia]. cbn [bind].
  cbn [app]. now rewrite (every4_weave w px).
Qed.

(** ** Flat data *)

Lemma put_slice_at {A} (a b xs : list A) : (length xs <= length b)%nat ->
  put_slice (a ++ b) (length a) xs = Ok (a ++ xs ++ skipn (length xs) b).
Proof.
  intros H. rewrite put_slice_ok by (rewrite app_length; lia). f_equal.
  rewrite <- (firstn_skipn (length xs) b) at 1. apply put_at. rewrite firstn_length. lia.
Qed.

Lemma marker_free_cons r g b e px : marker_free (r :: g :: b :: e :: px) ->
  (r =? 1) && (g =? 1) && (b =? 1) = false /\ marker_free px.
Proof.
  intros H. split.
  - specialize (H 0%nat). cbn [length nth Nat.mul Nat.add] in H. specialize (H ltac:(lia)).
    destruct (Z.eqb_spec r 1), (Z.eqb_spec g 1), (Z.eqb_spec b 1); cbn [andb]; try reflexivity. exfalso. apply H. auto.
  - intros k Hk. specialize (H (S k)). cbn [length] in H.
    replace (4 * S k + 1)%nat with (S (S (S (S (4 * k + 1))))) in H by lia.
    replace (4 * S k + 2)%nat with (S (S (S (S (4 * k + 2))))) in H by lia.
    replace (4 * S k)%nat with (S (S (S (S (4 * k))))) in H by lia.
    cbn [nth] in H. apply H. lia.
Qed.

Lemma decompress_flat n : forall fuel px done tail rest, (n < fuel)%nat -> length px = (4 * n)%nat -> length tail = (4 * n)%nat ->
  marker_free px ->
  decompress fuel (done ++ tail) (Z.of_nat n) (length done) 0 (px ++ rest) = Ok (done ++ px, rest).
Proof.
  induction n as [|n IH]; intros fuel px done tail rest Hf Hp Ht Hm.
  - destruct px; [|cbn [length] in Hp; lia]. destruct tail; [|cbn [length] in Ht; lia].
    destruct fuel; cbn [decompress Z.of_nat Z.ltb Z.compare]; rewrite ?app_nil_r; reflexivity.
  - destruct px as [|r [|g [|b [|e px]]]]; cbn [length] in Hp; try lia.
    destruct (marker_free_cons _ _ _ _ _ Hm) as [E Hm'].
    destruct fuel as [|f]; [lia|]. cbn [decompress]. replace (0 <? Z.of_nat (S n)) with true by lia. cbn [app].
    rewrite (put_slice_at done tail [r; g; b; e]) by (cbn [length]; lia). cbn [bind]. rewrite E.
    cbn [length]. replace (Z.of_nat (S n) - 1) with (Z.of_nat n) by lia.
    replace (length done + 4)%nat with (length (done ++ [r; g; b; e])) by (rewrite app_length; reflexivity).
    rewrite app_assoc. rewrite IH; [now rewrite <- app_assoc|lia|lia|rewrite skipn_length; lia|exact Hm'].
Qed.

(** ** The decoder never panics *)

Lemma old_run_total n : forall sc width off i, (Z.to_nat width <= n)%nat -> Z.of_nat off + 4 * width <= Z.of_nat (length sc) ->
  exists sc' width' off', old_run n sc width off i = Ok (sc', width', off') /\ length sc' = length sc /\
    Z.of_nat off' + 4 * width' <= Z.of_nat (length sc).
Proof.
  induction n as [|n IH]; intros sc width off i Hn Hl; cbn [old_run].
  - replace (0 <? width) with false by lia. cbn [andb]. exists sc, width, off. auto.
  - destruct ((0 <? width) && (4 <? off)%nat && (0 <? i)) eqn:E; [|exists sc, width, off; auto].
    rewrite get_slice_ok by lia. cbn [bind]. rewrite put_slice_ok by (rewrite slice_length; lia). cbn [bind].
    destruct (IH (put sc 4 (slice sc (off - 4) 4)) (width - 4) (off + 4)%nat (i - 1)) as (sc' & w' & o' & A & B & C).
    + lia.
    + rewrite put_length by (rewrite slice_length; lia). lia.
    + rewrite put_length in * by (rewrite slice_length; lia). exists sc', w', o'. auto.
Qed.

Lemma decompress_total fuel : forall sc width off shift input, (length input < fuel)%nat ->
  Z.of_nat off + 4 * width <= Z.of_nat (length sc) ->
  match decompress fuel sc width off shift input with
  | Ok (sc', rest) => length sc' = length sc /\ (length rest <= length input)%nat
  | Err _ => True | _ => False
  end.
Proof.
  induction fuel as [|f IH]; intros sc width off shift input Hf Hl; [lia|]. cbn [decompress].
  destruct (Z.ltb_spec 0 width) as [Hw|Hw]; [|split; [reflexivity|lia]].
  destruct input as [|r [|g [|b [|e input]]]]; try exact I.
  rewrite put_slice_ok by (cbn [length]; lia). cbn [bind length] in *.
  assert (Lp : length (put sc off [r; g; b; e]) = length sc) by (apply put_length; cbn [length]; lia).
  destruct ((r =? 1) && (g =? 1) && (b =? 1)).
  - destruct (old_run_total (Z.to_nat width) (put sc off [r; g; b; e]) width off (Z.shiftl e shift)) as (sc' & w' & o' & A & B & C); [lia|lia|].
    rewrite A. cbn [bind]. destruct (16 <? shift + 8); [split; [congruence|lia]|].
    specialize (IH sc' w' o' (shift + 8) input ltac:(lia) ltac:(lia)).
    destruct (decompress f sc' w' o' (shift + 8) input) as [[s2 rest]| | |]; try assumption. split; lia.
  - specialize (IH (put sc off [r; g; b; e]) (width - 1) (off + 4)%nat 0 input ltac:(lia) ltac:(lia)).
    destruct (decompress f (put sc off [r; g; b; e]) (width - 1) (off + 4) 0 input) as [[s2 rest]| | |]; try assumption. split; lia.
Qed.

Lemma decode_scanline_total w sc input : length sc = (4 * w)%nat ->
  match decode_scanline w sc input with
  | Ok (sc', rest) => length sc' = (4 * w)%nat
  | Err _ => True | _ => False
  end.
Proof.
  intros Hl. unfold decode_scanline.
  assert (D : match decompress (S (length input)) sc (Z.of_nat w) 0 0 input with
    | Ok (sc', rest) => length sc' = (4 * w)%nat | Err _ => True | _ => False end).
  { pose proof (decompress_total (S (length input)) sc (Z.of_nat w) 0 0 input ltac:(lia) ltac:(lia)) as D.
    destruct (decompress (S (length input)) sc (Z.of_nat w) 0 0 input) as [[s2 rest]| | |]; try assumption. lia. }
  destruct (use_rle w) eqn:Eu; cbn [negb]; [|exact D].
  destruct input as [|z input']; [exact D|].
  destruct (Z.eq_dec z 2) as [->|Hz].
  2:{ destruct z as [|[p|[p|p|]|]|]; try exact D. lia. }
  destruct input' as [|b1 [|b2 [|b3 input]]]; try exact I.
  clear D. unfold use_rle in Eu.
  destruct (negb (b1 =? 2) || negb (Z.land b2 128 =? 0)).
  - rewrite put_slice_ok by (cbn [length]; lia). cbn [bind].
    assert (Lp : length (put sc 0 [2; b1; b2; b3]) = length sc) by (apply put_length; cbn [length]; lia).
    set (sc1 := put sc 0 [2; b1; b2; b3]) in *. clearbody sc1.
    pose proof (decompress_total (S (length (2 :: b1 :: b2 :: b3 :: input))) (skipn 4 sc1) (Z.of_nat w - 1) 0 0 input) as D.
    cbn [length] in *. rewrite skipn_length in D. specialize (D ltac:(lia) ltac:(lia)).
    destruct (decompress _ (skipn 4 sc1) (Z.of_nat w - 1) 0 0 input) as [[s2 rest]| | |]; cbn [bind]; try assumption.
    rewrite app_length, firstn_length. lia.
  - set (F := length (2 :: b1 :: b2 :: b3 :: input)). assert (HF : (length input <= F)%nat) by (unfold F; cbn [length]; lia). clearbody F.
    pose proof (decode_plane_total F w input [] HF) as D0. destruct (decode_plane F w input []) as [[p0 i1]| | |]; cbn [bind]; try assumption.
    pose proof (decode_plane_total F w i1 [] ltac:(lia)) as D1. destruct (decode_plane F w i1 []) as [[p1 i2]| | |]; cbn [bind]; try assumption.
    pose proof (decode_plane_total F w i2 [] ltac:(lia)) as D2. destruct (decode_plane F w i2 []) as [[p2 i3]| | |]; cbn [bind]; try assumption.
    pose proof (decode_plane_total F w i3 [] ltac:(lia)) as D3. destruct (decode_plane F w i3 []) as [[p3 i4]| | |]; cbn [bind]; try assumption.
    apply weave_length.
Qed.

Lemma decode_scanlines_total n : forall w sc input, length sc = (4 * w)%nat ->
  match decode_scanlines n w sc input with
  | Ok data => length data = (4 * w * n)%nat
  | Err _ => True | _ => False
  end.
Proof.
  induction n as [|n IH]; intros w sc input Hl; cbn [decode_scanlines]; [cbn [length]; lia|].
  pose proof (decode_scanline_total w sc input Hl) as D.
  destruct (decode_scanline w sc input) as [[sc' rest]| | |]; cbn [bind]; try assumption.
  specialize (IH w sc' rest D). destruct (decode_scanlines n w sc' rest); cbn [bind]; try assumption.
  rewrite app_length. lia.
Qed.

Lemma until_length needle l : let '(a, b) := until needle l in (length a + length b = length l)%nat.
Proof.
  induction l as [|c l IH]; cbn [until]; [reflexivity|]. destruct (c =? needle); [cbn [length]; lia|].
  destruct (until needle l). cbn [length]. lia.
Qed.
Lemma skip_lines_total fuel : forall input, (length input <= fuel)%nat -> exists rest, skip_lines fuel input = Ok rest.
Proof.
  induction fuel as [|f IH]; intros input Hf; cbn [skip_lines]; pose proof (until_length 10 input) as U;
  destruct (until 10 input) as [line rest]; destruct line as [|c line]; try (eexists; reflexivity); cbn [length] in U; [lia|].
  destruct (c =? 35); [apply IH; lia|]. destruct (c =? 10); [eexists; reflexivity|]. apply IH. lia.
Qed.

Lemma hdr_headers_total mw mh input : total (hdr_headers mw mh input).
Proof.
  unfold hdr_headers. destruct (until 10 input) as [line i0].
  destruct (negb _); [exact I|]. destruct (skip_lines_total (length i0) i0 (le_n _)) as (i1 & ->). cbn [bind].
  destruct (until 32 i1) as [t1 i2], (until 32 i2) as [c1 i3], (until 32 i3) as [t2 i4], (until 10 i4) as [c2 i5].
  destruct (zeqb_list (trim t1) [45; 89] && zeqb_list (trim t2) [43; 88]); cbn [bind].
  - destruct (parse_usize (trim c1)), (parse_usize (trim c2)); try exact I. destruct (mh <? z); [exact I|]. destruct (mw <? z0); exact I.
  - destruct (zeqb_list (trim t1) [43; 88] && zeqb_list (trim t2) [45; 89]); cbn [bind]; [|exact I].
    destruct (parse_usize (trim c2)), (parse_usize (trim c1)); try exact I. destruct (mh <? z); [exact I|]. destruct (mw <? z0); exact I.
Qed.

(** ** Headers *)

Lemma until_app needle l rest : forallb (fun c => negb (c =? needle)) l = true ->
  until needle (l ++ needle :: rest) = (l ++ [needle], rest).
Proof.
  induction l as [|c l IH]; intros H; cbn [app until].
  - now rewrite Z.eqb_refl.
  - cbn [forallb] in H. apply andb_true_iff in H. destruct H as [Hc Hl]. apply negb_true_iff in Hc. rewrite Hc.
    now rewrite IH.
Qed.
Lemma digits_not (d : Z) l : forallb is_digit l = true -> d < 48 -> forallb (fun c => negb (c =? d)) l = true.
Proof.
  intros H Hd. rewrite forallb_forall in *. intros x Hx. specialize (H x Hx). unfold is_digit in H. lia.
Qed.
Lemma trim_start_digits l : forallb is_digit l = true -> trim_start l = l.
Proof.
  destruct l as [|c l]; [reflexivity|]. cbn [forallb trim_start]. intros H. unfold is_digit, is_space in *.
  replace ((c =? 32) || (9 <=? c) && (c <=? 13)) with false by lia. reflexivity.
Qed.
Lemma trim_digits l s : forallb is_digit l = true -> l <> [] -> is_space s = true -> trim (l ++ [s]) = l.
Proof.
  intros H Hn Hs. unfold trim.
  assert (A : trim_start (l ++ [s]) = l ++ [s]).
  { destruct l as [|c l]; [congruence|]. cbn [app trim_start forallb] in *. unfold is_digit, is_space in *.
    replace ((c =? 32) || (9 <=? c) && (c <=? 13)) with false by lia. reflexivity. }
  rewrite A, rev_app_distr. cbn [rev app trim_start]. rewrite Hs. rewrite trim_start_digits, rev_involutive; [reflexivity|].
  rewrite forallb_forall in *. intros x Hx. apply H. now apply in_rev.
Qed.

Lemma hdr_headers_ok mw mh w h body : 0 <= w < 2 ^ 64 -> 0 <= h < 2 ^ 64 -> w <= mw -> h <= mh ->
  hdr_headers mw mh (hdr_magic ++ hdr_software ++ hdr_format ++ hdr_dims h w ++ body) = Ok (Z.to_nat w, Z.to_nat h, body).
Proof.
  intros Hw Hh Hmw Hmh. unfold hdr_headers.
  destruct (dec_ok w Hw) as (_ & Dw & Nw). destruct (dec_ok h Hh) as (_ & Dh & Nh).
  set (R := hdr_software ++ hdr_format ++ hdr_dims h w ++ body).
  change (until 10 (hdr_magic ++ R)) with (hdr_magic, R).
  change (negb (starts_with hdr_magic hdr_magic || starts_with hdr_magic [35; 63; 82; 71; 66; 69; 10])) with false.
  cbv iota zeta beta.
  assert (SK : skip_lines (length R) R = Ok (hdr_dims h w ++ body)).
  { unfold R. set (B := hdr_dims h w ++ body).
    replace (length (hdr_software ++ hdr_format ++ B)) with (S (S (length (hdr_software ++ hdr_format ++ B) - 2))).
    2:{ rewrite !app_length. cbn [hdr_software hdr_format length]. lia. }
    generalize (length (hdr_software ++ hdr_format ++ B) - 2)%nat. intros f.
    cbn [skip_lines hdr_software hdr_format app until Z.eqb Pos.eqb]. destruct f; reflexivity. }
  rewrite SK. cbn [bind]. unfold hdr_dims.
  cbn [app until Z.eqb Pos.eqb].
  rewrite <- app_assoc. cbn [app]. rewrite until_app by (apply digits_not; [exact Dh|lia]).
  cbn [until Z.eqb Pos.eqb]. rewrite <- app_assoc. cbn [app]. rewrite until_app by (apply digits_not; [exact Dw|lia]).
  change (zeqb_list (trim [45; 89; 32]) [45; 89] && zeqb_list (trim [43; 88; 32]) [43; 88]) with true. cbn [bind].
  rewrite !trim_digits by (try assumption; reflexivity). rewrite !parse_dec by assumption.
  replace (mh <? h) with false by lia. replace (mw <? w) with false by lia. reflexivity.
Qed.

(** ** Whole images *)

Lemma encode_scanlines_rle w scs : use_rle w = true -> Forall (fun sc => length sc = (4 * w)%nat) scs ->
  exists c, encode_scanlines w scs = Ok c /\
    (forall sc0 rest, decode_scanlines (length scs) w sc0 (c ++ rest) = Ok (concat scs)) /\
    128 * Z.of_nat (length c) <= Z.of_nat (length scs) * (512 + 4 * (129 * Z.of_nat w + 127)).
Proof.
  intros Hu. induction scs as [|sc scs IH]; intros HF.
  - exists []. split; [reflexivity|]. split; [reflexivity|cbn [length]; lia].
  - apply Forall_cons_iff in HF. destruct HF as [Hl HF]. destruct (IH HF) as (c & E & D & S).
    destruct (encode_scanline_ok w sc Hu Hl) as (c0 & E0 & C0 & S0).
    cbn [encode_scanlines]. rewrite E0, E. cbn [bind]. eexists. split; [reflexivity|]. split.
    + intros sc0 rest. cbn [length decode_scanlines concat]. rewrite <- app_assoc.
      rewrite (decode_scanline_code w sc0 c0 sc) by assumption. cbn [bind]. rewrite D. reflexivity.
    + rewrite app_length. cbn [length]. lia.
Qed.

Lemma encode_scanlines_flat w scs : use_rle w = false -> (1 <= w)%nat ->
  Forall (fun sc => length sc = (4 * w)%nat /\ marker_free sc) scs ->
  forall sc0 rest, length sc0 = (4 * w)%nat ->
  encode_scanlines w scs = Ok (concat scs) /\ decode_scanlines (length scs) w sc0 (concat scs ++ rest) = Ok (concat scs).
Proof.
  intros Hu Hw. induction scs as [|sc scs IH]; intros HF sc0 rest H0; [split; reflexivity|].
  apply Forall_cons_iff in HF. destruct HF as [[Hl Hm] HF]. destruct (IH HF sc rest Hl) as [A B].
  cbn [encode_scanlines decode_scanlines length concat]. unfold encode_scanline, decode_scanline. rewrite Hu. cbn [negb bind].
  rewrite A. cbn [bind]. split; [reflexivity|]. rewrite <- app_assoc.
  change sc0 with ([] ++ sc0). change 0%nat with (length (@nil Z)) at 1.
  rewrite (decompress_flat w); [|rewrite app_length; lia|exact Hl|exact H0|exact Hm]. cbn [bind app].
  rewrite B. reflexivity.
Qed.

Lemma flat_any w scs : use_rle w = false -> encode_scanlines w scs = Ok (concat scs).
Proof.
  intros Hu. induction scs as [|sc scs IH]; [reflexivity|]. cbn [encode_scanlines concat]. unfold encode_scanline.
  rewrite Hu. cbn [bind]. rewrite IH. reflexivity.
Qed.
