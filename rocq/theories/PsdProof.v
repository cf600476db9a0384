(** Proofs about the PSD decoder *)
From Verif Require Import Base BaseProof Loops Slices PngRowProof F32 DeintModel PsdModel PsdSpec.

(** * Writing items of [m] values, each [st] after the one before *)
Fixpoint puts (st pos : nat) (ds : list (list Z)) (buf : list Z) : list Z :=
  match ds with [] => buf | d :: ds' => puts st (pos + st) ds' (put buf pos d) end.
Lemma puts_app st : forall a b pos buf, puts st pos (a ++ b) buf = puts st (pos + st * length a) b (puts st pos a buf).
Proof.
  induction a as [|x a IH]; intros b pos buf; cbn [app puts length]; [f_equal; lia|]. rewrite IH. f_equal. lia.
Qed.
Lemma puts_length st m : (m <= st)%nat -> forall ds pos buf, Forall (fun d => length d = m) ds -> (pos + st * length ds <= length buf)%nat ->
  length (puts st pos ds buf) = length buf.
Proof.
  intros Hm. induction ds as [|d ds IH]; intros pos buf F Hl; cbn [puts length] in *; [easy|]. inversion F; subst.
  assert (length (put buf pos d) = length buf) as E by (apply put_length; lia). rewrite IH; [exact E|assumption|lia].
Qed.
Lemma puts_other st m j : (m <= st)%nat -> forall ds pos buf, Forall (fun d => length d = m) ds -> (pos + st * length ds <= length buf)%nat ->
  (forall i, (i < length ds)%nat -> (j < pos + st * i \/ pos + st * i + m <= j)%nat) -> nth j (puts st pos ds buf) 0 = nth j buf 0.
Proof.
  intros Hm. induction ds as [|d ds IH]; intros pos buf F Hl Hj; cbn [puts length] in *; [easy|]. inversion F as [|x y F1 F2]; subst x y.
  rewrite IH; [|assumption|rewrite put_length by lia; lia|].
  - rewrite put_nth by lia. specialize (Hj 0%nat ltac:(lia)). destruct (_ && _) eqn:E; [lia|easy].
  - intros i Hi. specialize (Hj (S i) ltac:(lia)). lia.
Qed.
Lemma puts_nth st m j : (m <= st)%nat -> (j < m)%nat -> forall ds i pos buf, Forall (fun d => length d = m) ds -> (pos + st * length ds <= length buf)%nat ->
  (i < length ds)%nat -> nth (pos + st * i + j) (puts st pos ds buf) 0 = nth j (nth i ds []) 0.
Proof.
  intros Hm Hjm. induction ds as [|d ds IH]; intros i pos buf F Hl Hi; cbn [puts length] in *; [lia|]. inversion F as [|x y F1 F2]; subst x y.
  destruct i as [|i]; cbn [nth].
  - rewrite (puts_other st m); [|assumption..|rewrite put_length by lia; lia|intros i' _; nia].
    rewrite put_nth by lia. replace (_ && _) with true by lia. f_equal. lia.
  - replace (pos + st * S i + j)%nat with (pos + st + st * i + j)%nat by lia. apply IH; [assumption|rewrite put_length by lia; lia|lia].
Qed.
Lemma upd_put (l : list Z) i x : (i < length l)%nat -> upd l i x = put l i [x].
Proof.
  intros H. apply (list_eq_nth 0); [rewrite upd_length, put_length by (cbn; lia); easy|]. intros j Hj.
  rewrite put_nth by (cbn; lia). cbn [length]. destruct (Nat.eq_dec i j) as [<-|N].
  - rewrite upd_nth_same by easy. replace (_ && _) with true by lia. now rewrite Nat.sub_diag.
  - rewrite upd_nth_other by easy. destruct (_ && _) eqn:E; [lia|easy].
Qed.
Definition ones (d : list Z) : list (list Z) := map (fun x => [x]) d.
Lemma ones_len d : Forall (fun x => length x = 1%nat) (ones d).
Proof. unfold ones. rewrite Forall_map. now apply Forall_forall. Qed.

(** * The loop over the channels *)
Section Planes.
Variables (n m : nat) (planes : list (list (list Z))).
Let ch := length planes.
Hypothesis Hm : (0 < m)%nat.
Hypothesis Lp : Forall (fun p => length p = n) planes.
Hypothesis Lm : Forall (Forall (fun x => length x = m)) planes.

Lemma plane_len c : (c < ch)%nat -> length (nth c planes []) = n.
Proof. intros H. exact (proj1 (Forall_forall _ _) Lp _ (nth_In _ _ H)). Qed.
Lemma plane_items c : (c < ch)%nat -> Forall (fun x => length x = m) (nth c planes []).
Proof. intros H. exact (proj1 (Forall_forall _ _) Lm _ (nth_In _ _ H)). Qed.

(** The buffer holds the first [c] channels *)
Definition holds (size c : nat) (buf : list Z) : Prop :=
  length buf = size /\
  forall c' p j, (c' < c)%nat -> (p < n)%nat -> (j < m)%nat -> nth (m * (p * ch + c') + j) buf 0 = nth j (nth p (nth c' planes []) []) 0.
Lemma holds_next size c buf : (m * (n * ch) + m * ch <= size)%nat -> (c < ch)%nat -> holds size c buf -> holds size (S c) (puts (m * ch) (m * c) (nth c planes []) buf).
Proof.
  intros Hs Hc (L & H). pose proof (plane_len c Hc) as Ln. pose proof (plane_items c Hc) as F.
  assert (Hms : (m <= m * ch)%nat) by nia.
  assert (Hl : (m * c + m * ch * length (nth c planes []) <= length buf)%nat) by (rewrite Ln, L; nia).
  split; [now rewrite (puts_length _ m)|]. intros c' p j Hc' Hp Hj. destruct (Nat.eq_dec c' c) as [->|N].
  - replace (m * (p * ch + c) + j)%nat with (m * c + m * ch * p + j)%nat by lia. apply puts_nth with (m := m); try assumption. now rewrite Ln.
  - rewrite (puts_other _ m); [apply H; lia|assumption..|]. intros i Hi. assert (Hcc : (c' < c)%nat) by lia.
    destruct (Nat.le_gt_cases p i); [left|right].
    + assert (m * (p * ch + c') + m <= m * c + m * ch * i)%nat by nia. lia.
    + assert (m * c + m * ch * i + m <= m * (p * ch + c'))%nat by (assert (c + 1 <= ch)%nat by lia; nia). lia.
Qed.
Lemma holds_all size buf : (m * (n * ch) <= size)%nat -> holds size ch buf ->
  firstn (m * (n * ch)) buf = concat (flat_map (fun p => map (fun plane => nth p plane []) planes) (seq 0 n)).
Proof.
  intros Hs (L & H).
  assert (Lf : length (flat_map (fun p => map (fun plane => nth p plane []) planes) (seq 0 n)) = (n * ch)%nat).
  { rewrite flat_map_concat_map. rewrite (concat_length_const ch).
    - now rewrite map_length, seq_length.
    - apply Forall_forall. intros x I. apply in_map_iff in I as (p & <- & _). apply map_length. }
  assert (Fm : Forall (fun l => length l = m) (flat_map (fun p => map (fun plane => nth p plane []) planes) (seq 0 n))).
  { apply Forall_forall. intros x I. apply in_flat_map in I as (p & Ip & I). apply in_map_iff in I as (pl & <- & I). apply in_seq in Ip.
    pose proof (proj1 (Forall_forall _ _) Lp _ I) as E. pose proof (proj1 (Forall_forall _ _) Lm _ I) as F.
    cbn beta in E. apply (proj1 (Forall_forall _ _) F). apply nth_In. lia. }
  apply (list_eq_nth 0).
  - rewrite firstn_length, (concat_length_const m), Lf by assumption. lia.
  - intros k Hk. rewrite firstn_length, Nat.min_l in Hk by lia. rewrite nth_firstn by assumption.
    rewrite (nth_concat_const _ m) by (rewrite ?Lf; try assumption; lia).
    assert (Hkm : (k / m < n * ch)%nat) by (apply Nat.div_lt_upper_bound; [lia|exact Hk]).
    rewrite flat_map_concat_map.
    rewrite (nth_concat_const _ ch); cycle 1.
    { clearbody ch. destruct ch; [rewrite Nat.mul_0_r in Hkm; lia|lia]. }
    { apply Forall_forall. intros x I. apply in_map_iff in I as (p & <- & _). apply map_length. }
    { now rewrite map_length, seq_length. }
    set (q := (k / m)%nat) in *. assert (Hch : ch <> 0%nat) by (intros E; rewrite E in Hkm; lia).
    pose proof (Nat.mod_upper_bound q ch Hch) as Hc. pose proof (Nat.div_mod q ch Hch) as Eq.
    assert (Hp : (q / ch < n)%nat) by (apply Nat.div_lt_upper_bound; lia).
    rewrite (map_nth_in _ _ _ 0%nat) by now rewrite seq_length. rewrite seq_nth by assumption. cbn [Nat.add].
    rewrite (map_nth_in _ _ _ []) by exact Hc.
    pose proof (Nat.mod_upper_bound k m ltac:(lia)) as Hj. pose proof (Nat.div_mod k m ltac:(lia)) as Ek. fold q in Ek.
    rewrite <- (H (q mod ch)%nat (q / ch)%nat (k mod m)%nat Hc Hp Hj). f_equal. rewrite Ek at 1. f_equal. f_equal. lia.
Qed.
End Planes.

(** * PackBits *)
Lemma packs_none bs : packs bs [] -> exists k, bs = repeat 128 k.
Proof.
  intros H. remember [] as d eqn:E. induction H; subst.
  - now exists 0%nat.
  - apply app_eq_nil in E as (-> & _). cbn in *. lia.
  - exfalso. replace (Z.to_nat (257 - n)) with (S (Z.to_nat (256 - n))) in E by lia. discriminate.
  - destruct (IHpacks eq_refl) as (k & ->). now exists (S k).
Qed.
Lemma packs_noops k bs d : packs bs d -> packs (repeat 128 k ++ bs) d.
Proof. intros H. induction k; [easy|]. cbn. now apply packs_noop. Qed.
Lemma copy_bytes_ok ch : forall d pos buf l, (pos + ch * length d <= length buf)%nat -> (0 < ch)%nat ->
  copy_bytes (length d) ch pos buf (d ++ l) = Ok (puts ch pos (ones d) buf, l).
Proof.
  induction d as [|x d IH]; intros pos buf l H Hc; [easy|]. cbn [length app copy_bytes rd_0 ones map puts] in *. rewrite set_at_ok by lia. cbn [bind].
  rewrite upd_put by lia. apply IH; [rewrite put_length by (cbn; lia); lia|easy].
Qed.
Lemma copy_value_ok ch x : forall n pos buf, (pos + ch * n <= length buf)%nat -> (0 < ch)%nat ->
  copy_value n ch pos x buf = Ok (puts ch pos (ones (repeat x n)) buf).
Proof.
  induction n as [|n IH]; intros pos buf H Hc; [easy|]. cbn [copy_value repeat ones map puts] in *. rewrite set_at_ok by lia. cbn [bind].
  rewrite upd_put by lia. apply IH; [rewrite put_length by (cbn; lia); lia|easy].
Qed.
Lemma rle_ok ch off : (0 < ch)%nat -> forall bs d, packs bs d -> forall fuel pos buf rest, (length bs < fuel)%nat ->
  (off + pos + ch * length d <= length buf)%nat ->
  exists k, rle fuel ch off (length d) pos buf (bs ++ rest) = Ok (puts ch (off + pos) (ones d) buf, repeat 128 k ++ rest).
Proof.
  intros Hc. induction 1 as [|n d bs ds Hn Ld Hp IH|n x bs ds Hn Hp IH|bs ds Hp IH]; intros fuel pos buf rest Hf Hl; (destruct fuel as [|f]; [lia|]).
  - now exists 0%nat.
  - cbn [length] in Hf. rewrite app_length in Hf.
    rewrite app_length in *. cbn [rle app rd_0]. replace (_ =? 0)%nat with false by lia. replace (n <? 128) with true by lia.
    assert (off + pos + ch * length d <= length buf)%nat by nia.
    replace (Z.to_nat n + 1)%nat with (length d) by lia. replace (_ <? length d)%nat with false by lia. replace (_ <? pos + _)%nat with false by lia.
    rewrite <- app_assoc, copy_bytes_ok by lia. cbn [bind].
    replace (length d + length ds - length d)%nat with (length ds) by lia.
    destruct (IH f (pos + ch * length d)%nat (puts ch (off + pos) (ones d) buf) rest) as (k & E); [lia| |].
    { rewrite (puts_length ch 1); [lia|lia|apply ones_len|unfold ones; rewrite map_length; lia]. }
    exists k. rewrite E. unfold ones. rewrite map_app, puts_app, map_length, Nat.add_assoc. reflexivity.
  - cbn [length] in Hf. set (r := Z.to_nat (257 - n)) in *. rewrite app_length, repeat_length in *. cbn [rle app rd_0].
    replace (_ =? 0)%nat with false by lia. replace (n <? 128) with false by lia. replace (n =? 128) with false by lia.
    replace (Z.to_nat (Z.land (257 - n) 255)) with r.
    2: { subst r. f_equal. change 255 with (Z.ones 8). rewrite Z.land_ones by lia. rewrite Z.mod_small by lia. lia. }
    assert (off + pos + ch * r <= length buf)%nat by nia.
    replace (_ <? r)%nat with false by lia. replace (_ <? pos + _)%nat with false by lia. rewrite copy_value_ok by lia. cbn [bind].
    replace (r + length ds - r)%nat with (length ds) by lia.
    destruct (IH f (pos + ch * r)%nat (puts ch (off + pos) (ones (repeat x r)) buf) rest) as (k & E); [lia| |].
    { rewrite (puts_length ch 1); [lia|lia|apply ones_len|unfold ones; rewrite map_length, repeat_length; lia]. }
    exists k. rewrite E. unfold ones. rewrite map_app, puts_app, map_length, repeat_length, Nat.add_assoc. reflexivity.
  - cbn [length] in Hf. destruct ds as [|x ds].
    + apply packs_none in Hp as (k & ->). cbn [rle length Nat.eqb]. exists (S k). reflexivity.
    + cbn [rle app rd_0]. replace (length (x :: ds) =? 0)%nat with false by (cbn; lia). cbn [Z.ltb Z.compare Z.eqb Pos.compare Pos.compare_cont Pos.eqb]. apply IH; lia.
Qed.

(** * Pixels of a file *)
Definition small (n ch : nat) : Prop := Z.of_nat (2 * (n * ch + 10)) < 2 ^ 63.
Lemma alloc_ok n : Z.of_nat n < 2 ^ 63 -> alloc n = Ok (repeat 0 n).
Proof. intros H. unfold alloc. now replace (2 ^ 63 <=? Z.of_nat n) with false by lia. Qed.

Lemma items_interleaved (g : Z -> list Z) n planes : Forall (fun p => length p = n) planes ->
  concat (flat_map (fun p => map (fun pl => nth p pl []) (map (map g) planes)) (seq 0 n)) = flat_map g (interleaved n planes).
Proof.
  intros F. unfold interleaved.
  assert (X : forall l, Forall (fun p => (p < n)%nat) l -> concat (flat_map (fun p => map (fun pl => nth p pl []) (map (map g) planes)) l) =
    flat_map g (flat_map (fun p => map (fun plane => nth p plane 0) planes) l)).
  { induction l as [|p l IH]; intros Hl; [easy|]. inversion Hl; subst. cbn [flat_map]. rewrite concat_app, flat_map_app, IH by easy. f_equal.
    rewrite flat_map_concat_map. f_equal. rewrite !map_map. apply map_ext_in. intros pl I.
    pose proof (proj1 (Forall_forall _ _) F _ I) as E. cbn beta in E. rewrite (map_nth_in _ _ _ 0) by lia. reflexivity. }
  apply X. apply Forall_forall. intros p I. apply in_seq in I. lia.
Qed.
Lemma raw_rle_ok n h (planes : list (list Z)) counts data rest : let ch := length planes in (1 <= ch <= 4)%nat -> small n ch ->
  Forall (fun p => length p = n) planes -> packed_planes data planes -> length counts = (h * ch * 2)%nat ->
  raw_rle n h ch (counts ++ data ++ rest) = Ok (interleaved n planes).
Proof.
  intros ch Hch Hs Lp Hd Lc. unfold raw_rle. rewrite skipn_app_exact by exact Lc. unfold small in Hs. rewrite alloc_ok by lia. cbn [bind].
  set (body := fun c '(buf, l) => _).
  set (items := map ones planes).
  assert (Li : length items = ch) by apply map_length.
  assert (L1 : Forall (fun p => length p = n) items) by (unfold items; rewrite Forall_map; eapply Forall_impl; [|exact Lp]; intros p E; unfold ones; now rewrite map_length).
  assert (L2 : Forall (Forall (fun x => length x = 1%nat)) items) by (unfold items; rewrite Forall_map; apply Forall_forall; intros; apply ones_len).
  assert (X : forall ps c bs buf k rest, packed_planes bs ps -> ps = skipn c planes -> (c + length ps = ch)%nat ->
     holds n 1 items (n * ch + 10) c buf -> exists buf' k', for_loop (length ps) c body (buf, repeat 128 k ++ bs ++ rest) = Ok (buf', repeat 128 k' ++ rest) /\ holds n 1 items (n * ch + 10) ch buf').
  { clear Hd. induction ps as [|p ps IH]; intros c bs buf k rest' Hd Ep Ec Hh; inversion Hd as [|b bs' p' ps' H1 H2]; subst; cbn [length for_loop].
    - exists buf, k. cbn [app length] in *. split; [easy|]. assert (c = ch) as -> by lia. exact Hh.
    - cbn [length] in Ec.
      assert (Ep1 : nth c planes [] = p) by (replace c with (c + 0)%nat by lia; rewrite <- nth_skipn, <- Ep; easy).
      assert (Ln : length p = n). { rewrite <- Ep1. apply (proj1 (Forall_forall _ _) Lp). apply nth_In. fold ch. lia. }
      unfold body at 1. cbv beta iota. pose proof (packs_noops k _ _ H1) as H1'. destruct Hh as (Hlen & Hh).
      replace (repeat 128 k ++ (b ++ bs') ++ rest') with ((repeat 128 k ++ b) ++ bs' ++ rest') by now rewrite !app_assoc.
      destruct (rle_ok ch c ltac:(lia) _ _ H1' (n + length ((repeat 128%Z k ++ b) ++ bs' ++ rest') + 1)%nat 0%nat buf (bs' ++ rest')) as (k1 & E1).
      { rewrite !app_length. lia. }
      { rewrite Hlen, Ln. nia. }
      rewrite Ln in E1. rewrite E1. cbn [bind].
      apply (IH (S c) bs'); [assumption| | |].
      + replace (S c) with (c + 1)%nat by lia. rewrite <- skipn_skipn', <- Ep. reflexivity.
      + lia.
      + assert (Eit : nth c items [] = ones p) by (unfold items; rewrite (map_nth_in _ _ _ []) by (fold ch; lia); now rewrite Ep1).
        assert (Hx : (c < length items)%nat) by lia.
        pose proof (holds_next n 1 items ltac:(lia) L1 L2 (n * ch + 10) c buf ltac:(rewrite Li; lia) Hx (conj Hlen Hh)) as Q.
        rewrite Eit, Li in Q. replace (1 * ch)%nat with ch in Q by lia. replace (1 * c)%nat with (c + 0)%nat in Q by lia. exact Q. }
  destruct (X planes 0%nat data (repeat 0 (n * ch + 10)) 0%nat rest Hd eq_refl ltac:(fold ch; lia)) as (buf & k & E & Hh).
  { split; [apply repeat_length|]. intros; lia. }
  unfold for_range. rewrite Nat.sub_0_r. cbn [repeat app] in E. unfold ch at 1. rewrite E. cbn [bind]. f_equal.
  replace (n * ch)%nat with (1 * (n * length items))%nat by (rewrite Li; lia).
  rewrite <- Li in Hh.
  rewrite (holds_all n 1 items ltac:(lia) L1 L2 (n * length items + 10)%nat buf ltac:(lia) Hh).
  unfold items. change ones with (map (fun x : Z => [x])). rewrite items_interleaved by exact Lp.
  rewrite flat_map_concat_map. induction (interleaved n planes) as [|x l IH]; [easy|]. cbn. now rewrite IH.
Qed.

Lemma rd_be_ok k x l : 0 <= x < 256 ^ Z.of_nat k -> rd_be k (be_bytes k x ++ l) = Ok (x, l).
Proof.
  intros H. unfold rd_be. rewrite app_length, be_bytes_length. replace (_ <? k)%nat with false by lia.
  rewrite firstn_app_exact, skipn_app_exact by apply be_bytes_length. now rewrite be_val_be_bytes.
Qed.
Lemma ne_length big x : length (ne_bytes big x) = 2%nat.
Proof. now destruct big. Qed.
Lemma plain16_ok big ch : (0 < ch)%nat -> forall d pos buf l, Forall is_u16 d -> (pos + 2 * ch * length d <= length buf)%nat ->
  plain16 big (length d) ch pos buf (flat_map (be_bytes 2) d ++ l) = Ok (puts (2 * ch) pos (map (ne_bytes big) d) buf, l).
Proof.
  intros Hc. induction d as [|x d IH]; intros pos buf l F H; [easy|]. inversion F as [|y z F1 F2]; subst y z.
  cbn [length plain16 map puts flat_map] in *. rewrite <- app_assoc.
  rewrite rd_be_ok by (unfold is_u16 in F1; change (256 ^ Z.of_nat 2) with 65536; lia). cbn [bind].
  rewrite put_slice_ok by (rewrite ne_length; lia). cbn [bind].
  apply IH; [assumption|rewrite put_length by (rewrite ne_length; lia); lia].
Qed.
Lemma raw16_ok big n (planes : list (list Z)) rest : let ch := length planes in (1 <= ch <= 4)%nat -> small n ch ->
  Forall (fun p => length p = n) planes -> Forall (Forall is_u16) planes ->
  raw16 big n ch (flat_map (flat_map (be_bytes 2)) planes ++ rest) = Ok (flat_map (ne_bytes big) (interleaved n planes)).
Proof.
  intros ch Hch Hs Lp Fu. unfold raw16. unfold small in Hs. rewrite alloc_ok by lia. cbn [bind].
  set (body := fun c '(buf, l) => _).
  set (items := map (map (ne_bytes big)) planes).
  set (size := (2 * (n * ch + 10))%nat) in *.
  assert (Li : length items = ch) by apply map_length.
  assert (L1 : Forall (fun p => length p = n) items) by (unfold items; rewrite Forall_map; eapply Forall_impl; [|exact Lp]; intros p E; now rewrite map_length).
  assert (L2 : Forall (Forall (fun x => length x = 2%nat)) items).
  { unfold items. rewrite Forall_map. apply Forall_forall. intros p _. rewrite Forall_map. apply Forall_forall. intros. apply ne_length. }
  assert (X : forall ps c buf, ps = skipn c planes -> (c + length ps = ch)%nat -> holds n 2 items size c buf ->
     exists buf', for_loop (length ps) c body (buf, flat_map (flat_map (be_bytes 2)) ps ++ rest) = Ok (buf', rest) /\ holds n 2 items size ch buf').
  { induction ps as [|p ps IH]; intros c buf Ep Ec Hh; cbn [length for_loop].
    - exists buf. cbn [app length] in *. split; [easy|]. assert (c = ch) as -> by lia. exact Hh.
    - cbn [length] in Ec.
      assert (Ep1 : nth c planes [] = p) by (replace c with (c + 0)%nat by lia; rewrite <- nth_skipn, <- Ep; easy).
      assert (Ln : length p = n). { rewrite <- Ep1. apply (proj1 (Forall_forall _ _) Lp). apply nth_In. fold ch. lia. }
      assert (Fp : Forall is_u16 p). { rewrite <- Ep1. apply (proj1 (Forall_forall _ _) Fu). apply nth_In. fold ch. lia. }
      unfold body at 1. cbv beta iota. destruct Hh as (Hlen & Hh).
      assert (Hmin : Nat.min n ((length buf - 2 * c) / (2 * ch)) = n).
      { apply Nat.min_l. rewrite Hlen. apply Nat.div_le_lower_bound; [lia|]. unfold size. nia. }
      rewrite Hmin. cbn [flat_map]. rewrite <- app_assoc.
      assert (E1 : forall l, plain16 big n ch (2 * c) buf (flat_map (be_bytes 2) p ++ l) = Ok (puts (2 * ch) (2 * c) (map (ne_bytes big) p) buf, l)).
      { intros l. rewrite <- (plain16_ok big ch ltac:(lia) p) by (try assumption; rewrite Hlen, Ln; unfold size; nia). now rewrite Ln. }
      rewrite E1.
      cbn [bind]. apply (IH (S c)).
      + replace (S c) with (c + 1)%nat by lia. rewrite <- skipn_skipn', <- Ep. reflexivity.
      + lia.
      + assert (Eit : nth c items [] = map (ne_bytes big) p) by (unfold items; rewrite (map_nth_in _ _ _ []) by (fold ch; lia); now rewrite Ep1).
        assert (Hx : (c < length items)%nat) by lia.
        pose proof (holds_next n 2 items ltac:(lia) L1 L2 size c buf ltac:(rewrite Li; unfold size; lia) Hx (conj Hlen Hh)) as Q.
        rewrite Eit, Li in Q. exact Q. }
  destruct (X planes 0%nat (repeat 0 size) eq_refl ltac:(fold ch; lia)) as (buf & E & Hh).
  { split; [apply repeat_length|]. intros; lia. }
  unfold for_range. rewrite Nat.sub_0_r. unfold ch at 1. rewrite E. cbn [bind]. f_equal.
  replace (2 * n * ch)%nat with (2 * (n * length items))%nat by (rewrite Li; lia). rewrite <- Li in Hh.
  rewrite (holds_all n 2 items ltac:(lia) L1 L2 size buf ltac:(unfold size; rewrite Li; lia) Hh).
  unfold items. apply items_interleaved. exact Lp.
Qed.
Lemma plain8_ok n : forall d i fuel buf l, (i + length d = n)%nat -> (length d < fuel)%nat -> (n <= length buf)%nat ->
  plain8 fuel 1 n i buf (d ++ l) = Ok (puts 1 i (ones d) buf, l).
Proof.
  induction d as [|x d IH]; intros i fuel buf l Hi Hf Hb; (destruct fuel as [|f]; [cbn in Hf; lia|]); cbn [length plain8 app ones map puts] in *.
  - now replace (i <? n)%nat with false by lia.
  - replace (i <? n)%nat with true by lia. rewrite set_at_ok by lia. cbn [bind]. rewrite upd_put by lia. apply IH; [lia|lia|rewrite put_length by (cbn; lia); lia].
Qed.
Lemma flat_map_single {A B} (f : A -> B) l : flat_map (fun x => [f x]) l = map f l.
Proof. induction l as [|x l IH]; [easy|]. cbn. now rewrite IH. Qed.
Lemma interleaved_one n plane : length plane = n -> interleaved n [plane] = plane.
Proof.
  intros <-. unfold interleaved. cbn [map]. rewrite flat_map_single. apply (list_eq_nth 0); [now rewrite map_length, seq_length|].
  intros i Hi. rewrite map_length, seq_length in Hi. rewrite (map_nth_in _ _ _ 0%nat) by now rewrite seq_length. now rewrite seq_nth.
Qed.
Lemma raw8_ok n (plane rest : list Z) : small n 1 -> length plane = n -> raw8 n 1 (plane ++ rest) = Ok plane.
Proof.
  intros Hs Lp. unfold raw8. unfold small in Hs. rewrite alloc_ok by lia. cbn [bind]. unfold for_range. cbn [Nat.sub for_loop].
  rewrite plain8_ok; [|cbn; lia|lia|rewrite repeat_length; lia]. cbn [bind]. f_equal.
  set (items := [ones plane]).
  assert (L1 : Forall (fun p => length p = n) items) by (constructor; [unfold ones; now rewrite map_length|constructor]).
  assert (L2 : Forall (Forall (fun x => length x = 1%nat)) items) by (constructor; [apply ones_len|constructor]).
  assert (Hh : holds n 1 items (n * 1 + 10) 1 (puts 1 0 (ones plane) (repeat 0 (n * 1 + 10)))).
  { change 1%nat with (1 * length items)%nat at 3. change 0%nat with (1 * 0)%nat at 1. apply (holds_next n 1 items); try assumption; [lia|cbn; lia|cbn; lia|].
    split; [apply repeat_length|]. intros; lia. }
  pose proof (holds_all n 1 items ltac:(lia) L1 L2 (n * 1 + 10)%nat _ ltac:(cbn; lia) Hh) as Q0.
  replace (1 * (n * length items))%nat with (n * 1)%nat in Q0 by (cbn; lia). rewrite Q0.
  unfold items, ones. change [map (fun x => [x]) plane] with (map (map (fun x : Z => [x])) [plane]). rewrite items_interleaved by (constructor; [assumption|constructor]).
  rewrite (flat_map_single (fun x => x)), map_id. apply interleaved_one. assumption.
Qed.

(** * Headers *)
Definition mode_of (x : Z) : mode := if x =? 1 then MGray else if x =? 3 then MRgb else MCmyk.
Lemma head_parsed o reserved ch h w depth m colours resources layers c l : head_ok reserved ch h w colours resources layers ->
  depth = 8 \/ depth = 16 -> m = 1 \/ m = 3 \/ m = 4 -> c = 0 \/ c = 1 -> w <= o_max_w o -> h <= o_max_h o ->
  decode_headers o (psd_head reserved ch h w depth m colours resources layers c ++ l) =
  Ok (Info w h (depth =? 16) (mode_of m) (c =? 1) (if m =? 1 then 1%nat else Z.to_nat ch), l).
Proof.
  intros (Hr & Hch & Hh & Hw & H1 & H2 & H3) Hd Hm Hc Lw Lh. unfold psd_head, decode_headers, block.
  change [56; 66; 80; 83; 0; 1] with (be_bytes 4 943870035 ++ be_bytes 2 1). rewrite <- !app_assoc.
  assert (B2 : 256 ^ Z.of_nat 2 = 65536) by reflexivity. assert (B4 : 256 ^ Z.of_nat 4 = 2 ^ 32) by reflexivity.
  rewrite rd_be_ok by (rewrite B4; lia). cbn [bind negb Z.eqb Pos.eqb].
  rewrite rd_be_ok by (rewrite B2; lia). cbn [bind negb Z.eqb Pos.eqb].
  rewrite skipn_app_exact by exact Hr.
  rewrite rd_be_ok by (rewrite B2; lia). cbn [bind]. replace (4 <? ch) with false by lia.
  rewrite rd_be_ok by (rewrite B4; lia). cbn [bind]. rewrite rd_be_ok by (rewrite B4; lia). cbn [bind].
  replace (o_max_w o <? w) with false by lia. replace (o_max_h o <? h) with false by lia.
  replace (w =? 0) with false by lia. replace (h =? 0) with false by lia. replace (ch =? 0) with false by lia. cbn [orb].
  rewrite rd_be_ok by (rewrite B2; lia). cbn [bind]. replace (negb (depth =? 8) && negb (depth =? 16)) with false by lia.
  rewrite rd_be_ok by (rewrite B2; lia). cbn [bind].
  replace (if m =? 1 then Ok MGray else if m =? 3 then Ok MRgb else if m =? 4 then Ok MCmyk else Err EOther) with (Ok (mode_of m)) by (destruct Hm as [->|[->| ->]]; reflexivity).
  cbn [bind].
  rewrite rd_be_ok by (rewrite B4; lia). cbn [bind]. rewrite skipn_app_exact by lia.
  rewrite rd_be_ok by (rewrite B4; lia). cbn [bind]. rewrite skipn_app_exact by lia.
  rewrite rd_be_ok by (rewrite B4; lia). cbn [bind]. rewrite skipn_app_exact by lia.
  rewrite rd_be_ok by (rewrite B2; lia). cbn [bind]. replace (1 <? c) with false by lia.
  destruct Hm as [->|[->| ->]]; reflexivity.
Qed.

(** * Any bytes *)
Definition safe {A} (r : res A) (P : A -> Prop) : Prop := match r with Ok x => P x | Err _ => True | _ => False end.
Lemma safe_bind {A B} (r : res A) (f : A -> res B) P Q : safe r P -> (forall x, P x -> safe (f x) Q) -> safe (bind r f) Q.
Proof. destruct r; cbn; auto. Qed.
Lemma safe_impl {A} (r : res A) (P Q : A -> Prop) : safe r P -> (forall x, P x -> Q x) -> safe r Q.
Proof. destruct r; cbn; auto. Qed.
Lemma safe_loop {S} (P : S -> Prop) body : forall n i s, P s -> (forall j s, (i <= j < i + n)%nat -> P s -> safe (body j s) P) -> safe (for_loop n i body s) P.
Proof.
  induction n as [|n IH]; intros i s H0 Hs; cbn [for_loop]; [exact H0|]. eapply safe_bind; [apply Hs; [lia|exact H0]|].
  intros s' H'. apply IH; [exact H'|]. intros j t Hj. apply Hs. lia.
Qed.
Lemma rd_be_safe k l : safe (rd_be k l) (fun x => (length (snd x) <= length l)%nat /\ (bytes l -> 0 <= fst x < 256 ^ Z.of_nat k /\ bytes (snd x))).
Proof.
  unfold rd_be. destruct (Nat.ltb_spec (length l) k) as [H|H]; cbn; [easy|]. split; [rewrite skipn_length; lia|]. intros B.
  assert (Lk : length (firstn k l) = k) by (rewrite firstn_length; lia).
  rewrite <- (firstn_skipn k l) in B. apply bytes_app in B as (B1 & B2). split; [|exact B2]. pose proof (be_val_bound _ B1) as Q. now rewrite Lk in Q.
Qed.
Lemma copy_bytes_safe ch : (0 < ch)%nat -> forall n pos buf l, (pos + ch * n <= length buf)%nat ->
  safe (copy_bytes n ch pos buf l) (fun x => length (fst x) = length buf /\ (length (snd x) <= length l)%nat).
Proof.
  intros Hc. induction n as [|n IH]; intros pos buf l H; cbn [copy_bytes]; [now cbn|].
  assert (E : exists b l', rd_0 l = (b, l') /\ (length l' <= length l)%nat) by (destruct l as [|b l]; do 2 eexists; (split; [reflexivity|cbn; lia])).
  destruct E as (b & l' & -> & Hl). rewrite set_at_ok by lia. cbn [bind].
  eapply safe_impl; [apply IH; rewrite upd_length; lia|]. cbn. intros x (H1 & H2). rewrite upd_length in H1. split; [exact H1|lia].
Qed.
Lemma copy_value_safe ch v : (0 < ch)%nat -> forall n pos buf, (pos + ch * n <= length buf)%nat -> safe (copy_value n ch pos v buf) (fun x => length x = length buf).
Proof.
  intros Hc n pos buf H. rewrite copy_value_ok by lia. cbn. apply (puts_length ch 1); [lia|apply ones_len|unfold ones; rewrite map_length, repeat_length; lia].
Qed.
Lemma rle_safe ch off : (0 < ch)%nat -> forall fuel nleft pos buf l, (off <= length buf)%nat -> (nleft + length l < fuel)%nat ->
  safe (rle fuel ch off nleft pos buf l) (fun x => length (fst x) = length buf).
Proof.
  intros Hc. induction fuel as [|f IH]; intros nleft pos buf l Ho Hf; [lia|]. cbn [rle].
  destruct (Nat.eqb_spec nleft 0) as [->|N]; [now cbn|].
  assert (E : exists b l', rd_0 l = (b, l') /\ (length l' <= length l)%nat /\ ((length l' < length l)%nat \/ b = 0)).
  { destruct l as [|b l]; do 2 eexists; (split; [reflexivity|split; [cbn; lia|]]); [now right|left; cbn; lia]. }
  destruct E as (b & l' & -> & Hl & Hb). destruct (Z.ltb_spec b 128) as [Hb1|Hb1].
  - set (len := (Z.to_nat b + 1)%nat). destruct (Nat.ltb_spec nleft len); [easy|]. destruct (Nat.ltb_spec (length buf - off) (pos + ch * len)); [easy|].
    eapply safe_bind; [apply copy_bytes_safe; lia|]. intros (buf', l'') (L1 & L2). cbn [fst snd] in *. rewrite <- L1. apply IH; lia.
  - destruct (Z.eqb_spec b 128) as [->|N2]; [apply IH; lia|]. set (len := Z.to_nat (Z.land (257 - b) 255)).
    destruct (Nat.ltb_spec nleft len); [easy|].
    assert (E2 : exists x l2, rd_0 l' = (x, l2) /\ (length l2 <= length l')%nat) by (destruct l' as [|x l2]; do 2 eexists; (split; [reflexivity|cbn; lia])).
    destruct E2 as (x & l2 & -> & Hl2). destruct (Nat.ltb_spec (length buf - off) (pos + ch * len)); [easy|].
    eapply safe_bind; [apply copy_value_safe; lia|]. intros buf' L1. cbn beta in L1. rewrite <- L1. apply IH; lia.
Qed.
Lemma plain8_safe ch n : (0 < ch)%nat -> forall fuel i buf l, (n <= length buf)%nat -> (n - i < fuel)%nat ->
  safe (plain8 fuel ch n i buf l) (fun x => length (fst x) = length buf).
Proof.
  intros Hc. induction fuel as [|f IH]; intros i buf l Hb Hf; [lia|]. cbn [plain8]. destruct (Nat.ltb_spec i n) as [H|H]; [|now cbn].
  destruct l as [|b l]; [easy|]. rewrite set_at_ok by lia. cbn [bind]. eapply safe_impl; [apply IH; [rewrite upd_length; lia|lia]|].
  intros x. now rewrite upd_length.
Qed.
Lemma plain16_safe big ch : (0 < ch)%nat -> forall k pos buf l, (pos + 2 * ch * k <= length buf)%nat ->
  safe (plain16 big k ch pos buf l) (fun x => length (fst x) = length buf).
Proof.
  intros Hc. induction k as [|k IH]; intros pos buf l H; cbn [plain16]; [now cbn|].
  eapply safe_bind; [apply rd_be_safe|]. intros (x, l') _. rewrite put_slice_ok by (rewrite ne_length; lia). cbn [bind].
  eapply safe_impl; [apply IH; rewrite put_length by (rewrite ne_length; lia); lia|]. intros y. now rewrite put_length by (rewrite ne_length; lia).
Qed.
Lemma alloc_safe n : Z.of_nat n < 2 ^ 63 -> safe (alloc n) (fun b => length b = n).
Proof. intros H. rewrite alloc_ok by exact H. apply repeat_length. Qed.
Lemma raw_rle_safe n h ch l : (1 <= ch <= 4)%nat -> small n ch -> safe (raw_rle n h ch l) (fun px => length px = (n * ch)%nat).
Proof.
  intros Hc Hs. unfold raw_rle. eapply safe_bind; [apply alloc_safe; unfold small in Hs; lia|]. intros buf L. cbn beta in L.
  eapply safe_bind; [apply (safe_loop (fun x => length (fst x) = (n * ch + 10)%nat)); [exact L|]|].
  - intros c (b, l') Hj L'. cbn [fst] in *. rewrite <- L'. apply rle_safe; lia.
  - intros (b, l') L'. cbn [fst safe] in *. rewrite firstn_length. lia.
Qed.
Lemma raw8_safe n ch l : (1 <= ch <= 4)%nat -> small n ch -> safe (raw8 n ch l) (fun px => length px = (n * ch)%nat).
Proof.
  intros Hc Hs. unfold raw8. eapply safe_bind; [apply alloc_safe; unfold small in Hs; lia|]. intros buf L. cbn beta in L.
  eapply safe_bind; [apply (safe_loop (fun x => length (fst x) = (n * ch + 10)%nat)); [exact L|]|].
  - intros c (b, l') Hj L'. cbn [fst] in *. rewrite <- L'. apply plain8_safe; [lia|nia|lia].
  - intros (b, l') L'. cbn [fst safe] in *. rewrite firstn_length. lia.
Qed.
Lemma raw16_safe big n ch l : (1 <= ch <= 4)%nat -> small n ch -> safe (raw16 big n ch l) (fun px => length px = (2 * n * ch)%nat).
Proof.
  intros Hc Hs. unfold raw16. set (size := (2 * (n * ch + 10))%nat). eapply safe_bind; [apply alloc_safe; unfold small in Hs; exact Hs|]. intros buf L. cbn beta in L.
  eapply safe_bind; [apply (safe_loop (fun x => length (fst x) = size)); [exact L|]|].
  - intros c (b, l') Hj L'. cbn [fst] in *. rewrite <- L'. apply plain16_safe; [lia|].
    pose proof (Nat.mul_div_le (length b - 2 * c) (2 * ch) ltac:(lia)). unfold size in L'.
    set (q := ((length b - 2 * c) / (2 * ch))%nat) in *. assert (2 * ch * Nat.min n q <= 2 * ch * q)%nat by (apply Nat.mul_le_mono_l; lia). lia.
  - intros (b, l') L'. cbn [fst safe] in *. rewrite firstn_length. unfold size in L'. lia.
Qed.
Lemma headers_safe o l : bytes l -> safe (decode_headers o l) (fun x => 1 <= i_w (fst x) <= o_max_w o /\ 1 <= i_h (fst x) <= o_max_h o /\ (1 <= i_ch (fst x) <= 4)%nat /\
  i_w (fst x) < 2 ^ 32 /\ i_h (fst x) < 2 ^ 32).
Proof.
  intros B. unfold decode_headers.
  Local Ltac rd B x l := eapply safe_bind; [apply rd_be_safe|]; let H := fresh in intros (x, l) (_ & H); cbn [fst snd] in H; specialize (H B); clear B; destruct H as (? & B).
  Local Ltac chk := match goal with |- safe (if ?b then _ else _) _ => destruct b eqn:?; [exact I|] end.
  rd B magic l1. chk. rd B version l2. chk.
  assert (B' : bytes (skipn 6 l2)) by (rewrite <- (firstn_skipn 6 l2) in B; now apply bytes_app in B). clear B. rename B' into B.
  rd B ch l3. chk. rd B h l4. rd B w l5. chk. chk. chk. rd B depth l6. chk. rd B m l7.
  eapply (safe_bind _ _ (fun _ => True)); [repeat (match goal with |- safe (if ?b then _ else _) _ => destruct b end); exact I|]. intros md _.
  assert (Bs : forall n l, bytes l -> bytes (skipn n l)) by (intros n' l' B'; rewrite <- (firstn_skipn n' l') in B'; now apply bytes_app in B').
  rd B n1 l8. apply (Bs (Z.to_nat n1)) in B. rd B n2 l9. apply (Bs (Z.to_nat n2)) in B. rd B n3 l10. apply (Bs (Z.to_nat n3)) in B. rd B c l11. chk.
  cbn [safe fst i_w i_h i_ch]. change (256 ^ Z.of_nat 4) with (2 ^ 32) in *.
  split; [lia|]. split; [lia|]. split; [destruct md; lia|lia].
Qed.
Lemma matte_length big (deep : bool) ch px n : length px = (if deep then 2 * n * ch else n * ch)%nat -> (ch <= 4)%nat -> length (remove_matte big deep ch px) = length px.
Proof.
  intros L Hc. unfold remove_matte. destruct (Nat.leb_spec 4 ch) as [H|H]; [|easy]. assert (ch = 4%nat) as -> by lia. destruct deep.
  - rewrite (concat_length_const 8).
    + rewrite map_length, chunks_exact_length by lia. rewrite L. replace (2 * n * 4)%nat with (n * 8)%nat by lia. now rewrite Nat.div_mul.
    + rewrite Forall_map. eapply Forall_impl; [|apply (chunks_exact_lengths 8)]. intros p Lp. unfold unmatte_pixel16. cbv zeta.
      cbn beta in Lp. destruct (_ && _); [|exact Lp]. rewrite !app_length, !ne_length, slice_length; lia.
  - rewrite (concat_length_const 4).
    + rewrite map_length, chunks_exact_length by lia. rewrite L. now rewrite Nat.div_mul.
    + rewrite Forall_map. eapply Forall_impl; [|apply (chunks_exact_lengths 4)]. intros p Lp.
      destruct p as [|a [|b [|c [|d [|]]]]]; cbn in Lp; try lia. unfold unmatte_pixel. now destruct (_ && _).
Qed.
Lemma decode_safe big o file : bytes file -> 2 * (o_max_w o * o_max_h o * 4 + 10) < 2 ^ 63 ->
  safe (decode big o file) (fun x => 1 <= i_w (fst x) <= o_max_w o /\ 1 <= i_h (fst x) <= o_max_h o /\ (1 <= i_ch (fst x) <= 4)%nat /\
    Z.of_nat (count (snd x)) = i_w (fst x) * i_h (fst x) * Z.of_nat (i_ch (fst x))).
Proof.
  intros B Ho. unfold decode, decode_raw.
  eapply (safe_bind _ _ (fun x => 1 <= i_w (fst x) <= o_max_w o /\ 1 <= i_h (fst x) <= o_max_h o /\ (1 <= i_ch (fst x) <= 4)%nat /\
     let n := Z.to_nat (i_w (fst x) * i_h (fst x)) in length (snd x) = (if i_16 (fst x) then 2 * n * i_ch (fst x) else n * i_ch (fst x))%nat)).
  - eapply safe_bind; [apply headers_safe; exact B|]. intros (i, l) (Hw & Hh & Hc & _). cbn [fst] in *.
    set (n := Z.to_nat (i_w i * i_h i)).
    assert (Hs : small n (i_ch i)).
    { unfold small. assert (Z.of_nat n <= o_max_w o * o_max_h o) by (unfold n; rewrite Z2Nat.id; nia).
      assert (Z.of_nat (n * i_ch i) <= Z.of_nat n * 4) by (rewrite Nat2Z.inj_mul; nia). lia. }
    eapply (safe_bind _ _ (fun px => length px = (if i_16 i then 2 * n * i_ch i else n * i_ch i)%nat)).
    + destruct (i_rle i), (i_16 i); [exact I|now apply raw_rle_safe|now apply raw16_safe|now apply raw8_safe].
    + intros px L. cbn [safe fst snd]. repeat (split; [assumption|]). cbv zeta. fold n. rewrite (matte_length _ _ _ _ n); [exact L|exact L|lia].
  - intros (i, px) (Hw & Hh & Hc & L). cbn [fst snd safe] in *. repeat (split; [assumption|]).
    set (n := Z.to_nat (i_w i * i_h i)) in *. assert (En : Z.of_nat n = i_w i * i_h i) by (unfold n; rewrite Z2Nat.id; nia).
    rewrite <- En. destruct (i_16 i); cbn [count]; cbv zeta in L.
    + rewrite map_length, chunks_exact_length by lia. rewrite L. replace (2 * n * i_ch i)%nat with (n * i_ch i * 2)%nat by lia. rewrite Nat.div_mul by lia. lia.
    + rewrite L. lia.
Qed.

(** * The white matte *)
Definition straightb (a x y : Z) : bool := (0 <=? y) && (y <=? 255) && (Z.abs (a * y - Z.max 0 (255 * (x - (255 - a)))) <=? a).
Lemma straight_all : forallb (fun a => let a := Z.of_nat a in
    let ra := fdiv (of_int 1) (fdiv (of_int a) (of_int 255)) in
    let inv_a := fmul (of_int 255) (fsub (of_int 1) ra) in
    forallb (fun x => let x := Z.of_nat x in straightb a x (to_uint 255 (fadd (fmul (of_int x) ra) inv_a))) (seq 0 256)) (seq 1 254) = true.
Proof. vm_cast_no_check (eq_refl true). Qed.
Lemma unmatte_straight a x : 1 <= a <= 254 -> is_byte x -> straight a x (unmatte 255 a x).
Proof.
  intros Ha Hx. pose proof (proj1 (forallb_forall _ _) straight_all (Z.to_nat a) ltac:(apply in_seq; lia)) as H. cbv zeta in H.
  unfold is_byte in Hx. pose proof (proj1 (forallb_forall _ _) H (Z.to_nat x) ltac:(apply in_seq; lia)) as H'. cbv zeta beta in H'.
  rewrite !Z2Nat.id in H' by lia. unfold unmatte. unfold straightb in H'. apply andb_prop in H' as (H1 & H2). apply andb_prop in H1 as (H1 & H3). unfold straight. cbv zeta. lia.
Qed.
Lemma unmatte_shown p : bytes p -> length p = 4%nat -> shown p (unmatte_pixel 255 p).
Proof.
  intros B L. destruct p as [|r [|g [|b [|a [|]]]]]; cbn in L; try lia. unfold bytes in B. rewrite !Forall_cons_iff in B. destruct B as (Br & Bg & Bb & Ba & _).
  cbn [shown unmatte_pixel]. unfold is_byte in *. destruct (Z.eqb_spec a 0), (Z.eqb_spec a 255); cbn [orb andb negb]; try easy.
  do 3 eexists. split; [reflexivity|]. repeat split; apply unmatte_straight; unfold is_byte; lia.
Qed.
