(** Lemmas about the QOI codec. *)
From Verif Require Import Base BaseProof Bits StreamModel StreamSpec StreamProof QoiModel.

(** * Streams *)
Lemma read_u8_cons c b r : remaining c = b :: r -> exists c', read_u8 c = (b, c') /\ remaining c' = r.
Proof.
  intros H. rewrite read_u8_spec, H. eexists; split; [reflexivity|]. now rewrite remaining_at, H.
Qed.

Lemma read_zero_app n c b r : length b = n -> remaining c = b ++ r ->
  exists c', read_fixed_or_zero n c = (b, c') /\ remaining c' = r.
Proof.
  intros Hl H. rewrite read_fixed_or_zero_spec, H, app_length.
  replace (n <=? length b + length r)%nat with true by lia.
  eexists; split; [f_equal|].
  - rewrite firstn_app, Hl, Nat.sub_diag. cbn [firstn]. rewrite app_nil_r, firstn_all2 by lia.
    replace (n - (n + length r))%nat with O by lia. cbn [repeat]. apply app_nil_r.
  - rewrite remaining_at, H, skipn_app, Hl, Nat.sub_diag, skipn_all2 by lia. reflexivity.
Qed.

Lemma get_zero_app e k c x r : 0 <= x < 256 ^ Z.of_nat k -> remaining c = to_bytes e k x ++ r ->
  exists c', get_zero e k c = (x, c') /\ remaining c' = r.
Proof.
  intros Hx H. unfold get_zero.
  destruct (read_zero_app k c _ r (to_bytes_length e k x) H) as (c' & E & Hr).
  rewrite E. exists c'. split; [now rewrite of_to_bytes|exact Hr].
Qed.

Lemma read_err_app n c b r : length b = n -> remaining c = b ++ r ->
  exists c', read_fixed_or_error n c = (Ok b, c') /\ remaining c' = r.
Proof.
  intros Hl H. rewrite read_fixed_or_error_spec, H, app_length.
  replace (n <=? length b + length r)%nat with true by lia.
  eexists; split; [f_equal; f_equal|].
  - rewrite firstn_app, Hl, Nat.sub_diag. cbn [firstn]. rewrite app_nil_r, firstn_all2 by lia. reflexivity.
  - rewrite remaining_at, H, skipn_app, Hl, Nat.sub_diag, skipn_all2 by lia. reflexivity.
Qed.

(** * Writers *)
Definition op_bytes (ops : list wop) : list Z := concat (map offered ops).
Lemma op_bytes_app a b : op_bytes (a ++ b) = op_bytes a ++ op_bytes b.
Proof. unfold op_bytes. now rewrite map_app, concat_app. Qed.

Lemma run_ops_vec ops : forall w out, wsink w = VecSink out ->
  run_ops w ops = (true, {| wsink := VecSink (out ++ op_bytes ops); wcount := wcount w + length (op_bytes ops) |}).
Proof.
  induction ops as [|o ops IH]; intros w out Hs; cbn [run_ops].
  - unfold op_bytes; cbn. rewrite app_nil_r, Nat.add_0_r. destruct w; cbn in *; now subst.
  - assert (E : exists ret, ret <> RErr /\ wstep w o = (ret, {| wsink := VecSink (out ++ offered o);
                                            wcount := wcount w + length (offered o) |})).
    { destruct o; cbn [wstep offered]; cbv zeta; unfold w_all; rewrite Hs; cbn [sink_write_all sink_write snd];
      eexists; (split; [|reflexivity]); discriminate. }
    destruct E as (ret & Hr & E). rewrite E.
    assert (G : run_ops {| wsink := VecSink (out ++ offered o); wcount := wcount w + length (offered o) |} ops
         = (true, {| wsink := VecSink (out ++ op_bytes (o :: ops)); wcount := wcount w + length (op_bytes (o :: ops)) |})).
    { rewrite (IH {| wsink := VecSink (out ++ offered o); wcount := wcount w + length (offered o) |} (out ++ offered o) eq_refl). cbn [wcount]. unfold op_bytes. cbn [map concat].
      rewrite app_length, app_assoc, Nat.add_assoc. reflexivity. }
    destruct ret; try exact G. now elim Hr.
Qed.

(** * The two hashes agree *)
Definition pix_ok (p : pix) : Prop := is_byte (pr p) /\ is_byte (pg p) /\ is_byte (pb p) /\ is_byte (pa p).

Lemma land_byte_ff x : is_byte x -> Z.land x 255 = x.
Proof. intros H. change 255 with (2 ^ 8 - 1). rewrite land_low by lia. apply Z.mod_small. exact H. Qed.

Ltac dm := cbv beta; lia.

Lemma fast_hash_s r g b a : is_byte r -> is_byte g -> is_byte b -> is_byte a ->
  let v := le_val [r; g; b; a] in
  Z.land (Z.lor (Z.shiftl v 32) v) 0xFF00FF0000FF00FF = r + 2 ^ 16 * b + 2 ^ 40 * g + 2 ^ 56 * a.
Proof.
  intros Hr Hg Hb Ha v. unfold is_byte in *.
  assert (Hv : v = r + 2 ^ 8 * (g + 2 ^ 8 * (b + 2 ^ 8 * a))) by (subst v; cbn [le_val]; lia).
  rewrite lor_shiftl_add by lia.
  replace (v + 2 ^ 32 * v) with
    (r + 2 ^ 8 * (g + 2 ^ 8 * (b + 2 ^ 8 * (a + 2 ^ 8 * (r + 2 ^ 8 * (g + 2 ^ 8 * (b + 2 ^ 8 * a))))))) by lia.
  change 0xFF00FF0000FF00FF with
    (255 + 2 ^ 8 * (0 + 2 ^ 8 * (255 + 2 ^ 8 * (0 + 2 ^ 8 * (0 + 2 ^ 8 * (255 + 2 ^ 8 * (0 + 2 ^ 8 * 255))))))).
  rewrite !land_split by lia.
  rewrite !land_byte_ff by (unfold is_byte; lia). rewrite !Z.land_0_r. lia.
Qed.

Lemma swap64_top x : 0 <= x < 2 ^ 64 -> u8 (swap_bytes64 x) = x / 2 ^ 56.
Proof.
  intros H. unfold swap_bytes64, u8. cbn [le_bytes rev app le_val]. rewrite !Z.div_div by lia.
  change (256 * 256 * 256 * 256 * 256 * 256 * 256) with (2 ^ 56).
  match goal with |- (?h + 256 * ?t) mod 256 = _ => rewrite (Z.mul_comm 256 t), Z.mod_add by lia end.
  rewrite Z.mod_mod by lia. apply Z.mod_small.
  assert (x / 2 ^ 56 < 256) by (apply Z.div_lt_upper_bound; lia).
  assert (0 <= x / 2 ^ 56) by (apply Z.div_pos; lia). lia.
Qed.

Lemma fast_hash_eq p : pix_ok p -> fast_hash p = qhash p.
Proof.
  destruct p as [r g b a]. intros (Hr & Hg & Hb & Ha). cbn [pr pg pb pa] in *.
  unfold fast_hash, qhash. cbn [pr pg pb pa]. cbv zeta.
  rewrite fast_hash_s by assumption. unfold is_byte in *.
  rewrite swap64_top by (unfold u64; apply Z.mod_pos_bound; lia).
  set (L := r * 11 + 2 ^ 16 * (5 * r + 11 * b) + 2 ^ 32 * (5 * b) + 2 ^ 40 * (7 * r + 11 * g)).
  set (T := r * 3 + g * 5 + b * 7 + a * 11).
  set (U := 2 ^ 16 * (3 * b + 5 * a) + 2 ^ 24 * (7 * g) + 2 ^ 40 * (3 * g + 7 * a) + 2 ^ 56 * (3 * a)).
  assert (E : (r + 2 ^ 16 * b + 2 ^ 40 * g + 2 ^ 56 * a) * 0x030007000005000B
              = L + 2 ^ 56 * (T + 2 ^ 8 * (U / 2 ^ 8))).
  { assert (Hu : U = 2 ^ 8 * (U / 2 ^ 8)) by (subst U; clear; lia).
    rewrite <- Hu. subst L T U. clear. lia. }
  rewrite E. unfold u64.
  assert (HL : 0 <= L < 2 ^ 56) by (subst L; lia).
  set (V := U / 2 ^ 8). clearbody V.
  assert (F : (L + 2 ^ 56 * (T + 2 ^ 8 * V)) mod 2 ^ 64 / 2 ^ 56 = T mod 256).
  { clearbody L T. clear E U Hr Hg Hb Ha. lia. }
  rewrite F. change 63 with (2 ^ 6 - 1). rewrite land_low by lia.
  change (2 ^ 6) with 64. subst T. clear. lia.
Qed.

(** * Opcodes *)
Lemma pix_eqb_eq a b : pix_eqb a b = true <-> a = b.
Proof.
  destruct a as [r g bb a], b as [r' g' b' a']. unfold pix_eqb. cbn [pr pg pb pa]. rewrite !andb_true_iff, !Z.eqb_eq.
  split; [intros [[[-> ->] ->] ->]; reflexivity|intros [= -> -> -> ->]; auto].
Qed.
Lemma pix_eqb_neq a b : pix_eqb a b = false <-> a <> b.
Proof. rewrite <- pix_eqb_eq. destruct (pix_eqb a b); intuition congruence. Qed.

Lemma qhash_bound p : 0 <= qhash p < 64.
Proof. unfold qhash. apply Z.mod_pos_bound. lia. Qed.

Lemma idx_set_ok l i p : length l = 64%nat -> 0 <= i < 64 -> idx_set l i p = Ok (upd l (Z.to_nat i) p).
Proof. intros Hl Hi. unfold idx_set. replace (Z.to_nat i <? length l)%nat with true by lia. reflexivity. Qed.
Lemma idx_get_ok l i : length l = 64%nat -> 0 <= i < 64 -> idx_get l i = Ok (nth (Z.to_nat i) l pix0).
Proof. intros Hl Hi. unfold idx_get. rewrite (nth_error_nth' l pix0) by lia. reflexivity. Qed.

(** The state after decoding an opcode that yields [px'] with run length [run]. *)
Definition after (d : dec_st) (px' : pix) (run : Z) (c : cursor) : dec_st :=
  {| dpx := px'; dindex := upd (dindex d) (Z.to_nat (qhash px')) px'; drun := run; dcur := c |}.

Lemma run_byte k : 0 <= k < 62 ->
  Z.lor QOI_OP_RUN k =? QOI_OP_RGB = false /\ Z.lor QOI_OP_RUN k =? QOI_OP_RGBA = false /\
  Z.land (Z.lor QOI_OP_RUN k) QOI_MASK_2 =? QOI_OP_INDEX = false /\
  Z.land (Z.lor QOI_OP_RUN k) QOI_MASK_2 =? QOI_OP_DIFF = false /\
  Z.land (Z.lor QOI_OP_RUN k) QOI_MASK_2 =? QOI_OP_LUMA = false /\
  Z.land (Z.lor QOI_OP_RUN k) QOI_MASK_2 =? QOI_OP_RUN = true /\
  Z.land (Z.lor QOI_OP_RUN k) 63 = k.
Proof.
  intros H.
  pose proof (sweep (fun k => negb (Z.lor QOI_OP_RUN k =? QOI_OP_RGB) && negb (Z.lor QOI_OP_RUN k =? QOI_OP_RGBA) &&
    negb (Z.land (Z.lor QOI_OP_RUN k) QOI_MASK_2 =? QOI_OP_INDEX) &&
    negb (Z.land (Z.lor QOI_OP_RUN k) QOI_MASK_2 =? QOI_OP_DIFF) &&
    negb (Z.land (Z.lor QOI_OP_RUN k) QOI_MASK_2 =? QOI_OP_LUMA) &&
    (Z.land (Z.lor QOI_OP_RUN k) QOI_MASK_2 =? QOI_OP_RUN) &&
    (Z.land (Z.lor QOI_OP_RUN k) 63 =? k)) 62 eq_refl k H) as S. cbv beta in S.
  rewrite !andb_true_iff, !negb_true_iff, (Z.eqb_eq _ k) in S. tauto.
Qed.

Section dec_ops.
  Variables (d : dec_st) (tail : list Z).
  Hypothesis Hlen : length (dindex d) = 64%nat.

  Lemma dec_finish px' run c : pix_ok px' ->
    bind (idx_set (dindex d) (fast_hash px') px') (fun idx => Ok {| dpx := px'; dindex := idx; drun := run; dcur := c |})
    = Ok (after d px' run c).
  Proof. intros H. rewrite fast_hash_eq by exact H. rewrite idx_set_ok by (auto; apply qhash_bound). reflexivity. Qed.

  Lemma dec_run k : 1 <= k <= 62 -> pix_ok (dpx d) -> remaining (dcur d) = Z.lor QOI_OP_RUN (k - 1) :: tail ->
    exists c', dec_op d = Ok (after d (dpx d) (k - 1) c') /\ remaining c' = tail.
  Proof.
    intros Hk Hp Hr. destruct (read_u8_cons _ _ _ Hr) as (c' & E & Hc). exists c'. split; [|exact Hc].
    unfold dec_op. rewrite E. cbv zeta.
    destruct (run_byte (k - 1)) as (A & B & C & D & F & G & I); [lia|].
    rewrite A, B, C, D, F, G, I. cbn [bind]. now apply dec_finish.
  Qed.

  Lemma dec_index pos : 0 <= pos < 64 -> pix_ok (nth (Z.to_nat pos) (dindex d) pix0) ->
    remaining (dcur d) = Z.lor QOI_OP_INDEX pos :: tail ->
    exists c', dec_op d = Ok (after d (nth (Z.to_nat pos) (dindex d) pix0) (drun d) c') /\ remaining c' = tail.
  Proof.
    intros Hk Hp Hr. destruct (read_u8_cons _ _ _ Hr) as (c' & E & Hc). exists c'. split; [|exact Hc].
    unfold dec_op. rewrite E. cbv zeta.
    pose proof (sweep (fun k => negb (Z.lor QOI_OP_INDEX k =? QOI_OP_RGB) && negb (Z.lor QOI_OP_INDEX k =? QOI_OP_RGBA) &&
      (Z.land (Z.lor QOI_OP_INDEX k) QOI_MASK_2 =? QOI_OP_INDEX) &&
      (Z.land (Z.lor QOI_OP_INDEX k) 63 =? k)) 64 eq_refl pos Hk) as S. cbv beta in S.
    rewrite !andb_true_iff, !negb_true_iff, (Z.eqb_eq _ pos) in S. destruct S as (((A & B) & C) & D).
    rewrite A, B, C, D. cbn [bind]. rewrite idx_get_ok by auto. cbn [bind]. now apply dec_finish.
  Qed.

  Lemma dec_rgb px' : pix_ok px' -> pa px' = pa (dpx d) ->
    remaining (dcur d) = QOI_OP_RGB :: [pr px'; pg px'; pb px'] ++ tail ->
    exists c', dec_op d = Ok (after d px' (drun d) c') /\ remaining c' = tail.
  Proof.
    intros Hp Ha Hr. destruct (read_u8_cons _ _ _ Hr) as (c1 & E & Hc).
    destruct (read_zero_app 3 c1 [pr px'; pg px'; pb px'] tail eq_refl Hc) as (c' & E' & Hc').
    exists c'. split; [|exact Hc'].
    unfold dec_op. rewrite E. cbv zeta. rewrite Z.eqb_refl, E'. cbn [bind nth]. rewrite <- Ha.
    destruct px' as [r g b a]. cbn [pr pg pb pa]. now apply dec_finish.
  Qed.

  Lemma dec_rgba px' : pix_ok px' ->
    remaining (dcur d) = QOI_OP_RGBA :: [pr px'; pg px'; pb px'; pa px'] ++ tail ->
    exists c', dec_op d = Ok (after d px' (drun d) c') /\ remaining c' = tail.
  Proof.
    intros Hp Hr. destruct (read_u8_cons _ _ _ Hr) as (c1 & E & Hc).
    destruct (read_zero_app 4 c1 [pr px'; pg px'; pb px'; pa px'] tail eq_refl Hc) as (c' & E' & Hc').
    exists c'. split; [|exact Hc'].
    unfold dec_op. rewrite E. cbv zeta. change (QOI_OP_RGBA =? QOI_OP_RGB) with false. cbv iota.
    rewrite Z.eqb_refl, E'. cbn [bind nth].
    destruct px' as [r g b a]. cbn [pr pg pb pa]. now apply dec_finish.
  Qed.
End dec_ops.

(** Differences as the encoder packs them are recovered by the decoder. *)
Definition diff_byte (vr vg vb : Z) : Z :=
  Z.lor (Z.lor (Z.lor QOI_OP_DIFF (u8 (Z.shiftl (u8 (vr + 2)) 4))) (u8 (Z.shiftl (u8 (vg + 2)) 2))) (u8 (vb + 2)).

Lemma diff_shift v : outside 2 253 v = true -> is_byte v -> exists t, 0 <= t < 4 /\ u8 (v + 2) = t /\ v = u8 (t - 2).
Proof.
  unfold outside, is_byte, u8. intros H Hv. exists ((v + 2) mod 256). repeat split; lia.
Qed.

Lemma diff_sweep tr tg tb : 0 <= tr < 4 -> 0 <= tg < 4 -> 0 <= tb < 4 ->
  let x := Z.lor (Z.lor (Z.lor QOI_OP_DIFF (u8 (Z.shiftl tr 4))) (u8 (Z.shiftl tg 2))) tb in
  x =? QOI_OP_RGB = false /\ x =? QOI_OP_RGBA = false /\ Z.land x QOI_MASK_2 =? QOI_OP_INDEX = false /\
  Z.land x QOI_MASK_2 =? QOI_OP_DIFF = true /\ Z.land (Z.shiftr x 4) 3 = tr /\ Z.land (Z.shiftr x 2) 3 = tg /\
  Z.land x 3 = tb.
Proof.
  intros Hr Hg Hb x. subst x.
  assert (tr = 0 \/ tr = 1 \/ tr = 2 \/ tr = 3) as Er by lia.
  assert (tg = 0 \/ tg = 1 \/ tg = 2 \/ tg = 3) as Eg by lia.
  assert (tb = 0 \/ tb = 1 \/ tb = 2 \/ tb = 3) as Eb by lia.
  destruct Er as [ -> | [ -> | [ -> | -> ] ] ]; destruct Eg as [ -> | [ -> | [ -> | -> ] ] ];
  destruct Eb as [ -> | [ -> | [ -> | -> ] ] ]; repeat split; reflexivity.
Qed.

Lemma luma_sweep tg : 0 <= tg < 64 ->
  let x := Z.lor QOI_OP_LUMA tg in
  x =? QOI_OP_RGB = false /\ x =? QOI_OP_RGBA = false /\ Z.land x QOI_MASK_2 =? QOI_OP_INDEX = false /\
  Z.land x QOI_MASK_2 =? QOI_OP_DIFF = false /\ Z.land x QOI_MASK_2 =? QOI_OP_LUMA = true /\ Z.land x 63 = tg.
Proof.
  intros H x.
  pose proof (sweep (fun t => let x := Z.lor QOI_OP_LUMA t in
    negb (x =? QOI_OP_RGB) && negb (x =? QOI_OP_RGBA) && negb (Z.land x QOI_MASK_2 =? QOI_OP_INDEX) &&
    negb (Z.land x QOI_MASK_2 =? QOI_OP_DIFF) && (Z.land x QOI_MASK_2 =? QOI_OP_LUMA) && (Z.land x 63 =? t)) 64 eq_refl tg H) as S.
  cbv beta zeta in S. rewrite !andb_true_iff, !negb_true_iff, (Z.eqb_eq _ tg) in S. subst x. tauto.
Qed.
Lemma luma2_sweep a b : 0 <= a < 16 -> 0 <= b < 16 ->
  let x := Z.lor (u8 (Z.shiftl a 4)) b in Z.land (Z.shiftr x 4) 15 = a /\ Z.land x 15 = b.
Proof.
  intros Ha Hb x.
  pose proof (sweep2 (fun a b => let x := Z.lor (u8 (Z.shiftl a 4)) b in
     (Z.land (Z.shiftr x 4) 15 =? a) && (Z.land x 15 =? b)) 16 16 eq_refl a b Ha Hb) as S.
  cbv beta zeta in S. rewrite andb_true_iff, !Z.eqb_eq in S. exact S.
Qed.

(** Whatever opcode the encoder chooses for a pixel, the decoder recovers the pixel. *)
Lemma dec_pixel d px tail : length (dindex d) = 64%nat -> pix_ok px -> pix_ok (dpx d) ->
  remaining (dcur d) = op_bytes (enc_pixel (dpx d) px) ++ tail ->
  exists c', dec_op d = Ok (after d px (drun d) c') /\ remaining c' = tail.
Proof.
  intros Hl Hp Hd Hr. unfold enc_pixel in Hr.
  destruct (Z.eqb_spec (pa px) (pa (dpx d))) as [Ea|Ea].
  2:{ apply dec_rgba; auto. rewrite Hr. unfold op_bytes. cbn [map concat offered to_bytes app].
      f_equal. rewrite app_nil_r.
      change 4%nat with (length [pr px; pg px; pb px; pa px]). rewrite be_bytes_be_val; [reflexivity|].
      destruct Hp as (A & B & C & D). repeat constructor; apply A || apply B || apply C || apply D. }
  cbv zeta in Hr.
  destruct (outside 2 253 _ && outside 2 253 _ && outside 2 253 _) eqn:E1.
  - apply andb_true_iff in E1 as [E1 Eb]. apply andb_true_iff in E1 as [Er Eg].
    apply diff_shift in Er; [|unfold is_byte, u8; lia]. apply diff_shift in Eg; [|unfold is_byte, u8; lia].
    apply diff_shift in Eb; [|unfold is_byte, u8; lia].
    destruct Er as (tr & Hr1 & Hr2 & Hr3), Eg as (tg & Hg1 & Hg2 & Hg3), Eb as (tb & Hb1 & Hb2 & Hb3).
    rewrite Hr2, Hg2, Hb2 in Hr. unfold op_bytes in Hr. cbn [map concat offered app] in Hr.
    destruct (read_u8_cons _ _ _ Hr) as (c' & E & Hc). exists c'. split; [|exact Hc].
    unfold dec_op. rewrite E. cbv zeta.
    destruct (diff_sweep tr tg tb Hr1 Hg1 Hb1) as (A & B & C & D & F & G & I).
    rewrite A, B, C, D, F, G, I. cbn [bind]. rewrite <- Hr3, <- Hg3, <- Hb3.
    assert (Ep : Pix (u8 (pr (dpx d) + u8 (pr px - pr (dpx d)))) (u8 (pg (dpx d) + u8 (pg px - pg (dpx d))))
                     (u8 (pb (dpx d) + u8 (pb px - pb (dpx d)))) (pa (dpx d)) = px).
    { destruct px as [r g b a], Hp as (P1 & P2 & P3 & P4), Hd as (D1 & D2 & D3 & D4). cbn [pr pg pb pa] in *.
      unfold is_byte, u8 in *. subst a. f_equal; clear - P1 P2 P3 D1 D2 D3; lia. }
    rewrite Ep. now apply dec_finish.
  - destruct (outside 8 247 _ && outside 32 223 _ && outside 8 247 _) eqn:E2.
    + apply andb_true_iff in E2 as [E2 Eb]. apply andb_true_iff in E2 as [Er Eg].
      set (vr := u8 (pr px - pr (dpx d))) in *. set (vg := u8 (pg px - pg (dpx d))) in *.
      set (vb := u8 (pb px - pb (dpx d))) in *.
      assert (Hvr : is_byte vr) by (unfold is_byte, vr, u8; lia).
      assert (Hvg : is_byte vg) by (unfold is_byte, vg, u8; lia).
      assert (Hvb : is_byte vb) by (unfold is_byte, vb, u8; lia).
      assert (T1 : 0 <= u8 (vg + 32) < 64) by (clear - Eg Hvg; unfold outside, is_byte, u8 in *; lia).
      assert (T2 : 0 <= u8 (u8 (vr - vg) + 8) < 16) by (clear - Er Hvr Hvg; unfold outside, is_byte, u8 in *; lia).
      assert (T3 : 0 <= u8 (u8 (vb - vg) + 8) < 16) by (clear - Eb Hvb Hvg; unfold outside, is_byte, u8 in *; lia).
      unfold op_bytes in Hr. cbn [map concat offered app] in Hr.
      destruct (read_u8_cons _ _ _ Hr) as (c1 & E & Hc).
      destruct (read_u8_cons _ _ _ Hc) as (c' & E' & Hc'). exists c'. split; [|exact Hc'].
      unfold dec_op. rewrite E. cbv zeta.
      destruct (luma_sweep _ T1) as (A & B & C & D & F & G).
      destruct (luma2_sweep _ _ T2 T3) as (I & J).
      rewrite A, B, C, D, F, E'. cbn [bind]. rewrite G, I, J.
      assert (Ep : Pix (u8 (pr (dpx d) + u8 (u8 (u8 (u8 (vg + 32) - 32) - 8) + u8 (u8 (vr - vg) + 8))))
                     (u8 (pg (dpx d) + u8 (u8 (vg + 32) - 32)))
                     (u8 (pb (dpx d) + u8 (u8 (u8 (u8 (vg + 32) - 32) - 8) + u8 (u8 (vb - vg) + 8)))) (pa (dpx d)) = px).
      { destruct px as [r g b a], Hp as (P1 & P2 & P3 & P4), Hd as (D1 & D2 & D3 & D4). cbn [pr pg pb pa] in *.
        assert (K : forall x, is_byte x -> u8 (u8 (x + 32) - 32) = x) by (unfold is_byte, u8; clear; intros; lia).
        rewrite K by exact Hvg.
        assert (K2 : forall x, is_byte x -> u8 (u8 (vg - 8) + u8 (u8 (x - vg) + 8)) = x)
          by (clear - Hvg; unfold is_byte, u8 in *; intros; lia).
        rewrite !K2 by assumption. subst vr vg vb a.
        unfold is_byte, u8 in *. f_equal; clear - P1 P2 P3 D1 D2 D3; lia. }
      rewrite Ep. now apply dec_finish.
    + apply dec_rgb; auto.
Qed.

(** * Simulation *)
Definition idx_rel (e d : list pix) : Prop := forall i, (i < 64)%nat ->
  nth i e pix0 = nth i d pix0 \/ (i = 53%nat /\ nth i e pix0 = pix0 /\ nth i d pix0 = pix_start).
Definition prev_in (e : list pix) (p : pix) : Prop :=
  nth (Z.to_nat (qhash p)) e pix0 = p \/ (p = pix_start /\ nth 53 e pix0 = pix0).

Record inv (st : enc_st) (d : dec_st) : Prop := {
  inv_px : dpx d = eprev st;
  inv_ok : pix_ok (eprev st);
  inv_run : 0 <= erun st < 62;
  inv_elen : length (eindex st) = 64%nat;
  inv_dlen : length (dindex d) = 64%nat;
  inv_rel : idx_rel (eindex st) (dindex d);
  inv_prev : prev_in (eindex st) (eprev st);
  inv_drun : drun d = 0
}.

Lemma idx_rel_store e d p : length e = 64%nat -> length d = 64%nat -> idx_rel e d ->
  idx_rel (upd e (Z.to_nat (qhash p)) p) (upd d (Z.to_nat (qhash p)) p).
Proof.
  intros He Hd H i Hi. pose proof (qhash_bound p) as Hb.
  destruct (Nat.eq_dec (Z.to_nat (qhash p)) i) as [<-|Hn].
  - left. rewrite !upd_nth_same by lia. reflexivity.
  - rewrite !upd_nth_other by exact Hn. apply H, Hi.
Qed.
Lemma idx_rel_keep e d p : length e = 64%nat -> length d = 64%nat -> idx_rel e d -> prev_in e p ->
  idx_rel e (upd d (Z.to_nat (qhash p)) p).
Proof.
  intros He Hd H Hp i Hi. pose proof (qhash_bound p) as Hb.
  destruct (Nat.eq_dec (Z.to_nat (qhash p)) i) as [<-|Hn].
  - rewrite upd_nth_same by lia. destruct Hp as [Hp|[-> Hp]]; [left; exact Hp|].
    right. repeat split. exact Hp.
  - rewrite upd_nth_other by exact Hn. apply H, Hi.
Qed.

Lemma dec_loop_copies k : forall n d, drun d = Z.of_nat k ->
  dec_loop (k + n) d = bind (dec_loop n {| dpx := dpx d; dindex := dindex d; drun := 0; dcur := dcur d |})
                         (fun '(ps, d') => Ok (repeat (dpx d) k ++ ps, d')).
Proof.
  induction k as [|k IH]; intros n d H.
  - cbn [Nat.add repeat app]. destruct d as [p ix r c]. cbn [drun dpx dindex dcur] in *. subst r.
    change (Z.of_nat 0) with 0. destruct (dec_loop n _) as [[ps d']| | |]; reflexivity.
  - cbn [Nat.add dec_loop]. unfold dec_step at 1. replace (0 <? drun d) with true by lia. cbn [bind].
    rewrite IH by (cbn [drun]; lia). cbn [dpx dindex dcur].
    destruct (dec_loop n _) as [[ps d']| | |]; reflexivity.
Qed.

Lemma flush_sim st d tail : inv st d -> 0 < erun st ->
  forall k, k = erun st \/ (k = 62 /\ erun st = 61) ->
  remaining (dcur d) = Z.lor QOI_OP_RUN (k - 1) :: tail ->
  exists d', inv {| eprev := eprev st; eindex := eindex st; erun := 0 |} d' /\
    remaining (dcur d') = tail /\
    forall n, dec_loop (Z.to_nat k + n) d =
      bind (dec_loop n d') (fun '(ps, d'') => Ok (repeat (eprev st) (Z.to_nat k) ++ ps, d'')).
Proof.
  intros I Hk k Ek Hr. pose proof (inv_run _ _ I) as Hrun.
  destruct (dec_run d tail (inv_dlen _ _ I) k) as (c' & E & Hc); auto; [lia| |].
  { rewrite (inv_px _ _ I). apply (inv_ok _ _ I). }
  set (d1 := after d (dpx d) (k - 1) c') in *.
  exists {| dpx := dpx d1; dindex := dindex d1; drun := 0; dcur := dcur d1 |}.
  split; [|split].
  { constructor; cbn [dpx dindex drun dcur eprev eindex erun d1 after]; try lia; try apply I.
    - rewrite upd_length. apply I.
    - rewrite (inv_px _ _ I). apply idx_rel_keep; apply I. }
  - exact Hc.
  - intros n. replace (Z.to_nat k + n)%nat with (S (Z.to_nat (k - 1) + n)) by lia.
    cbn [dec_loop]. unfold dec_step at 1. rewrite (inv_drun _ _ I). cbn [Z.ltb Z.compare]. rewrite E. cbn [bind].
    rewrite dec_loop_copies by (cbn; lia). fold d1.
    replace (Z.to_nat k) with (S (Z.to_nat (k - 1))) by lia. cbn [repeat].
    assert (Edp : dpx d1 = eprev st) by apply (inv_px _ _ I). rewrite Edp.
    destruct (dec_loop n _) as [[ps d'']| | |]; reflexivity.
Qed.

Lemma set_px_ok p c size : (size = 3 \/ size = 4)%nat -> length c = size -> bytes c -> pix_ok p -> pix_ok (set_px p c).
Proof.
  intros Hs Hl Hb (P1 & P2 & P3 & P4). unfold bytes in Hb.
  destruct Hs; subst size; repeat (destruct c as [|? c]; try discriminate);
    repeat match goal with H : Forall _ (_ :: _) |- _ => inversion H; clear H; subst end;
    cbn [set_px]; repeat split; cbn [pr pg pb pa]; auto; try apply P4; unfold is_byte in *; lia.
Qed.
Lemma set_px_out p c size : (size = 3 \/ size = 4)%nat -> length c = size -> px_out size (set_px p c) = c.
Proof.
  intros Hs Hl.
  destruct Hs; subst size; repeat (destruct c as [|? c]; try discriminate); reflexivity.
Qed.

Lemma pix_ok_start : pix_ok pix_start.
Proof. repeat split; cbn; lia. Qed.
Lemma pix_ok_zero : pix_ok pix0.
Proof. repeat split; cbn; lia. Qed.

(** One literal pixel (index hit or explicit), after any pending run has been flushed. *)
Lemma pixel_sim st d px tail : inv st d -> erun st = 0 -> pix_ok px ->
  let pos := Z.to_nat (qhash px) in
  let hit := pix_eqb (nth pos (eindex st) pix0) px in
  remaining (dcur d) = op_bytes (if hit then [OU8Err (Z.lor QOI_OP_INDEX (Z.of_nat pos))] else enc_pixel (eprev st) px) ++ tail ->
  exists d', inv {| eprev := px; eindex := if hit then eindex st else upd (eindex st) pos px; erun := 0 |} d' /\
    remaining (dcur d') = tail /\
    forall n, dec_loop (S n) d = bind (dec_loop n d') (fun '(ps, d'') => Ok (px :: ps, d'')).
Proof.
  intros I Hz Hp pos hit Hr.
  pose proof (qhash_bound px) as Hb.
  assert (G : exists c', dec_op d = Ok (after d px (drun d) c') /\ remaining c' = tail /\
              (hit = true -> nth pos (eindex st) pix0 = px)).
  { destruct hit eqn:Eh.
    - subst hit. rewrite pix_eqb_eq in Eh.
      assert (Ed : nth pos (dindex d) pix0 = px).
      { destruct (inv_rel _ _ I pos) as [E|(E1 & E2 & E3)]; [lia|congruence|].
        exfalso. rewrite E2 in Eh. subst px. subst pos. vm_compute in E1. discriminate. }
      replace pos with (Z.to_nat (Z.of_nat pos)) in Ed by lia.
      destruct (dec_index d tail (inv_dlen _ _ I) (Z.of_nat pos)) as (c' & E & Hc); [lia| | |].
      + rewrite Ed. exact Hp.
      + exact Hr.
      + rewrite Ed in E. eauto.
    - destruct (dec_pixel d px tail (inv_dlen _ _ I) Hp) as (c' & E & Hc).
      + rewrite (inv_px _ _ I). apply I.
      + rewrite (inv_px _ _ I). exact Hr.
      + exists c'. repeat split; auto. discriminate. }
  destruct G as (c' & E & Hc & Hh).
  exists (after d px (drun d) c'). split; [|split].
  { constructor; cbn [dpx dindex drun dcur eprev eindex erun after]; try lia; try apply Hp; try apply I; auto.
    - destruct hit; [|rewrite upd_length]; apply I.
    - rewrite upd_length. apply I.
    - fold pos. destruct hit eqn:Eh.
      + apply idx_rel_keep; try apply I. left. apply Hh. reflexivity.
      + apply idx_rel_store; apply I.
    - left. fold pos. destruct hit eqn:Eh; [apply Hh; reflexivity|].
      rewrite upd_nth_same by (rewrite (inv_elen _ _ I); lia). reflexivity. }
  - exact Hc.
  - intros n. cbn [dec_loop]. unfold dec_step at 1. rewrite (inv_drun _ _ I) at 1. cbn [Z.ltb Z.compare].
    rewrite E. cbn [bind after dpx]. reflexivity.
Qed.

Lemma sim size cs : (size = 3 \/ size = 4)%nat ->
  Forall (fun c => length c = size /\ bytes c) cs ->
  forall st d tail, inv st d ->
  remaining (dcur d) = op_bytes (enc_loop st cs) ++ tail ->
  exists ps d', dec_loop (Z.to_nat (erun st) + length cs) d = Ok (ps, d') /\
    map (px_out size) ps = repeat (px_out size (eprev st)) (Z.to_nat (erun st)) ++ cs /\
    remaining (dcur d') = tail.
Proof.
  intros Hs H. induction H as [|c cs [Hc Hb] Hcs IH]; intros st d tail I Hr.
  - cbn [enc_loop length] in *. destruct (Z.ltb_spec 0 (erun st)) as [Hp|Hp].
    + destruct (flush_sim st d tail I Hp (erun st)) as (d' & I' & Hr' & Hd); auto.
      rewrite Hd. cbn [dec_loop bind]. eexists _, _. repeat split; [|exact Hr'].
      rewrite !app_nil_r. apply map_repeat'.
    + pose proof (inv_run _ _ I). replace (erun st) with 0 by lia. cbn [Z.to_nat Nat.add dec_loop].
      exists [], d. repeat split. exact Hr.
  - cbn [enc_loop] in Hr.
    destruct (enc_step st c) as [ops st'] eqn:Est. rewrite op_bytes_app, <- app_assoc in Hr.
    unfold enc_step in Est. cbv zeta in Est.
    pose proof (inv_run _ _ I) as Hrun. pose proof (set_px_ok (eprev st) c size Hs Hc Hb (inv_ok _ _ I)) as Hpx.
    pose proof (set_px_out (eprev st) c size Hs Hc) as Hout.
    set (px := set_px (eprev st) c) in *.
    destruct (pix_eqb px (eprev st)) eqn:Epx.
    + apply pix_eqb_eq in Epx. destruct (Z.eqb_spec (erun st + 1) 62) as [E62|E62]; injection Est as <- <-.
      * unfold op_bytes in Hr at 1. cbn [map concat offered app run_op] in Hr.
        destruct (flush_sim st d (op_bytes (enc_loop {| eprev := px; eindex := eindex st; erun := 0 |} cs) ++ tail) I) with (k := 62)
          as (d' & I' & Hr' & Hd); [lia|right; lia|rewrite <- E62; exact Hr|].
        rewrite <- Epx in I'.
        destruct (IH _ _ _ I' Hr') as (ps & d'' & E1 & E2 & E3). cbn [erun eprev Z.to_nat Nat.add] in E1, E2.
        exists (repeat (eprev st) 62 ++ ps), d''. repeat split; [|rewrite map_app, E2|exact E3].
        -- replace (Z.to_nat (erun st) + length (c :: cs))%nat with (Z.to_nat 62 + length cs)%nat by (cbn [length]; lia).
           rewrite Hd, E1. reflexivity.
        -- rewrite map_repeat'. replace (Z.to_nat (erun st)) with 61%nat by lia.
           rewrite <- Epx, Hout. reflexivity.
      * assert (I' : inv {| eprev := px; eindex := eindex st; erun := erun st + 1 |} d).
        { rewrite Epx. destruct I. constructor; auto. cbn. lia. }
        destruct (IH _ _ _ I' Hr) as (ps & d'' & E1 & E2 & E3). cbn [erun eprev] in E1, E2.
        exists ps, d''. repeat split; [|rewrite E2|exact E3].
        -- rewrite <- E1. f_equal. cbn [length]. lia.
        -- replace (Z.to_nat (erun st + 1)) with (Z.to_nat (erun st) + 1)%nat by lia.
           rewrite repeat_app, <- app_assoc. cbn [repeat app]. rewrite Hout. rewrite <- Epx, Hout. reflexivity.
    + (* literal pixel *)
      set (pos := Z.to_nat (qhash px)) in *.
      set (hit := pix_eqb (nth pos (eindex st) pix0) px) in *.
      set (flush := if 0 <? erun st then [run_op (erun st)] else []) in *.
      assert (Est' : ops = flush ++ (if hit then [OU8Err (Z.lor QOI_OP_INDEX (Z.of_nat pos))] else enc_pixel (eprev st) px)
               /\ st' = {| eprev := px; eindex := if hit then eindex st else upd (eindex st) pos px; erun := 0 |}).
      { destruct hit; injection Est as <- <-; auto. }
      destruct Est' as [-> ->]. clear Est.
      rewrite op_bytes_app, <- app_assoc in Hr.
      (* flush any pending run *)
      assert (F : exists d1, inv {| eprev := eprev st; eindex := eindex st; erun := 0 |} d1 /\
        remaining (dcur d1) = op_bytes (if hit then [OU8Err (Z.lor QOI_OP_INDEX (Z.of_nat pos))] else enc_pixel (eprev st) px) ++
          (op_bytes (enc_loop {| eprev := px; eindex := if hit then eindex st else upd (eindex st) pos px; erun := 0 |} cs) ++ tail) /\
        forall n, dec_loop (Z.to_nat (erun st) + n) d =
          bind (dec_loop n d1) (fun '(ps, d'') => Ok (repeat (eprev st) (Z.to_nat (erun st)) ++ ps, d''))).
      { subst flush. destruct (Z.ltb_spec 0 (erun st)) as [Hp|Hp].
        - unfold op_bytes in Hr at 1. cbn [map concat offered app run_op] in Hr.
          destruct (flush_sim st d _ I Hp (erun st) (or_introl eq_refl) Hr) as (d1 & I1 & Hr1 & Hd1). eauto.
        - unfold op_bytes in Hr at 1. cbn [map concat app] in Hr.
          exists d. replace (erun st) with 0 by lia.
          split; [destruct I; constructor; auto; cbn; lia|split; [exact Hr|]].
          intros n. cbn [Z.to_nat Nat.add repeat app]. destruct (dec_loop n d) as [[? ?]| | |]; reflexivity. }
      destruct F as (d1 & I1 & Hr1 & Hd1).
      destruct (pixel_sim _ d1 px (op_bytes (enc_loop {| eprev := px; eindex := if hit then eindex st else upd (eindex st) pos px; erun := 0 |} cs) ++ tail) I1 eq_refl Hpx) as (d2 & I2 & Hr2 & Hd2).
      { cbn [eindex eprev]. fold pos. fold hit. exact Hr1. }
      cbn [eindex] in I2. fold pos in I2. fold hit in I2.
      destruct (IH _ _ _ I2 Hr2) as (ps & d'' & E1 & E2 & E3). cbn [erun eprev Z.to_nat Nat.add] in E1, E2.
      exists (repeat (eprev st) (Z.to_nat (erun st)) ++ px :: ps), d''. repeat split; [| |exact E3].
      * cbn [length]. rewrite Hd1, Hd2, E1. reflexivity.
      * rewrite map_app, map_repeat'. cbn [map]. rewrite E2, Hout. reflexivity.
Qed.
