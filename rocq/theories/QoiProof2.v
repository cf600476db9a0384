(** QOI: headers, totality, sizes and the assembled round trip. *)
From Verif Require Import Base BaseProof Bits StreamModel StreamSpec StreamProof QoiModel QoiProof.

Definition hdr_bytes (w h : Z) (cs : qcs) : list Z :=
  QOI_MAGIC ++ be_bytes 4 w ++ be_bytes 4 h ++ [Z.of_nat (num_components cs); 0].

Definition rgbx (cs : qcs) : Prop := cs = CsRGB \/ cs = CsRGBA.

Lemma decode_headers_ok o c w h cs r :
  rgbx cs -> 0 < w < 2 ^ 32 -> 0 < h < 2 ^ 32 -> w <= max_width o -> h <= max_height o ->
  remaining c = hdr_bytes w h cs ++ r ->
  exists c', decode_headers o c = (Ok {| qw := w; qh := h; qcspace := cs; qlayout := 0 |}, c') /\ remaining c' = r.
Proof.
  intros Hcs Hw Hh Hmw Hmh Hr. unfold hdr_bytes in Hr. rewrite <- !app_assoc in Hr.
  destruct (read_err_app 4 c QOI_MAGIC _ eq_refl Hr) as (c1 & E1 & R1).
  destruct (get_zero_app BE 4 c1 w _ ltac:(cbn; lia) R1) as (c2 & E2 & R2).
  destruct (get_zero_app BE 4 c2 h _ ltac:(cbn; lia) R2) as (c3 & E3 & R3).
  cbn [app] in R3.
  destruct (read_u8_cons _ _ _ R3) as (c4 & E4 & R4).
  destruct (read_u8_cons _ _ _ R4) as (c5 & E5 & R5).
  exists c5. split; [|exact R5].
  unfold decode_headers. rewrite E1. cbn [combine QOI_MAGIC forallb Z.eqb Pos.eqb andb negb].
  rewrite E2, E3, E4, E5.
  replace (max_width o <? w) with false by lia. replace (max_height o <? h) with false by lia.
  replace (w =? 0) with false by lia. replace (h =? 0) with false by lia.
  destruct Hcs as [-> | ->]; reflexivity.
Qed.

Lemma output_size_ok h : rgbx (qcspace h) -> 0 < qw h -> 0 < qh h ->
  qw h * qh h * Z.of_nat (num_components (qcspace h)) < 2 ^ 64 ->
  output_size h = Ok (qw h * qh h * Z.of_nat (num_components (qcspace h))).
Proof.
  intros Hcs Hw Hh Hlt. unfold output_size, checked_mul.
  assert (3 <= Z.of_nat (num_components (qcspace h))) by (destruct Hcs as [-> | ->]; cbn; lia).
  replace (qw h * qh h <? 2 ^ 64) with true by nia.
  replace (_ <? 2 ^ 64) with true by lia. reflexivity.
Qed.

Lemma inv_start c : inv enc_start (dec_start c).
Proof.
  constructor; try reflexivity.
  - apply pix_ok_start.
  - cbn; lia.
  - intros i Hi. left. reflexivity.
  - right. split; [reflexivity|]. reflexivity.
Qed.

(** What the encoder emits for a valid image. *)
Definition body_ops (cs : qcs) (pixels : list Z) : list wop :=
  enc_loop enc_start (chunks_exact (num_components cs) pixels) ++ [OIntErr BE 8 1].
Definition file_bytes (w h : Z) (cs : qcs) (pixels : list Z) : list Z :=
  hdr_bytes w h cs ++ op_bytes (body_ops cs pixels).

Definition image_ok (w h : Z) (cs : qcs) (pixels : list Z) : Prop :=
  rgbx cs /\ 0 < w < 2 ^ 32 /\ 0 < h < 2 ^ 32 /\ bytes pixels /\
  Z.of_nat (length pixels) = w * h * Z.of_nat (num_components cs).

Definition hdr_ops (w h : Z) (cs : qcs) : list wop :=
  [OWriteAll QOI_MAGIC; OIntErr BE 4 w; OIntErr BE 4 h; OU8Err (Z.of_nat (num_components cs)); OU8Err 0].
Lemma enc_headers_ok w h cs pixels : image_ok w h cs pixels ->
  enc_headers w h cs pixels = (hdr_ops w h cs, None) /\ op_bytes (hdr_ops w h cs) = hdr_bytes w h cs.
Proof.
  intros (Hcs & Hw & Hh & Hb & Hl). unfold enc_headers.
  rewrite (proj2 (Z.eqb_eq _ _) Hl). cbn [negb].
  replace (2 ^ 32 - 1 <? w) with false by lia. replace (2 ^ 32 - 1 <? h) with false by lia.
  split; [destruct Hcs as [-> | ->]; reflexivity|]. reflexivity.
Qed.

Lemma qoi_encode_vec w h cs pixels : image_ok w h cs pixels ->
  qoi_encode (VecSink []) w h cs pixels =
    (Ok (length (file_bytes w h cs pixels)),
     {| wsink := VecSink (file_bytes w h cs pixels); wcount := length (file_bytes w h cs pixels) |}).
Proof.
  intros H. destruct (enc_headers_ok _ _ _ _ H) as [E E']. unfold qoi_encode. rewrite E.
  rewrite (run_ops_vec _ (new_writer (VecSink [])) [] eq_refl). cbn [app wcount new_writer Nat.add].
  match goal with |- context [run_ops ?W _] => rewrite (run_ops_vec _ W (op_bytes (hdr_ops w h cs)) eq_refl) end. cbn [wcount]. rewrite E'. unfold file_bytes, body_ops.
  rewrite app_length. reflexivity.
Qed.

(** Slices with enough room behave like vectors. *)
Definition slice (nostd : bool) (out : list Z) (room : nat) : sink :=
  if nostd then SliceNoStd out room else SliceStd out room.
Lemma run_ops_slice nostd ops : forall w out room, wsink w = slice nostd out room ->
  (length (op_bytes ops) <= room)%nat ->
  run_ops w ops = (true, {| wsink := slice nostd (out ++ op_bytes ops) (room - length (op_bytes ops));
                            wcount := wcount w + length (op_bytes ops) |}).
Proof.
  induction ops as [|o ops IH]; intros w out room Hs Hl; cbn [run_ops].
  - unfold op_bytes; cbn. rewrite app_nil_r, Nat.add_0_r, Nat.sub_0_r. destruct w; cbn in *; now subst.
  - unfold op_bytes in Hl. cbn [map concat] in Hl. rewrite app_length in Hl. fold (op_bytes ops) in Hl.
    assert (A : forall b, (length b <= room)%nat -> w_all w b = (true,
       {| wsink := slice nostd (out ++ b) (room - length b); wcount := wcount w + length b |})).
    { intros b Hb. unfold w_all. rewrite Hs. destruct nostd; cbn [slice sink_write_all].
      - replace (room <? length b)%nat with false by lia. reflexivity.
      - rewrite Nat.min_l by lia. rewrite firstn_all. replace (length b <=? room)%nat with true by lia. reflexivity. }
    assert (E : exists ret, ret <> RErr /\ wstep w o = (ret, {| wsink := slice nostd (out ++ offered o) (room - length (offered o));
                                            wcount := wcount w + length (offered o) |})).
    { assert (Hlo : (length (offered o) <= room)%nat) by lia.
      destruct o; cbn [wstep]; cbv zeta;
        try (cbn [offered] in Hlo |- *; rewrite A by exact Hlo; eexists; (split; [|reflexivity]); discriminate).
      cbn [offered] in *. rewrite Hs. exists (RCount (length b)). split; [discriminate|].
      destruct nostd; cbn [slice sink_write]; rewrite Nat.min_l by lia; now rewrite firstn_all. }
    destruct E as (ret & Hr & E). rewrite E.
    set (w' := {| wsink := slice nostd (out ++ offered o) (room - length (offered o)); wcount := wcount w + length (offered o) |}).
    assert (G : run_ops w' ops
         = (true, {| wsink := slice nostd (out ++ op_bytes (o :: ops)) (room - length (op_bytes (o :: ops))); wcount := wcount w + length (op_bytes (o :: ops)) |})).
    { rewrite (IH w' (out ++ offered o) (room - length (offered o))%nat eq_refl) by lia.
      subst w'. cbn [wcount]. unfold op_bytes. cbn [map concat].
      rewrite app_length, app_assoc, Nat.add_assoc, Nat.sub_add_distr. reflexivity. }
    destruct ret; try exact G. now elim Hr.
Qed.

Lemma qoi_encode_slice nostd cap w h cs pixels : image_ok w h cs pixels ->
  (length (file_bytes w h cs pixels) <= cap)%nat ->
  qoi_encode (slice nostd [] cap) w h cs pixels =
    (Ok (length (file_bytes w h cs pixels)),
     {| wsink := slice nostd (file_bytes w h cs pixels) (cap - length (file_bytes w h cs pixels));
        wcount := length (file_bytes w h cs pixels) |}).
Proof.
  intros H Hl. destruct (enc_headers_ok _ _ _ _ H) as [E E']. unfold qoi_encode. rewrite E.
  unfold file_bytes in *. rewrite app_length in *. unfold body_ops in *.
  rewrite (run_ops_slice nostd _ (new_writer (slice nostd [] cap)) [] cap) by (rewrite ?E'; cbn [wsink new_writer]; auto; lia).
  rewrite E'. cbn [app wcount new_writer Nat.add].
  match goal with |- context [run_ops ?W ?O] =>
    rewrite (run_ops_slice nostd O W (hdr_bytes w h cs) (cap - length (hdr_bytes w h cs))%nat)
      by (cbn [wsink]; auto; lia) end.
  cbn [wcount]. f_equal. f_equal. f_equal. lia.
Qed.

(** A sink that is too small makes the encoder fail. *)
Definition qoi_op (o : wop) : Prop := match o with OWrite _ | OInt _ _ _ => False | _ => True end.

Lemma run_ops_full nostd ops x : forall w out, wsink w = slice nostd out 0 ->
  Forall qoi_op ops -> In (OIntErr BE 8 x) ops -> fst (run_ops w ops) = false.
Proof.
  induction ops as [|o ops IH]; intros w out Hs Hq Hin; [destruct Hin|].
  inversion Hq as [|? ? Ho Hq']; subst. cbn [run_ops].
  assert (A : forall b, exists s', fst (w_all w b) = Nat.eqb (length b) 0 /\ wsink (snd (w_all w b)) = slice nostd s' 0).
  { intros b. unfold w_all. rewrite Hs. destruct nostd; cbn [slice sink_write_all].
    - destruct (Nat.ltb_spec 0 (length b)).
      + exists out. cbn. split; [destruct (length b); [lia|reflexivity]|exact eq_refl].
      + exists (out ++ b). cbn. split; [destruct (length b); [reflexivity|lia]|reflexivity].
    - rewrite Nat.min_0_r. cbn [firstn]. rewrite app_nil_r. exists out.
      destruct (length b); cbn; split; reflexivity. }
  destruct o; try destruct Ho; cbn [wstep]; cbv zeta;
    match goal with |- context [w_all w ?b] => destruct (A b) as (s' & A1 & A2); destruct (w_all w b) as [[] w'] end;
    cbn [fst snd] in A1, A2; try reflexivity;
    (destruct Hin as [Hin|Hin]; [|eapply IH; eauto]); try discriminate.
  injection Hin as -> -> ->. cbn in A1. discriminate.
Qed.

Lemma run_ops_short nostd ops x : forall w out room, wsink w = slice nostd out room ->
  (room < length (op_bytes (ops ++ [OIntErr BE 8 x])))%nat ->
  Forall qoi_op ops -> fst (run_ops w (ops ++ [OIntErr BE 8 x])) = false.
Proof.
  induction ops as [|o ops IH]; intros w out room Hs Hl Hq.
  - cbn [app run_ops wstep] in *. cbv zeta. unfold w_all. rewrite Hs.
    change (length (op_bytes [OIntErr BE 8 x])) with 8%nat in Hl.
    assert (E8 : length (to_bytes BE 8 x) = 8%nat) by apply to_bytes_length.
    destruct nostd; cbn [slice sink_write_all]; rewrite E8.
    + replace (room <? 8)%nat with true by lia. reflexivity.
    + replace (8 <=? room)%nat with false by lia. reflexivity.
  - inversion Hq as [|? ? Ho Hq']; subst. cbn [run_ops app].
    unfold op_bytes in Hl. cbn [map concat app] in Hl. rewrite app_length in Hl. fold (op_bytes (ops ++ [OIntErr BE 8 x])) in Hl.
    assert (A : forall b, (length b <= room)%nat -> w_all w b = (true,
       {| wsink := slice nostd (out ++ b) (room - length b); wcount := wcount w + length b |})).
    { intros b Hb. unfold w_all. rewrite Hs. destruct nostd; cbn [slice sink_write_all].
      - replace (room <? length b)%nat with false by lia. reflexivity.
      - rewrite Nat.min_l by lia. rewrite firstn_all. replace (length b <=? room)%nat with true by lia. reflexivity. }
    assert (B : forall b, (room < length b)%nat -> fst (w_all w b) = false).
    { intros b Hb. unfold w_all. rewrite Hs. destruct nostd; cbn [slice sink_write_all].
      - replace (room <? length b)%nat with true by lia. reflexivity.
      - replace (length b <=? room)%nat with false by lia. reflexivity. }
    destruct (Nat.leb_spec (length (offered o)) room) as [Hlo|Hlo].
    + assert (E : wstep w o = (RUnit, {| wsink := slice nostd (out ++ offered o) (room - length (offered o));
                                            wcount := wcount w + length (offered o) |})).
      { destruct o; try destruct Ho; cbn [wstep offered] in *; cbv zeta; rewrite A by exact Hlo; reflexivity. }
      rewrite E. eapply IH; [cbn [wsink]; reflexivity|lia|exact Hq'].
    + destruct o; try destruct Ho; cbn [wstep offered] in *; cbv zeta; pose proof (B _ Hlo) as Bb;
        try (destruct (w_all w _) as [[] w']; [discriminate|reflexivity]).
      (* write_u8 swallows the failure, but then the slice is full *)
      cbn [length] in Hlo. assert (room = 0)%nat by lia. subst room.
      eapply run_ops_full with (out := out) (nostd := nostd); [|apply Forall_app; split; [exact Hq'|repeat constructor]|apply in_or_app; right; now left].
      unfold w_all. rewrite Hs. destruct nostd; cbn; [reflexivity|]. now rewrite app_nil_r.
Qed.

Lemma enc_step_ops st c : Forall qoi_op (fst (enc_step st c)).
Proof.
  unfold enc_step. cbv zeta. destruct (pix_eqb _ _).
  - destruct (_ =? 62); cbn; repeat constructor.
  - assert (P : Forall qoi_op (enc_pixel (eprev st) (set_px (eprev st) c))).
    { unfold enc_pixel. cbv zeta. destruct (_ =? _); [destruct (_ && _ && _); [|destruct (_ && _ && _)]|]; repeat constructor. }
    destruct (pix_eqb _ _); cbn [fst]; apply Forall_app; (split; [destruct (0 <? _); repeat constructor|]);
      [repeat constructor|exact P].
Qed.
Lemma enc_loop_ops cs : forall st, Forall qoi_op (enc_loop st cs).
Proof.
  induction cs as [|c cs IH]; intros st; cbn [enc_loop].
  - destruct (0 <? _); repeat constructor.
  - pose proof (enc_step_ops st c) as H. destruct (enc_step st c) as [ops st']. cbn [fst] in H.
    apply Forall_app. auto.
Qed.

Lemma run_ops_app w a b : run_ops w (a ++ b) = match run_ops w a with (true, w') => run_ops w' b | r => r end.
Proof.
  revert w; induction a as [|o a IH]; intros w; cbn [app run_ops]; [reflexivity|].
  destruct (wstep w o) as [[] w']; auto.
Qed.

Lemma qoi_encode_short nostd cap w h cs pixels : image_ok w h cs pixels ->
  (cap < length (file_bytes w h cs pixels))%nat ->
  fst (qoi_encode (slice nostd [] cap) w h cs pixels) = Err ENoSpace.
Proof.
  intros H Hl. destruct (enc_headers_ok _ _ _ _ H) as [E E'].
  assert (G : fst (run_ops (new_writer (slice nostd [] cap))
       ((hdr_ops w h cs ++ enc_loop enc_start (chunks_exact (num_components cs) pixels)) ++ [OIntErr BE 8 1])) = false).
  { eapply run_ops_short; [reflexivity| |].
    - rewrite <- app_assoc, op_bytes_app, E'. exact Hl.
    - apply Forall_app. split; [repeat constructor|apply enc_loop_ops]. }
  rewrite <- app_assoc, run_ops_app in G. unfold qoi_encode. rewrite E.
  destruct (run_ops _ (hdr_ops w h cs)) as [[] w']; [|reflexivity].
  destruct (run_ops w' _) as [[] w'']; [discriminate|reflexivity].
Qed.

(** * Size bound *)
Lemma enc_pixel_len ch prev px : (ch = 3 \/ ch = 4)%nat -> (ch = 3%nat -> pa px = pa prev) ->
  (length (op_bytes (enc_pixel prev px)) <= ch + 1)%nat.
Proof.
  intros Hc Ha. unfold enc_pixel. cbv zeta. destruct (Z.eqb_spec (pa px) (pa prev)) as [E|E].
  - destruct (_ && _ && _); [cbn; lia|]. destruct (_ && _ && _); cbn; lia.
  - destruct Hc as [->| ->]; [now elim E; apply Ha|].
    unfold op_bytes. cbn [map concat offered]. rewrite !app_length, to_bytes_length. cbn. lia.
Qed.

Lemma set_px_alpha ch p c : ch = 3%nat -> length c = ch -> pa (set_px p c) = pa p.
Proof. intros -> H. repeat (destruct c as [|? c]; try discriminate). reflexivity. Qed.

Lemma enc_loop_len ch cs : (ch = 3 \/ ch = 4)%nat -> Forall (fun c => length c = ch) cs ->
  forall st, 0 <= erun st ->
  (Z.of_nat (length (op_bytes (enc_loop st cs))) <= Z.of_nat (ch + 1) * (Z.of_nat (length cs) + erun st)).
Proof.
  intros Hch H. induction H as [|c cs Hc Hcs IH]; intros st Hrun; cbn [enc_loop].
  - destruct (Z.ltb_spec 0 (erun st)); cbn; lia.
  - destruct (enc_step st c) as [ops st'] eqn:E. rewrite op_bytes_app, app_length.
    unfold enc_step in E. cbv zeta in E. cbn [length].
    destruct (pix_eqb _ _).
    + destruct (Z.eqb_spec (erun st + 1) 62); injection E as <- <-.
      * specialize (IH {| eprev := set_px (eprev st) c; eindex := eindex st; erun := 0 |}). cbn [erun] in IH.
        unfold op_bytes at 1. cbn [map concat offered run_op app length]. lia.
      * specialize (IH {| eprev := set_px (eprev st) c; eindex := eindex st; erun := erun st + 1 |}). cbn [erun] in IH.
        unfold op_bytes at 1. cbn [map concat app length]. lia.
    + assert (Hf : Z.of_nat (length (op_bytes (if 0 <? erun st then [run_op (erun st)] else []))) <= erun st).
      { destruct (Z.ltb_spec 0 (erun st)); cbn; lia. }
      assert (Hp : (length (op_bytes (enc_pixel (eprev st) (set_px (eprev st) c))) <= ch + 1)%nat).
      { apply enc_pixel_len; auto. intros E3. eapply set_px_alpha; eauto. }
      destruct (pix_eqb _ _); injection E as <- <-; rewrite op_bytes_app, app_length.
      * specialize (IH {| eprev := set_px (eprev st) c; eindex := eindex st; erun := 0 |}). cbn [erun] in IH.
        unfold op_bytes at 2. cbn [map concat offered app length]. lia.
      * match goal with |- context [enc_loop ?S cs] => specialize (IH S) end. cbn [erun] in IH. lia.
Qed.

Lemma chunk_count cs (pixels : list Z) w h : rgbx cs -> 0 <= w -> 0 <= h ->
  Z.of_nat (length pixels) = w * h * Z.of_nat (num_components cs) ->
  Z.of_nat (length (chunks_exact (num_components cs) pixels)) = w * h.
Proof.
  intros Hcs Hw Hh Hl. rewrite chunks_exact_length by (destruct Hcs as [-> | ->]; cbn; lia).
  rewrite Nat2Z.inj_div, Hl. apply Z.div_mul. destruct Hcs as [-> | ->]; cbn; lia.
Qed.

Lemma file_bytes_len w h cs pixels : image_ok w h cs pixels ->
  Z.of_nat (length (file_bytes w h cs pixels)) <= qoi_max_size w h cs.
Proof.
  intros (Hcs & Hw & Hh & Hb & Hl). unfold file_bytes, body_ops, qoi_max_size.
  rewrite app_length, op_bytes_app, app_length.
  assert (E1 : length (hdr_bytes w h cs) = 14%nat) by reflexivity.
  assert (E2 : length (op_bytes [OIntErr BE 8 1]) = 8%nat) by reflexivity.
  rewrite E1, E2.
  pose proof (enc_loop_len (num_components cs) (chunks_exact (num_components cs) pixels)
     ltac:(destruct Hcs as [-> | ->]; cbn; auto) (chunks_exact_lengths _ _) enc_start ltac:(cbn; lia)) as B.
  rewrite (chunk_count cs pixels w h) in B by (auto; lia). cbn [erun enc_start] in B.
  unfold QOI_HEADER_SIZE, QOI_PADDING. lia.
Qed.

(** * Decoding is total *)
Lemma land63 x : 0 <= Z.land x 63 < 64.
Proof. change 63 with (2 ^ 6 - 1). rewrite land_low by lia. change (2 ^ 6) with 64. apply Z.mod_pos_bound. lia. Qed.

Lemma read_u8_rem c : exists b c', read_u8 c = (b, c') /\ (length (remaining c') <= length (remaining c))%nat.
Proof.
  rewrite read_u8_spec. destruct (remaining c) eqn:E.
  - eexists _, _; split; [reflexivity|]. rewrite E. cbn; lia.
  - eexists _, _; split; [reflexivity|]. rewrite remaining_at, E. cbn; lia.
Qed.
Lemma read_zero_rem n c : exists b c', read_fixed_or_zero n c = (b, c') /\ (length (remaining c') <= length (remaining c))%nat.
Proof.
  rewrite read_fixed_or_zero_spec. eexists _, _; split; [reflexivity|].
  destruct (n <=? _)%nat; [rewrite remaining_at, skipn_length|]; lia.
Qed.

Lemma dec_op_total d : length (dindex d) = 64%nat -> drun d = 0 ->
  exists d', dec_op d = Ok d' /\ length (dindex d') = 64%nat /\ 0 <= drun d' /\
             (length (remaining (dcur d')) <= length (remaining (dcur d)))%nat.
Proof.
  intros Hl Hr0. unfold dec_op. cbv zeta.
  destruct (read_u8_rem (dcur d)) as (chunk & c1 & E1 & R1). rewrite E1.
  assert (G : forall p r c, 0 <= r -> (length (remaining c) <= length (remaining (dcur d)))%nat ->
     exists d', bind (Ok (p, r, c)) (fun '(px', run', c2) =>
        bind (idx_set (dindex d) (fast_hash px') px') (fun idx => Ok {| dpx := px'; dindex := idx; drun := run'; dcur := c2 |})) = Ok d'
     /\ length (dindex d') = 64%nat /\ 0 <= drun d' /\ (length (remaining (dcur d')) <= length (remaining (dcur d)))%nat).
  { intros p r c Hr Hc. cbn [bind]. rewrite idx_set_ok by (auto; unfold fast_hash; apply land63). cbn [bind].
    eexists; split; [reflexivity|]. cbn. rewrite upd_length. auto. }
  destruct (chunk =? QOI_OP_RGB).
  { destruct (read_zero_rem 3 c1) as (b & c2 & E2 & R2). rewrite E2. apply G; lia. }
  destruct (chunk =? QOI_OP_RGBA).
  { destruct (read_zero_rem 4 c1) as (b & c2 & E2 & R2). rewrite E2. apply G; lia. }
  destruct (Z.land chunk QOI_MASK_2 =? QOI_OP_INDEX).
  { rewrite idx_get_ok by (auto; apply land63). cbn [bind]. apply G; lia. }
  destruct (Z.land chunk QOI_MASK_2 =? QOI_OP_DIFF); [apply G; lia|].
  destruct (Z.land chunk QOI_MASK_2 =? QOI_OP_LUMA).
  { destruct (read_u8_rem c1) as (b2 & c2 & E2 & R2). rewrite E2. apply G; lia. }
  destruct (Z.land chunk QOI_MASK_2 =? QOI_OP_RUN); apply G; auto; try lia. apply land63.
Qed.

Lemma dec_loop_total n : forall d, length (dindex d) = 64%nat -> 0 <= drun d ->
  exists ps d', dec_loop n d = Ok (ps, d') /\ length ps = n /\ length (dindex d') = 64%nat /\ 0 <= drun d' /\
                (length (remaining (dcur d')) <= length (remaining (dcur d)))%nat.
Proof.
  induction n as [|n IH]; intros d Hl Hr; cbn [dec_loop].
  - exists [], d. repeat split; auto.
  - unfold dec_step. destruct (Z.ltb_spec 0 (drun d)) as [H0|H0].
    + cbn [bind]. match goal with |- context [dec_loop n ?D] => destruct (IH D) as (ps & d' & E & A & B & C & R) end;
        cbn; try lia; auto. rewrite E. cbn [bind]. eexists _, _. split; [reflexivity|]. cbn in R |- *. auto.
    + destruct (dec_op_total d Hl ltac:(lia)) as (d1 & E1 & L1 & R1 & S1). rewrite E1. cbn [bind].
      destruct (IH d1 L1 R1) as (ps & d' & E & A & B & C & R). rewrite E. cbn [bind].
      eexists _, _. split; [reflexivity|]. cbn [length]. repeat split; auto; lia.
Qed.

Lemma dec_loop_app n m : forall d, dec_loop (n + m) d =
  bind (dec_loop n d) (fun '(ps, d1) => bind (dec_loop m d1) (fun '(qs, d2) => Ok (ps ++ qs, d2))).
Proof.
  induction n as [|n IH]; intros d; cbn [Nat.add dec_loop].
  - cbn [bind]. destruct (dec_loop m d) as [[? ?]| | |]; reflexivity.
  - destruct (dec_step d) as [d1| | |]; cbn [bind]; try reflexivity. rewrite IH.
    destruct (dec_loop n d1) as [[? ?]| | |]; cbn [bind]; try reflexivity.
    destruct (dec_loop m _) as [[? ?]| | |]; reflexivity.
Qed.

Lemma px_out_length size p : (size = 3 \/ size = 4)%nat -> length (px_out size p) = size.
Proof. intros [-> | ->]; reflexivity. Qed.

Lemma px_concat_length size ps : (size = 3 \/ size = 4)%nat -> length (concat (map (px_out size) ps)) = (length ps * size)%nat.
Proof.
  intros H. rewrite (concat_length_const size), map_length; [reflexivity|].
  apply Forall_forall. intros x Hx. apply in_map_iff in Hx as (p & <- & _). now apply px_out_length.
Qed.

(** Complete description of [decode_inner]. *)
Lemma decode_inner_spec o size c buf : (size = 3 \/ size = 4)%nat ->
  exists ps d', dec_loop (length buf / size) (dec_start c) = Ok (ps, d') /\ length ps = (length buf / size)%nat /\
    (length (remaining (dcur d')) <= length (remaining c))%nat /\
    decode_inner o size c buf =
      (let t := firstn 8 (remaining (dcur d')) in
       if (8 <=? length (remaining (dcur d')))%nat
       then if negb (forallb (fun '(a, b) => a =? b) (combine t LAST_BYTES)) && strict o then Err ECorrupt else Ok tt
       else Err EEof,
       concat (map (px_out size) ps) ++ skipn (length buf / size * size) buf,
       if (8 <=? length (remaining (dcur d')))%nat then at_pos (dcur d') (cpos (dcur d') + 8) else dcur d').
Proof.
  intros Hs.
  destruct (dec_loop_total (length buf / size) (dec_start c) eq_refl ltac:(cbn; lia)) as (ps & d' & E & A & B & C & R).
  exists ps, d'. repeat split; auto. unfold decode_inner. cbv zeta. rewrite E, read_fixed_or_error_spec.
  destruct (8 <=? _)%nat; [|reflexivity]. destruct (_ && _); reflexivity.
Qed.

Lemma decode_inner_length o size c buf : (size = 3 \/ size = 4)%nat ->
  length (snd (fst (decode_inner o size c buf))) = length buf.
Proof.
  intros Hs. destruct (decode_inner_spec o size c buf Hs) as (ps & d' & E & A & R & ->). cbn [fst snd].
  rewrite app_length, px_concat_length, skipn_length, A by exact Hs.
  assert (length buf / size * size <= length buf)%nat; [|lia].
  rewrite Nat.mul_comm. apply Nat.mul_div_le. destruct Hs; lia.
Qed.

(** Header facts on success. *)
Lemma bytes_firstn n l : bytes l -> bytes (firstn n l).
Proof.
  intros H. unfold bytes in *. rewrite Forall_forall in *. intros x Hx. apply H.
  rewrite <- (firstn_skipn n l). apply in_or_app. now left.
Qed.
Lemma bytes_skipn n l : bytes l -> bytes (skipn n l).
Proof.
  intros H. unfold bytes in *. rewrite Forall_forall in *. intros x Hx. apply H.
  rewrite <- (firstn_skipn n l). apply in_or_app. now right.
Qed.
Lemma bytes_repeat0 n : bytes (repeat 0 n).
Proof. unfold bytes. apply Forall_forall. intros x Hx. apply repeat_spec in Hx. subst. unfold is_byte; lia. Qed.

Lemma get_zero_facts e k c : bytes (cdata c) ->
  exists x c', get_zero e k c = (x, c') /\ 0 <= x < 256 ^ Z.of_nat k /\ cdata c' = cdata c /\
    (length (remaining c') <= length (remaining c))%nat /\
    ((k <= length (remaining c))%nat -> x = of_bytes e (firstn k (remaining c)) /\ remaining c' = skipn k (remaining c)) /\
    ((length (remaining c) < k)%nat -> c' = c).
Proof.
  intros Hb. unfold get_zero. rewrite read_fixed_or_zero_spec. eexists _, _. split; [reflexivity|].
  set (l := firstn k (remaining c) ++ repeat 0 (k - length (remaining c))).
  assert (Hl : length l = k).
  { subst l. rewrite app_length, firstn_length, repeat_length. lia. }
  assert (Hbl : bytes l).
  { subst l. apply bytes_app. split; [apply bytes_firstn, bytes_skipn, Hb|apply bytes_repeat0]. }
  split; [|split; [|split; [|split]]].
  - rewrite <- Hl. destruct e; cbn [of_bytes]; [apply be_val_bound|apply le_val_bound]; exact Hbl.
  - destruct (k <=? _)%nat; reflexivity.
  - destruct (k <=? _)%nat; [rewrite remaining_at, skipn_length|]; lia.
  - intros H. subst l. replace (k - length (remaining c))%nat with O by lia. cbn [repeat]. rewrite app_nil_r.
    replace (k <=? length (remaining c))%nat with true by lia. now rewrite remaining_at.
  - intros H. replace (k <=? length (remaining c))%nat with false by lia. reflexivity.
Qed.

Lemma decode_headers_inv o c h c' : bytes (cdata c) -> decode_headers o c = (Ok h, c') ->
  rgbx (qcspace h) /\ 0 < qw h <= max_width o /\ 0 < qh h <= max_height o /\
  qw h < 2 ^ 32 /\ qh h < 2 ^ 32 /\
  (length (remaining c') <= length (remaining c))%nat /\
  ((8 <= length (remaining c'))%nat ->
     firstn 4 (remaining c) = QOI_MAGIC /\
     qw h = be_val (firstn 4 (skipn 4 (remaining c))) /\ qh h = be_val (firstn 4 (skipn 8 (remaining c))) /\
     nth 12 (remaining c) 0 = Z.of_nat (num_components (qcspace h)) /\
     remaining c' = skipn 14 (remaining c)).
Proof.
  intros Hb E. unfold decode_headers in E.
  rewrite read_fixed_or_error_spec in E. destruct (Nat.leb_spec 4 (length (remaining c))) as [H4|H4]; [|discriminate].
  destruct (negb _) eqn:Em; [discriminate|].
  set (c1 := at_pos c (cpos c + 4)) in *.
  assert (R1 : remaining c1 = skipn 4 (remaining c)) by apply remaining_at.
  destruct (get_zero_facts BE 4 c1 Hb) as (w & c2 & E2 & B2 & D2 & L2 & A2 & S2). rewrite E2 in E.
  destruct (get_zero_facts BE 4 c2) as (hh & c3 & E3 & B3 & D3 & L3 & A3 & S3).
  { rewrite D2. exact Hb. }
  rewrite E3 in E.
  rewrite (read_u8_spec c3) in E.
  assert (K4 : exists x c4, match remaining c3 with [] => (0, c3) | b :: _ => (b, at_pos c3 (cpos c3 + 1)) end = (x, c4) /\
     x = nth 0 (remaining c3) 0 /\ remaining c4 = skipn 1 (remaining c3)).
  { destruct (remaining c3) eqn:R3; eexists _, _; (split; [reflexivity|]); rewrite ?remaining_at, R3; auto. }
  destruct K4 as (x & c4 & E4 & X4 & R4). rewrite E4 in E.
  rewrite (read_u8_spec c4) in E.
  assert (K5 : exists y c5, match remaining c4 with [] => (0, c4) | b :: _ => (b, at_pos c4 (cpos c4 + 1)) end = (y, c5) /\
     remaining c5 = skipn 1 (remaining c4)).
  { destruct (remaining c4) eqn:R3; eexists _, _; (split; [reflexivity|]); rewrite ?remaining_at, R3; auto. }
  destruct K5 as (y & c5 & E5 & R5). rewrite E5 in E.
  destruct (Z.ltb_spec (max_width o) w) as [|Hmw]; [discriminate|].
  destruct (Z.ltb_spec (max_height o) hh) as [|Hmh]; [discriminate|].
  destruct (Z.eqb_spec w 0) as [|Hw0]; [discriminate|].
  destruct (Z.eqb_spec hh 0) as [|Hh0]; [discriminate|].
  assert (K : exists cs l, h = {| qw := w; qh := hh; qcspace := cs; qlayout := l |} /\ c' = c5 /\ rgbx cs /\
              x = Z.of_nat (num_components cs)).
  { destruct (Z.eqb_spec x 3) as [Ex|Ex].
    - destruct (y =? 0); [|destruct (y =? 1); [|destruct (strict o); [discriminate|]]];
        injection E as <- <-; exists CsRGB; eexists; (split; [reflexivity|]); unfold rgbx; auto.
    - destruct (Z.eqb_spec x 4) as [Ex4|Ex4]; [|discriminate].
      destruct (y =? 0); [|destruct (y =? 1); [|destruct (strict o); [discriminate|]]];
        injection E as <- <-; exists CsRGBA; eexists; (split; [reflexivity|]); unfold rgbx; auto. }
  destruct K as (cs & l & -> & -> & Hcs & Hx). cbn [qw qh qcspace].
  assert (Lr : length (remaining c5) = (length (remaining c3) - 2)%nat).
  { rewrite R5, R4, !skipn_length. lia. }
  change (256 ^ Z.of_nat 4) with (2 ^ 32) in *.
  split; [exact Hcs|]. split; [lia|]. split; [lia|]. split; [lia|]. split; [lia|]. split.
  { rewrite Lr. rewrite R1, skipn_length in L2. lia. }
  intros H8.
  destruct A3 as (A3 & A3'). { destruct (Nat.lt_ge_cases (length (remaining c2)) 4) as [Hs|Hs]; [|lia]. apply S3 in Hs. subst. lia. }
  destruct A2 as (A2 & A2'). { destruct (Nat.lt_ge_cases (length (remaining c1)) 4) as [Hs|Hs]; [|lia]. apply S2 in Hs. subst. lia. }
  rewrite R1 in A2, A2'. rewrite A2' in A3, A3'. rewrite !skipn_skipn' in *. cbn [Nat.add] in *.
  split; [|split; [exact A2|split; [exact A3|split]]].
  - apply negb_false_iff in Em.
    destruct (remaining c) as [|b0 [|b1 [|b2 [|b3 r]]]]; cbn [length] in H4; try lia.
    cbn [firstn combine QOI_MAGIC forallb] in Em.
    cbn [firstn]. unfold QOI_MAGIC. rewrite !andb_true_iff, !Z.eqb_eq in Em. destruct Em as (-> & -> & -> & -> & _). reflexivity.
  - rewrite <- Hx, X4, A3', nth_skipn. reflexivity.
  - rewrite R5, R4, A3', !skipn_skipn'. reflexivity.
Qed.
