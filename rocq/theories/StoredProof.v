(** The stored-block encoder and decoder. *)
From Verif Require Import Base BaseProof Loops Slices Bits BitReaderModel BitReaderSpec BitReaderProof InflateModel InflateSpec.

(** ** Encoder *)

Lemma upd_at {A} (a b : list A) x y : upd (a ++ x :: b) (length a) y = a ++ y :: b.
Proof. induction a as [|z a IH]; cbn [app length upd]; [reflexivity|]. now rewrite IH. Qed.

Lemma emit_block_ok bfinal chunk pre post : bfinal = 0 \/ bfinal = 1 -> Z.of_nat (length chunk) <= 65535 ->
  (5 + length chunk <= length post)%nat ->
  exists post', emit_block bfinal chunk (pre ++ post) (length pre)
    = Ok ((pre ++ stored_header bfinal (length chunk) ++ chunk) ++ post',
          length (pre ++ stored_header bfinal (length chunk) ++ chunk)) /\
    length post' = (length post - (5 + length chunk))%nat.
Proof.
  intros Hf Hc Hp. unfold emit_block, stored_header.
  replace (u16 (Z.of_nat (length chunk))) with (Z.of_nat (length chunk)) by (unfold u16; lia).
  set (lo := le_bytes 2 (Z.of_nat (length chunk))). set (hi := le_bytes 2 (65535 - Z.of_nat (length chunk))).
  assert (Ll : length lo = 2%nat) by apply le_bytes_length.
  assert (Lh : length hi = 2%nat) by apply le_bytes_length.
  replace (u8 (Z.lor bfinal (Z.shiftl 0 1))) with bfinal by (destruct Hf; subst; reflexivity).
  rewrite set_at_ok by (rewrite app_length; lia). cbn [bind].
  destruct post as [|x post]; [cbn [length] in Hp; lia|]. cbn [length] in Hp.
  rewrite upd_at. change (pre ++ bfinal :: post) with (pre ++ [bfinal] ++ post). rewrite app_assoc.
  replace (length pre + 1)%nat with (length (pre ++ [bfinal])) by (rewrite app_length; cbn [length]; lia).
  rewrite put_slice_ok by (rewrite !app_length; lia). cbn [bind].
  rewrite (put_end (pre ++ [bfinal]) post lo) by lia.
  replace (length pre + 3)%nat with (length ((pre ++ [bfinal]) ++ lo)) by (rewrite !app_length; cbn [length]; lia).
  set (post1 := skipn (length lo) post). assert (L1 : length post1 = (length post - 2)%nat) by (unfold post1; rewrite skipn_length; lia).
  rewrite put_slice_ok by (rewrite !app_length; lia). cbn [bind].
  rewrite (put_end _ post1 hi) by lia.
  replace (length pre + 5)%nat with (length (((pre ++ [bfinal]) ++ lo) ++ hi)) by (rewrite !app_length; cbn [length]; lia).
  set (post2 := skipn (length hi) post1). assert (L2 : length post2 = (length post1 - 2)%nat) by (unfold post2; rewrite skipn_length; lia).
  rewrite put_slice_ok by (rewrite !app_length; lia). cbn [bind].
  rewrite (put_end _ post2 chunk) by lia.
  exists (skipn (length chunk) post2). split.
  - f_equal. f_equal.
    + f_equal. rewrite <- !app_assoc. cbn [app]. rewrite <- !app_assoc. reflexivity.
    + repeat (rewrite app_length; cbn [length]). lia.
  - rewrite skipn_length. cbn [length]. lia.
Qed.

Lemma encode_blocks_ok fuel : forall rest q pre post, (length rest < fuel)%nat ->
  0 <= q -> Z.of_nat (length rest) <= 65535 * (q + 1) ->
  Z.of_nat (length rest) + 5 * (q + 1) <= Z.of_nat (length post) ->
  exists bs post', encode_blocks fuel rest (pre ++ post) (length pre) = Ok ((pre ++ bs) ++ post', length (pre ++ bs)) /\
    stored rest bs /\ length post' = (length post - length bs)%nat /\
    Z.of_nat (length bs) <= Z.of_nat (length rest) + 5 * (q + 1).
Proof.
  induction fuel as [|fuel IH]; intros rest q pre post Hf Hq Hl Hp; [lia|]. cbn [encode_blocks].
  assert (U : Z.of_nat u16_max = 65535) by (unfold u16_max; lia).
  destruct (Nat.leb_spec (length rest) u16_max) as [Hs|Hs].
  - destruct (emit_block_ok 1 rest pre post) as (post' & E & L); [lia|lia|lia|].
    exists (stored_header 1 (length rest) ++ rest), post'. split; [exact E|].
    split; [constructor; lia|].
    unfold stored_header. rewrite app_length. cbn [length]. rewrite app_length, !le_bytes_length. lia.
  - assert (Lc : length (firstn u16_max rest) = u16_max) by (rewrite firstn_length; lia).
    assert (Lr : length (skipn u16_max rest) = (length rest - u16_max)%nat) by apply skipn_length.
    destruct (emit_block_ok 0 (firstn u16_max rest) pre post) as (post' & E & L); [lia|lia|lia|].
    rewrite E. cbn [bind].
    destruct (IH (skipn u16_max rest) (q - 1) (pre ++ stored_header 0 (length (firstn u16_max rest)) ++ firstn u16_max rest) post')
      as (bs & post'' & E2 & S2 & L2 & B2).
    + lia.
    + lia.
    + lia.
    + rewrite L. lia.
    + exists (stored_header 0 (length (firstn u16_max rest)) ++ firstn u16_max rest ++ bs), post''.
      rewrite <- !app_assoc in E2. split; [rewrite <- !app_assoc; exact E2|].
      split; [|split].
      * rewrite <- (firstn_skipn u16_max rest) at 1. constructor; [lia|exact S2].
      * rewrite L2, L. unfold stored_header. rewrite !app_length. cbn [length].
        rewrite !app_length, !le_bytes_length. lia.
      * unfold stored_header. rewrite !app_length. cbn [length]. rewrite !app_length, !le_bytes_length. lia.
Qed.

Lemma zlib_header_val : zlib_header = [120; 1].
Proof. reflexivity. Qed.

(** The encoder never runs out of the space it reserved, and produces header, stored blocks, checksum. *)
Lemma encode_zlib_form data : exists bs,
  encode_zlib data = Ok (120 :: 1 :: bs ++ be_bytes 4 (adler32 data)) /\ stored data bs.
Proof.
  unfold encode_zlib. rewrite zlib_header_val.
  set (n := (length data + 40 * ((length data + 41) / 40))%nat).
  assert (Hn : (length data + 11 + 5 * (length data / Z.to_nat 65535) <= n)%nat).
  { unfold n. replace ((length data + 41) / 40)%nat with (Z.to_nat ((Z.of_nat (length data) + 41) / 40)).
    2: { rewrite <- (Nat2Z.id ((length data + 41) / 40)), Nat2Z.inj_div. f_equal. lia. }
    replace (length data / Z.to_nat 65535)%nat with (Z.to_nat (Z.of_nat (length data) / 65535)).
    2: { rewrite <- (Nat2Z.id (length data / Z.to_nat 65535)), Nat2Z.inj_div, Z2Nat.id by lia. reflexivity. }
    lia. }
  assert (Hn' : Z.of_nat (length data) + 11 + 5 * (Z.of_nat (length data) / 65535) <= Z.of_nat n).
  { apply inj_le in Hn. rewrite !Nat2Z.inj_add, Nat2Z.inj_mul, Nat2Z.inj_div, Z2Nat.id in Hn by lia. lia. }
  clear Hn. clearbody n.
  rewrite put_slice_ok by (rewrite repeat_length; cbn [length]; lia). cbn [bind].
  change (repeat 0 n) with ([] ++ repeat 0 n). change 0%nat with (length (@nil Z)) at 1.
  rewrite put_end by (rewrite repeat_length; cbn [length]; lia). cbn [app].
  set (post := skipn (length [120; 1]) (repeat 0 n)).
  assert (Lp : length post = (n - 2)%nat) by (unfold post; rewrite skipn_length, repeat_length; reflexivity).
  clearbody post.
  assert (K : exists bs post', encode_no_compression data ([120; 1] ++ post) 2 = Ok (([120; 1] ++ bs) ++ post', length ([120; 1] ++ bs))
              /\ stored data bs /\ length post' = (length post - length bs)%nat /\
              Z.of_nat (length bs) <= Z.of_nat (length data) + 5 * (Z.of_nat (length data) / 65535 + 1)).
  { destruct data as [|x data].
    - destruct (emit_block_ok 1 [] [120; 1] post) as (post' & E & L); [lia|cbn [length]; lia|cbn [length] in *; lia|].
      exists (stored_header 1 0), post'. cbn [encode_no_compression].
      replace (stored_header 1 0) with (stored_header 1 (length (@nil Z)) ++ []) by (cbn [length]; apply app_nil_r).
      split; [|split; [constructor; cbn [length]; lia|]].
      + destruct post as [|p0 [|p1 [|p2 [|p3 [|p4 post]]]]]; cbn [length] in Lp, L, Hn'; try lia.
        unfold emit_block in E. cbn -[app] in E. cbn. cbn in E. exact E.
      + unfold stored_header. rewrite app_length. cbn [length]. rewrite app_length, !le_bytes_length. cbn [length] in L. lia.
    - apply (encode_blocks_ok (S (length (x :: data))) (x :: data) (Z.of_nat (length (x :: data)) / 65535) [120; 1] post); lia. }
  destruct K as (bs & post' & E & St & L' & B). change (120 :: 1 :: post) with ([120; 1] ++ post). rewrite E. cbn [bind].
  rewrite put_slice_ok by (rewrite !app_length, be_bytes_length; cbn [length]; lia). cbn [bind].
  rewrite put_end by (rewrite be_bytes_length; lia).
  exists bs. split; [|exact St]. f_equal.
  replace (length ([120; 1]%Z ++ bs) + 4)%nat with (length (([120; 1] ++ bs) ++ be_bytes 4 (adler32 data)))
    by (rewrite !app_length, be_bytes_length; reflexivity).
  rewrite firstn_app, firstn_all, Nat.sub_diag. cbn [firstn]. rewrite app_nil_r. reflexivity.
Qed.

(** ** Decoder *)

Lemma le_val_app a b : le_val (a ++ b) = le_val a + 256 ^ Z.of_nat (length a) * le_val b.
Proof.
  induction a as [|x a IH]; cbn [app le_val length]; [change (256 ^ Z.of_nat 0) with 1; lia|].
  rewrite IH, pow256_S. lia.
Qed.

Lemma bits_from_bytes src p k : bytes src -> (p + k <= length src)%nat ->
  bits_from src (8 * Z.of_nat p) (8 * k) = le_val (slice src p k).
Proof.
  intros Hb Hl. rewrite bits_from_val by (auto; lia).
  replace (Z.of_nat (8 * k)) with (8 * Z.of_nat k) by lia.
  rewrite !Z.pow_mul_r by lia. change (2 ^ 8) with 256.
  unfold slice. rewrite <- (firstn_skipn p src) at 1. rewrite le_val_app.
  rewrite firstn_length, Nat.min_l by lia.
  pose proof (le_val_bound (firstn p src) (bytes_firstn' p src Hb)) as B1.
  rewrite firstn_length, Nat.min_l in B1 by lia.
  rewrite (Z.mul_comm (256 ^ Z.of_nat p)), Z.div_add, Z.div_small by lia. rewrite Z.add_0_l.
  rewrite <- (firstn_skipn k (skipn p src)) at 1. rewrite le_val_app.
  rewrite firstn_length, skipn_length, Nat.min_l by lia.
  pose proof (le_val_bound (firstn k (skipn p src)) (bytes_firstn' k _ (bytes_skipn' p src Hb))) as B2.
  rewrite firstn_length, skipn_length, Nat.min_l in B2 by lia.
  rewrite Z.mul_comm, Z_mod_plus_full. apply Z.mod_small. lia.
Qed.

Lemma rd_reset src p : bytes src -> (p <= length src)%nat -> rd (mkReader src p 0 0 0) (8 * Z.of_nat p).
Proof.
  intros Hb Hp. constructor; cbn [r_src r_pos r_left r_buf r_over]; auto; try lia.
  intros i _. rewrite Z.testbit_0_l. discriminate.
Qed.

(** What the block loop keeps between blocks of a byte-aligned stream: [p] bytes of the stream consumed and
    [done] decoded. *)
Record at_block (d : dstate) (src : list Z) (p : nat) (done : list Z) : Prop := {
  ab_src : r_src (d_r d) = src;
  ab_rd : rd (d_r d) (8 * Z.of_nat p);
  ab_over : r_over (d_r d) = 0%nat;
  ab_dest : d_dest d = length done;
  ab_len : (length done <= length (d_out d))%nat;
  ab_done : firstn (length done) (d_out d) = done
}.

Lemma bit_hdr src p b : nth p src 0 = b -> b = 0 \/ b = 1 ->
  bits_from src (8 * Z.of_nat p) 1 = b /\ bits_from src (8 * Z.of_nat p + 1) 2 = 0.
Proof.
  intros Hb Hc. cbn [bits_from]. unfold bit_at.
  replace (Z.to_nat (8 * Z.of_nat p / 8)) with p by lia.
  replace (Z.to_nat ((8 * Z.of_nat p + 1) / 8)) with p by lia.
  replace (Z.to_nat ((8 * Z.of_nat p + 1 + 1) / 8)) with p by lia.
  replace ((8 * Z.of_nat p) mod 8) with 0 by lia.
  replace ((8 * Z.of_nat p + 1) mod 8) with 1 by lia.
  replace ((8 * Z.of_nat p + 1 + 1) mod 8) with 2 by lia.
  rewrite Hb. destruct Hc as [Hc|Hc]; rewrite Hc; split; reflexivity.
Qed.

Lemma slice_app_r {A} (a b : list A) k n : (length a = k)%nat -> slice (a ++ b) k n = firstn n b.
Proof. intros <-. unfold slice. rewrite skipn_app, skipn_all, Nat.sub_diag. reflexivity. Qed.

Lemma put_done (out : list Z) done chunk : (length done + length chunk <= length out)%nat ->
  firstn (length done) out = done ->
  firstn (length (done ++ chunk)) (put out (length done) chunk) = done ++ chunk.
Proof.
  intros H E. unfold put. rewrite E. rewrite app_assoc.
  rewrite firstn_app, firstn_all, Nat.sub_diag. cbn [firstn]. apply app_nil_r.
Qed.

Section Stored.
Variable huff : Z -> dstate -> res dstate.
Variable o : inflate_options.
Variable data : list Z.
Variable position : nat.
Let src := skipn position data.

(** One stored block, header to payload. *)
Lemma stored_step fuel d p done b chunk tail :
  bytes data -> (position <= length data)%nat ->
  at_block d src p done -> b = 0 \/ b = 1 -> Z.of_nat (length chunk) <= 65535 ->
  skipn p src = stored_header b (length chunk) ++ chunk ++ tail -> (4 <= length tail)%nat -> (p <= length src)%nat ->
  (length done <= o_limit o)%nat ->
  exists d', at_block d' src (p + 5 + length chunk) (done ++ chunk) /\
    block_loop huff o data position (S fuel) d =
      (if b =? 1 then Ok d' else block_loop huff o data position fuel d') /\
    r_pos (d_r d') = (p + 5 + length chunk)%nat /\ r_left (d_r d') = 0.
Proof.
  intros Hb Hpos A Hbit Hc Hs Ht Hpl Hlim. destruct A as [A1 A2 A3 A4 A5 A6].
  assert (Hbs : bytes src) by (apply bytes_skipn'; exact Hb).
  assert (Ls : (length src = p + (5 + (length chunk + length tail)))%nat).
  { pose proof (f_equal (@length Z) Hs) as E. rewrite skipn_length in E. unfold stored_header in E.
    rewrite app_length in E. cbn [length] in E. rewrite !app_length, !le_bytes_length in E. lia. }
  assert (Lpos : (length src = length data - position)%nat) by (unfold src; apply skipn_length).
  cbn [block_loop].
  destruct (rd_refill _ _ A2) as (r1 & E1 & R1 & L1 & S1). rewrite E1. cbn [bind].
  assert (O1 : r_over r1 = 0%nat).
  { eapply refill_no_over; [exact A2|exact E1|exact R1|exact A3|]. rewrite A1. lia. }
  rewrite A1 in S1.
  destruct (get_bits_ok r1 _ 1 R1) as (r2 & E2 & R2 & S2 & L2 & O2); [lia|]. rewrite E2. cbn [bind].
  rewrite S1. rewrite S1 in S2.
  destruct (get_bits_ok r2 _ 2 R2) as (r3 & E3 & R3 & S3 & L3 & O3); [lia|]. rewrite E3. cbn [bind].
  rewrite S2. rewrite S2 in S3.
  assert (Hn : nth p src 0 = b).
  { replace p with (p + 0)%nat by lia. rewrite <- nth_skipn, Hs. reflexivity. }
  destruct (bit_hdr src p b Hn Hbit) as [B1 B2].
  change (Z.to_nat 1) with 1%nat. change (Z.to_nat 2) with 2%nat. rewrite B1, B2. cbn [Z.eqb].
  unfold stored_block. cbn [d_r d_out d_dest].
  assert (OC : over_consumed r3 = false) by (unfold over_consumed; rewrite O3, O2, O1; apply Nat.ltb_ge; lia).
  rewrite OC. cbn zeta.
  assert (PB : Z.land (r_left r3) 7 = 5).
  { change 7 with (2 ^ 3 - 1). rewrite land_low by lia. change (2 ^ 3) with 8.
    pose proof (rd_sum _ _ R3). rewrite L3, L2 in *. lia. }
  rewrite PB.
  destruct (drop_bits_ok r3 _ 5 R3) as (r4 & E4 & R4 & S4 & L4 & O4); [lia|]. rewrite E4. cbn [bind].
  rewrite S3 in S4.
  destruct (get_bits_ok r4 _ 16 R4) as (r5 & E5 & R5 & S5 & L5 & O5); [lia|]. rewrite E5. cbn [bind].
  rewrite S4. rewrite S4 in S5.
  destruct (get_bits_ok r5 _ 16 R5) as (r6 & E6 & R6 & S6 & L6 & O6); [lia|]. rewrite E6. cbn [bind].
  rewrite S5. rewrite S5 in S6.
  change (Z.to_nat 16) with (8 * 2)%nat.
  replace (8 * Z.of_nat p + 1 + 2 + 5) with (8 * Z.of_nat (p + 1)) by lia.
  replace (8 * Z.of_nat (p + 1) + 16) with (8 * Z.of_nat (p + 3)) by lia.
  rewrite !bits_from_bytes by (auto; lia).
  assert (V1 : le_val (slice src (p + 1) 2) = Z.of_nat (length chunk)).
  { unfold slice. rewrite <- skipn_skipn', Hs. unfold stored_header. cbn [app skipn].
    rewrite <- !app_assoc. rewrite firstn_app_exact by apply le_bytes_length. apply le_val_le_bytes. lia. }
  assert (V2 : le_val (slice src (p + 3) 2) = 65535 - Z.of_nat (length chunk)).
  { unfold slice. rewrite <- skipn_skipn', Hs. unfold stored_header.
    replace (skipn 3 ((b :: le_bytes 2 (Z.of_nat (length chunk)) ++ le_bytes 2 (65535 - Z.of_nat (length chunk))) ++ chunk ++ tail))
      with (le_bytes 2 (65535 - Z.of_nat (length chunk)) ++ chunk ++ tail) by reflexivity.
    rewrite firstn_app_exact by apply le_bytes_length. apply le_val_le_bytes. lia. }
  rewrite V1, V2. replace (Z.of_nat (length chunk) =? 65535 - (65535 - Z.of_nat (length chunk))) with true by lia.
  cbn [negb]. rewrite Nat2Z.id.
  assert (P6 : r_pos r6 = (p + 5 + Z.to_nat (Z.shiftr (r_left r6) 3))%nat /\ (Z.of_nat (Z.to_nat (Z.shiftr (r_left r6) 3)) = r_left r6 / 8)).
  { pose proof (rd_sum _ _ R6). pose proof (rd_left _ _ R6). rewrite Z.shiftr_div_pow2 by lia. change (2 ^ 3) with 8. lia. }
  destruct P6 as [P6 P6'].
  assert (O6' : r_over r6 = 0%nat) by congruence.
  unfold get_position. rewrite P6, O6'.
  replace (p + 5 + Z.to_nat (Z.shiftr (r_left r6) 3) - Z.to_nat (Z.shiftr (r_left r6) 3))%nat with (p + 5)%nat by lia.
  replace (length data <=? p + 5 + position + 0 + length chunk - 1)%nat with false by lia.
  rewrite A4. replace (o_limit o <? length done)%nat with false by lia.
  rewrite get_slice_ok by lia. cbn [bind].
  assert (SL : slice data (p + 5 + position + 0) (length chunk) = chunk).
  { unfold slice. replace (p + 5 + position + 0)%nat with (position + (p + 5))%nat by lia.
    rewrite <- skipn_skipn'. fold src. rewrite <- skipn_skipn', Hs. unfold stored_header.
    replace (skipn 5 _) with (chunk ++ tail) by reflexivity.
    rewrite firstn_app, firstn_all, Nat.sub_diag. cbn [firstn]. apply app_nil_r. }
  rewrite SL.
  set (out1 := if (length (d_out d) <? length done + length chunk + fastcopy)%nat
               then resize (d_out d) (length (d_out d) + resize_by + length chunk) 0 else d_out d).
  assert (LO : (length done + length chunk <= length out1)%nat /\ firstn (length done) out1 = done).
  { unfold out1, fastcopy, resize_by. destruct (Nat.ltb_spec (length (d_out d)) (length done + length chunk + 16)).
    - rewrite resize_length. split; [lia|]. rewrite resize_grow by lia.
      rewrite firstn_app, A6. replace (length done - length (d_out d))%nat with 0%nat by lia.
      cbn [firstn]. apply app_nil_r.
    - split; [lia|exact A6]. }
  destruct LO as [LO1 LO2].
  rewrite put_slice_ok by lia. cbn [bind].
  replace (p + 5 + Z.to_nat (Z.shiftr (r_left r6) 3) <? Z.to_nat (Z.shiftr (r_left r6) 3))%nat with false by lia.
  cbn [bind].
  eexists. split; [|split; [destruct Hbit; subst b; reflexivity|]].
  - unfold reset. cbn [r_src r_pos r_left r_buf r_over].
    replace (length chunk + (p + 5))%nat with (p + 5 + length chunk)%nat by lia.
    constructor; cbn [d_r d_out d_dest r_src r_over].
    + exact S6.
    + rewrite S6. apply rd_reset; [exact Hbs|lia].
    + reflexivity.
    + rewrite app_length. reflexivity.
    + rewrite app_length, put_length by lia. lia.
    + apply put_done; auto.
  - unfold reset. cbn [d_r r_pos r_left]. lia.
Qed.

Lemma stored_loop payload bs : stored payload bs -> forall fuel d p done tail,
  bytes data -> (position <= length data)%nat ->
  at_block d src p done -> skipn p src = bs ++ tail -> (4 <= length tail)%nat -> (p <= length src)%nat ->
  (length (done ++ payload) <= o_limit o)%nat -> (length bs <= fuel)%nat ->
  exists d', at_block d' src (p + length bs) (done ++ payload) /\ block_loop huff o data position fuel d = Ok d' /\
    r_pos (d_r d') = (p + length bs)%nat /\ r_left (d_r d') = 0.
Proof.
  induction 1 as [chunk Hc|chunk rest bs Hc Hst IH]; intros fuel d p done tail Hb Hpos A Hs Ht Hpl Hlim Hf.
  - rewrite app_length in Hf. unfold stored_header in Hf. cbn [length] in Hf.
    destruct fuel as [|fuel]; [lia|].
    rewrite <- app_assoc in Hs. rewrite app_length in Hlim.
    destruct (stored_step fuel d p done 1 chunk tail) as (d' & A' & E & P & L); auto; try lia.
    exists d'. replace (p + length (stored_header 1 (length chunk) ++ chunk))%nat with (p + 5 + length chunk)%nat.
    2: { unfold stored_header. rewrite app_length. cbn [length]. rewrite app_length, !le_bytes_length. lia. }
    auto.
  - unfold stored_header in Hf. rewrite app_length in Hf. cbn [length] in Hf. rewrite !app_length, !le_bytes_length in Hf.
    destruct fuel as [|fuel]; [lia|].
    rewrite <- !app_assoc in Hs. rewrite !app_length in Hlim.
    destruct (stored_step fuel d p done 0 chunk (bs ++ tail)) as (d1 & A1 & E1 & P1 & L1); auto; try (rewrite ?app_length; lia).
    cbn [Z.eqb] in E1.
    assert (Hs1 : skipn (p + 5 + length chunk) src = bs ++ tail).
    { replace (p + 5 + length chunk)%nat with (p + (5 + length chunk))%nat by lia.
      rewrite <- skipn_skipn', Hs. rewrite <- skipn_skipn'. unfold stored_header.
      replace (skipn 5 _) with (chunk ++ bs ++ tail) by reflexivity.
      rewrite skipn_app, skipn_all, Nat.sub_diag. reflexivity. }
    assert (Hp1 : (p + 5 + length chunk <= length src)%nat).
    { pose proof (f_equal (@length Z) Hs1) as E. rewrite skipn_length, app_length in E. lia. }
    destruct (IH fuel d1 (p + 5 + length chunk)%nat (done ++ chunk) tail) as (d' & A' & E & P & L); auto.
    { rewrite !app_length. lia. } { lia. }
    exists d'. rewrite E1.
    replace (p + length (stored_header 0 (length chunk) ++ chunk ++ bs))%nat with (p + 5 + length chunk + length bs)%nat.
    2: { unfold stored_header. rewrite !app_length. cbn [length]. rewrite app_length, !le_bytes_length. lia. }
    rewrite <- app_assoc in A'. auto.
Qed.
End Stored.

Lemma adler_bound data : 0 <= adler32 data < 2 ^ 32.
Proof.
  unfold adler32. assert (H : forall l ab, 0 <= fst ab < 65521 /\ 0 <= snd ab < 65521 ->
    let ab' := fold_left adler_step l ab in 0 <= fst ab' < 65521 /\ 0 <= snd ab' < 65521).
  { induction l as [|x l IH]; intros ab Hab; cbn [fold_left]; [exact Hab|]. apply IH.
    unfold adler_step. cbn [fst snd]. lia. }
  specialize (H data (1, 0)). cbn zeta in H. cbn [fst snd] in H. lia.
Qed.

(** A zlib wrapper around any stored stream decodes to its payload. *)
Lemma decode_zlib_stored huff o payload bs tail :
  stored payload bs -> bytes bs -> bytes tail -> (length payload <= o_limit o)%nat ->
  decode_zlib huff o (120 :: 1 :: bs ++ be_bytes 4 (adler32 payload) ++ tail) = Ok payload.
Proof.
  intros St Hb Htl Hlim. set (data := 120 :: 1 :: bs ++ be_bytes 4 (adler32 payload) ++ tail).
  assert (Lb : (5 <= length bs)%nat).
  { inversion St; subst; unfold stored_header; rewrite app_length; cbn [length]; rewrite !app_length, !le_bytes_length; lia. }
  assert (Ld : (length data = 2 + (length bs + (4 + length tail)))%nat).
  { unfold data. cbn [length]. rewrite !app_length, be_bytes_length. lia. }
  assert (Hd : bytes data).
  { unfold data. constructor; [unfold is_byte; lia|]. constructor; [unfold is_byte; lia|].
    apply bytes_app. split; [exact Hb|]. apply bytes_app. split; [apply be_bytes_bytes|exact Htl]. }
  unfold decode_zlib. replace (length data <? 6)%nat with false by lia.
  change (getz data 0) with 120. change (getz data 1) with 1.
  change (negb (Z.land 120 15 =? 8)) with false. change (7 <? Z.shiftr 120 4) with false.
  change (negb ((120 * 256 + 1) mod 31 =? 0)) with false. cbn [andb].
  unfold decode_deflate. replace (length data <? 2)%nat with false by lia.
  assert (Hs : skipn 2 data = bs ++ be_bytes 4 (adler32 payload) ++ tail) by reflexivity.
  assert (Lt : (4 <= length (be_bytes 4 (adler32 payload) ++ tail))%nat) by (rewrite app_length, be_bytes_length; lia).
  assert (Hsrc : bytes (skipn 2 data)) by now apply bytes_skipn'.
  destruct (rd_refill _ _ (rd_new _ Hsrc)) as (r1 & E1 & R1 & L1 & S1). rewrite E1. cbn [bind].
  assert (O1 : r_over r1 = 0%nat).
  { eapply refill_no_over; [apply (rd_new _ Hsrc)|exact E1|exact R1|reflexivity|].
    cbn [new_reader r_src]. rewrite Hs, app_length. lia. }
  destruct (stored_loop huff o data 2 payload bs St (8 * length data + 100) (mkD r1 (repeat 0 (o_size_hint o)) 0 no_tables) 0 []
              (be_bytes 4 (adler32 payload) ++ tail)) as (d' & A & E & P & L); auto.
  - lia.
  - constructor; cbn [d_r d_out d_dest length]; auto; try lia.
  - lia.
  - lia.
  - rewrite E. cbn [bind app]. destruct A as [A1 A2 A3 A4 A5 A6]. cbn [app] in *.
    rewrite A4, A6. destruct (o_confirm o); [|reflexivity].
    unfold get_position. rewrite P, L, A3. change (Z.to_nat (Z.shiftr 0 3)) with 0%nat.
    replace (0 + length bs - 0 + 2 + 0)%nat with (2 + length bs)%nat by lia.
    replace (2 + length bs + 4 <=? length data)%nat with true by lia.
    assert (SL : slice data (2 + length bs) 4 = be_bytes 4 (adler32 payload)).
    { change data with ((120 :: 1 :: bs) ++ be_bytes 4 (adler32 payload) ++ tail).
      rewrite slice_app_r by (cbn [length]; lia).
      apply firstn_app_exact, be_bytes_length. }
    rewrite SL, be_val_be_bytes by (apply adler_bound). now rewrite Z.eqb_refl.
Qed.

Lemma stored_bytes payload bs : stored payload bs -> bytes payload -> bytes bs.
Proof.
  induction 1 as [chunk Hc|chunk rest bs Hc Hst IH]; intros Hp.
  - unfold stored_header. cbn [app]. apply Forall_cons; [unfold is_byte; lia|]. change (Forall is_byte) with bytes. rewrite <- app_assoc. apply bytes_app.
    split; [apply le_bytes_bytes|]. apply bytes_app. split; [apply le_bytes_bytes|exact Hp].
  - apply bytes_app in Hp as [H1 H2]. unfold stored_header. cbn [app]. apply Forall_cons; [unfold is_byte; lia|]. change (Forall is_byte) with bytes.
    rewrite <- app_assoc. apply bytes_app.
    split; [apply le_bytes_bytes|]. apply bytes_app. split; [apply le_bytes_bytes|].
    apply bytes_app. auto.
Qed.
