(** Properties of zune-inflate: C18 (bit reader), C19 (zlib round trip), C20 (matches), C21 (limit). *)
From Verif Require Import Base BaseProof Loops Slices Bits BitReaderModel BitReaderSpec BitReaderProof
  InflateModel InflateSpec MatchProof StoredProof.

(** ** C18 — the bit reader *)

(** What a caller should see: a cursor moving over the bit stream. *)
Fixpoint bit_obs (src : list Z) (n : Z) (os : list bop) : list Z :=
  match os with
  | [] => []
  | ORefill :: os' | ORefillInner :: os' => bit_obs src n os'
  | OPeek k :: os' => bits_from src n (Z.to_nat k) :: bit_obs src n os'
  | ODrop k :: os' => bit_obs src (n + k) os'
  | OGet k :: os' => bits_from src n (Z.to_nat k) :: bit_obs src (n + k) os'
  end.
Fixpoint consumed (os : list bop) : Z :=
  match os with
  | [] => 0
  | ODrop k :: os' | OGet k :: os' => k + consumed os'
  | _ :: os' => consumed os'
  end.
Definition bop_ok (o : bop) : Prop :=
  match o with OPeek k | ODrop k | OGet k => 0 <= k | _ => True end.

Lemma run_bops_spec os : forall r n vs r', rd r n -> Forall bop_ok os -> run_bops os r = Ok (vs, r') ->
  vs = bit_obs (r_src r) n os /\ rd r' (n + consumed os) /\ r_src r' = r_src r.
Proof.
  induction os as [|o os IH]; intros r n vs r' H Hk E.
  - injection E as <- <-. cbn [bit_obs consumed]. rewrite Z.add_0_r. auto.
  - inversion Hk as [|? ? Ho Hos]; subst. cbn [run_bops] in E.
    destruct (run_bop o r) as [[v r1]| | |] eqn:E1; cbn [bind] in E; try discriminate E.
    destruct (run_bops os r1) as [[ws r2]| | |] eqn:E2; cbn [bind] in E; try discriminate E.
    injection E as <- <-. destruct o as [| |k|k|k]; cbn [run_bop] in E1; cbn [bit_obs consumed bop_ok] in *.
    + destruct (rd_refill r n H) as (r0 & F & R & _ & S). rewrite F in E1. cbn [bind] in E1. injection E1 as <- <-.
      destruct (IH _ _ _ _ R Hos E2) as (A & B & C). rewrite S in *. cbn [app]. auto.
    + injection E1 as <- <-. destruct (rd_inner r n H) as [R S].
      destruct (IH _ _ _ _ R Hos E2) as (A & B & C). rewrite S in *. cbn [app]. auto.
    + unfold peek_bits in E1. destruct (Z.ltb_spec (r_left r) k); cbn [bind] in E1; [discriminate E1|].
      injection E1 as <- <-. destruct (IH _ _ _ _ H Hos E2) as (A & B & C).
      rewrite (peek_val r n k H) by lia. cbn [app]. subst ws. auto.
    + unfold drop_bits in E1. destruct (Z.ltb_spec (r_left r) k); cbn [bind] in E1; [discriminate E1|].
      injection E1 as <- <-. destruct (IH _ _ _ _ (rd_drop r n k H ltac:(lia)) Hos E2) as (A & B & C).
      cbn [r_src app] in *. rewrite Z.add_assoc. auto.
    + unfold get_bits in E1. destruct (Z.ltb_spec (r_left r) k); cbn [bind] in E1; [discriminate E1|].
      injection E1 as <- <-. destruct (IH _ _ _ _ (rd_drop r n k H ltac:(lia)) Hos E2) as (A & B & C).
      rewrite (peek_val r n k H) by lia. cbn [r_src app] in *. rewrite Z.add_assoc. subst ws. auto.
Qed.

(** Any history of refills, peeks, drops and reads that does not panic shows exactly the bits of the input,
    least significant bit first, zero past the end; the byte position is exact; and the reader reports
    "consumed past the end" exactly when more bits were consumed than the input holds. *)
Theorem inflate_bits_faithful src os vs r :
  bytes src -> Forall bop_ok os -> run_bops os (new_reader src) = Ok (vs, r) ->
  vs = bit_obs src 0 os /\
  8 * Z.of_nat (r_pos r + r_over r) = consumed os + r_left r /\
  (over_consumed r = true <-> 8 * Z.of_nat (length src) < consumed os).
Proof.
  intros Hb Hk E. destruct (run_bops_spec os _ _ _ _ (rd_new src Hb) Hk E) as (A & B & C).
  cbn [new_reader r_src] in *. split; [exact A|]. rewrite Z.add_0_l in B. destruct B.
  split; [lia|]. unfold over_consumed. rewrite Nat.ltb_lt. rewrite Z.shiftr_div_pow2 by lia. change (2 ^ 3) with 8.
  rewrite C in *. lia.
Qed.

(** A refill always leaves at least 56 bits, never panics, and never loses the place. *)
Theorem inflate_refill_guarantee src os vs r k :
  bytes src -> Forall bop_ok os -> run_bops os (new_reader src) = Ok (vs, r) -> 0 <= k <= 56 ->
  exists r', run_bops [ORefill; OGet k] r = Ok ([bits_from src (consumed os) (Z.to_nat k)], r').
Proof.
  intros Hb Hk E Hk56. destruct (run_bops_spec os _ _ _ _ (rd_new src Hb) Hk E) as (A & B & C).
  cbn [new_reader r_src] in *. rewrite Z.add_0_l in B.
  cbn [run_bops run_bop]. destruct (rd_refill r _ B) as (r1 & F & R & L & S). rewrite F. cbn [bind].
  destruct (get_bits_ok r1 _ k R) as (r2 & G & _); [lia|]. rewrite G. cbn [bind app].
  exists r2. rewrite S, C. reflexivity.
Qed.

Example inflate_bits_case :
  exists r, run_bops [ORefill; OGet 3; OPeek 11; ODrop 10; ORefillInner; OGet 40; ORefill; OGet 20]
              (new_reader [181; 7; 255; 0; 18; 52; 86; 120; 154; 188])
            = Ok ([5; 246; 762903005176; 316354], r) /\ over_consumed r = false.
Proof. eexists. vm_compute. split; reflexivity. Qed.
(** Past the end: two bytes of input, 20 bits consumed. *)
Example inflate_bits_over :
  exists r, run_bops [ORefill; OGet 20] (new_reader [255; 255]) = Ok ([65535], r) /\ over_consumed r = true.
Proof. eexists. vm_compute. split; reflexivity. Qed.
Print Assumptions inflate_bits_faithful.
Print Assumptions inflate_refill_guarantee.

(** ** C19 — zlib round trip *)

(** Compressing any byte string and decompressing the result gives the string back; the encoder never
    panics, trailing bytes after the stream do not matter, and no assumption is made about how Huffman blocks
    are decoded. *)
Theorem zlib_round_trip huff o data tail :
  bytes data -> bytes tail -> (length data <= o_limit o)%nat ->
  exists z, encode_zlib data = Ok z /\ decode_zlib huff o (z ++ tail) = Ok data.
Proof.
  intros Hb Ht Hl. destruct (encode_zlib_form data) as (bs & E & St).
  eexists. split; [exact E|]. cbn [app]. rewrite <- app_assoc.
  apply decode_zlib_stored; auto. eapply stored_bytes; eauto.
Qed.

(** The output is a valid zlib stream in the sense of RFC 1950/1951. *)
Theorem zlib_encoder_format data : exists bs,
  encode_zlib data = Ok ([120; 1] ++ bs ++ be_bytes 4 (adler32 data)) /\ stored data bs /\ (120 * 256 + 1) mod 31 = 0.
Proof. destruct (encode_zlib_form data) as (bs & E & St). exists bs. split; [exact E|]. split; [exact St|reflexivity]. Qed.

(** The decoder accepts every zlib-wrapped stream of stored blocks, whatever the block sizes. *)
Theorem zlib_decodes_stored huff o payload bs tail :
  stored payload bs -> bytes payload -> bytes tail -> (length payload <= o_limit o)%nat ->
  decode_zlib huff o ([120; 1] ++ bs ++ be_bytes 4 (adler32 payload) ++ tail) = Ok payload.
Proof. intros St Hb Ht Hl. apply (decode_zlib_stored huff o payload bs tail); auto. eapply stored_bytes; eauto. Qed.

(** A corrupted checksum is reported. *)
Theorem zlib_checksum_checked huff o data out :
  o_confirm o = true -> decode_zlib huff o data = Ok out ->
  exists p, (p + 4 <= length data)%nat /\ be_val (slice data p 4) = adler32 out.
Proof.
  intros Hc E. unfold decode_zlib in E.
  repeat match type of E with (if ?c then _ else _) = _ => destruct c; [discriminate E|] end.
  destruct (decode_deflate huff o data 2) as [[out' r]| | |]; cbn [bind] in E; try discriminate E.
  rewrite Hc in E.
  destruct (Nat.leb_spec (get_position r + 2 + r_over r + 4) (length data)) as [Hl|]; [|discriminate E].
  destruct (be_val (slice data (get_position r + 2 + r_over r) 4) =? adler32 out') eqn:Ea; [|discriminate E].
  injection E as <-. eexists. split; [exact Hl|]. now apply Z.eqb_eq.
Qed.

Definition opts_default : inflate_options := mkOpts (Z.to_nat 100000) true (Z.to_nat 370).
Definition no_huff : Z -> dstate -> res dstate := fun _ _ => Err ECorrupt.
Example zlib_case :
  encode_zlib [1; 2; 3; 250] = Ok [120; 1; 1; 4; 0; 251; 255; 1; 2; 3; 250; 1; 14; 1; 1] /\
  decode_zlib no_huff opts_default ([120; 1; 1; 4; 0; 251; 255; 1; 2; 3; 250; 1; 14; 1; 1] ++ [9; 9]) = Ok [1; 2; 3; 250].
Proof. vm_compute. split; reflexivity. Qed.
Example zlib_case_blocks :
  decode_zlib no_huff opts_default
    ([120; 1] ++ [0; 2; 0; 253; 255; 7; 8] ++ [0; 0; 0; 255; 255] ++ [1; 1; 0; 254; 255; 9] ++ be_bytes 4 (adler32 [7; 8; 9]))
  = Ok [7; 8; 9].
Proof. vm_compute. reflexivity. Qed.
Print Assumptions zlib_round_trip.
Print Assumptions zlib_encoder_format.
Print Assumptions zlib_decodes_stored.
Print Assumptions zlib_checksum_checked.

(** [encode_deflate] reserves only 1024 spare bytes: it panics once 205 or more blocks are needed. *)
Lemma emit_block_size bfinal chunk out pos out' pos' :
  emit_block bfinal chunk out pos = Ok (out', pos') ->
  pos' = (pos + 5 + length chunk)%nat /\ length out' = length out /\ (pos' <= length out')%nat.
Proof.
  unfold emit_block. intros E.
  destruct (set_at _ _ _) as [o1| | |] eqn:E1; cbn [bind] in E; try discriminate E.
  destruct (put_slice o1 _ _) as [o2| | |] eqn:E2; cbn [bind] in E; try discriminate E.
  destruct (put_slice o2 _ _) as [o3| | |] eqn:E3; cbn [bind] in E; try discriminate E.
  destruct (put_slice o3 _ _) as [o4| | |] eqn:E4; cbn [bind] in E; try discriminate E.
  apply set_at_inv in E1 as (_ & L1 & _). apply put_slice_inv in E2 as (_ & L2 & _), E3 as (_ & L3 & _), E4 as (_ & L4 & B).
  injection E as <- <-. lia.
Qed.

Lemma encode_blocks_size fuel : forall rest out pos out' pos',
  encode_blocks fuel rest out pos = Ok (out', pos') ->
  length out' = length out /\ (pos' <= length out')%nat /\
  Z.of_nat (length rest) * 65540 <= 65535 * (Z.of_nat pos' - Z.of_nat pos).
Proof.
  induction fuel as [|fuel IH]; intros rest out pos out' pos' E; [discriminate E|]. cbn [encode_blocks] in E.
  assert (U : Z.of_nat u16_max = 65535) by (unfold u16_max; lia).
  destruct (Nat.leb_spec (length rest) u16_max) as [Hs|Hs].
  - apply emit_block_size in E as (A & B & C). split; [exact B|]. split; [exact C|]. lia.
  - destruct (emit_block 0 (firstn u16_max rest) out pos) as [[o1 p1]| | |] eqn:E1; cbn [bind] in E; try discriminate E.
    apply emit_block_size in E1 as (A & B & C). apply IH in E as (D & F & G).
    rewrite firstn_length, Nat.min_l in A by lia. rewrite skipn_length in G.
    split; [lia|]. split; [lia|]. lia.
Qed.

Theorem encode_deflate_panics data : Z.of_nat (length data) > 13421568 ->
  forall r, encode_deflate data <> Ok r.
Proof.
  intros Hl [out' pos'] E. unfold encode_deflate, encode_no_compression in E.
  destruct data as [|x data]; [cbn [length] in Hl; lia|].
  apply encode_blocks_size in E as (A & B & C). rewrite repeat_length in A. lia.
Qed.
Print Assumptions encode_deflate_panics.

(** ** C20 — matches *)

(** The fast loop's copy: with 16 spare bytes behind the match (the loop keeps at least 30), every distance
    1..dest and every length give exactly the LZ77 match, with no panic and no unbounded loop. *)
Theorem fast_match_is_lz out dest offset len :
  (1 <= offset <= dest)%nat -> (dest + len + 16 <= length out)%nat ->
  exists out', fast_match out dest offset len = Ok out' /\ length out' = length out /\
    firstn (dest + len) out' = lz_copy (firstn dest out) offset len.
Proof.
  intros Ho Hl. destruct (fast_match_periodic out dest offset len Ho Hl) as (out' & E & L & A & B).
  exists out'. split; [exact E|]. split; [exact L|]. apply lz_of_periodic; auto; lia.
Qed.
(** The careful loop's copy: grows the buffer itself. *)
Theorem slow_match_is_lz out dest offset len :
  (1 <= offset <= dest)%nat -> (dest <= length out)%nat ->
  exists out', slow_match out dest offset len = Ok out' /\ (dest + len <= length out')%nat /\
    firstn (dest + len) out' = lz_copy (firstn dest out) offset len.
Proof.
  intros Ho Hl. destruct (slow_match_periodic out dest offset len Ho Hl) as (out' & E & L & L2 & A & B).
  exists out'. split; [exact E|]. split; [exact L|]. apply lz_of_periodic; auto.
Qed.
(** A distance reaching before the start of the output is rejected by both. *)
Theorem match_rejects_far out dest offset len : (dest < offset)%nat ->
  fast_match out dest offset len = Err ECorrupt /\ slow_match out dest offset len = Err ECorrupt.
Proof.
  intros H. unfold fast_match, slow_match. replace (dest <? offset)%nat with true by lia. split; reflexivity.
Qed.
Example match_case :
  exists o1 o2, fast_match ([10; 20; 30] ++ repeat 0 30) 3 2 7 = Ok o1 /\ slow_match ([10; 20; 30] ++ repeat 0 30) 3 2 7 = Ok o2 /\
    firstn 10 o1 = [10; 20; 30; 20; 30; 20; 30; 20; 30; 20] /\ firstn 10 o2 = firstn 10 o1 /\
    lz_copy [10; 20; 30] 2 7 = firstn 10 o1.
Proof. eexists. eexists. split; [reflexivity|]. split; [reflexivity|]. vm_compute. auto. Qed.
Example match_case_long :
  exists o1, fast_match (map Z.of_nat (seq 0 20) ++ repeat 0 80) 20 18 40 = Ok o1 /\
    firstn 60 o1 = lz_copy (map Z.of_nat (seq 0 20)) 18 40.
Proof. eexists. split; [reflexivity|]. vm_compute. reflexivity. Qed.
Print Assumptions fast_match_is_lz.
Print Assumptions slow_match_is_lz.
Print Assumptions match_rejects_far.

(** ** C21 — the output limit *)

(** The limit is tested before a stored block is copied, not after: three bytes come out under limit 0. *)
Theorem inflate_limit_refuted : exists o data out,
  decode_zlib no_huff o data = Ok out /\ (o_limit o < length out)%nat.
Proof.
  exists (mkOpts 0 true 16), [120; 1; 1; 3; 0; 252; 255; 1; 2; 3; 0; 13; 0; 7], [1; 2; 3]. vm_compute.
  split; [reflexivity|]. lia.
Qed.

Lemma get_bits_range k r v r' : 0 <= k -> get_bits k r = Ok (v, r') -> 0 <= v < 2 ^ k.
Proof.
  intros Hk E. unfold get_bits in E. destruct (r_left r <? k); [discriminate E|]. injection E as <- _.
  rewrite Z.shiftl_mul_pow2, Z.mul_1_l by lia. rewrite land_low by lia. lia.
Qed.

Lemma stored_block_limit o data position d d' : stored_block o data position d = Ok d' ->
  Z.of_nat (d_dest d') <= Z.of_nat (o_limit o) + 65535.
Proof.
  unfold stored_block. intros E.
  destruct (over_consumed (d_r d)); [discriminate E|].
  destruct (drop_bits _ _) as [r1| | |]; cbn [bind] in E; try discriminate E.
  destruct (get_bits 16 r1) as [[len r2]| | |] eqn:E1; cbn [bind] in E; try discriminate E.
  destruct (get_bits 16 r2) as [[nlen r3]| | |]; cbn [bind] in E; try discriminate E.
  destruct (negb _); [discriminate E|]. cbn zeta in E.
  destruct (_ <=? _)%nat; [discriminate E|].
  destruct (Nat.ltb_spec (o_limit o) (d_dest d)) as [|Hl]; [discriminate E|].
  destruct (get_slice _ _ _) as [bs| | |]; cbn [bind] in E; try discriminate E.
  destruct (put_slice _ _ _) as [out| | |]; cbn [bind] in E; try discriminate E.
  destruct (_ <? _)%nat; [discriminate E|]. injection E as <-. cbn [d_dest].
  apply get_bits_range in E1; [|lia]. change (2 ^ 16) with 65536 in E1. lia.
Qed.

Lemma block_loop_limit o data position : forall fuel d d',
  block_loop no_huff o data position fuel d = Ok d' -> Z.of_nat (d_dest d') <= Z.of_nat (o_limit o) + 65535.
Proof.
  induction fuel as [|fuel IH]; intros d d' E; cbn [block_loop] in E; [discriminate E|].
  destruct (refill (d_r d)) as [r| | |]; cbn [bind] in E; try discriminate E.
  destruct (get_bits 1 r) as [[last r1]| | |]; cbn [bind] in E; try discriminate E.
  destruct (get_bits 2 r1) as [[bt r2]| | |]; cbn [bind] in E; try discriminate E.
  destruct (bt =? 0).
  - destruct (stored_block o data position _) as [d1| | |] eqn:E1; cbn [bind] in E; try discriminate E.
    apply stored_block_limit in E1. destruct (last =? 1).
    + injection E as <-. exact E1.
    + apply (IH _ _ E).
  - destruct (bt =? 3); cbn [bind no_huff] in E; discriminate E.
Qed.

(** What does hold for streams of stored blocks: the output exceeds the limit by at most one block. Missing:
    Huffman blocks, where literals are not counted at all until the next match. *)
Theorem inflate_limit_partial o data out :
  decode_zlib no_huff o data = Ok out -> Z.of_nat (length out) <= Z.of_nat (o_limit o) + 65535.
Proof.
  intros E. unfold decode_zlib in E.
  repeat match type of E with (if ?c then _ else _) = _ => destruct c; [discriminate E|] end.
  assert (K : forall out' r, decode_deflate no_huff o data 2 = Ok (out', r) -> Z.of_nat (length out') <= Z.of_nat (o_limit o) + 65535).
  { intros out' r D. unfold decode_deflate in D. destruct (length data <? 2)%nat; [discriminate D|].
    destruct (refill _) as [r0| | |]; cbn [bind] in D; try discriminate D.
    destruct (block_loop _ _ _ _ _ _) as [d| | |] eqn:B; cbn [bind] in D; try discriminate D.
    injection D as <- <-. apply block_loop_limit in B. rewrite firstn_length. lia. }
  destruct (decode_deflate no_huff o data 2) as [[out' r]| | |]; cbn [bind] in E; try discriminate E.
  specialize (K out' r eq_refl).
  destruct (o_confirm o).
  - destruct (_ <=? _)%nat; [|discriminate E]. destruct (_ =? _); [|discriminate E]. injection E as <-. exact K.
  - injection E as <-. exact K.
Qed.
(** Blocks after the limit is passed are refused. *)
Example inflate_limit_case :
  decode_zlib no_huff (mkOpts 1 true 16) ([120; 1] ++ [0; 2; 0; 253; 255; 7; 8] ++ [1; 1; 0; 254; 255; 9] ++ be_bytes 4 (adler32 [7; 8; 9])) = Err ELimit.
Proof. vm_compute. reflexivity. Qed.
Print Assumptions inflate_limit_refuted.
Print Assumptions inflate_limit_partial.
