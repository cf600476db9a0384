(** Properties of the complete zune-inflate decoder: C70 (valid zlib streams decode to their data), C71 (code
    lengths are accepted exactly when they form a code), C72 (builds with and without overflow checks), C73 (raw
    DEFLATE). *)
From Verif Require Import Base BaseProof Loops Slices Bits BitReaderModel BitReaderSpec
  InflateModel InflateSpec HuffModel HuffSpec HuffCode HuffSortProof HuffTableProof HuffBuildProof HuffEntryProof
  HuffLoopProof HuffHeaderProof HuffStreamProof HuffRejectProof HuffBuildsProof HuffRef.

(** ** C70 — every valid zlib stream decodes to exactly its data *)

(** The full claim, for a build with or without overflow checks: any two valid header bytes, any DEFLATE stream
    [bs] for [out] (48 bits is the longest match the format has, see [match_48]), the checksum, anything behind. *)
Definition zlib_claim (dbg : bool) (budget : Z) : Prop :=
  forall o cmf flg bs tail out,
    zlib_header_ok cmf flg -> deflate_stream budget bs out -> bytes tail -> (length out <= o_limit o)%nat ->
    decode_zlib (huff_block dbg o) o (cmf :: flg :: bs ++ be_bytes 4 (adler32 out) ++ tail) = Ok out.

(** Release builds: proved for streams in which no match takes more than 45 bits. Missing: matches of 46, 47 and
    48 bits, for which the claim is false ([zlib_decodes_refuted]). *)
Theorem zlib_decodes_partial o cmf flg bs tail out :
  zlib_header_ok cmf flg -> deflate_stream 45 bs out -> bytes tail -> (length out <= o_limit o)%nat ->
  decode_zlib (huff_block false o) o (cmf :: flg :: bs ++ be_bytes 4 (adler32 out) ++ tail) = Ok out.
Proof. intros H D. apply (decode_zlib_ok o 45); [exact H|lia|exact D]. Qed.
Print Assumptions zlib_decodes_partial.

(** The bound of 48 bits is no restriction. *)
Lemma symbol_short lens src n s l : Forall (fun x => 0 <= x <= 15) lens -> symbol_at lens src n s l -> (l <= 15)%nat.
Proof.
  intros F (H1 & H2 & _). rewrite Forall_forall in F. specialize (F (nth s lens 0) (nth_In _ _ H1)). cbn beta in F. lia.
Qed.
Lemma extra_lengths s b e : nth_error rfc_lengths s = Some (b, e) -> e <= 5.
Proof.
  intros H. apply nth_error_In in H. assert (A : forallb (fun x => snd x <=? 5) rfc_lengths = true) by reflexivity.
  rewrite forallb_forall in A. specialize (A _ H). cbn [snd] in A. lia.
Qed.
Lemma extra_distances s b e : nth_error rfc_distances s = Some (b, e) -> e <= 13.
Proof.
  intros H. apply nth_error_In in H. assert (A : forallb (fun x => snd x <=? 13) rfc_distances = true) by reflexivity.
  rewrite forallb_forall in A. specialize (A _ H). cbn [snd] in A. lia.
Qed.
Lemma symbols_48 budget lit off src n out n' out' :
  Forall (fun x => 0 <= x <= 15) lit -> Forall (fun x => 0 <= x <= 15) off ->
  symbols budget lit off src n out n' out' -> symbols 48 lit off src n out n' out'.
Proof.
  intros Fl Fo. induction 1 as [n out l H|n out s l n' out' H1 H2 H3 IH|n out s l base ex t l2 base2 ex2 len dist m n' out' H1 H2 H3 H4 H5 H6 H7 H8 H9 H10 H11 IH].
  - apply sym_end. exact H.
  - exact (sym_literal _ _ _ _ _ _ _ _ _ _ H1 H2 IH).
  - pose proof (symbol_short _ _ _ _ _ Fl H1). pose proof (symbol_short _ _ _ _ _ Fo H5).
    pose proof (extra_lengths _ _ _ H3). pose proof (extra_distances _ _ _ H6).
    exact (sym_match 48 lit off src n out s l base ex t l2 base2 ex2 len dist m n' out' H1 H2 H3 H4 H5 H6 H7 H8 H9 ltac:(lia) IH).
Qed.
Lemma block_48 budget src btype n out n' out' : block budget src btype n out n' out' -> block 48 src btype n out n' out'.
Proof.
  intros [n0 o0 p len H1 H2 H3 H4|n0 o0 n1 o1 H|n0 o0 lit off m n1 o1 H1 H2].
  - apply block_stored; assumption.
  - apply block_fixed. eapply symbols_48; [| |exact H]; apply Forall_forall; intros x Hx.
    + unfold fixed_lit in Hx. rewrite !in_app_iff in Hx. destruct Hx as [Hx|[Hx|[Hx|Hx]]]; apply repeat_spec in Hx; lia.
    + apply repeat_spec in Hx. lia.
  - apply (block_dynamic _ _ _ _ _ _ _ _ _ H1). destruct H1 as (pre & _ & _ & _ & _ & _ & Hl & Ho).
    eapply symbols_48; [apply Hl|apply Ho|exact H2].
Qed.
Theorem match_48 budget bs out : deflate_stream budget bs out -> deflate_stream 48 bs out.
Proof.
  intros (H & n & D & L). split; [exact H|]. exists n. split; [|exact L].
  induction D as [n o bt n' o' H1 H2 H3|n o bt m o1 n' o' H1 H2 H3 H4 IH].
  - exact (deflated_last _ _ _ _ _ _ _ H1 H2 (block_48 _ _ _ _ _ _ _ H3)).
  - exact (deflated_more _ _ _ _ _ _ _ _ _ H1 H2 (block_48 _ _ _ _ _ _ _ H3) (IH L)).
Qed.
Print Assumptions match_48.

(** A stream with a dynamic block, as written by the zlib library at level 9, meets the hypotheses. *)
Definition fox : list Z :=
   [120; 218; 29; 81; 75; 10; 197; 64; 8; 187; 202; 92; 45; 145; 128; 130; 43; 245; 254; 188; 244; 117; 209; 50;
   142; 249; 182; 35; 231; 161; 98; 64; 100; 69; 46; 46; 192; 10; 38; 193; 238; 34; 1; 250; 145; 184; 227; 111; 202;
   107; 100; 64; 234; 67; 11; 74; 149; 88; 69; 4; 50; 177; 149; 121; 40; 99; 61; 168; 124; 249; 162; 112; 70; 121;
   164; 215; 73; 197; 26; 43; 98; 40; 131; 208; 155; 136; 206; 168; 241; 105; 96; 46; 30; 199; 219; 101; 7; 31; 115;
   243; 85; 169; 66; 223; 32; 215; 119; 6; 87; 188; 125; 9; 75; 41; 55; 124; 169; 161; 101; 55; 20; 165; 55; 153;
   49; 233; 253; 74; 61; 62; 187; 46; 27; 96; 223; 43; 245; 142; 3; 242; 170; 135; 65; 11; 134; 131; 194; 58; 92;
   148; 205; 55; 142; 97; 102; 59; 130; 173; 237; 23; 113; 159; 78; 102; 171; 155; 253; 210; 119; 222; 247; 134;
   215; 160; 235; 165; 230; 178; 202; 210; 38; 112; 107; 246; 106; 180; 254; 197; 56; 161; 237; 129; 105; 119; 27;
   30; 219; 173; 219; 172; 174; 55; 237; 110; 165; 85; 203; 191; 192; 189; 185; 142; 31; 184; 164; 157; 20].
Definition small_options : inflate_options := mkOpts (Z.to_nat 20000) true 100.
Example fox_hypotheses : exists out, deflate_stream 45 (firstn (length fox - 6) (skipn 2 fox)) out /\
  bits_from (skipn 2 fox) 1 2 = 2 /\ zlib_header_ok (nth 0 fox 0) (nth 1 fox 0) /\ length out = Z.to_nat 400 /\
  skipn (length fox - 4) fox = be_bytes 4 (adler32 out).
Proof.
  set (bs := firstn (length fox - 6) (skipn 2 fox)).
  assert (F : match ref_inflate 45 bs with Some x => (length x =? Z.to_nat 400)%nat && (be_val (skipn (length fox - 4) fox) =? adler32 x) | None => false end = true) by (vm_compute; reflexivity).
  destruct (ref_inflate 45 bs) as [out|] eqn:E; [|discriminate F].
  exists out. split; [apply ref_inflate_ok, E|]. clear E. apply andb_true_iff in F. destruct F as (F1 & F2). apply Nat.eqb_eq in F1. apply Z.eqb_eq in F2.
  split; [vm_compute; reflexivity|]. split; [vm_compute; intuition discriminate|]. split; [exact F1|].
  rewrite <- F2. clear. vm_compute. reflexivity.
Qed.
Example fox_decodes : exists out, decode_zlib (huff_block false small_options) small_options fox = Ok out /\ length out = Z.to_nat 400.
Proof. eexists. split; [vm_compute; reflexivity|vm_compute; reflexivity]. Qed.

(** A valid stream of 89 bytes in which a 46-bit match follows an 11-bit literal: both kinds of build panic. With
    overflow checks [drop_bits] stops; without them the bit count wraps around to 255, the next refill moves
    the position beyond the input, and the one after that slices out of range. *)
Definition long_match : list Z :=
   [237; 253; 209; 146; 36; 73; 146; 36; 203; 126; 27; 181; 168; 121; 100; 205; 158; 255; 255; 30; 254; 143; 123;
   17; 137; 69; 205; 35; 171; 103; 207; 251; 189; 47; 1; 0; 0; 0; 80; 85; 85; 85; 85; 85; 85; 85; 85; 85; 85; 85;
   85; 85; 85; 85; 85; 85; 85; 85; 85; 85; 85; 85; 85; 85; 85; 85; 85; 85; 85; 85; 85; 255; 251; 255; 251; 255; 223;
   25; 170; 170; 170; 170; 1].
Theorem zlib_decodes_refuted : exists bs out,
  deflate_stream 46 bs out /\ (length out <= o_limit small_options)%nat /\
  decode_zlib (huff_block false small_options) small_options (120 :: 1 :: bs ++ be_bytes 4 (adler32 out)) = Panic /\
  decode_zlib (huff_block true small_options) small_options (120 :: 1 :: bs ++ be_bytes 4 (adler32 out)) = Panic.
Proof.
  exists long_match.
  assert (F : match ref_inflate 46 long_match with
     | Some x => ((length x <=? o_limit small_options)%nat,
         match decode_zlib (huff_block false small_options) small_options (120 :: 1 :: long_match ++ be_bytes 4 (adler32 x)),
               decode_zlib (huff_block true small_options) small_options (120 :: 1 :: long_match ++ be_bytes 4 (adler32 x)) with
         | Panic, Panic => true | _, _ => false end)
     | None => (false, false) end = (true, true)) by (vm_compute; reflexivity).
  destruct (ref_inflate 46 long_match) as [out|] eqn:E; [|discriminate (f_equal fst F)].
  exists out. split; [apply ref_inflate_ok, E|]. clear E.
  destruct (decode_zlib (huff_block false small_options) small_options (120 :: 1 :: long_match ++ be_bytes 4 (adler32 out)));
  destruct (decode_zlib (huff_block true small_options) small_options (120 :: 1 :: long_match ++ be_bytes 4 (adler32 out)));
  try discriminate (f_equal snd F). split; [|split; reflexivity]. apply Nat.leb_le. exact (f_equal fst F).
Qed.
Print Assumptions zlib_decodes_refuted.

(** With overflow checks and assertions even the restricted claim is false: near the end of the input the
    assertion in [peek_bits] fails after a match, although the bits it peeks at are not needed. *)
Definition late_match : list Z :=
   [237; 253; 209; 146; 36; 73; 146; 36; 203; 126; 27; 181; 168; 121; 100; 205; 158; 255; 255; 30; 254; 143; 123;
   17; 137; 69; 205; 35; 171; 103; 207; 235; 189; 111; 1; 0; 80; 85; 85; 85; 85; 85; 85; 85; 85; 85; 85; 85; 85; 85;
   85; 85; 85; 85; 85; 85; 85; 85; 85; 85; 85; 85; 85; 85; 85; 85; 85; 85; 85; 85; 85; 85; 85; 85; 85; 85; 85; 85;
   85; 85; 85; 85; 85; 85; 85; 85; 85; 85; 85; 85; 85; 85; 85; 85; 85; 85; 245; 191; 255; 253; 239; 255; 239; 255;
   127; 51; 212; 0].
Theorem zlib_debug_refuted : exists bs out,
  deflate_stream 45 bs out /\ (length out <= o_limit small_options)%nat /\
  decode_zlib (huff_block false small_options) small_options (120 :: 1 :: bs ++ be_bytes 4 (adler32 out)) = Ok out /\
  decode_zlib (huff_block true small_options) small_options (120 :: 1 :: bs ++ be_bytes 4 (adler32 out)) = Panic.
Proof.
  exists late_match.
  assert (F : match ref_inflate 45 late_match with
     | Some x => ((length x <=? o_limit small_options)%nat,
         match decode_zlib (huff_block true small_options) small_options (120 :: 1 :: late_match ++ be_bytes 4 (adler32 x)) with
         | Panic => true | _ => false end)
     | None => (false, false) end = (true, true)) by (vm_compute; reflexivity).
  destruct (ref_inflate 45 late_match) as [out|] eqn:E; [|discriminate (f_equal fst F)].
  exists out. pose proof (ref_inflate_ok _ _ _ E) as D. clear E. split; [exact D|].
  assert (L : (length out <= o_limit small_options)%nat) by (apply Nat.leb_le; exact (f_equal fst F)).
  split; [exact L|]. split.
  - rewrite <- (app_nil_r (be_bytes 4 (adler32 out))). apply zlib_decodes_partial; [vm_compute; intuition discriminate|exact D|constructor|exact L].
  - destruct (decode_zlib (huff_block true small_options) small_options (120 :: 1 :: late_match ++ be_bytes 4 (adler32 out)));
      try discriminate (f_equal snd F). reflexivity.
Qed.
Print Assumptions zlib_debug_refuted.

(** ** C71 — code lengths are accepted exactly when they form a code *)

Lemma firstn_In' {A} n (l : list A) x : In x (firstn n l) -> In x l.
Proof. intros H. rewrite <- (firstn_skipn n l). apply in_or_app. left. exact H. Qed.

(** For each of the three alphabets: a complete code, a single one-bit code or the empty code gets a table in
    which every code word leads to its symbol and its length, directly or through a subtable inside the table;
    any other list of lengths is reported as corrupt. The tables never overflow and nothing panics. *)
Definition accepts (results lens : list Z) (tb num size : nat) : Prop :=
  (code_lengths (firstn num lens) ->
    exists t, build_table results lens tb num size = Ok t /\ table_ok results (firstn num lens) tb size t) /\
  (~ code_lengths (firstn num lens) -> build_table results lens tb num size = Err ECorrupt).

Theorem literal_codes_accepted lens num :
  (1 <= num <= length lens)%nat -> (num <= 288)%nat -> Forall (fun x => 0 <= x <= 15) lens ->
  accepts litlen_results lens litlen_table_bits num litlen_enough.
Proof.
  intros H1 H2 F. split; intros C.
  - apply build_ok; [exact H1|exact H2|change (length litlen_results) with 288%nat; exact H2|exact C|unfold litlen_table_bits; lia| |].
    + pose proof lit_enough as E. change (2 ^ litlen_table_bits)%nat with (Z.to_nat 2048). lia.
    + apply enough_litlen; [apply H1|exact H2|exact C].
  - apply build_rejects; auto. apply Forall_forall. intros x Hx. rewrite Forall_forall in F. apply F, (firstn_In' num), Hx.
Qed.
Theorem distance_codes_accepted lens num :
  (1 <= num <= length lens)%nat -> (num <= 32)%nat -> Forall (fun x => 0 <= x <= 15) lens ->
  accepts offset_results lens offset_table_bits num offset_enough.
Proof.
  intros H1 H2 F. split; intros C.
  - apply build_ok; [exact H1|unfold max_num_syms; lia|change (length offset_results) with 32%nat; exact H2|exact C|unfold offset_table_bits; lia| |].
    + pose proof off_enough as E. change (2 ^ offset_table_bits)%nat with (Z.to_nat 256). lia.
    + apply enough_offset. exact H2.
  - apply build_rejects; auto; [unfold max_num_syms; lia|]. apply Forall_forall. intros x Hx. rewrite Forall_forall in F. apply F, (firstn_In' num), Hx.
Qed.
Theorem length_codes_accepted lens :
  length lens = 19%nat -> Forall (fun x => 0 <= x <= 7) lens ->
  accepts precode_results lens precode_table_bits 19 precode_enough.
Proof.
  intros H1 F. assert (E : firstn 19 lens = lens) by (rewrite <- H1; apply firstn_all). split; intros C.
  - apply build_ok; [lia|unfold max_num_syms; lia|change (length precode_results) with 19%nat; lia|exact C|unfold precode_table_bits; lia| |].
    + apply Nat.leb_le. reflexivity.
    + apply enough_precode; [lia|rewrite E; exact F].
  - apply build_rejects; auto; [lia|unfold max_num_syms; lia|]. rewrite E. eapply Forall_impl; [|exact F]. cbn beta. intros; lia.
Qed.
Print Assumptions literal_codes_accepted.
Print Assumptions distance_codes_accepted.
Print Assumptions length_codes_accepted.

(** A complete, an incomplete and an over-full code. *)
Example codes_case :
  code_lengths [1; 2; 3; 4; 5; 6; 7; 8; 9; 10; 11; 12; 13; 14; 15; 15] /\
  ~ code_lengths [2; 2; 2] /\ ~ code_lengths [1; 1; 1] /\ ~ code_lengths [2].
Proof.
  split; [apply ref_code_ok; reflexivity|].
  repeat split; intros (_ & [C|[(C & D)|C]]); vm_compute in C; try discriminate; try (vm_compute in D; discriminate).
Qed.

(** ** C72 — builds with overflow checks *)

(** On every input whatsoever a build with overflow checks and debug assertions either panics or returns exactly
    what the release build returns (the same data or the same error). *)
Theorem builds_agree o data :
  decode_zlib (huff_block true o) o data = Panic \/
  decode_zlib (huff_block true o) o data = decode_zlib (huff_block false o) o data.
Proof.
  pose proof (agree_zlib o data) as A. destruct (decode_zlib (huff_block true o) o data) as [x|e| |]; cbn [agree] in A.
  - right. symmetry. apply A.
  - right. symmetry. exact A.
  - left. reflexivity.
  - right. symmetry. exact A.
Qed.
Print Assumptions builds_agree.

(** Hence a debug build that returns data for a valid stream returns the right data. *)
Corollary zlib_debug_right o cmf flg bs tail out x :
  zlib_header_ok cmf flg -> deflate_stream 45 bs out -> bytes tail -> (length out <= o_limit o)%nat ->
  decode_zlib (huff_block true o) o (cmf :: flg :: bs ++ be_bytes 4 (adler32 out) ++ tail) = Ok x -> x = out.
Proof.
  intros H D B L E. destruct (builds_agree o (cmf :: flg :: bs ++ be_bytes 4 (adler32 out) ++ tail)) as [P|P]; rewrite E in P; [discriminate P|].
  rewrite (zlib_decodes_partial o cmf flg bs tail out H D B L) in P. injection P as P. exact P.
Qed.
Print Assumptions zlib_debug_right.
Example builds_case : exists x, decode_zlib (huff_block true small_options) small_options fox = Ok x.
Proof. eexists. vm_compute. reflexivity. Qed.

(** ** C73 — raw DEFLATE *)

(** Full claim: a raw DEFLATE stream decodes to its data. Proved for release builds, matches of at most 45 bits
    and at least four more bytes behind the stream, as in a container with a trailer. *)
Theorem raw_deflate_decodes_partial o bs tail out :
  deflate_stream 45 bs out -> bytes tail -> (4 <= length tail)%nat -> (length out <= o_limit o)%nat ->
  exists r, decode_deflate (huff_block false o) o (bs ++ tail) 0 = Ok (out, r).
Proof.
  intros (Hb & n & D & Ln) Ht Hl Hlim.
  destruct (decode_deflate_ok o (bs ++ tail) 0 45 n out) as (r & E & _); auto; try lia.
  - apply bytes_app. split; assumption.
  - apply deflated_prefix; [exact D|lia|lia].
  - cbn [skipn]. rewrite app_length. lia.
  - exists r. exact E.
Qed.
Print Assumptions raw_deflate_decodes_partial.

(** Without bytes behind the stream the claim is false: "hi", flushed and finished as zlib does it (a fixed
    block, an empty stored block and a final empty block), is reported as corrupt. *)
Definition flushed_hi : list Z := [202; 200; 4; 0; 0; 0; 255; 255; 3; 0].
Theorem raw_deflate_refuted :
  deflate_stream 45 flushed_hi [104; 105] /\
  decode_deflate (huff_block false small_options) small_options flushed_hi 0 = Err ECorrupt.
Proof. split; [apply ref_inflate_ok; vm_compute; reflexivity|vm_compute; reflexivity]. Qed.
Print Assumptions raw_deflate_refuted.
Example raw_case : exists r, decode_deflate (huff_block false small_options) small_options (flushed_hi ++ [1; 2; 3; 4]) 0 = Ok ([104; 105], r).
Proof. eexists. vm_compute. reflexivity. Qed.
