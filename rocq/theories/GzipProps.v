(** Properties of gzip decoding: C113 (a gzip member decodes to its data), C114 (what is returned agrees with the
    trailer, and the header parser survives any bytes). *)
From Verif Require Import Base BaseProof Loops Slices Bits BitReaderModel BitReaderSpec BitReaderProof CrcModel CrcSpec CrcProof
  InflateModel InflateSpec StoredProof HuffModel HuffSpec HuffStreamProof HuffBuildsProof HuffRef HuffProps GzipModel GzipSpec.

(** ** The header *)
Definition header_flags (g : member) : Z :=
  Z.b2z (g_text g) + 2 * present (g_hcrc g) + 4 * present (g_extra g) + 8 * present (g_name g) + 16 * present (g_comment g).
Definition is_some {A} (x : option A) : bool := match x with Some _ => true | None => false end.
Lemma flags_ok g : let f := header_flags g in
  flagged f 224 = false /\ flagged f 4 = is_some (g_extra g) /\ flagged f 8 = is_some (g_name g) /\
  flagged f 16 = is_some (g_comment g) /\ flagged f 2 = is_some (g_hcrc g).
Proof.
  unfold header_flags. destruct (g_text g), (g_hcrc g), (g_extra g), (g_name g), (g_comment g); cbn [present is_some Z.b2z]; vm_compute; auto.
Qed.

Lemma skip_string_ok l rest : ~ In 0 l -> forall p, skip_string (l ++ 0 :: rest) p = Ok (p + length l + 1)%nat.
Proof.
  induction l as [|b l IH]; intros H p; cbn [app skip_string length].
  - cbn. f_equal. lia.
  - destruct (Z.eqb_spec b 0) as [->|_]; [exfalso; apply H; now left|]. rewrite IH by (intros X; apply H; now right). f_equal. lia.
Qed.
Lemma string_field x A B : all_of (fun l => bytes l /\ ~ In 0 l) x ->
  (if is_some x then skip_string (skipn (length A) (A ++ optional (fun l => l ++ [0]) x ++ B)) (length A) else Ok (length A))
  = Ok (length (A ++ optional (fun l => l ++ [0]) x)).
Proof.
  destruct x as [l|]; cbn [is_some optional all_of]; intros H.
  - rewrite skipn_app_exact by reflexivity. rewrite <- app_assoc. cbn [app]. rewrite skip_string_ok by apply H.
    f_equal. rewrite !app_length. cbn [length]. lia.
  - now rewrite app_nil_r.
Qed.
Lemma extra_field x A B : all_of (fun l => bytes l /\ Z.of_nat (length l) < 2 ^ 16) x -> (8 <= length B)%nat ->
  let data := A ++ optional (fun l => le_bytes 2 (Z.of_nat (length l)) ++ l) x ++ B in
  (if is_some x then
      do xs <- get_slice data (length A) 2 ;
      let xlen := Z.to_nat (le_val xs) in
      let position := (length A + 2)%nat in
      if (length data - position <? xlen + 8)%nat then Err ECorrupt else Ok (position + xlen)%nat
   else Ok (length A))
  = Ok (length (A ++ optional (fun l => le_bytes 2 (Z.of_nat (length l)) ++ l) x)).
Proof.
  destruct x as [l|]; cbn [is_some optional all_of]; intros H HB; cbv zeta; [|now rewrite app_nil_r].
  destruct H as [_ H]. rewrite <- app_assoc.
  rewrite get_slice_ok by (rewrite !app_length, le_bytes_length; lia). cbn [bind].
  assert (E : slice (A ++ le_bytes 2 (Z.of_nat (length l)) ++ l ++ B) (length A) 2 = le_bytes 2 (Z.of_nat (length l))).
  { rewrite <- (le_bytes_length 2 (Z.of_nat (length l))) at 2. apply slice_app_exact. }
  rewrite E, le_val_le_bytes by (change (256 ^ Z.of_nat 2) with (2 ^ 16); lia). rewrite Nat2Z.id.
  rewrite !app_length, le_bytes_length. replace (_ <? _)%nat with false by (symmetry; apply Nat.ltb_ge; lia). f_equal. lia.
Qed.

Lemma gzip_header_ok budget g rest : member_ok budget g -> (8 <= length rest)%nat ->
  gzip_header (member_header g ++ rest) = Ok (length (member_header g)).
Proof.
  intros (Hh & He & Hn & Hc & Bm & Lm & Bx & Bo & _) Hr.
  destruct (g_mtime g) as [|m0 [|m1 [|m2 [|m3 [|]]]]] eqn:Em; try discriminate Lm.
  destruct (flags_ok g) as (F224 & F4 & F8 & F16 & F2).
  set (A := [31; 139; 8; header_flags g; m0; m1; m2; m3; g_xfl g; g_os g]).
  set (E := optional (fun l => le_bytes 2 (Z.of_nat (length l)) ++ l) (g_extra g)).
  set (N := optional (fun l => l ++ [0]) (g_name g)). set (C := optional (fun l => l ++ [0]) (g_comment g)).
  set (X := optional (fun l => l) (g_hcrc g)).
  assert (H : member_header g = A ++ E ++ N ++ C ++ X) by (unfold member_header; rewrite Em; reflexivity).
  set (data := member_header g ++ rest).
  assert (D : data = A ++ E ++ N ++ C ++ X ++ rest) by (unfold data; rewrite H, <- !app_assoc; reflexivity).
  assert (Ld : (length data = 10 + (length (E ++ N ++ C ++ X) + length rest))%nat) by (unfold data; rewrite H, app_length, app_length; reflexivity).
  unfold gzip_header. fold data. replace (length data <? 18)%nat with false by (symmetry; apply Nat.ltb_ge; lia).
  rewrite (get_at_ok data 0 0), (get_at_ok data 1 0), (get_at_ok data 2 0), (get_at_ok data 3 0) by lia.
  assert (N0 : nth 0 data 0 = 31 /\ nth 1 data 0 = 139 /\ nth 2 data 0 = 8 /\ nth 3 data 0 = header_flags g) by (rewrite D; cbn; auto).
  destruct N0 as (-> & -> & -> & ->). cbn [bind]. change (negb (31 =? 31)) with false. change (negb (139 =? 139)) with false. change (negb (8 =? 8)) with false. cbn iota.
  rewrite F224, F4, F8, F16, F2. cbn iota.
  pose proof (extra_field (g_extra g) A (N ++ C ++ X ++ rest) He) as S1. cbv zeta in S1. fold E in S1. rewrite <- D in S1.
  change (length A) with 10%nat in S1. rewrite S1 by (rewrite !app_length; lia). clear S1. cbn [bind].
  pose proof (string_field (g_name g) (A ++ E) (C ++ X ++ rest) Hn) as S2. fold N in S2. rewrite <- !app_assoc, <- D in S2. rewrite S2. clear S2. cbn [bind].
  pose proof (string_field (g_comment g) (A ++ E ++ N) (X ++ rest) Hc) as S3. fold C in S3. rewrite <- !app_assoc, <- D in S3. rewrite S3. clear S3. cbn [bind].
  assert (LX : (if is_some (g_hcrc g) then (length (A ++ E ++ N ++ C) + 2)%nat else length (A ++ E ++ N ++ C)) = length (member_header g)).
  { rewrite H. rewrite !app_length. unfold X. destruct (g_hcrc g) as [l|]; cbn [is_some optional all_of] in *; [destruct Hh as [_ Hh]; lia|cbn [length]; lia]. }
  rewrite LX. replace (length data <? length (member_header g) + 8)%nat with false; [reflexivity|].
  symmetry. apply Nat.ltb_ge. unfold data. rewrite app_length. lia.
Qed.

Lemma header_bytes budget g : member_ok budget g -> bytes (member_header g).
Proof.
  intros (Hh & He & Hn & Hc & Bm & Lm & Bx & Bo & _). unfold member_header.
  assert (B0 : forall l, bytes l -> bytes (l ++ [0])) by (intros l Hl; apply bytes_app; split; [exact Hl|constructor; [unfold is_byte; lia|constructor]]).
  repeat (apply bytes_app; split).
  - constructor; [unfold is_byte; lia|]. constructor; [unfold is_byte; lia|]. constructor; [unfold is_byte; lia|]. constructor; [|constructor].
    unfold is_byte. destruct (g_text g), (g_hcrc g), (g_extra g), (g_name g), (g_comment g); cbn [present Z.b2z]; lia.
  - exact Bm.
  - constructor; [exact Bx|]. constructor; [exact Bo|constructor].
  - destruct (g_extra g) as [l|]; [|constructor]. cbn [optional all_of] in *. apply bytes_app. split; [apply le_bytes_bytes|apply He].
  - destruct (g_name g) as [l|]; [|constructor]. apply B0, Hn.
  - destruct (g_comment g) as [l|]; [|constructor]. apply B0, Hc.
  - destruct (g_hcrc g) as [l|]; [|constructor]. apply Hh.
Qed.

(** What a DEFLATE stream of bytes stands for is bytes. *)
Lemma bytes_nth l n : bytes l -> is_byte (nth n l 0).
Proof.
  intros H. destruct (Nat.lt_ge_cases n (length l)) as [L|L]; [apply (proj1 (Forall_forall _ _) H), nth_In, L|].
  rewrite nth_overflow by exact L. unfold is_byte. lia.
Qed.
Lemma lz_copy_bytes offset len : forall out, bytes out -> bytes (lz_copy out offset len).
Proof.
  induction len as [|len IH]; intros out H; cbn [lz_copy]; [exact H|]. apply IH, bytes_app. split; [exact H|].
  constructor; [now apply bytes_nth|constructor].
Qed.
Lemma symbols_bytes budget lit off src n out n' out' : symbols budget lit off src n out n' out' -> bytes out -> bytes out'.
Proof.
  induction 1 as [n out l H|n out s l n' out' H1 H2 H3 IH|n out s l base ex t l2 base2 ex2 len dist m n' out' H1 H2 H3 H4 H5 H6 H7 H8 H9 H10 H11 IH]; intros B.
  - exact B.
  - apply IH, bytes_app. split; [exact B|]. constructor; [unfold is_byte; lia|constructor].
  - apply IH, lz_copy_bytes, B.
Qed.
Lemma block_bytes budget src btype n out n' out' : bytes src -> block budget src btype n out n' out' -> bytes out -> bytes out'.
Proof.
  intros S B H. destruct B as [n out p len Hp Hlen Hx Hy|n out n' out' X|n out lit off m n' out' D X]; [|now apply (symbols_bytes _ _ _ _ _ _ _ _ X)..].
  apply bytes_app. split; [exact H|]. unfold slice, bytes. rewrite Forall_forall. intros x Hx1.
  apply (proj1 (Forall_forall _ _) S). apply firstn_In' in Hx1. rewrite <- (firstn_skipn (p + 4) src). apply in_or_app. now right.
Qed.
Lemma stream_bytes budget bs out : deflate_stream budget bs out -> bytes out.
Proof.
  intros (S & n & D & _). assert (B0 : bytes (@nil Z)) by constructor. revert B0.
  induction D as [n o bt n' o' H1 H2 H3|n o bt m o1 n' o' H1 H2 H3 H4 IH]; intros B0.
  - exact (block_bytes _ _ _ _ _ _ _ S H3 B0).
  - apply IH. exact (block_bytes _ _ _ _ _ _ _ S H3 B0).
Qed.

(** ** C113 — a gzip file decodes to its data *)

(** The full claim, for a build with or without overflow checks: any file of at least one member (48 bits is no
    restriction, [match_48]). *)
Definition gzip_claim (dbg : bool) : Prop :=
  forall o gs, gs <> [] -> Forall (member_ok 48) gs -> (length (file_data gs) <= o_limit o)%nat ->
    decode_gzip (huff_block dbg o) o (file_bytes gs) = Ok (file_data gs).

(** Proved for release builds and files of one member with less than 4 GiB of data in which no match takes more
    than 45 bits; all header fields may be present, anything may follow. Missing: longer matches
    ([gzip_long_match_refuted]) and further members ([gzip_members_refuted]). *)
Theorem gzip_decodes_partial o g tail :
  member_ok 45 g -> bytes tail -> (length (g_data g) <= o_limit o)%nat -> Z.of_nat (length (g_data g)) < 2 ^ 32 ->
  decode_gzip (huff_block false o) o (member_bytes g ++ tail) = Ok (g_data g).
Proof.
  intros G Ht Hlim H32. pose proof G as (_ & _ & _ & _ & _ & _ & _ & _ & DS). pose proof (stream_bytes _ _ _ DS) as Hdb.
  destruct DS as (Hb & n' & D & Ln).
  set (H := member_header g). set (bs := g_body g) in *. set (out := g_data g) in *.
  set (T1 := le_bytes 4 (crc32 out)). set (T2 := le_bytes 4 (Z.of_nat (length out) mod 2 ^ 32)).
  assert (L1 : length T1 = 4%nat) by apply le_bytes_length. assert (L2 : length T2 = 4%nat) by apply le_bytes_length.
  set (data := member_bytes g ++ tail).
  assert (ED : data = H ++ bs ++ T1 ++ T2 ++ tail) by (unfold data, member_bytes; rewrite <- !app_assoc; reflexivity).
  assert (Ld : (length data = length H + (length bs + (8 + length tail)))%nat) by (rewrite ED, !app_length; lia).
  assert (Hd : bytes data).
  { rewrite ED. apply bytes_app. split; [apply (header_bytes 45 g G)|]. apply bytes_app. split; [exact Hb|].
    apply bytes_app. split; [apply le_bytes_bytes|]. apply bytes_app. split; [apply le_bytes_bytes|exact Ht]. }
  unfold decode_gzip. rewrite ED at 1. rewrite (gzip_header_ok 45 g _ G) by (rewrite !app_length; lia). cbn [bind]. fold H.
  assert (Hs : skipn (length H) data = bs ++ T1 ++ T2 ++ tail) by (rewrite ED; apply skipn_app_exact; reflexivity).
  pose proof (deflated_mono _ _ _ _ _ _ D ltac:(lia)) as [Mn _].
  destruct (decode_deflate_ok o data (length H) 45 n' out Hd ltac:(lia) ltac:(lia)) as (r & E & R & Sr).
  { rewrite Hs. apply deflated_prefix; [exact D|lia|lia]. }
  { rewrite Hs, !app_length. lia. }
  { exact Hlim. }
  rewrite E. cbn [bind].
  assert (P : (get_position r + length H + r_over r = length H + length bs)%nat).
  { rewrite Hs in Sr. assert (Lsrc : length (r_src r) = (length bs + (8 + length tail))%nat) by (rewrite Sr, !app_length; lia).
    destruct R as [_ Rn Rl _ Rp Rs Ro _ _]. unfold get_position. rewrite Z.shiftr_div_pow2 by lia. change (2 ^ 3) with 8.
    destruct (Nat.eq_dec (r_over r) 0) as [O|O].
    - rewrite O in *. clear -Ln Rn Rl Rs. lia.
    - specialize (Ro ltac:(lia)). rewrite Ro, Lsrc in *. clear -Ln Rn Rl Rs. lia. }
  rewrite P.
  assert (S1 : slice data (length H + length bs) 4 = T1).
  { rewrite ED, app_assoc, <- L1, <- app_length. apply slice_app_exact. }
  assert (S2 : slice data (length H + length bs + 4) 4 = T2).
  { rewrite ED, !app_assoc, <- (app_assoc _ T2 tail). replace (length H + length bs + 4)%nat with (length ((H ++ bs) ++ T1)) by (rewrite !app_length; lia). rewrite <- L2. apply slice_app_exact. }
  replace (length H + length bs + 4 <=? length data)%nat with true by (symmetry; apply Nat.leb_le; lia).
  replace (length H + length bs + 4 + 4 <=? length data)%nat with true by (symmetry; apply Nat.leb_le; lia).
  rewrite S1, S2. unfold T1, T2. rewrite Z.mod_small by lia. rewrite (le_val_le_bytes 4 (Z.of_nat (length out))) by (change (256 ^ Z.of_nat 4) with (2 ^ 32); lia).
  rewrite Z.eqb_refl.
  destruct (o_confirm o); cbn [bind]; [|reflexivity].
  rewrite crc32_slice8_ok by (auto; lia). cbn [bind].
  pose proof (crc_run_bound out (2 ^ 32 - 1) ltac:(lia) Hdb) as CB.
  assert (CE : crc32 out = 2 ^ 32 - 1 - crc_run out (2 ^ 32 - 1)) by (unfold crc32; symmetry; apply compl32, CB).
  rewrite CE, le_val_le_bytes by (change (256 ^ Z.of_nat 4) with (2 ^ 32); lia). rewrite Z.eqb_refl. reflexivity.
Qed.
Print Assumptions gzip_decodes_partial.

(** "hi" with every optional field. *)
Definition hi_member : member :=
  mkMember true (Some [7; 9]) (Some [1; 0; 2]) (Some [97; 46; 98]) (Some [63]) [1; 2; 3; 4] 2 3 [203; 200; 4; 0] [104; 105].
Definition ho_member : member := mkMember false None None None None [0; 0; 0; 0] 0 255 [203; 200; 7; 0] [104; 111].
Lemma deflate_wide bs out : ref_inflate 45 bs = Some out -> deflate_stream 45 bs out /\ deflate_stream 48 bs out.
Proof. intros H. apply ref_inflate_ok in H. split; [exact H|]. exact (match_48 45 _ _ H). Qed.
Lemma hi_ok : member_ok 45 hi_member /\ member_ok 48 hi_member.
Proof.
  destruct (deflate_wide [203; 200; 4; 0] [104; 105] ltac:(vm_compute; reflexivity)) as (D1 & D2).
  split; (split; [|split; [|split; [|split; [|split; [|split; [|split; [|split]]]]]]]); try assumption; try reflexivity; try (vm_compute; intuition discriminate);
  cbn [all_of g_hcrc g_extra g_name g_comment g_mtime hi_member]; try split; try reflexivity; try (vm_compute; reflexivity);
  try (intros X; vm_compute in X; intuition discriminate); repeat constructor; vm_compute; intuition discriminate.
Qed.
Lemma ho_ok : member_ok 48 ho_member.
Proof.
  destruct (deflate_wide [203; 200; 7; 0] [104; 111] ltac:(vm_compute; reflexivity)) as (D1 & D2).
  split; [|split; [|split; [|split; [|split; [|split; [|split; [|split]]]]]]]; try assumption; try reflexivity; try exact I; try (vm_compute; intuition discriminate);
  repeat constructor; vm_compute; intuition discriminate.
Qed.
Example gzip_case : member_ok 45 hi_member /\ length (member_bytes hi_member) = 35%nat /\
  decode_gzip (huff_block false small_options) small_options (member_bytes hi_member ++ [1; 2; 3]) = Ok [104; 105].
Proof. split; [apply hi_ok|]. split; vm_compute; reflexivity. Qed.

(** A file of two members (what [cat a.gz b.gz] gives) silently loses the second one. *)
Theorem gzip_members_refuted : exists gs,
  gs <> [] /\ Forall (member_ok 48) gs /\ file_data gs = [104; 105; 104; 111] /\
  forall dbg, decode_gzip (huff_block dbg small_options) small_options (file_bytes gs) = Ok [104; 105].
Proof.
  exists [hi_member; ho_member]. split; [discriminate|]. split; [constructor; [apply hi_ok|constructor; [apply ho_ok|constructor]]|].
  split; [reflexivity|]. intros [|]; vm_compute; reflexivity.
Qed.
Print Assumptions gzip_members_refuted.

(** A valid member with a long match crashes both kinds of build. *)
Theorem gzip_long_match_refuted : exists g, member_ok 48 g /\ (length (g_data g) <= o_limit small_options)%nat /\
  forall dbg, decode_gzip (huff_block dbg small_options) small_options (member_bytes g) = Panic.
Proof.
  assert (F : match ref_inflate 48 long_match with
     | Some x => let g := mkMember false None None None None [0; 0; 0; 0] 0 255 long_match x in
         (length x <=? o_limit small_options)%nat &&
         match decode_gzip (huff_block false small_options) small_options (member_bytes g),
               decode_gzip (huff_block true small_options) small_options (member_bytes g) with
         | Panic, Panic => true | _, _ => false end
     | None => false end = true) by (vm_compute; reflexivity).
  destruct (ref_inflate 48 long_match) as [out|] eqn:E; [|discriminate F]. cbv zeta in F.
  exists (mkMember false None None None None [0; 0; 0; 0] 0 255 long_match out). apply andb_true_iff in F. destruct F as (F1 & F2).
  split.
  - pose proof (ref_inflate_ok _ _ _ E) as D. clear - D.
    split; [exact I|split; [exact I|split; [exact I|split; [exact I|split; [|split; [reflexivity|split; [|split]]]]]]]; try exact D;
    repeat constructor; vm_compute; intuition discriminate.
  - split; [apply Nat.leb_le, F1|]. clear - F2.
    intros [|]; [destruct (decode_gzip (huff_block true small_options) _ _); [| |reflexivity|]|destruct (decode_gzip (huff_block false small_options) _ _); [| |reflexivity|]];
    revert F2; try (destruct (decode_gzip (huff_block false small_options) _ _)); intros F2; discriminate F2.
Qed.
Print Assumptions gzip_long_match_refuted.

(** ** C114 — the trailer is checked, and the header parser survives any bytes *)
Lemma skip_string_range l : forall p, match skip_string l p with Ok q => (p < q <= p + length l)%nat | Err EEof => True | _ => False end.
Proof.
  induction l as [|b l IH]; intros p; cbn [skip_string length]; [exact I|]. destruct (b =? 0); [lia|]. specialize (IH (S p)).
  destruct (skip_string l (S p)) as [q|[]| |]; try contradiction; try exact I. lia.
Qed.
(** For every byte string (in fact every list) the header parser returns an error or a position with room for the
    trailer behind it; it neither panics nor runs forever. *)
Theorem gzip_header_total data :
  (exists p, gzip_header data = Ok p /\ (10 <= p)%nat /\ (p + 8 <= length data)%nat /\
     nth 0 data 0 = 31 /\ nth 1 data 0 = 139 /\ nth 2 data 0 = 8 /\ Z.land (nth 3 data 0) 224 = 0) \/
  (exists e, gzip_header data = Err e).
Proof.
  unfold gzip_header. destruct (Nat.ltb_spec (length data) 18) as [L|L]; [right; eexists; reflexivity|].
  rewrite (get_at_ok data 0 0), (get_at_ok data 1 0), (get_at_ok data 2 0), (get_at_ok data 3 0) by lia. cbn [bind].
  destruct (Z.eqb_spec (nth 0 data 0) 31) as [E0|_]; [|right; eexists; reflexivity].
  destruct (Z.eqb_spec (nth 1 data 0) 139) as [E1|_]; [|right; eexists; reflexivity].
  destruct (Z.eqb_spec (nth 2 data 0) 8) as [E2|_]; [|right; eexists; reflexivity]. cbn [negb].
  destruct (flagged (nth 3 data 0) 224) eqn:F3; [right; eexists; reflexivity|].
  assert (E3 : Z.land (nth 3 data 0) 224 = 0) by (unfold flagged in F3; apply negb_false_iff, Z.eqb_eq in F3; exact F3). clear F3.
  set (flg := nth 3 data 0) in *. cbv zeta.
  assert (S1 : (exists p, (if flagged flg 4 then
      do xs <- get_slice data 10 2 ;
      let xlen := Z.to_nat (le_val xs) in let position := (10 + 2)%nat in
      if (length data - position <? xlen + 8)%nat then Err ECorrupt else Ok (position + xlen)%nat
    else Ok 10%nat) = Ok p /\ (10 <= p <= length data)%nat) \/ (exists e, (if flagged flg 4 then
      do xs <- get_slice data 10 2 ;
      let xlen := Z.to_nat (le_val xs) in let position := (10 + 2)%nat in
      if (length data - position <? xlen + 8)%nat then Err ECorrupt else Ok (position + xlen)%nat
    else Ok 10%nat) = Err e)).
  { destruct (flagged flg 4); [|left; eexists; split; [reflexivity|lia]]. rewrite get_slice_ok by lia. cbn [bind]. cbv zeta.
    destruct (Nat.ltb_spec (length data - (10 + 2)) (Z.to_nat (le_val (slice data 10 2)) + 8)); [right; eexists; reflexivity|]. left. eexists. split; [reflexivity|]. lia. }
  cbv zeta in S1. destruct S1 as [(p1 & -> & R1)|(e & ->)]; [|right; eexists; reflexivity]. cbn [bind].
  assert (S : forall (b : bool) (p : nat), (10 <= p <= length data)%nat ->
     (exists q, (if b then skip_string (skipn p data) p else Ok p) = Ok q /\ (10 <= q <= length data)%nat) \/
     (exists e, (if b then skip_string (skipn p data) p else Ok p) = Err e)).
  { intros [|] p Hp; [|left; eexists; split; [reflexivity|exact Hp]]. pose proof (skip_string_range (skipn p data) p) as R. rewrite skipn_length in R.
    destruct (skip_string (skipn p data) p) as [q|e| |]; try contradiction; [left; eexists; split; [reflexivity|lia]|right; eexists; reflexivity]. }
  destruct (S (flagged flg 8) p1 R1) as [(p2 & -> & R2)|(e & ->)]; [|right; eexists; reflexivity]. cbn [bind].
  destruct (S (flagged flg 16) p2 R2) as [(p3 & -> & R3)|(e & ->)]; [|right; eexists; reflexivity]. cbn [bind]. cbv zeta.
  destruct (flagged flg 2); match goal with |- context [(length data <? ?x)%nat] => destruct (Nat.ltb_spec (length data) x) end;
    try (right; eexists; reflexivity); left; eexists; (split; [reflexivity|]); repeat split; auto; lia.
Qed.
Print Assumptions gzip_header_total.

(** Whatever bytes are given: if data come back, the input starts like a gzip member and holds the length of exactly
    these data, behind (when checksums are confirmed, the default) their CRC-32. [bytes out] holds by the Rust type. *)
Theorem gzip_trailer_checked dbg o data out : decode_gzip (huff_block dbg o) o data = Ok out -> bytes out ->
  nth 0 data 0 = 31 /\ nth 1 data 0 = 139 /\ nth 2 data 0 = 8 /\
  exists p, (10 <= p)%nat /\ (p + 8 <= length data)%nat /\
    le_val (slice data (p + 4) 4) = Z.of_nat (length out) /\
    (o_confirm o = true -> le_val (slice data p 4) = crc32 out).
Proof.
  intros E B. unfold decode_gzip in E. destruct (gzip_header_total data) as [(p & H & Hp & Hl & N0 & N1 & N2 & _)|(e & H)]; rewrite H in E; [|discriminate E].
  cbn [bind] in E. destruct (decode_deflate (huff_block dbg o) o data p) as [(x & r)|e| |]; try discriminate E. cbn [bind] in E. cbv zeta in E.
  set (q := (get_position r + p + r_over r)%nat) in *.
  assert (C : match (if o_confirm o then
      if (q + 4 <=? length data)%nat then
        do c <- crc32_slice8 x (2 ^ 32 - 1) ;
        if le_val (slice data q 4) =? 2 ^ 32 - 1 - c then Ok tt else Err EChecksum
      else Err EEof else Ok tt) with Ok _ => True | _ => False end).
  { destruct (if o_confirm o then _ else _) as [u|e| |]; [exact I|discriminate E..]. }
  split; [exact N0|]. split; [exact N1|]. split; [exact N2|]. exists q.
  assert (X : (q + 4 + 4 <= length data)%nat /\ x = out /\ Z.of_nat (length out) = le_val (slice data (q + 4) 4)).
  { destruct (if o_confirm o then _ else _) as [u|e| |]; try discriminate E. cbn [bind] in E.
    destruct (Nat.leb_spec (q + 4 + 4) (length data)); [|discriminate E]. destruct (Z.eqb_spec (Z.of_nat (length x)) (le_val (slice data (q + 4) 4))) as [Y|]; [|discriminate E].
    injection E as <-. auto. }
  destruct X as (X1 & -> & X2). split; [lia|]. split; [lia|]. split; [symmetry; exact X2|]. intros Hc. rewrite Hc in C.
  replace (q + 4 <=? length data)%nat with true in C by (symmetry; apply Nat.leb_le; lia).
  rewrite crc32_slice8_ok in C by (auto; lia). cbn [bind] in C.
  destruct (Z.eqb_spec (le_val (slice data q 4)) (2 ^ 32 - 1 - crc_run out (2 ^ 32 - 1))) as [Y|]; [|contradiction].
  rewrite Y. unfold crc32. apply compl32, crc_run_bound; [lia|exact B].
Qed.
Print Assumptions gzip_trailer_checked.

(** Builds with and without overflow checks agree unless the former panics. *)
Theorem gzip_builds_agree o data :
  decode_gzip (huff_block true o) o data = Panic \/ decode_gzip (huff_block true o) o data = decode_gzip (huff_block false o) o data.
Proof.
  unfold decode_gzip. destruct (gzip_header data) as [p|e| |]; cbn [bind]; auto.
  pose proof (agree_deflate o data p) as A. destruct (decode_deflate (huff_block true o) o data p) as [x|e| |]; cbn [agree] in A.
  - destruct A as [A _]. rewrite A. now right.
  - rewrite A. now right.
  - now left.
  - rewrite A. now right.
Qed.
Print Assumptions gzip_builds_agree.

(** A changed byte of the checksum, the length or the data is noticed. *)
Definition hi_with (i : nat) (x : Z) : list Z := put (member_bytes hi_member) i [x].
Example gzip_checked_case :
  decode_gzip (huff_block true small_options) small_options (member_bytes hi_member) = Ok [104; 105] /\
  decode_gzip (huff_block true small_options) small_options (hi_with 27 173) = Err EChecksum /\
  decode_gzip (huff_block true small_options) small_options (hi_with 31 3) = Err ECorrupt /\
  decode_gzip (huff_block true small_options) small_options (hi_with 24 201) = Err EChecksum /\
  gzip_header (hi_with 3 255) = Err ECorrupt.
Proof. repeat split; vm_compute; reflexivity. Qed.
