(** Properties of the files written by the JPEG XL encoder. *)
From Verif Require Import Base StreamModel JxlModel JxlSpec JxlProof JxlFileProof.

(** The bits a sequence of calls asks for *)
Definition written (ops : list op) : list bool :=
  fold_left (fun acc o => match o with Put n v => acc ++ vbits n v | Pad => pad8 acc end) ops [].

(** A writer as the compressor leaves it: never used, or given memory for at least the bits it then received. *)
Inductive holds : bwriter -> list bool -> Prop :=
| holds_new : holds bw_new []
| holds_calls cap w0 ops w : allocate bw_new cap = Ok w0 -> bw_run w0 ops = Ok w ->
    (length (written ops) <= cap)%nat -> holds w (written ops).

Lemma holds_ok w b : holds w b -> okc w /\ content w = b.
Proof.
  intros [|cap w0 ops w' E1 E2 HL].
  - split; [|reflexivity]. split; [|left; reflexivity]. split; [cbn; lia|]. split; [intros i _; apply Z.testbit_0_l|].
    split; [cbn; lia|constructor].
  - destruct (bw_new_ok cap) as (w1 & A1 & A2 & A3 & A4). assert (w1 = w0) by congruence. subst w1.
    destruct (bw_run_inv ops w0 w' A2 E2) as (B1 & B2 & B3). rewrite A3 in B2.
    change (fold_left op_bits ops []) with (written ops) in B2. split; [|exact B2]. apply okc_of_room; [exact B1|].
    rewrite B2, B3, A4. revert HL. generalize (length (written ops)). clear. intros. lia.
Qed.

(** * The calls of the bit writer *)

(** A sequence of calls that stays within the memory asked for goes through, and what the writer then holds is exactly
    the bits asked for, in order. [stored] reads them from the writer. *)
Definition stored (w : bwriter) : list bool := bits_of_bytes (firstn (pos w) (dest w)) ++ vbits (bib w) (buf w).

Theorem jxl_bits_stored cap ops :
  Forall (fun o => match o with Put n _ => (n < 56)%nat | Pad => True end) ops ->
  (fold_right Nat.add 0 (map (fun o => match o with Put n _ => n | Pad => 7 end) ops) <= cap)%nat ->
  exists w0 w, allocate bw_new cap = Ok w0 /\ bw_run w0 ops = Ok w /\ stored w = written ops.
Proof.
  intros HS HL. destruct (bw_new_ok cap) as (w0 & A1 & A2 & A3 & A4).
  destruct (bw_run_ok ops w0 A2) as (w & B1 & B2 & B3 & B4).
  - eapply Forall_impl; [|exact HS]. intros [n v|]; cbn; auto.
  - unfold room. rewrite A3, A4. change (total_len ops) with (fold_right Nat.add 0%nat (map op_len ops)).
    assert (X : map op_len ops = map (fun o => match o with Put n _ => n | Pad => 7%nat end) ops) by reflexivity.
    rewrite X. revert HL. generalize (fold_right Nat.add 0%nat (map (fun o => match o with Put n _ => n | Pad => 7%nat end) ops)).
    clear. intros n HL. cbn [length]. lia.
  - exists w0, w. split; [exact A1|]. split; [exact B1|]. rewrite A3 in B3. exact B3.
Qed.
Print Assumptions jxl_bits_stored.

Definition calls : list op := [Put 3 5; Put 20 703710; Put 55 36028797018963967; Pad; Put 1 1].
Example jxl_bits_stored_case :
  match (do w <- allocate bw_new 90 ; bw_run w calls) with
  | Ok w => (pos w, bib w, firstn 4 (dest w)) = (9%nat, 9%nat, [245; 230; 213; 255]) /\ stored w = written calls
  | _ => False
  end.
Proof. vm_compute. auto. Qed.

(** * The file *)
Theorem jxl_file_reads_back w h depth nc groups (secs : list (list (list bool))) :
  1 < w < 2 ^ 30 -> 1 < h < 2 ^ 30 -> (depth = 8 \/ depth = 16) -> (1 <= nc <= 4)%nat ->
  Z.of_nat (length groups) = num_sections w h -> Forall (fun g => length g = 4%nat) groups ->
  Forall2 (Forall2 holds) groups secs ->
  Forall (fun s => Z.of_nat (length (concat (firstn nc s))) <= 8 * (2 ^ 30 + 4211711)) secs ->
  exists file i, jxl_encode w h depth nc groups = Ok file /\ bytes file /\
    read_jxl file = Some (i, map (fun s => pad8 (concat (firstn nc s))) secs) /\
    iwidth i = w /\ iheight i = h /\ ibits i = depth /\ igrey i = (nc <=? 2)%nat /\
    ialpha_bits i = (if (nc =? 2)%nat || (nc =? 4)%nat then Some 8 else None).
Proof.
  intros Hw Hh Hd Hn HC H4 HF HZ.
  assert (HE : map (section_bits nc) groups = map (fun s => pad8 (concat (firstn nc s))) secs).
  { clear - HF. induction HF as [|g s gs ss Hg HF IH]; [reflexivity|]. cbn [map]. f_equal; [|exact IH]. unfold section_bits. do 2 f_equal.
    rewrite <- firstn_map. f_equal. clear - Hg. induction Hg as [|w b ws bs Hw Hg IH]; [reflexivity|]. cbn [map].
    destruct (holds_ok _ _ Hw) as (_ & ->). now rewrite IH. }
  assert (HO : Forall (fun g => (nc <= length g)%nat /\ Forall okc g) groups).
  { clear - HF H4 Hn. revert H4. induction HF as [|g s gs ss Hg HF IH]; intros H4; [constructor|]. inversion H4; subst.
    constructor; [|auto]. split; [lia|]. clear - Hg. induction Hg as [|w b ws bs Hw Hg IH]; [constructor|]. constructor; [|exact IH].
    apply (holds_ok _ _ Hw). }
  assert (HS : Forall (fun g => Z.of_nat (group_size nc g) < 2 ^ 30 + 4211712) groups).
  { assert (HX : Forall2 (fun g s => section_bits nc g = pad8 (concat (firstn nc s))) groups secs).
    { clear - HE HF. revert HE. induction HF as [|g s gs ss Hg HF IH]; intros HE; [constructor|]. cbn [map] in HE. inversion HE.
      constructor; auto. }
    clear - HO HX HZ. revert HO HZ. induction HX as [|g s gs ss Hg HX IH]; intros HO HZ; [constructor|].
    inversion HO as [|? ? (G1 & G2) HO']; subst. inversion HZ as [|? ? Z1 HZ']; subst. constructor; [|auto].
    pose proof (group_size_bits nc g G2) as GB. rewrite Hg in GB. unfold pad8 in GB. rewrite app_length, repeat_length in GB.
    revert GB Z1. generalize (group_size nc g) (length (concat (firstn nc s))). clear. intros. lia. }
  destruct (jxl_reads_back w h depth nc groups Hw Hh Hd Hn HC HO HS) as (file & E1 & E2 & E3).
  exists file. eexists. split; [exact E1|]. split; [exact E2|]. rewrite E3, HE. split; [reflexivity|]. repeat split; reflexivity.
Qed.
Print Assumptions jxl_file_reads_back.

Definition one_writer : bwriter :=
  match (do w <- allocate bw_new 90 ; bw_run w calls) with Ok w => w | _ => bw_new end.
(** A grey picture of 2 by 40 with one section of 81 bits, and a file made from it *)
Definition grey_groups : list (list bwriter) := [[one_writer; bw_new; bw_new; bw_new]].
Example jxl_file_case : Z.of_nat (length grey_groups) = num_sections 2 40 /\
  Forall2 (Forall2 holds) grey_groups [[written calls; []; []; []]] /\
  match jxl_encode 2 40 8 1 grey_groups with
  | Ok file => length file = 26%nat /\ firstn 2 file = [255; 10] /\
      read_jxl file = Some ({| iwidth := 2; iheight := 40; ibits := 8; ialpha_bits := None; igrey := true |}, [pad8 (written calls)])
  | _ => False
  end.
Proof.
  split; [reflexivity|]. split.
  - constructor; [|constructor]. constructor; [|repeat constructor].
    apply (holds_calls 90 {| bib := 0; buf := 0; pos := 0; dest := repeat 0 75%nat |} calls one_writer); vm_compute; [reflexivity|reflexivity|lia].
  - vm_compute. repeat split; reflexivity.
Qed.

(** The next theorem concerns the depth announced for the alpha channel: always eight bits, so for a picture of 16-bit
    samples the file does not describe its own alpha channel. *)
Theorem jxl_alpha_depth_refuted : exists w h nc groups file i secs, (nc = 2 \/ nc = 4)%nat /\
  jxl_encode w h 16 nc groups = Ok file /\ read_jxl file = Some (i, secs) /\ ibits i = 16 /\ ialpha_bits i = Some 8.
Proof.
  exists 2, 40, 4%nat, [[one_writer; one_writer; one_writer; one_writer]].
  do 3 eexists. split; [right; reflexivity|]. split; [vm_compute; reflexivity|]. split; [vm_compute; reflexivity|]. split; reflexivity.
Qed.
Print Assumptions jxl_alpha_depth_refuted.

(** What holds: with 8-bit samples, or without alpha, every channel is announced with the depth of the samples. *)
Theorem jxl_alpha_depth_partial w h depth nc groups secs :
  1 < w < 2 ^ 30 -> 1 < h < 2 ^ 30 -> (depth = 8 \/ (depth = 16 /\ (nc = 1 \/ nc = 3)%nat)) -> (1 <= nc <= 4)%nat ->
  Z.of_nat (length groups) = num_sections w h -> Forall (fun g => length g = 4%nat) groups ->
  Forall2 (Forall2 holds) groups secs ->
  Forall (fun s => Z.of_nat (length (concat (firstn nc s))) <= 8 * (2 ^ 30 + 4211711)) secs ->
  exists file i ss, jxl_encode w h depth nc groups = Ok file /\ read_jxl file = Some (i, ss) /\ ibits i = depth /\
    match ialpha_bits i with Some b => b = depth /\ (nc = 2 \/ nc = 4)%nat | None => (nc = 1 \/ nc = 3)%nat end.
Proof.
  intros Hw Hh Hd Hn HC H4 HF HZ.
  destruct (jxl_file_reads_back w h depth nc groups secs Hw Hh ltac:(tauto) Hn HC H4 HF HZ) as (file & i & E1 & _ & E2 & _ & _ & E3 & _ & E4).
  exists file, i. eexists. split; [exact E1|]. split; [exact E2|]. split; [exact E3|]. rewrite E4.
  clear - Hd Hn. destruct nc as [|[|[|[|[|nc]]]]]; cbn; lia.
Qed.
Print Assumptions jxl_alpha_depth_partial.

(** Sides of [2 ^ 30] and more are not reported as an error: the encoder stops with a panic after compressing. *)
Theorem jxl_wide_refuted w h depth nc groups : 1 < w -> 1 < h -> 2 ^ 30 <= w \/ 2 ^ 30 <= h -> (depth = 8 \/ depth = 16) ->
  jxl_encode w h depth nc groups = Panic.
Proof.
  intros Hw Hh Hs Hd. unfold jxl_encode. replace (w <=? 1) with false by lia. replace (h <=? 1) with false by lia.
  replace (negb ((depth =? 8) || (depth =? 16))) with false by (destruct Hd as [-> | ->]; reflexivity).
  unfold prepare_header. destruct (bw_new_ok (1000 + length groups * 32)) as (w0 & -> & _). cbn [bind]. unfold size_ops.
  destruct ((1 <? h) && (h <? 2 ^ 30)) eqn:E; [|reflexivity]. cbn [bind].
  replace ((1 <? w) && (w <? 2 ^ 30)) with false by lia. reflexivity.
Qed.
Print Assumptions jxl_wide_refuted.
Example jxl_wide_case : jxl_encode (2 ^ 30) 2 8 1 [] = Panic.
Proof. vm_compute. reflexivity. Qed.

(** * Numbers in the sections *)
Lemma log2_or1 v : 0 < v -> Z.log2 (Z.lor v 1) = Z.log2 v.
Proof. intros H. rewrite Z.log2_lor by lia. change (Z.log2 1) with 0. pose proof (Z.log2_nonneg v). lia. Qed.

(** A run length or a residual, split into a token and extra bits, is recovered by the rule of the format; the extra
    bits fit their announced number, which the token determines. *)
Theorem jxl_hybrid_recovered v : 0 <= v < 2 ^ 32 ->
  (let '(token, nbits, bits) := hybrid_lz77 v in
   hybrid_value 4 token bits = v /\ 0 <= bits < 2 ^ nbits /\ 0 <= token < 16 + 28 /\ nbits = if token <? 16 then 0 else token - 12) /\
  (let '(token, nbits, bits) := hybrid_000 v in
   hybrid_value 0 token bits = v /\ 0 <= bits < 2 ^ nbits /\ 0 <= token <= 32 /\ nbits = if token <? 1 then 0 else token - 1).
Proof.
  intros H.
  assert (L : 0 < v -> 2 ^ Z.log2 v <= v < 2 * 2 ^ Z.log2 v /\ 0 <= Z.log2 v < 32).
  { intros Hv. pose proof (Z.log2_spec v Hv) as X. rewrite Z.pow_succ_r in X by apply Z.log2_nonneg. split; [exact X|].
    split; [apply Z.log2_nonneg|]. apply Z.log2_lt_pow2; lia. }
  split.
  - unfold hybrid_lz77. cbv zeta. destruct (v <? 16) eqn:E.
    + unfold hybrid_value. change (2 ^ 4) with 16. rewrite E. change (2 ^ 0) with 1. clear - H E. repeat split; lia.
    + destruct L as (L1 & L2); [lia|]. rewrite log2_or1, Z.shiftl_1_l by lia. unfold hybrid_value. change (2 ^ 4) with 16.
      assert (L3 : 4 <= Z.log2 v) by (apply Z.log2_le_pow2; lia). revert L1 L2 L3. generalize (Z.log2 v). intros n L1 L2 L3.
      replace (16 + n - 4 <? 16) with false by lia. replace (16 + n - 4 - 16 + 4) with n by lia. revert L1. generalize (2 ^ n). clear - L2 L3.
      intros. repeat split; lia.
  - unfold hybrid_000. cbv zeta. destruct (v =? 0) eqn:E.
    + unfold hybrid_value. change (2 ^ 0) with 1. cbn. clear - H E. repeat split; lia.
    + destruct L as (L1 & L2); [lia|]. rewrite log2_or1, Z.shiftl_1_l by lia. unfold hybrid_value. change (2 ^ 0) with 1.
      revert L1 L2. generalize (Z.log2 v). intros n L1 L2.
      replace (n + 1 <? 1) with false by lia. replace (n + 1 - 1 + 0) with n by lia. revert L1. generalize (2 ^ n). clear - L2.
      intros. repeat split; lia.
Qed.
Print Assumptions jxl_hybrid_recovered.
Example jxl_hybrid_case : hybrid_lz77 1000 = (21, 9, 488) /\ hybrid_000 1000 = (10, 9, 488) /\ hybrid_value 4 21 488 = 1000.
Proof. vm_compute. auto. Qed.

Lemma lxor_ones x : 0 <= x < 2 ^ 32 -> Z.lxor x (2 ^ 32 - 1) = 2 ^ 32 - 1 - x.
Proof.
  intros H. change (2 ^ 32 - 1) with (Z.ones 32).
  assert (A : Z.lxor x (Z.ones 32) + x = Z.ones 32); [|lia].
  rewrite Z.add_nocarry_lxor.
  - rewrite Z.lxor_comm, <- Z.lxor_assoc, Z.lxor_nilpotent. apply Z.lxor_0_l.
  - apply Z.bits_inj'. intros i Hi. rewrite Z.land_spec, Z.lxor_spec, Z.bits_0. destruct (Z.lt_ge_cases i 32).
    + rewrite Z.ones_spec_low by lia. destruct (Z.testbit x i); reflexivity.
    + replace x with (x mod 2 ^ 32) by (apply Z.mod_small; exact H). rewrite (Z.mod_pow2_bits_high x 32 i) by lia. apply andb_false_r.
Qed.

(** A signed residual folded to an unsigned number is recovered. *)
Theorem jxl_signed_recovered v : - 2 ^ 31 <= v < 2 ^ 31 -> is_u32 (packed_signed v) /\ unfold_signed (packed_signed v) = v.
Proof.
  intros H. unfold packed_signed, is_u32. destruct (Z.lt_ge_cases v 0) as [N|N].
  - replace (((- v - 1) mod 2 ^ 32 / 2 ^ 31 - 1) mod 2 ^ 32) with (2 ^ 32 - 1) by (clear - H N; lia).
    replace (2 * (v mod 2 ^ 32) mod 2 ^ 32) with (2 * v + 2 ^ 32) by (clear - H N; lia).
    rewrite lxor_ones by (clear - H N; lia). replace (2 ^ 32 - 1 - (2 * v + 2 ^ 32)) with (2 * (- v - 1) + 1) by lia.
    split; [clear - H N; lia|]. unfold unfold_signed. rewrite Z.even_add, Z.even_mul. cbn [Z.even orb Bool.eqb]. clear. lia.
  - replace (((- v - 1) mod 2 ^ 32 / 2 ^ 31 - 1) mod 2 ^ 32) with 0 by (clear - H N; lia).
    replace (2 * (v mod 2 ^ 32) mod 2 ^ 32) with (2 * v) by (clear - H N; lia). rewrite Z.lxor_0_r.
    split; [clear - H N; lia|]. unfold unfold_signed. rewrite Z.even_mul. cbn [Z.even orb]. clear. lia.
Qed.
Print Assumptions jxl_signed_recovered.
Example jxl_signed_case : packed_signed (-3) = 5 /\ packed_signed 7 = 14 /\ unfold_signed 5 = -3.
Proof. vm_compute. auto. Qed.
