(** Whole DEFLATE and zlib streams. *)
From Verif Require Import Base BaseProof Loops Slices Bits BitReaderSpec BitReaderModel BitReaderProof InflateSpec InflateModel MatchProof StoredProof HuffModel HuffSpec HuffCode HuffSortProof HuffTableProof HuffBuildProof HuffEntryProof HuffLoopProof HuffHeaderProof.

(** ** Positions only grow *)
Lemma lengths_mono pre src total n acc n' acc' : lengths pre src total n acc n' acc' -> n <= n'.
Proof. induction 1; lia. Qed.
Lemma dynamic_mono src n lit off m : dynamic src n lit off m -> n + 26 <= m.
Proof.
  intros (pre & _ & _ & _ & _ & L & _). apply lengths_mono in L. lia.
Qed.
Lemma block_mono budget src btype n out n' out' : block budget src btype n out n' out' -> 0 <= n -> n < n' /\ (length out <= length out')%nat.
Proof.
  intros B Hn0. destruct B as [n out p len Hp Hlen Hx Hy|n out n' out' H|n out lit off m n' out' D H].
  - rewrite app_length. split; [|lia]. subst p. clear -Hn0. lia.
  - now apply symbols_mono in H.
  - apply symbols_mono in H. apply dynamic_mono in D. lia.
Qed.
Lemma deflated_mono budget src n out n' out' : deflated budget src n out n' out' -> 0 <= n -> n + 3 < n' /\ (length out <= length out')%nat.
Proof.
  induction 1 as [n out btype n' out' Hb Ht B|n out btype m out1 n' out' Hb Ht B H IH]; intros Hn; apply block_mono in B; lia.
Qed.

(** ** A stored block at any bit position *)
Lemma stored_block_ok o data position d n out n' out' budget :
  bytes data -> (position <= length data)%nat -> let src := skipn position data in
  at_sym src d n out -> 53 <= r_left (d_r d) -> block budget src 0 n out n' out' -> n' + 32 <= 8 * Z.of_nat (length src) ->
  (length out <= o_limit o)%nat ->
  exists d', stored_block o data position d = Ok d' /\ at_sym src d' n' out' /\ d_tab d' = d_tab d.
Proof.
  intros Hb Hpos src A Hl B Hn' Hlim. destruct A as [R Sr Hdest Hlen Hout].
  assert (Hbs : bytes src) by (apply bytes_skipn'; exact Hb).
  assert (Lpos : (length src = length data - position)%nat) by (unfold src; apply skipn_length).
  inversion B as [n0 out0 p len Hp Elen Enlen Hfit|n0 out0 n0' out0' HF EF|n0 out0 lit off m n0' out0' DF HF EF]; subst n0 out0. subst n' out'.
  unfold stored_block. set (r := d_r d) in *. clearbody r.
  pose proof (rd_sum _ _ R) as RS. pose proof (rd_left _ _ R) as RL. pose proof (rd_n _ _ R) as Rn.
  assert (Hp8 : 8 * Z.of_nat p - 7 <= n <= 8 * Z.of_nat p /\ (8 * Z.of_nat p - n) = r_left r mod 8) by (clear -Hp RS Rn; subst p; lia).
  destruct Hp8 as [Hp8 Hpm]. clear Hp.
  rewrite (over_fine r n R) by (rewrite Sr; lia).
  assert (PB : Z.land (r_left r) 7 = 8 * Z.of_nat p - n).
  { change 7 with (2 ^ 3 - 1). rewrite land_low by lia. change (2 ^ 3) with 8. now rewrite Hpm. }
  rewrite PB. clear PB Hpm.
  destruct (drop_bits_ok r n (8 * Z.of_nat p - n) R) as (r4 & E4 & R4 & S4 & L4 & O4); [lia|]. rewrite E4. cbn [bind].
  replace (n + (8 * Z.of_nat p - n)) with (8 * Z.of_nat p) in R4 by lia.
  destruct (get_bits_ok r4 _ 16 R4) as (r5 & E5 & R5 & S5 & L5 & O5); [lia|]. rewrite E5. cbn [bind].
  destruct (get_bits_ok r5 _ 16 R5) as (r6 & E6 & R6 & S6 & L6 & O6); [lia|]. rewrite E6. cbn [bind].
  change (Z.to_nat 16) with 16%nat. rewrite S5, S4, Sr.
  pose proof (bits_from_bound src 16 (8 * Z.of_nat p)) as B16. change (2 ^ Z.of_nat 16) with 65536 in B16.
  rewrite Enlen. replace (bits_from src (8 * Z.of_nat p) 16 =? 65535 - (65535 - Z.of_nat len)) with true by (symmetry; apply Z.eqb_eq; lia).
  cbn [negb]. rewrite <- Elen.
  assert (O0 : r_over r6 = 0%nat).
  { rewrite O6, O5, O4. destruct (Nat.eq_dec (r_over r) 0) as [|C]; [assumption|exfalso]. pose proof (rd_over _ _ R ltac:(lia)) as RO. rewrite Sr in RO. clear -C RO RS RL Hn' Hp8. lia. }
  assert (P6 : r_pos r6 = (p + 4 + Z.to_nat (Z.shiftr (r_left r6) 3))%nat).
  { pose proof (rd_sum _ _ R6). pose proof (rd_left _ _ R6). rewrite Z.shiftr_div_pow2 by lia. change (2 ^ 3) with 8. rewrite O0 in *. clear -H H0. lia. }
  unfold get_position. rewrite P6, O0. set (back := Z.to_nat (Z.shiftr (r_left r6) 3)) in *. clearbody back.
  replace (p + 4 + back - back)%nat with (p + 4)%nat by lia.
  replace (length data <=? p + 4 + position + 0 + len - 1)%nat with false by (symmetry; apply Nat.leb_gt; clear -Hn' Lpos; lia).
  rewrite Hdest. replace (o_limit o <? length out)%nat with false by (symmetry; apply Nat.ltb_ge; lia).
  rewrite get_slice_ok by (clear -Hn' Lpos; lia). cbn [bind].
  assert (SL : slice data (p + 4 + position + 0) len = slice src (p + 4) len).
  { unfold slice, src. rewrite skipn_skipn'. f_equal. f_equal. lia. }
  rewrite SL. assert (LS : length (slice src (p + 4) len) = len) by (apply slice_length; lia).
  set (chunk := slice src (p + 4) len) in *.
  set (out1 := if (length (d_out d) <? length out + len + fastcopy)%nat
               then resize (d_out d) (length (d_out d) + resize_by + len) 0 else d_out d).
  assert (LO : (length out + len <= length out1)%nat /\ firstn (length out) out1 = out).
  { unfold out1, fastcopy, resize_by. destruct (Nat.ltb_spec (length (d_out d)) (length out + len + 16)).
    - rewrite resize_length. split; [clear -Hlen; lia|]. rewrite resize_grow by lia.
      rewrite firstn_app, Hout. replace (length out - length (d_out d))%nat with 0%nat by lia.
      cbn [firstn]. apply app_nil_r.
    - split; [lia|exact Hout]. }
  destruct LO as [LO1 LO2]. clearbody out1.
  rewrite put_slice_ok by lia. cbn [bind].
  replace (p + 4 + back <? back)%nat with false by (symmetry; apply Nat.ltb_ge; lia).
  eexists. split; [reflexivity|]. split; [|reflexivity]. unfold reset. cbn [r_src r_pos r_left r_buf r_over].
  assert (S6' : r_src r6 = src) by congruence.
  replace (len + (p + 4))%nat with (p + 4 + len)%nat by lia.
  constructor; cbn [d_r d_out d_dest r_src r_over].
  - rewrite S6'. apply rd_reset; [exact Hbs|lia].
  - exact S6'.
  - rewrite app_length. lia.
  - rewrite app_length, put_length by lia. lia.
  - apply put_done; [lia|exact LO2].
Qed.

(** ** The block loop *)
Lemma bits1 src n : bits_from src n 1 = Z.b2z (bit_at src n).
Proof. cbn [bits_from]. lia. Qed.

Lemma block_loop_ok o data position budget : bytes data -> (position <= length data)%nat -> budget <= 45 ->
  let src := skipn position data in forall n out n' out', deflated budget src n out n' out' -> forall fuel d,
  at_sym src d n out -> static_ok (d_tab d) -> n' + 32 <= 8 * Z.of_nat (length src) -> (length out' <= o_limit o)%nat -> n' - n <= Z.of_nat fuel ->
  exists d', block_loop (huff_block false o) o data position fuel d = Ok d' /\ at_sym src d' n' out'.
Proof.
  intros Hb Hpos Hbud src.
  assert (One : forall n out btype n' out' d, block budget src btype (n + 3) out n' out' -> btype = bits_from src (n + 1) 2 ->
    at_sym src d n out -> static_ok (d_tab d) -> n' + 32 <= 8 * Z.of_nat (length src) -> (length out' <= o_limit o)%nat ->
    exists d', at_sym src d' n' out' /\ static_ok (d_tab d') /\ forall A (K : Z -> dstate -> res A),
      (do r <- refill (d_r d) ;
       do (last, r) <- get_bits 1 r ;
       do (bt, r) <- get_bits 2 r ;
       let d := mkD r (d_out d) (d_dest d) (d_tab d) in
       do d <- (if bt =? 0 then stored_block o data position d
               else if bt =? 3 then Err ECorrupt
               else huff_block false o bt d) ; K last d) = K (Z.b2z (bit_at src n)) d').
  { intros n out btype n' out' d B Ht A St Hn Hl. pose proof (rd_n _ _ (as_rd _ _ _ _ A)) as N0.
    pose proof (block_mono _ _ _ _ _ _ _ B ltac:(lia)) as [_ Ml].
    destruct A as [R Sr Hdest Hlen Hout].
    destruct (rd_refill _ _ R) as (r1 & E1 & R1 & L1 & S1). 
    destruct (get_bits_ok r1 _ 1 R1) as (r2 & E2 & R2 & S2 & L2 & O2); [lia|].
    destruct (get_bits_ok r2 _ 2 R2) as (r3 & E3 & R3 & S3 & L3 & O3); [lia|].
    replace (n + 1 + 2) with (n + 3) in R3 by lia.
    assert (A3 : at_sym src (mkD r3 (d_out d) (d_dest d) (d_tab d)) (n + 3) out) by (constructor; cbn [d_r d_out d_dest]; auto; congruence).
    assert (Bt : btype = 0 \/ btype = 1 \/ btype = 2) by (inversion B; auto).
    assert (X : exists d', (if btype =? 0 then stored_block o data position (mkD r3 (d_out d) (d_dest d) (d_tab d))
               else if btype =? 3 then Err ECorrupt else huff_block false o btype (mkD r3 (d_out d) (d_dest d) (d_tab d))) = Ok d' /\
               at_sym src d' n' out' /\ static_ok (d_tab d')).
    { destruct (Z.eqb_spec btype 0) as [E0|E0].
      - clear Ht. subst btype. destruct (stored_block_ok o data position _ (n + 3) out n' out' budget Hb Hpos A3) as (d' & E & A' & T'); auto; [cbn [d_r]; lia|lia|].
        exists d'. split; [exact E|]. split; [exact A'|]. rewrite T'. exact St.
      - replace (btype =? 3) with false by lia.
        destruct (huff_block_ok o src budget btype _ (n + 3) out n' out' A3) as (d' & E & A' & T'); auto; [cbn [d_r]; lia|lia|lia|].
        exists d'. auto. }
    destruct X as (d' & E & A' & T'). exists d'. split; [exact A'|]. split; [exact T'|]. intros T K.
    rewrite E1. cbn [bind]. rewrite E2. cbn [bind]. rewrite E3. cbn [bind].
    replace (r_src r2) with src by congruence. replace (r_src r1) with src by congruence.
    change (Z.to_nat 2) with 2%nat. change (Z.to_nat 1) with 1%nat. rewrite <- Ht. rewrite E. cbn [bind]. now rewrite bits1. }
  induction 1 as [n out btype n' out' Hbit Ht B|n out btype m out1 n' out' Hbit Ht B H IH]; intros fuel d A St Hn Hl Hf.
  - pose proof (block_mono _ _ _ _ _ _ _ B ltac:(pose proof (rd_n _ _ (as_rd _ _ _ _ A)); lia)) as [Mn Ml].
    destruct fuel as [|f]; [exfalso; lia|]. cbn [block_loop].
    destruct (One n out btype n' out' d B Ht A St Hn Hl) as (d' & A' & T' & EQ). rewrite EQ. rewrite Hbit. exists d'. auto.
  - pose proof (rd_n _ _ (as_rd _ _ _ _ A)) as N0.
    pose proof (block_mono _ _ _ _ _ _ _ B ltac:(lia)) as [Mn Ml].
    pose proof (deflated_mono _ _ _ _ _ _ H ltac:(lia)) as [Mn2 Ml2].
    destruct fuel as [|f]; [exfalso; lia|]. cbn [block_loop].
    destruct (One n out btype m out1 d B Ht A St ltac:(lia) ltac:(lia)) as (d' & A' & T' & EQ). rewrite EQ. rewrite Hbit. cbn [Z.b2z Z.eqb].
    apply (IH f d' A' T' Hn Hl). lia.
Qed.

(** [decode_deflate] on a stream followed by at least four more bytes. *)
Lemma decode_deflate_ok o data position budget n' out' : bytes data -> (position <= length data)%nat -> budget <= 45 ->
  let src := skipn position data in deflated budget src 0 [] n' out' -> n' + 32 <= 8 * Z.of_nat (length src) -> (length out' <= o_limit o)%nat ->
  exists r, decode_deflate (huff_block false o) o data position = Ok (out', r) /\ rd r n' /\ r_src r = src.
Proof.
  intros Hb Hpos Hbud src D Hn Hl. unfold decode_deflate. replace (length data <? position)%nat with false by lia.
  assert (Hbs : bytes src) by (apply bytes_skipn'; exact Hb). fold src.
  destruct (rd_refill _ _ (rd_new _ Hbs)) as (r1 & E1 & R1 & L1 & S1). rewrite E1. cbn [bind].
  assert (Lpos : (length src = length data - position)%nat) by (unfold src; apply skipn_length).
  destruct (block_loop_ok o data position budget Hb Hpos Hbud 0 [] n' out' D (8 * length data + 100) (mkD r1 (repeat 0 (o_size_hint o)) 0 no_tables)) as (d' & E & A'); auto.
  - constructor; cbn [d_r d_out d_dest length]; auto. lia.
  - intros C. discriminate.
  - fold src. lia.
  - rewrite E. cbn [bind]. exists (d_r d'). destruct A' as [R Sr Hd Hlen Hout]. rewrite Hd, Hout. auto.
Qed.

(** ** Bytes after the stream do not matter *)
Section Prefix.
Variables (bs tail : list Z).
Let src := bs ++ tail.
Notation N := (8 * Z.of_nat (length bs)).

Lemma bit_at_prefix i : 0 <= i < N -> bit_at src i = bit_at bs i.
Proof. intros H. unfold bit_at, src. rewrite app_nth1 by lia. reflexivity. Qed.
Lemma bits_prefix_src k : forall n, 0 <= n -> n + Z.of_nat k <= N -> bits_from src n k = bits_from bs n k.
Proof. induction k as [|k IH]; intros n H1 H2; cbn [bits_from]; [reflexivity|]. rewrite bit_at_prefix, IH by lia. reflexivity. Qed.
Lemma msb_prefix_src l : forall n, 0 <= n -> n + Z.of_nat l <= N -> msb_from src n l = msb_from bs n l.
Proof. induction l as [|l IH]; intros n H1 H2; cbn [msb_from]; [reflexivity|]. rewrite bit_at_prefix, IH by lia. reflexivity. Qed.
Lemma symbol_at_prefix ls n s l : 0 <= n -> n + Z.of_nat l <= N -> symbol_at ls bs n s l -> symbol_at ls src n s l.
Proof. intros H1 H2 (A & B & C & D). repeat split; auto. now rewrite msb_prefix_src. Qed.

Lemma symbols_prefix budget lit off n out n' out' : symbols budget lit off bs n out n' out' -> 0 <= n -> n' <= N -> symbols budget lit off src n out n' out'.
Proof.
  induction 1 as [n out l S|n out s l n' out' S Hs H IH|n out s l base ex t l2 base2 ex2 len dist m n' out' S Hs E Hlen S2 E2 Hd Hd2 Hm Hb H IH]; intros Hn Hn'.
  - apply sym_end. now apply symbol_at_prefix.
  - pose proof (symbols_mono _ _ _ _ _ _ _ _ H) as [M _]. apply sym_literal with (s := s) (l := l); [apply symbol_at_prefix; [exact Hn|lia|exact S]|exact Hs|]. apply IH; lia.
  - pose proof (symbols_mono _ _ _ _ _ _ _ _ H) as [M _].
    destruct (len_entry s 1 base ex Hs E ltac:(lia)) as (_ & _ & X & _). destruct (off_entry t 1 base2 ex2 E2 ltac:(lia)) as (_ & _ & X2).
    apply sym_match with (s := s) (l := l) (base := base) (ex := ex) (t := t) (l2 := l2) (base2 := base2) (ex2 := ex2) (len := len) (dist := dist) (m := m);
      [apply symbol_at_prefix; [exact Hn|lia|exact S]|exact Hs|exact E| |apply symbol_at_prefix; [lia|lia|exact S2]|exact E2| |exact Hd2|exact Hm|exact Hb|apply IH; lia].
    + rewrite bits_prefix_src by lia. exact Hlen.
    + rewrite bits_prefix_src by lia. exact Hd.
Qed.
Lemma lengths_prefix pre total n acc n' acc' : lengths pre bs total n acc n' acc' -> 0 <= n -> n' <= N -> lengths pre src total n acc n' acc'.
Proof.
  induction 1 as [n acc Hacc|n acc s l n' acc' S Hs Ha H IH|n acc x l k n' acc' S Hk Ha H IH|n acc l k n' acc' S Hk Ha H IH|n acc l k n' acc' S Hk Ha H IH];
    intros Hn Hn'; [now apply len_done|pose proof (lengths_mono _ _ _ _ _ _ _ H) as M..].
  - apply len_one with (s := s) (l := l); [apply symbol_at_prefix; [exact Hn|lia|exact S]|exact Hs|exact Ha|apply IH; lia].
  - apply len_again with (l := l) (k := k); [apply symbol_at_prefix; [exact Hn|lia|exact S]|rewrite bits_prefix_src by lia; exact Hk|exact Ha|apply IH; lia].
  - apply len_zeros with (l := l) (k := k); [apply symbol_at_prefix; [exact Hn|lia|exact S]|rewrite bits_prefix_src by lia; exact Hk|exact Ha|apply IH; lia].
  - apply len_many with (l := l) (k := k); [apply symbol_at_prefix; [exact Hn|lia|exact S]|rewrite bits_prefix_src by lia; exact Hk|exact Ha|apply IH; lia].
Qed.
Lemma dynamic_prefix n lit off m : dynamic bs n lit off m -> 0 <= n -> m <= N -> dynamic src n lit off m.
Proof.
  intros D Hn Hm. pose proof (dynamic_mono _ _ _ _ _ D) as M. unfold dynamic in *. cbv zeta in *.
  rewrite !bits_prefix_src by lia.
  set (hl := bits_from bs n 5) in *. set (hd := bits_from bs (n + 5) 5) in *. set (hc := bits_from bs (n + 10) 4) in *.
  destruct D as (pre & (P1 & P2) & C & L1 & L2 & L & C1 & C2). exists pre. pose proof (lengths_mono _ _ _ _ _ _ _ L) as M2.
  split; [split; [exact P1|]|]. 
  - intros i Hi. rewrite P2 by exact Hi. destruct (Nat.ltb_spec i (4 + Z.to_nat hc)) as [H|H]; [|reflexivity]. symmetry. apply bits_prefix_src; [lia|]. clear -H M2 Hm. lia.
  - split; [exact C|]. split; [exact L1|]. split; [exact L2|]. split; [|auto]. apply lengths_prefix; auto. lia.
Qed.
Lemma block_prefix budget btype n out n' out' : block budget bs btype n out n' out' -> 0 <= n -> n' <= N -> block budget src btype n out n' out'.
Proof.
  intros B Hn Hn'. destruct B as [n out p len Hp Hlen Hx Hy|n out n' out' H|n out lit off m n' out' D H].
  - replace (slice bs (p + 4) len) with (slice src (p + 4) len).
    + apply block_stored; [exact Hp| | |].
      * rewrite bits_prefix_src by lia. exact Hlen.
      * rewrite bits_prefix_src by lia. exact Hx.
      * unfold src. rewrite app_length. lia.
    + unfold slice, src. rewrite skipn_app. replace (p + 4 - length bs)%nat with 0%nat by lia. cbn [skipn]. rewrite firstn_app, skipn_length.
      replace (len - (length bs - (p + 4)))%nat with 0%nat by lia. cbn [firstn]. apply app_nil_r.
  - apply block_fixed. now apply symbols_prefix.
  - pose proof (symbols_mono _ _ _ _ _ _ _ _ H) as [M _]. pose proof (dynamic_mono _ _ _ _ _ D). eapply block_dynamic; [apply dynamic_prefix; [exact D|exact Hn|lia]|]. apply symbols_prefix; [exact H|lia|exact Hn'].
Qed.
Lemma deflated_prefix budget n out n' out' : deflated budget bs n out n' out' -> 0 <= n -> n' <= N -> deflated budget src n out n' out'.
Proof.
  induction 1 as [n out btype n' out' Hbit Ht B|n out btype m out1 n' out' Hbit Ht B H IH]; intros Hn Hn'.
  - pose proof (block_mono _ _ _ _ _ _ _ B ltac:(lia)) as [Mn Ml]. eapply deflated_last.
    + rewrite bit_at_prefix by lia. exact Hbit.
    + rewrite bits_prefix_src by lia. exact Ht.
    + apply block_prefix; [exact B|lia|exact Hn'].
  - pose proof (block_mono _ _ _ _ _ _ _ B ltac:(lia)) as [Mn Ml]. pose proof (deflated_mono _ _ _ _ _ _ H ltac:(lia)) as [Mn2 _]. eapply deflated_more.
    + rewrite bit_at_prefix by lia. exact Hbit.
    + rewrite bits_prefix_src by lia. exact Ht.
    + apply block_prefix; [exact B|lia|lia].
    + apply IH; lia.
Qed.
End Prefix.

(** ** zlib streams *)

(** The shortest stream: one empty block of the fixed code. *)
Lemma fixed_lit_len s : (s < 288)%nat -> 7 <= nth s fixed_lit 0 /\ ((s < 256)%nat -> 8 <= nth s fixed_lit 0).
Proof.
  intros H. assert (C : upto (fun s => (7 <=? nth s fixed_lit 0) && ((256 <=? s)%nat || (8 <=? nth s fixed_lit 0))) 288 = true) by (vm_compute; reflexivity).
  pose proof (upto_ok _ _ C s H) as X. cbn beta in X. apply andb_true_iff in X as [X1 X2]. apply Z.leb_le in X1. split; [exact X1|].
  intros Hs. apply orb_true_iff in X2 as [X2|X2]; [apply Nat.leb_le in X2; lia|now apply Z.leb_le in X2].
Qed.
Lemma fixed_symbol budget src n out n' out' : symbols budget fixed_lit fixed_off src n out n' out' -> n + 7 <= n'.
Proof.
  assert (G : forall n s l, symbol_at fixed_lit src n s l -> 7 <= Z.of_nat l).
  { intros m s l (A & B & C & D). change (length fixed_lit) with 288%nat in A. destruct (fixed_lit_len s A) as [X _]. lia. }
  intros H. destruct H as [n out l S|n out s l n' out' S Hs H|n out s l base ex t l2 base2 ex2 len dist m n' out' S Hs E Hlen S2 E2 Hd Hd2 Hm Hb H].
  - apply G in S. lia.
  - apply G in S. apply symbols_mono in H. lia.
  - apply G in S. apply symbols_mono in H. destruct (len_entry s 1 base ex Hs E ltac:(lia)) as (_ & _ & X & _). destruct (off_entry t 1 base2 ex2 E2 ltac:(lia)) as (_ & _ & X2). lia.
Qed.
Lemma msb_zero src l : forall n, msb_from src n l = 0 -> bits_from src n l = 0.
Proof.
  assert (P : forall k m, 0 <= msb_from src m k).
  { induction k as [|k IH]; intros m; cbn [msb_from]; [lia|]. specialize (IH m). destruct (bit_at src (m + Z.of_nat k)); cbn [Z.b2z]; lia. }
  assert (Q : forall k m, msb_from src m k = 0 -> forall i, (i < k)%nat -> bit_at src (m + Z.of_nat i) = false).
  { induction k as [|k IH]; intros m H i Hi; [lia|]. cbn [msb_from] in H. specialize (P k m).
    destruct (bit_at src (m + Z.of_nat k)) eqn:E; cbn [Z.b2z] in H; [lia|]. destruct (Nat.eq_dec i k) as [->|]; [exact E|]. apply IH; lia. }
  intros n H. specialize (Q l n H). clear P H. revert n Q. induction l as [|l IH]; intros n Q; cbn [bits_from]; [reflexivity|].
  pose proof (Q 0%nat ltac:(lia)) as Q0. rewrite Z.add_0_r in Q0. rewrite Q0. cbn [Z.b2z].
  rewrite IH; [reflexivity|]. intros i Hi. replace (n + 1 + Z.of_nat i) with (n + Z.of_nat (S i)) by lia. apply Q. lia.
Qed.

Lemma block_long budget src btype n out n' out' : block budget src btype n out n' out' -> 0 <= n -> n + 7 <= n'.
Proof.
  intros B Hn0. destruct B as [n out p len Hp Hlen Hx Hy|n out n' out' H|n out lit off m n' out' D H].
  - subst p. clear -Hn0. lia.
  - now apply fixed_symbol in H.
  - apply symbols_mono in H. apply dynamic_mono in D. lia.
Qed.

Lemma tiny_symbols budget src n n' out' : 0 <= n -> symbols budget fixed_lit fixed_off src n [] n' out' -> n' <= n + 13 -> n' = n + 7 /\ out' = [] /\ bits_from src n 7 = 0.
Proof.
  intros Hn H. remember [] as o0 eqn:Eo. destruct H as [n out l S|n out s l n' out' S Hs H|n out s l base ex t l2 base2 ex2 len dist m n' out' S Hs E Hlen S2 E2 Hd Hd2 Hm Hb H]; subst out; intros Hn'.
  - destruct S as (A & B1 & C & S). change (nth 256 fixed_lit 0) with 7 in B1. assert (El : l = 7%nat) by lia. clear B1 C A. subst l.
    split; [reflexivity|]. split; [reflexivity|]. change (codeword fixed_lit 256) with 0 in S. now apply msb_zero in S.
  - exfalso. apply fixed_symbol in H. destruct S as (A & B1 & C & S). destruct (fixed_lit_len s) as [_ X]; [exact A|]. specialize (X Hs). lia.
  - exfalso. cbn [length] in Hd2. destruct (off_entry t 1 base2 ex2 E2 ltac:(lia)) as (_ & X1 & X2).
    pose proof (bits_from_bound src (Z.to_nat ex2) (n + Z.of_nat l + ex + Z.of_nat l2)). lia.
Qed.
Lemma tiny_block budget src btype n n' out' : 0 <= n -> block budget src btype n [] n' out' -> n' <= n + 13 -> btype = 1 /\ n' = n + 7 /\ out' = [] /\ bits_from src n 7 = 0.
Proof.
  intros Hn B. remember [] as o0 eqn:Eo. destruct B as [n out p len Hp Hlen Hx Hy|n out n' out' H|n out lit off m n' out' D H]; subst out; intros Hn'.
  - exfalso. subst p. clear -Hn Hn'. lia.
  - split; [reflexivity|]. now apply tiny_symbols in H.
  - exfalso. apply symbols_mono in H. apply dynamic_mono in D. lia.
Qed.
Lemma deflated_long budget src n out n' out' : deflated budget src n out n' out' -> 0 <= n -> n + 10 <= n'.
Proof.
  induction 1 as [n out btype n' out' Hb Ht B|n out btype m out1 n' out' Hb Ht B H IH]; intros Hn; apply block_long in B; lia.
Qed.
Lemma tiny_stream budget src n' out' : deflated budget src 0 [] n' out' -> n' <= 16 -> n' = 10 /\ out' = [] /\ bits_from src 0 10 = 3.
Proof.
  intros D Hn. remember [] as o0 eqn:Eo. remember 0 as n0 eqn:En. destruct D as [n out btype n' out' Hbit Ht B|n out btype m out1 n' out' Hbit Ht B H].
  - subst out n. destruct (tiny_block _ src btype (0 + 3) n' out' ltac:(lia) B ltac:(lia)) as (-> & -> & -> & Z7). split; [reflexivity|]. split; [reflexivity|].
    assert (X : bits_from src 0 10 = bits_from src 0 1 + 2 * bits_from src 1 2 + 8 * bits_from src 3 7).
    { cbn [bits_from]. change (0 + 1 + 1 + 1) with 3. change (0 + 1 + 1) with 2. change (0 + 1) with 1. change (1 + 1) with 2. change (2 + 1) with 3. lia. }
    change (0 + 3) with 3 in Z7. change (0 + 1) with 1 in Ht. rewrite X, Z7, <- Ht, bits1, Hbit. reflexivity.
  - exfalso. subst n out. apply block_long in B; [|lia]. apply deflated_long in H; lia.
Qed.

Lemma tiny_decode o cmf flg i : (i < 64)%nat ->
  exists r, decode_deflate (huff_block false o) o (cmf :: flg :: [3; 4 * Z.of_nat i] ++ [0; 0; 0; 1]) 2 = Ok ([], r) /\ (get_position r + r_over r = 2)%nat.
Proof.
  intros H. assert (C : Forall (fun i => exists r, decode_deflate (huff_block false o) o (cmf :: flg :: [3; 4 * Z.of_nat i] ++ [0; 0; 0; 1]) 2 = Ok ([], r) /\ (get_position r + r_over r = 2)%nat) (seq 0 64)).
  { cbn [seq]. repeat (constructor; [eexists; split; vm_compute; reflexivity|]). constructor. }
  rewrite Forall_forall in C. apply C, in_seq. lia.
Qed.

Lemma decode_zlib_ok o budget cmf flg bs tail out : zlib_header_ok cmf flg -> budget <= 45 -> deflate_stream budget bs out -> bytes tail ->
  (length out <= o_limit o)%nat ->
  decode_zlib (huff_block false o) o (cmf :: flg :: bs ++ be_bytes 4 (adler32 out) ++ tail) = Ok out.
Proof.
  intros (Bc & Bf & H8 & H7 & H31) Hbud (Hb & n' & D & Ln) Htl Hlim.
  set (data := cmf :: flg :: bs ++ be_bytes 4 (adler32 out) ++ tail).
  assert (Ld : (length data = 2 + (length bs + (4 + length tail)))%nat).
  { unfold data. cbn [length]. rewrite !app_length, be_bytes_length. lia. }
  assert (Hd : bytes data).
  { unfold data. constructor; [exact Bc|]. constructor; [exact Bf|].
    apply bytes_app. split; [exact Hb|]. apply bytes_app. split; [apply be_bytes_bytes|exact Htl]. }
  pose proof (deflated_mono _ _ _ _ _ _ D ltac:(lia)) as [Mn _].
  unfold decode_zlib. replace (length data <? 6)%nat with false by (symmetry; apply Nat.ltb_ge; lia).
  change (getz data 0) with cmf. change (getz data 1) with flg.
  change 15 with (2 ^ 4 - 1). rewrite land_low by lia. change (2 ^ 4) with 16. rewrite H8. change (negb (8 =? 8)) with false. cbn iota.
  rewrite Z.shiftr_div_pow2 by lia. change (2 ^ 4) with 16. replace (7 <? cmf / 16) with false by (symmetry; apply Z.ltb_ge; exact H7).
  rewrite H31. change (negb (0 =? 0)) with false. cbn iota.
  assert (Hs : skipn 2 data = bs ++ be_bytes 4 (adler32 out) ++ tail) by reflexivity.
  assert (X : exists r, decode_deflate (huff_block false o) o data 2 = Ok (out, r) /\ (get_position r + r_over r = length bs)%nat).
  { destruct (Nat.le_gt_cases 7 (length bs + (4 + length tail))) as [H7'|H7'].
    - destruct (decode_deflate_ok o data 2 budget n' out Hd ltac:(lia) Hbud) as (r & E & R & Sr).
      + rewrite Hs. apply deflated_prefix; [exact D|lia|]. lia.
      + rewrite Hs, app_length, app_length, be_bytes_length. lia.
      + exact Hlim.
      + exists r. split; [exact E|]. rewrite Hs in Sr.
        assert (Lsrc : length (r_src r) = (length bs + (4 + length tail))%nat) by (rewrite Sr, !app_length, be_bytes_length; lia).
        destruct R as [_ Rn Rl _ Rp Rs Ro _ _]. unfold get_position. rewrite Z.shiftr_div_pow2 by lia. change (2 ^ 3) with 8.
        destruct (Nat.eq_dec (r_over r) 0) as [O|O].
        * rewrite O in *. clear -Ln Rn Rl Rs. lia.
        * specialize (Ro ltac:(lia)). rewrite Ro, Lsrc in *. clear -Ln Rn Rl Rs H7'. lia.
    - destruct (tiny_stream _ _ _ _ D ltac:(lia)) as (-> & -> & B).
      assert (Lb : length bs = 2%nat) by (clear -Ln; lia). assert (Lt : tail = []) by (destruct tail; [reflexivity|cbn [length] in H7'; lia]).
      destruct bs as [|b0 [|b1 [|]]]; try discriminate Lb. subst tail.
      rewrite bits_from_val in B by (auto; lia). cbn [le_val] in B. change (2 ^ Z.of_nat 10) with 1024 in B. change (2 ^ 0) with 1 in B. rewrite Z.div_1_r in B.
      inversion Hb as [|? ? B0 Hb1]; subst. inversion Hb1 as [|? ? B1 _]; subst. unfold is_byte in B0, B1.
      assert (E0 : b0 = 3) by (clear -B B0 B1; lia). assert (E1 : b1 = 4 * Z.of_nat (Z.to_nat (b1 / 4))) by (clear -B B0 B1; lia).
      destruct (tiny_decode o cmf flg (Z.to_nat (b1 / 4)) ltac:(clear -B1; lia)) as (r & E & P). exists r.
      split; [|exact P]. unfold data. rewrite E0, E1. exact E. }
  destruct X as (r & E & P). rewrite E. cbn [bind]. destruct (o_confirm o); [|reflexivity].
  replace (get_position r + 2 + r_over r)%nat with (2 + length bs)%nat by lia.
  replace (2 + length bs + 4 <=? length data)%nat with true by (symmetry; apply Nat.leb_le; lia).
  assert (SL : slice data (2 + length bs) 4 = be_bytes 4 (adler32 out)).
  { change data with ((cmf :: flg :: bs) ++ be_bytes 4 (adler32 out) ++ tail).
    rewrite slice_app_r by (cbn [length]; lia).
    apply firstn_app_exact, be_bytes_length. }
  rewrite SL, be_val_be_bytes by (apply adler_bound). now rewrite Z.eqb_refl.
Qed.
