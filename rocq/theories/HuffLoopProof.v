(** The two decoding loops follow the symbols of a block. *)
From Verif Require Import Base BaseProof Loops Slices Bits BitReaderSpec BitReaderModel BitReaderProof InflateSpec InflateModel MatchProof InflateProps HuffModel HuffSpec HuffCode HuffTableProof HuffBuildProof HuffEntryProof.

(** ** Symbols in general *)

Lemma symbols_mono budget lit off src n out n' out' : symbols budget lit off src n out n' out' ->
  n < n' /\ (length out <= length out')%nat.
Proof.
  induction 1 as [n out l S|n out s l n' out' S Hs H IH|n out s l base ex t l2 base2 ex2 len dist m n' out' S Hs E Hlen S2 E2 Hd Hd2 Hm Hb H IH].
  - destruct S as (_ & _ & S & _). lia.
  - destruct S as (_ & _ & S & _). rewrite app_length in IH. cbn [length] in IH. lia.
  - destruct S as (_ & _ & S & _). destruct S2 as (_ & _ & S2 & _).
    rewrite lz_copy_length in IH.
    destruct (len_entry s 1 base ex Hs E ltac:(lia)) as (_ & _ & X & _).
    destruct (off_entry t 1 base2 ex2 E2 ltac:(lia)) as (_ & _ & X2). lia.
Qed.

Lemma get_zn t p : (Z.to_nat p < length t)%nat -> get_at t (Z.to_nat p) = Ok (zn t p).
Proof. intros H. unfold zn. now apply get_at_ok. Qed.

Lemma over_fine r n : rd r n -> n <= 8 * Z.of_nat (length (r_src r)) -> over_consumed r = false.
Proof.
  intros [] H. unfold over_consumed. rewrite Z.shiftr_div_pow2 by lia. change (2 ^ 3) with 8.
  destruct (Nat.eq_dec (r_over r) 0) as [E|E]; [rewrite E; apply Nat.ltb_ge; lia|].
  specialize (rd_over ltac:(lia)). apply Nat.ltb_ge. rewrite rd_over in rd_sum. lia.
Qed.

Lemma lit_enough : Z.of_nat litlen_enough = 2342. Proof. reflexivity. Qed.
Lemma off_enough : Z.of_nat offset_enough = 512. Proof. reflexivity. Qed.
Global Opaque litlen_enough offset_enough.

(** ** Looking up a distance *)
Section Pick.
Variables (pk : Z -> reader -> res Z) (dr : Z -> reader -> res reader).
Hypothesis Hpk : forall r n k, rd r n -> 0 <= k <= r_left r -> pk k r = Ok (bits_from (r_src r) n (Z.to_nat k)).
Hypothesis Hdr : forall r n k, rd r n -> 0 <= k <= r_left r ->
  exists r', dr k r = Ok r' /\ rd r' (n + k) /\ r_src r' = r_src r /\ r_left r' = r_left r - k.

Lemma off_pick offl off r n t l2 base2 ex2 :
  table_ok offset_results offl 8 offset_enough off -> rd r n -> 15 <= r_left r ->
  symbol_at offl (r_src r) n t l2 -> nth_error rfc_distances t = Some (base2, ex2) ->
  exists k r1 e, (1 <= k <= l2)%nat /\ (l2 <= 15)%nat /\ rd r1 (n + Z.of_nat (l2 - k)) /\ r_src r1 = r_src r /\
    r_left r1 = r_left r - Z.of_nat (l2 - k) /\ value_entry e k base2 ex2 /\
    forall A (K : Z * reader -> res A),
      (do p <- pk 8 r ; do entry <- get_at off (Z.to_nat p) ;
       do er <- (if flag entry huff_exceptional then
              do r <- dr 8 r ;
              do extra <- pk (Z.land (Z.shiftr entry 8) 63) r ;
              do entry <- get_at off (Z.to_nat (Z.land (Z.shiftr entry 16 + extra) 511)) ;
              Ok (entry, r)
            else Ok (entry, r)) ; K er) = K (e, r1).
Proof.
  intros (Lo & T) R Hl S E.
  destruct (T _ _ _ _ S) as [T1 T2].
  pose proof (bits_from_bound (r_src r) 8 n) as B. change (2 ^ Z.of_nat 8) with 256 in B.
  pose proof off_enough as OE.
  assert (G : get_at off (Z.to_nat (bits_from (r_src r) n 8)) = Ok (zn off (bits_from (r_src r) n 8))) by (apply get_zn; lia).
  destruct S as (_ & _ & Sl & _).
  destruct (le_lt_dec l2 8) as [Hs|Hs].
  - specialize (T1 Hs). destruct (off_entry t l2 base2 ex2 E ltac:(lia)) as (V & _).
    exists l2, r, (entry offset_results t l2). rewrite Nat.sub_diag, Z.add_0_r, Z.sub_0_r.
    repeat (split; [first [exact R|exact V|reflexivity|lia]|]).
    intros A K. rewrite (Hpk r n 8 R) by lia. cbn [bind]. change (Z.to_nat 8) with 8%nat. rewrite G. cbn [bind].
    rewrite T1, (ve_exceptional _ _ _ _ V). reflexivity.
  - destruct (T2 Hs) as (st & b & P1 & P2 & P3 & P4 & P5).
    assert (P2' : (256 <= st)%nat) by (change 256%nat with (2 ^ 8)%nat; exact P2). clear P2.
    assert (P3' : Z.of_nat st + 2 ^ Z.of_nat b <= 512) by (rewrite <- OE, <- pow_nat; clear -P3; lia). clear P3.
    destruct (off_entry t (l2 - 8) base2 ex2 E ltac:(lia)) as (V & _).
    pose proof (bits_from_bound (r_src r) b (n + Z.of_nat 8)) as Bb.
    assert (Pp : 0 < 2 ^ Z.of_nat b) by (apply Z.pow_pos_nonneg; lia).
    destruct (ptr_entry 8 st b ltac:(auto) ltac:(lia) ltac:(lia)) as [I1 I2 I3 I4 I5 I6 I7].
    destruct (Hdr r n 8 R ltac:(lia)) as (r1 & D1 & R1 & Sr & Lr).
    exists (l2 - 8)%nat, r1, (entry offset_results t (l2 - 8)).
    replace (l2 - (l2 - 8))%nat with 8%nat by lia.
    repeat (split; [first [exact R1|exact V|exact Sr|lia]|]).
    intros A K. rewrite (Hpk r n 8 R) by lia. cbn [bind]. change (Z.to_nat 8) with 8%nat. rewrite G. cbn [bind].
    rewrite P1, I2, D1. cbn [bind]. rewrite I6, I7.
    rewrite (Hpk r1 (n + 8) (Z.of_nat b) R1) by lia. cbn [bind]. rewrite Nat2Z.id, Sr.
    change 511 with (2 ^ 9 - 1).
    replace (Z.land (Z.of_nat st + bits_from (r_src r) (n + 8) b) (2 ^ 9 - 1)) with (Z.of_nat st + bits_from (r_src r) (n + 8) b).
    2: { rewrite land_low by lia. change (Z.of_nat 8) with 8 in Bb. symmetry. apply Z.mod_small. change (2 ^ 9) with 512. lia. }
    change (Z.of_nat 8) with 8 in *. rewrite get_zn by lia. cbn [bind]. rewrite P5. reflexivity.
Qed.
End Pick.

Lemma drop_bits_ok' r n k : rd r n -> 0 <= k <= r_left r ->
  exists r', drop_bits k r = Ok r' /\ rd r' (n + k) /\ r_src r' = r_src r /\ r_left r' = r_left r - k.
Proof. intros A B. destruct (drop_bits_ok r n k A B) as (x & ? & ? & ? & ? & _). exists x. auto. Qed.

(** ** Decoder states between two symbols *)
Section Loop.
Variables (o : inflate_options) (budget : Z).
Variables (litl offl : list Z) (lit off : list Z) (src : list Z).
Hypothesis Tlit : table_ok litlen_results litl 11 litlen_enough lit.
Hypothesis Toff : table_ok offset_results offl 8 offset_enough off.

Record at_sym (d : dstate) (n : Z) (out : list Z) : Prop := {
  as_rd : rd (d_r d) n;
  as_src : r_src (d_r d) = src;
  as_dest : d_dest d = length out;
  as_len : (length out <= length (d_out d))%nat;
  as_out : firstn (length out) (d_out d) = out
}.

Lemma lit_length : Z.of_nat (length lit) = 2342.
Proof. destruct Tlit as [E _]. rewrite E. apply lit_enough. Qed.
Lemma lit_get n : get_at lit (Z.to_nat (bits_from src n 11)) = Ok (zn lit (bits_from src n 11)).
Proof.
  apply get_zn. pose proof (bits_from_bound src 11 n) as B. change (2 ^ Z.of_nat 11) with 2048 in B. pose proof lit_length. lia.
Qed.

(** What a symbol's table entries have in common. *)
Definition sym_kind (s : nat) (ex : Z) : Prop := 0 <= ex <= 5 /\
  forall k, (1 <= k < 16)%nat -> let e := entry litlen_results s k in flag e huff_pointer = false /\ u8 e = Z.of_nat k + ex.

Lemma kind_literal s : (s < 256)%nat -> sym_kind s 0.
Proof. intros H. split; [lia|]. intros k Hk. destruct (lit_entry s k H ltac:(lia)) as (A & B & C & D & E). cbv zeta. split; [exact C|lia]. Qed.
Lemma kind_end : sym_kind 256 0.
Proof. split; [lia|]. intros k Hk. destruct (end_entry k ltac:(lia)) as (A & B & C & D & E). cbv zeta. split; [exact C|lia]. Qed.
Lemma kind_length s base ex : (257 <= s)%nat -> nth_error rfc_lengths (s - 257) = Some (base, ex) -> sym_kind s ex.
Proof.
  intros H E. split; [now apply (len_entry s 1 base ex H E ltac:(lia))|]. intros k Hk. destruct (len_entry s k base ex H E ltac:(lia)) as (V & _).
  split; [apply (ve_pointer _ _ _ _ V)|apply (ve_bits _ _ _ _ V)].
Qed.

Lemma sub_lookup n s l : symbol_at litl src n s l -> (11 < l)%nat ->
  exists st b, is_pointer (zn lit (bits_from src n 11)) 11 st b /\ (l <= 11 + b <= 15)%nat /\
    Z.of_nat st + bits_from src (n + 11) b < 2342 /\
    zn lit (Z.of_nat st + bits_from src (n + 11) b) = entry litlen_results s (l - 11).
Proof.
  intros S Hl. destruct Tlit as [_ T]. destruct (T _ _ _ _ S) as [_ T2]. destruct (T2 Hl) as (st & b & P1 & P2 & P3 & P4 & P5).
  pose proof lit_enough as LE.
  assert (P3' : Z.of_nat st + 2 ^ Z.of_nat b <= 2342) by (rewrite <- LE, <- pow_nat; clear -P3; lia). clear P3.
  pose proof (bits_from_bound src b (n + 11)) as Bb.
  exists st, b. rewrite P1. split; [apply ptr_entry; [auto|lia|lia]|]. split; [exact P4|]. split; [lia|exact P5].
Qed.
Lemma sym_15 n s l : symbol_at litl src n s l -> (1 <= l <= 15)%nat.
Proof.
  intros S. assert (S' := S). destruct S' as (_ & _ & Sl & _). split; [exact Sl|].
  destruct (le_lt_dec l 11) as [H|H]; [lia|]. destruct (sub_lookup n s l S H) as (st & b & _ & P & _). lia.
Qed.
Lemma direct_lookup n s l : symbol_at litl src n s l -> (l <= 11)%nat -> zn lit (bits_from src n 11) = entry litlen_results s l.
Proof. intros S Hl. destruct Tlit as [_ T]. destruct (T _ _ _ _ S) as [T1 _]. auto. Qed.

Lemma slow_pick r n s l ex : rd r n -> r_src r = src -> 20 <= r_left r -> symbol_at litl src n s l -> sym_kind s ex ->
  exists k r1 r2, (1 <= k <= l)%nat /\ rd r1 (n + Z.of_nat (l - k)) /\ r_src r1 = src /\
    Z.of_nat k + ex <= r_left r1 /\ rd r2 (n + Z.of_nat l + ex) /\ r_src r2 = src /\
    forall A (K : Z * Z * reader -> res A),
      (do p <- peek_bits 11 r ;
       do entry <- get_at lit (Z.to_nat p) ;
       let saved := r_buf r in
       do r <- drop_bits (u8 entry) r ;
       do x <- (if flag entry huff_pointer then
             do extra <- peek_bits (Z.land (Z.shiftr entry 8) 63) r ;
             do entry <- get_at lit (Z.to_nat (Z.shiftr entry 16 + extra)) ;
             let saved := r_buf r in
             do r <- drop_bits (u8 entry) r ;
             Ok (entry, saved, r)
           else Ok (entry, saved, r)) ; K x) = K (entry litlen_results s k, r_buf r1, r2).
Proof.
  intros R Hsrc Hl S (Hex & Kd).
  pose proof (sym_15 n s l S) as L15.
  destruct (le_lt_dec l 11) as [Hs|Hs].
  - destruct (Kd l ltac:(lia)) as (K1 & K2).
    destruct (drop_bits_ok r n (Z.of_nat l + ex) R ltac:(lia)) as (r2 & D2 & R2 & S2 & L2 & _).
    exists l, r, r2. rewrite Nat.sub_diag, Z.add_0_r. split; [lia|]. split; [exact R|]. split; [exact Hsrc|]. split; [lia|].
    split; [now rewrite <- Z.add_assoc|]. split; [congruence|]. intros A K.
    rewrite (peek_bits_ok r n 11 R) by lia. cbn [bind]. change (Z.to_nat 11) with 11%nat. rewrite Hsrc, lit_get. cbn [bind].
    rewrite (direct_lookup n s l S Hs), K2, D2. cbn [bind]. rewrite K1. reflexivity.
  - destruct (sub_lookup n s l S Hs) as (st & b & [I1 I2 I3 I4 I5 I6 I7] & P4 & Px & P5).
    destruct (Kd (l - 11)%nat ltac:(lia)) as (K1 & K2).
    destruct (drop_bits_ok r n 11 R ltac:(lia)) as (r1 & D1 & R1 & S1 & L1 & _).
    destruct (drop_bits_ok r1 (n + 11) (Z.of_nat (l - 11) + ex) R1 ltac:(lia)) as (r2 & D2 & R2 & S2 & L2 & _).
    exists (l - 11)%nat, r1, r2. replace (l - (l - 11))%nat with 11%nat by lia. split; [lia|]. split; [exact R1|]. split; [congruence|]. split; [lia|].
    split; [replace (n + Z.of_nat l + ex) with (n + 11 + (Z.of_nat (l - 11) + ex)) by lia; exact R2|]. split; [congruence|]. intros A K.
    rewrite (peek_bits_ok r n 11 R) by lia. cbn [bind]. change (Z.to_nat 11) with 11%nat. rewrite Hsrc, lit_get. cbn [bind].
    rewrite I5. change (Z.of_nat 11) with 11. rewrite D1. cbn [bind]. rewrite I3, I6, I7.
    rewrite (peek_bits_ok r1 (n + 11) (Z.of_nat b) R1) by lia. cbn [bind]. rewrite Nat2Z.id. replace (r_src r1) with src by congruence.
    pose proof (bits_from_bound src b (n + 11)) as Bb. pose proof lit_length.
    rewrite get_zn by lia. cbn [bind]. rewrite P5, K2, D2. reflexivity.
Qed.

Definition pushed (buf out : list Z) (x : Z) (buf' : list Z) : Prop :=
  (length (out ++ [x]) <= length buf')%nat /\ firstn (length (out ++ [x])) buf' = out ++ [x].
Lemma upd_push (buf out : list Z) x : (length out < length buf)%nat -> firstn (length out) buf = out -> pushed buf out x (upd buf (length out) x).
Proof.
  intros H E. unfold pushed. rewrite app_length. cbn [length]. rewrite upd_length. split; [lia|].
  rewrite <- (firstn_skipn (length out) buf), E. destruct (skipn (length out) buf) as [|y rest] eqn:Es.
  - assert (length (skipn (length out) buf) = 0%nat) by now rewrite Es. rewrite skipn_length in H0. lia.
  - rewrite StoredProof.upd_at. change (y :: rest) with ([y] ++ rest). replace (out ++ x :: rest) with ((out ++ [x]) ++ rest) by now rewrite <- app_assoc.
    apply firstn_app_exact. rewrite app_length. reflexivity.
Qed.
Lemma push_ok buf out x : (length out <= length buf)%nat -> firstn (length out) buf = out ->
  exists buf', resize_and_push buf (length out) x = Ok buf' /\ pushed buf out x buf'.
Proof.
  intros H E. unfold resize_and_push.
  set (b2 := if (length buf <=? length out)%nat then resize buf (length buf + resize_by) 0 else buf).
  assert (Hb : (length out < length b2)%nat /\ firstn (length out) b2 = out).
  { unfold b2. destruct (Nat.leb_spec (length buf) (length out)) as [H1|H1]; [|auto].
    rewrite resize_length. unfold resize_by. split; [lia|]. rewrite resize_grow by lia.
    rewrite firstn_app. replace (length out - length buf)%nat with 0%nat by lia. cbn [firstn]. now rewrite app_nil_r. }
  clearbody b2. destruct Hb as [B1 B2]. rewrite set_at_ok by exact B1. eexists. split; [reflexivity|]. 
  apply (upd_push b2 out x B1 B2).
Qed.

(** ** The careful loop *)
Lemma slow_round_ok d n out n' out' : at_sym d n out -> symbols budget litl offl src n out n' out' ->
  n' <= 8 * Z.of_nat (length src) -> (length out' <= o_limit o)%nat ->
  exists fin d', slow_round o lit off d = Ok (fin, d') /\ d_tab d' = d_tab d /\
    (if fin : bool then at_sym d' n' out' else exists m out1, n < m /\ at_sym d' m out1 /\ symbols budget litl offl src m out1 n' out').
Proof.
  intros [] H Hn' Hlim. pose proof (symbols_mono _ _ _ _ _ _ _ _ H) as [Mn Ml].
  unfold slow_round. destruct (rd_refill (d_r d) n as_rd0) as (r & Er & R & L56 & Sr). rewrite Er. cbn [bind].
  assert (Hsrc : r_src r = src) by congruence.
  rewrite (over_fine r n R) by (rewrite Hsrc; lia).
  destruct H as [n out l S|n out s l n' out' S Hs H|n out s l base ex t l2 base2 ex2 len dist m n' out' S Hs E Hlen S2 E2 Hd Hd2 Hm Hb H].
  - destruct (slow_pick r n 256 l 0 R Hsrc ltac:(lia) S kind_end) as (k & r1 & r2 & Hk & R1 & S1 & L1 & R2 & S2 & EQ).
    rewrite EQ. pose proof (sym_15 _ _ _ S). destruct (end_entry k ltac:(lia)) as (F1 & F2 & F3 & F4 & F5). rewrite F1, F4.
    eexists _, _. split; [reflexivity|]. split; [reflexivity|]. cbn [d_tab]. rewrite Z.add_0_r in R2. constructor; cbn [d_r d_out d_dest]; auto.
  - destruct (slow_pick r n s l 0 R Hsrc ltac:(lia) S (kind_literal s Hs)) as (k & r1 & r2 & Hk & R1 & S1 & L1 & R2 & S2 & EQ).
    rewrite EQ. pose proof (sym_15 _ _ _ S). destruct (lit_entry s k Hs ltac:(lia)) as (F1 & F2 & F3 & F4 & F5). rewrite F1, F5, as_dest0.
    destruct (push_ok (d_out d) out (Z.of_nat s) as_len0 as_out0) as (buf & Eb & Pb1 & Pb2). rewrite Eb. cbn [bind].
    eexists _, _. split; [reflexivity|]. split; [reflexivity|]. cbn iota. exists (n + Z.of_nat l), (out ++ [Z.of_nat s]).
    split; [lia|]. split; [|exact H]. rewrite Z.add_0_r in R2. constructor; cbn [d_r d_out d_dest]; auto.
    rewrite app_length. cbn [length]. lia.
  - destruct (slow_pick r n s l ex R Hsrc ltac:(lia) S (kind_length s base ex Hs E)) as (k & r1 & r2 & Hk & R1 & S1 & L1 & R2 & S2' & EQ).
    rewrite EQ. pose proof (sym_15 _ _ _ S) as L15. destruct (len_entry s k base ex Hs E ltac:(lia)) as (V & B3 & Bx & Bm).
    rewrite (ve_literal _ _ _ _ V), (ve_end _ _ _ _ V).
    assert (EV : Z.of_nat (entry_value (entry litlen_results s k) (r_buf r1)) = len).
    { rewrite (entry_value_ok _ k base ex r1 _ V ltac:(lia) ltac:(lia) R1 L1). rewrite Hlen, S1. f_equal. f_equal. lia. }
    set (ln := entry_value (entry litlen_results s k) (r_buf r1)) in *. clearbody ln.
    destruct (rd_refill r2 _ R2) as (r3 & E3 & R3 & L3 & S3). rewrite E3. cbn [bind].
    assert (Hsrc3 : r_src r3 = src) by congruence. rewrite <- Hsrc3 in S2.
    destruct (off_pick peek_bits drop_bits peek_bits_ok drop_bits_ok' offl off r3 _ t l2 base2 ex2 Toff R3 ltac:(lia) S2 E2) as (k2 & r4 & e2 & Hk2 & L2 & R4 & S4 & L4 & V2 & EQ2).
    rewrite EQ2. destruct (off_entry t k2 base2 ex2 E2 ltac:(lia)) as (_ & B1 & Bx2).
    assert (EV2 : Z.of_nat (entry_value e2 (r_buf r4)) = dist).
    { rewrite (entry_value_ok _ k2 base2 ex2 r4 _ V2 ltac:(lia) ltac:(lia) R4 ltac:(lia)). rewrite Hd, S4, Hsrc3. f_equal. f_equal. lia. }
    set (ds := entry_value e2 (r_buf r4)) in *. clearbody ds.
    assert (B2 : 0 <= bits_from src (n + Z.of_nat l + ex + Z.of_nat l2) (Z.to_nat ex2)) by apply bits_from_bound.
    destruct (slow_match_is_lz (d_out d) (d_dest d) ds ln ltac:(lia) ltac:(lia)) as (buf & Eb & Lb & Cb). rewrite Eb. cbn [bind].
    destruct (drop_bits_ok r4 _ (Z.of_nat k2 + ex2) R4 ltac:(lia)) as (r5 & D5 & R5 & S5 & L5 & _).
    rewrite (ve_bits _ _ _ _ V2), D5. cbn [bind].
    pose proof (symbols_mono _ _ _ _ _ _ _ _ H) as [Mn2 Ml2]. rewrite lz_copy_length in Ml2.
    replace (o_limit o <? d_dest d + ln)%nat with false by (symmetry; apply Nat.ltb_ge; lia).
    eexists _, _. split; [reflexivity|]. split; [reflexivity|]. cbn iota. exists m, (lz_copy out (Z.to_nat dist) (Z.to_nat len)).
    split; [lia|]. split; [|exact H]. rewrite <- EV, <- EV2, !Nat2Z.id. rewrite as_dest0 in *.
    constructor; cbn [d_r d_out d_dest]; rewrite ?lz_copy_length; auto; try congruence.
    replace m with (n + Z.of_nat l + ex + Z.of_nat (l2 - k2) + (Z.of_nat k2 + ex2)) by lia. exact R5.
Qed.

Lemma slow_loop_ok fuel : forall d n out n' out', at_sym d n out -> symbols budget litl offl src n out n' out' ->
  n' <= 8 * Z.of_nat (length src) -> (length out' <= o_limit o)%nat -> n' - n < Z.of_nat fuel ->
  exists d', slow_loop o lit off fuel d = Ok d' /\ d_tab d' = d_tab d /\ at_sym d' n' out'.
Proof.
  induction fuel as [|f IH]; intros d n out n' out' A H Hn Hl Hf.
  - pose proof (symbols_mono _ _ _ _ _ _ _ _ H). lia.
  - cbn [slow_loop]. destruct (slow_round_ok d n out n' out' A H Hn Hl) as (fin & d1 & E & Et & C). rewrite E. cbn [bind].
    destruct fin; [exists d1; auto|]. destruct C as (m & out1 & Hm & A1 & H1).
    destruct (IH d1 m out1 n' out' A1 H1 Hn Hl ltac:(lia)) as (d' & E' & Et' & A'). exists d'. split; [exact E'|]. split; [congruence|exact A'].
Qed.

(** ** The fast loop, in a build without overflow checks *)

Lemma peek_any_ok r n k : rd r n -> 0 <= k <= r_left r -> peek_any false k r = Ok (bits_from (r_src r) n (Z.to_nat k)).
Proof. intros R H. unfold peek_any. now rewrite (peek_val r n k R H). Qed.
Lemma drop_any_ok r n k : rd r n -> 0 <= k <= r_left r ->
  exists r', drop_any false k r = Ok r' /\ rd r' (n + k) /\ r_src r' = r_src r /\ r_left r' = r_left r - k.
Proof.
  intros R H. unfold drop_any. eexists. split; [reflexivity|].
  replace (u8 (r_left r - k)) with (r_left r - k) by (pose proof (rd_left _ _ R); unfold u8; lia).
  split; [now apply rd_drop|]. auto.
Qed.

Lemma lit_get_any r : 0 <= r_buf r -> exists e, get_at lit (Z.to_nat (Z.land (r_buf r) (Z.shiftl 1 11 - 1))) = Ok e.
Proof.
  intros H. change (Z.shiftl 1 11 - 1) with (2 ^ 11 - 1). rewrite land_low by lia.
  pose proof (Z.mod_pos_bound (r_buf r) (2 ^ 11) ltac:(lia)) as B. change (2 ^ 11) with 2048 in B at 3. pose proof lit_length.
  eexists. apply get_zn. lia.
Qed.

Lemma fast_copy_ok d n out e saved t l2 base2 ex2 len dist m :
  at_sym d n out -> (length out + 274 <= length (d_out d))%nat -> 15 <= r_left (d_r d) ->
  Z.of_nat (entry_value e saved) = len -> 3 <= len <= 258 ->
  symbol_at offl src n t l2 -> nth_error rfc_distances t = Some (base2, ex2) ->
  dist = base2 + bits_from src (n + Z.of_nat l2) (Z.to_nat ex2) -> dist <= Z.of_nat (length out) ->
  m = n + Z.of_nat l2 + ex2 -> m - n <= r_left (d_r d) -> (length out + Z.to_nat len <= o_limit o)%nat ->
  exists x d', fast_copy false o lit off e saved d = Ok (x, d') /\ d_tab d' = d_tab d /\
    at_sym d' m (lz_copy out (Z.to_nat dist) (Z.to_nat len)) /\
    match x with Some e' => e' = zn lit (bits_from src m 11) | None => True end.
Proof.
  intros [] Hbuf Hl EV Hlen S2 E2 Hd Hd2 Hm Hb Hlim. unfold fast_copy, fast_offset.
  set (ln := entry_value e saved) in *. clearbody ln.
  rewrite <- as_src0 in S2.
  destruct (off_pick (peek_any false) (drop_any false) peek_any_ok drop_any_ok offl off (d_r d) n t l2 base2 ex2 Toff as_rd0 Hl S2 E2)
    as (k2 & r4 & e2 & Hk2 & L2 & R4 & S4 & L4 & V2 & EQ2).
  rewrite EQ2. destruct (off_entry t k2 base2 ex2 E2 ltac:(lia)) as (_ & B1 & Bx2).
  assert (EV2 : Z.of_nat (entry_value e2 (r_buf r4)) = dist).
  { rewrite (entry_value_ok _ k2 base2 ex2 r4 _ V2 ltac:(lia) ltac:(lia) R4 ltac:(lia)). rewrite Hd, S4, as_src0. f_equal. f_equal. lia. }
  set (ds := entry_value e2 (r_buf r4)) in *. clearbody ds.
  assert (B2 : 0 <= bits_from src (n + Z.of_nat l2) (Z.to_nat ex2)) by apply bits_from_bound.
  destruct (drop_any_ok r4 _ (Z.of_nat k2 + ex2) R4 ltac:(lia)) as (r5 & D5 & R5 & S5 & L5).
  rewrite (ve_bits _ _ _ _ V2), D5. cbn [bind].
  replace (d_dest d <? ds)%nat with false by (symmetry; apply Nat.ltb_ge; lia).
  set (r6 := if r_left r5 <? 11 then refill_inner_loop r5 else r5).
  replace (n + Z.of_nat (l2 - k2) + (Z.of_nat k2 + ex2)) with m in R5 by lia.
  assert (Hsrc5 : r_src r5 = src) by congruence.
  assert (R6 : rd r6 m /\ r_src r6 = src /\ (11 <= r_left r6 \/ (length src < r_pos r6 + 8)%nat)).
  { unfold r6. destruct (Z.ltb_spec (r_left r5) 11) as [H|H]; [|auto].
    destruct (rd_inner r5 m R5) as [A B]. split; [exact A|]. split; [congruence|].
    unfold refill_inner_loop in *. destruct (get8 r5) as [b|] eqn:G.
    - left. destruct (rd_refill_fast r5 m b R5 G) as (_ & X & _). lia.
    - right. unfold get8 in G. rewrite Hsrc5 in G. destruct (Nat.leb_spec (r_pos r5 + 8) (length src)); [discriminate|lia]. }
  clearbody r6. destruct R6 as (R6 & S6 & H6).
  assert (P : exists e3, get_at lit (Z.to_nat (Z.land (r_buf r6) (Z.shiftl 1 11 - 1))) = Ok e3 /\ (11 <= r_left r6 -> e3 = zn lit (bits_from src m 11))).
  { destruct (Z.le_gt_cases 11 (r_left r6)) as [H|H].
    - rewrite (peek_val r6 m 11 R6) by lia. change (Z.to_nat 11) with 11%nat. rewrite S6, lit_get. eexists. split; [reflexivity|auto].
    - destruct (lit_get_any r6) as [e3 G]; [apply (rd_buf _ _ R6)|]. exists e3. split; [exact G|lia]. }
  destruct P as (e3 & G3 & X3). unfold peek_any. cbn [bind]. rewrite G3. cbn [bind].
  destruct (fast_match_is_lz (d_out d) (d_dest d) ds ln ltac:(lia) ltac:(lia)) as (buf & Eb & Lb & Cb). rewrite Eb. cbn [bind].
  replace (o_limit o <? d_dest d + ln)%nat with false by (symmetry; apply Nat.ltb_ge; lia).
  rewrite S6.
  assert (A : at_sym (mkD r6 buf (d_dest d + ln) (d_tab d)) m (lz_copy out (Z.to_nat dist) (Z.to_nat len))).
  { rewrite <- EV, <- EV2, !Nat2Z.id. rewrite as_dest0 in *.
    constructor; cbn [d_r d_out d_dest]; rewrite ?lz_copy_length; auto; [lia|]. rewrite Cb. now rewrite as_out0. }
  destruct (Nat.ltb_spec (length src) (r_pos r6 + 8)) as [H|H].
  - eexists _, _. split; [reflexivity|]. split; [reflexivity|]. split; [exact A|exact I].
  - eexists _, _. split; [reflexivity|]. split; [reflexivity|]. split; [exact A|]. apply X3. lia.
Qed.

Definition after (n n' : Z) (out' : list Z) (x : fnext) (d : dstate) : Prop :=
  match x with
  | FEnd => at_sym d n' out'
  | FSlow => exists m out1, n <= m /\ at_sym d m out1 /\ symbols budget litl offl src m out1 n' out'
  | FNext e => exists m out1, n < m /\ at_sym d m out1 /\ symbols budget litl offl src m out1 n' out' /\ e = zn lit (bits_from src m 11)
  end.

Hypothesis Hbudget : budget <= 45.

Lemma fast_rest_ok d n out n' out' r1 e0 :
  rd r1 n -> r_src r1 = src -> 45 <= r_left r1 -> e0 = zn lit (bits_from src n 11) -> flag e0 huff_literal = false ->
  drop_any false (u8 e0) r1 = Ok (d_r d) ->
  d_dest d = length out -> (length out + 274 <= length (d_out d))%nat -> firstn (length out) (d_out d) = out ->
  symbols budget litl offl src n out n' out' -> (length out' <= o_limit o)%nat ->
  exists x d', fast_rest false o lit off e0 (r_buf r1) d = Ok (x, d') /\ d_tab d' = d_tab d /\ after n n' out' x d'.
Proof.
  intros R1 S1 L1 E0 Hlit D Hdest Hbuf Hout H Hlim. unfold fast_rest.
  assert (FC : forall s l base ex t l2 base2 ex2 len dist m r2 rd2 k,
    symbol_at litl src n s l -> (257 <= s)%nat -> nth_error rfc_lengths (s - 257) = Some (base, ex) ->
    len = base + bits_from src (n + Z.of_nat l) (Z.to_nat ex) ->
    symbol_at offl src (n + Z.of_nat l + ex) t l2 -> nth_error rfc_distances t = Some (base2, ex2) ->
    dist = base2 + bits_from src (n + Z.of_nat l + ex + Z.of_nat l2) (Z.to_nat ex2) ->
    dist <= Z.of_nat (length out) -> m = n + Z.of_nat l + ex + Z.of_nat l2 + ex2 -> m - n <= budget ->
    symbols budget litl offl src m (lz_copy out (Z.to_nat dist) (Z.to_nat len)) n' out' ->
    (1 <= k <= l)%nat -> rd r2 (n + Z.of_nat (l - k)) -> r_src r2 = src -> r_left r2 = r_left r1 - Z.of_nat (l - k) ->
    drop_any false (u8 (entry litlen_results s k)) r2 = Ok rd2 ->
    exists x d', (do (n, d) <- fast_copy false o lit off (entry litlen_results s k) (r_buf r2) (mkD rd2 (d_out d) (d_dest d) (d_tab d)) ;
      Ok (match n with Some e => FNext e | None => FSlow end, d)) = Ok (x, d') /\ d_tab d' = d_tab d /\ after n n' out' x d').
  { intros s l base ex t l2 base2 ex2 len dist m r2 rd2 k S Hs E Hlen S2 E2 Hd Hd2 Hm Hb H' Hk R2 Sr2 L2 D2.
    pose proof (sym_15 _ _ _ S) as L15. destruct (len_entry s k base ex Hs E ltac:(lia)) as (V & B3 & Bx & Bm).
    destruct (off_entry t 1 base2 ex2 E2 ltac:(lia)) as (_ & _ & Bx2). assert (Sl2 : (1 <= l2)%nat) by (destruct S2 as (_ & _ & X & _); exact X).
    rewrite (ve_bits _ _ _ _ V) in D2. destruct (drop_any_ok r2 _ (Z.of_nat k + ex) R2 ltac:(lia)) as (r3 & D3 & R3 & S3 & L3).
    rewrite D3 in D2. injection D2 as <-.
    assert (EV : Z.of_nat (entry_value (entry litlen_results s k) (r_buf r2)) = len).
    { rewrite (entry_value_ok _ k base ex r2 _ V ltac:(lia) ltac:(lia) R2 ltac:(lia)). rewrite Hlen, Sr2. f_equal. f_equal. lia. }
    assert (Blen : 3 <= len <= 258).
    { pose proof (bits_from_bound src (Z.to_nat ex) (n + Z.of_nat l)) as B. rewrite Z2Nat.id in B by lia. lia. }
    pose proof (symbols_mono _ _ _ _ _ _ _ _ H') as [Mn2 Ml2]. rewrite lz_copy_length in Ml2.
    destruct (fast_copy_ok (mkD r3 (d_out d) (d_dest d) (d_tab d)) (n + Z.of_nat l + ex) out (entry litlen_results s k) (r_buf r2) t l2 base2 ex2 len dist m) as (x & d' & Ex & Tx & Ax & Xx); auto; try lia.
    - constructor; cbn [d_r d_out d_dest]; auto; try congruence; [|lia].
      replace (n + Z.of_nat l + ex) with (n + Z.of_nat (l - k) + (Z.of_nat k + ex)) by lia. exact R3.
    - cbn [d_r]. lia.
    - cbn [d_r]. lia.
    - rewrite Ex. cbn [bind]. eexists _, _. split; [reflexivity|]. split; [exact Tx|].
      assert (n < m) by lia. destruct x as [e'|]; unfold after; exists m, (lz_copy out (Z.to_nat dist) (Z.to_nat len)); auto. split; [lia|auto]. }
  destruct H as [n out l S|n out s l n' out' S Hs H|n out s l base ex t l2 base2 ex2 len dist m n' out' S Hs E Hlen S2 E2 Hd Hd2 Hm Hb H].
  - (* end of block *) pose proof (sym_15 _ _ _ S) as L15. destruct (le_lt_dec l 11) as [Hl|Hl].
    + rewrite (direct_lookup n 256 l S Hl) in E0. destruct (end_entry l ltac:(lia)) as (F1 & F2 & F3 & F4 & F5). rewrite <- E0 in *. rewrite F2, F4.
      eexists _, _. split; [reflexivity|]. split; [reflexivity|]. unfold after.
      destruct (drop_any_ok r1 n (u8 e0) R1 ltac:(lia)) as (r2 & D2 & R2 & Sr2 & L2). rewrite D2 in D. injection D as D. subst r2. rewrite F5 in R2.
      constructor; auto; [congruence|lia].
    + destruct (sub_lookup n 256 l S Hl) as (st & b & [I1 I2 I3 I4 I5 I6 I7] & P4 & Px & P5). rewrite <- E0 in *. rewrite I2, I4, I6, I7.
      rewrite I5 in D. destruct (drop_any_ok r1 n (Z.of_nat 11) R1 ltac:(lia)) as (r2 & D2 & R2 & Sr2 & L2). rewrite D2 in D. injection D as D. subst r2. set (r2 := d_r d) in *.
      change (Z.of_nat 11) with 11 in *. pose proof (bits_from_bound src b (n + 11)) as Bb. pose proof lit_length.
      rewrite (peek_any_ok r2 (n + 11) (Z.of_nat b) R2) by lia. cbn [bind]. rewrite Nat2Z.id. replace (r_src r2) with src by congruence.
      pose proof lit_enough. rewrite Nat.min_l by lia. rewrite get_zn by lia. cbn [bind]. rewrite P5.
      destruct (end_entry (l - 11) ltac:(lia)) as (F1 & F2 & F3 & F4 & F5). rewrite F1, F4, F5.
      destruct (drop_any_ok r2 (n + 11) (Z.of_nat (l - 11)) R2 ltac:(lia)) as (r3 & D3 & R3 & Sr3 & L3). rewrite D3. cbn [bind].
      eexists _, _. split; [reflexivity|]. split; [reflexivity|]. unfold after. constructor; cbn [d_r d_out d_dest]; auto; [|congruence|lia].
      replace (n + Z.of_nat l) with (n + 11 + Z.of_nat (l - 11)) by lia. exact R3.
  - (* a literal *) pose proof (sym_15 _ _ _ S) as L15. destruct (le_lt_dec l 11) as [Hl|Hl].
    + rewrite (direct_lookup n s l S Hl) in E0. destruct (lit_entry s l Hs ltac:(lia)) as (F1 & _). rewrite <- E0 in F1. congruence.
    + destruct (sub_lookup n s l S Hl) as (st & b & [I1 I2 I3 I4 I5 I6 I7] & P4 & Px & P5). rewrite <- E0 in *. rewrite I2, I4, I6, I7.
      rewrite I5 in D. destruct (drop_any_ok r1 n (Z.of_nat 11) R1 ltac:(lia)) as (r2 & D2 & R2 & Sr2 & L2). rewrite D2 in D. injection D as D. subst r2. set (r2 := d_r d) in *.
      change (Z.of_nat 11) with 11 in *. pose proof (bits_from_bound src b (n + 11)) as Bb. pose proof lit_length.
      rewrite (peek_any_ok r2 (n + 11) (Z.of_nat b) R2) by lia. cbn [bind]. rewrite Nat2Z.id. replace (r_src r2) with src by congruence.
      pose proof lit_enough. rewrite Nat.min_l by lia. rewrite get_zn by lia. cbn [bind]. rewrite P5.
      destruct (lit_entry s (l - 11) Hs ltac:(lia)) as (F1 & F2 & F3 & F4 & F5). rewrite F1, F4, F5.
      destruct (drop_any_ok r2 (n + 11) (Z.of_nat (l - 11)) R2 ltac:(lia)) as (r3 & D3 & R3 & Sr3 & L3). rewrite D3. cbn [bind d_dest d_out].
      replace (n + 11 + Z.of_nat (l - 11)) with (n + Z.of_nat l) in R3 by lia.
      rewrite (peek_any_ok r3 (n + Z.of_nat l) 11 R3) by lia. cbn [bind]. change (Z.to_nat 11) with 11%nat. replace (r_src r3) with src by congruence. rewrite lit_get. cbn [bind].
      replace (d_dest d <? length (d_out d))%nat with true by (symmetry; apply Nat.ltb_lt; lia).
      eexists _, _. split; [reflexivity|]. split; [reflexivity|]. unfold after. exists (n + Z.of_nat l), (out ++ [Z.of_nat s]).
      split; [lia|]. split; [|auto]. rewrite Hdest.
      destruct (upd_push (d_out d) out (Z.of_nat s) ltac:(lia) Hout) as [U1 U2].
      constructor; cbn [d_r d_out d_dest]; auto; [congruence|]. rewrite app_length. cbn [length]. lia.
  - (* a match *) pose proof (sym_15 _ _ _ S) as L15. destruct (le_lt_dec l 11) as [Hl|Hl].
    + rewrite (direct_lookup n s l S Hl) in E0. destruct (len_entry s l base ex Hs E ltac:(lia)) as (V & _).
      rewrite <- E0 in V. rewrite (ve_exceptional _ _ _ _ V). 
      destruct (FC s l base ex t l2 base2 ex2 len dist m r1 (d_r d) l) as (x & d' & Ex & Tx & Ax); auto; try lia.
      { rewrite Nat.sub_diag, Z.add_0_r. exact R1. }
      { rewrite <- E0. exact D. }
      rewrite E0. destruct d as [rr oo dd tt]. cbn [d_r d_out d_dest d_tab] in *. rewrite Ex. eexists _, _. split; [reflexivity|]. auto.
    + destruct (sub_lookup n s l S Hl) as (st & b & [I1 I2 I3 I4 I5 I6 I7] & P4 & Px & P5). rewrite <- E0 in *. rewrite I2, I4, I6, I7.
      rewrite I5 in D. destruct (drop_any_ok r1 n (Z.of_nat 11) R1 ltac:(lia)) as (r2 & D2 & R2 & Sr2 & L2). rewrite D2 in D. injection D as D. subst r2. set (r2 := d_r d) in *.
      change (Z.of_nat 11) with 11 in *. pose proof (bits_from_bound src b (n + 11)) as Bb. pose proof lit_length.
      rewrite (peek_any_ok r2 (n + 11) (Z.of_nat b) R2) by lia. cbn [bind]. rewrite Nat2Z.id. replace (r_src r2) with src by congruence.
      pose proof lit_enough. rewrite Nat.min_l by lia. rewrite get_zn by lia. cbn [bind]. rewrite P5.
      destruct (len_entry s (l - 11) base ex Hs E ltac:(lia)) as (V & B3 & Bx & Bm).
      rewrite (ve_literal _ _ _ _ V), (ve_end _ _ _ _ V).
      destruct (drop_any_ok r2 (n + 11) (Z.of_nat (l - 11) + ex) R2 ltac:(lia)) as (r3 & D3 & R3 & Sr3 & L3).
      rewrite (ve_bits _ _ _ _ V), D3. cbn [bind].
      destruct (FC s l base ex t l2 base2 ex2 len dist m r2 r3 (l - 11)%nat) as (x & d' & Ex & Tx & Ax); auto; try lia; try congruence.
      { replace (l - (l - 11))%nat with 11%nat by lia. exact R2. }
      { rewrite (ve_bits _ _ _ _ V). exact D3. }
      rewrite Ex. eexists _, _. split; [reflexivity|]. auto.
Qed.

Lemma lit_view n out n' out' : symbols budget litl offl src n out n' out' -> flag (zn lit (bits_from src n 11)) huff_literal = true ->
  exists s l, symbol_at litl src n s l /\ (s < 256)%nat /\ (1 <= l <= 11)%nat /\ zn lit (bits_from src n 11) = entry litlen_results s l /\
    symbols budget litl offl src (n + Z.of_nat l) (out ++ [Z.of_nat s]) n' out'.
Proof.
  intros H F.
  assert (Sub : forall s l, symbol_at litl src n s l -> (l <= 11)%nat).
  { intros s l S. destruct (le_lt_dec l 11) as [|Hl]; [assumption|].
    destruct (sub_lookup n s l S Hl) as (st & b & [I1 _ _ _ _ _ _] & _). congruence. }
  destruct H as [n out l S|n out s l n' out' S Hs H|n out s l base ex t l2 base2 ex2 len dist m n' out' S Hs E Hlen S2 E2 Hd Hd2 Hm Hb H].
  - exfalso. specialize (Sub _ _ S). rewrite (direct_lookup _ _ _ S Sub) in F. destruct (end_entry l ltac:(lia)) as (F1 & _). congruence.
  - exists s, l. pose proof (sym_15 _ _ _ S). specialize (Sub _ _ S). split; [exact S|]. split; [exact Hs|]. split; [lia|].
    split; [apply (direct_lookup _ _ _ S Sub)|exact H].
  - exfalso. specialize (Sub _ _ S). rewrite (direct_lookup _ _ _ S Sub) in F. destruct (len_entry s l base ex Hs E ltac:(lia)) as (V & _).
    pose proof (ve_literal _ _ _ _ V). congruence.
Qed.

Lemma grow_ok d n out : at_sym d n out ->
  let buf := if (length (d_out d) <? d_dest d + fastloop_max)%nat then resize (d_out d) (length (d_out d) + fastloop_max + resize_by) 0 else d_out d in
  (length out + 296 <= length buf)%nat /\ firstn (length out) buf = out.
Proof.
  intros []. cbv zeta. unfold fastloop_max. destruct (Nat.ltb_spec (length (d_out d)) (d_dest d + 296)) as [H|H]; [|split; [lia|assumption]].
  rewrite resize_length. split; [lia|]. rewrite resize_grow by lia. rewrite firstn_app.
  replace (length out - length (d_out d))%nat with 0%nat by lia. cbn [firstn]. now rewrite app_nil_r.
Qed.

Lemma drop_any_total k r : exists r', drop_any false k r = Ok r'.
Proof. unfold drop_any. eexists. reflexivity. Qed.

Lemma fast_round_ok d n out n' out' e0 : at_sym d n out -> e0 = zn lit (bits_from src n 11) ->
  symbols budget litl offl src n out n' out' -> (length out' <= o_limit o)%nat ->
  exists x d', fast_round false o lit off e0 d = Ok (x, d') /\ d_tab d' = d_tab d /\ after n n' out' x d'.
Proof.
  intros A E0 H Hlim. unfold fast_round. destruct (grow_ok d n out A) as [G1 G2]. destruct A.
  set (buf := if (length (d_out d) <? d_dest d + fastloop_max)%nat then resize (d_out d) (length (d_out d) + fastloop_max + resize_by) 0 else d_out d) in *.
  clearbody buf. rewrite as_src0. destruct (Nat.ltb_spec (length src) (r_pos (d_r d) + 8)) as [H8|H8].
  { eexists _, _. split; [reflexivity|]. split; [reflexivity|]. unfold after. exists n, out. split; [lia|]. split; [|exact H].
    constructor; cbn [d_r d_out d_dest]; auto. lia. }
  assert (Gt : exists b, get8 (d_r d) = Some b).
  { unfold get8. rewrite as_src0. replace (r_pos (d_r d) + 8 <=? length src)%nat with true by lia. eexists. reflexivity. }
  destruct Gt as [b Gt]. unfold refill_inner_loop. rewrite Gt.
  destruct (rd_refill_fast (d_r d) n b as_rd0 Gt) as (R & L56 & _ & Sr).
  set (r := refill_fast (d_r d) b) in *. clearbody r. assert (Hsrc : r_src r = src) by congruence.
  destruct (flag e0 huff_literal) eqn:F0.
  - rewrite E0 in F0. destruct (lit_view n out n' out' H F0) as (s & l & Sy & Hs & Hl & Ee & H1).
    rewrite <- E0 in Ee. destruct (lit_entry s l Hs ltac:(lia)) as (F1 & F2 & F3 & F4 & F5). rewrite <- Ee in *. rewrite F4, F5.
    destruct (drop_any_ok r n (Z.of_nat l) R ltac:(lia)) as (r1 & D1 & R1 & S1 & L1). rewrite D1. cbn [bind].
    rewrite (peek_any_ok r1 (n + Z.of_nat l) 11 R1) by lia. cbn [bind]. change (Z.to_nat 11) with 11%nat. replace (r_src r1) with src by congruence.
    rewrite lit_get. cbn [bind]. set (e1 := zn lit (bits_from src (n + Z.of_nat l) 11)).
    destruct (drop_any_total (u8 e1) r1) as (r2 & D2). rewrite D2. cbn [bind].
    replace (length buf <? d_dest d + 2)%nat with false by (symmetry; apply Nat.ltb_ge; lia).
    rewrite as_dest0. destruct (upd_push buf out (Z.of_nat s) ltac:(lia) G2) as [U1 U2].
    assert (Lu : length (upd buf (length out) (Z.of_nat s)) = length buf) by apply upd_length.
    set (buf1 := upd buf (length out) (Z.of_nat s)) in *. clearbody buf1.
    assert (Lo : length (out ++ [Z.of_nat s]) = S (length out)) by (rewrite app_length; cbn [length]; lia).
    destruct (flag e1 huff_literal) eqn:Fl.
    + unfold e1 in Fl. destruct (lit_view _ _ n' out' H1 Fl) as (s2 & l2 & S2 & Hs2 & Hl2 & Ee2 & H2).
      fold e1 in Ee2. destruct (lit_entry s2 l2 Hs2 ltac:(lia)) as (F1' & F2' & F3' & F4' & F5'). rewrite <- Ee2 in *. rewrite F4' in D2. rewrite F5'.
      destruct (drop_any_ok r1 (n + Z.of_nat l) (Z.of_nat l2) R1 ltac:(lia)) as (r2' & D2' & R2 & Sr2 & L2). rewrite D2' in D2. injection D2 as ->.
      rewrite (peek_any_ok r2 (n + Z.of_nat l + Z.of_nat l2) 11 R2) by lia. cbn [bind]. change (Z.to_nat 11) with 11%nat. replace (r_src r2) with src by congruence.
      rewrite lit_get. cbn [bind]. eexists _, _. split; [reflexivity|]. split; [reflexivity|]. unfold after.
      exists (n + Z.of_nat l + Z.of_nat l2), ((out ++ [Z.of_nat s]) ++ [Z.of_nat s2]). split; [lia|]. split; [|auto].
      destruct (upd_push buf1 (out ++ [Z.of_nat s]) (Z.of_nat s2) ltac:(lia) U2) as [U3 U4]. rewrite Lo in *.
      constructor; cbn [d_r d_out d_dest]; auto; [congruence|]. rewrite app_length. cbn [length]. lia.
    + destruct (fast_rest_ok (mkD r2 buf1 (S (length out)) (d_tab d)) (n + Z.of_nat l) (out ++ [Z.of_nat s]) n' out' r1 e1) as (x & d' & Ex & Tx & Ax); auto; try congruence; try lia.
      { cbn [d_out]. lia. }
      rewrite Ex. eexists _, _. split; [reflexivity|]. split; [exact Tx|].
      unfold after in *. destruct x; [exact Ax| |].
      * destruct Ax as (m & o1 & P & Q). exists m, o1. split; [lia|exact Q].
      * destruct Ax as (m & o1 & P & Q). exists m, o1. split; [lia|exact Q].
  - destruct (drop_any_total (u8 e0) r) as (r2 & D2). rewrite D2. cbn [bind].
    destruct (fast_rest_ok (mkD r2 buf (d_dest d) (d_tab d)) n out n' out' r e0) as (x & d' & Ex & Tx & Ax); auto; try lia.
    { cbn [d_out]. lia. }
    rewrite Ex. eexists _, _. split; [reflexivity|]. split; [exact Tx|exact Ax].
Qed.

Lemma fast_loop_ok fuel : forall d n out n' out' e0, at_sym d n out -> e0 = zn lit (bits_from src n 11) ->
  symbols budget litl offl src n out n' out' -> (length out' <= o_limit o)%nat -> n' - n < Z.of_nat fuel ->
  exists fin d', fast_loop false o lit off fuel e0 d = Ok (fin, d') /\ d_tab d' = d_tab d /\
    (if fin : bool then at_sym d' n' out' else exists m out1, n <= m /\ at_sym d' m out1 /\ symbols budget litl offl src m out1 n' out').
Proof.
  induction fuel as [|f IH]; intros d n out n' out' e0 A E0 H Hl Hf.
  - pose proof (symbols_mono _ _ _ _ _ _ _ _ H). lia.
  - cbn [fast_loop]. destruct (fast_round_ok d n out n' out' e0 A E0 H Hl) as (x & d1 & E & Et & C). rewrite E. cbn [bind].
    destruct x as [| |e]; unfold after in C.
    + exists true, d1. auto.
    + exists false, d1. auto.
    + destruct C as (m & out1 & Hm & A1 & H1 & Ee). 
      destruct (IH d1 m out1 n' out' e A1 Ee H1 Hl ltac:(lia)) as (fin & d' & E' & Et' & A'). exists fin, d'. split; [exact E'|]. split; [congruence|].
      destruct fin; [exact A'|]. destruct A' as (m2 & o2 & P & Q). exists m2, o2. split; [lia|exact Q].
Qed.

(** Both loops together, as [huff_block] runs them after the tables are there. *)
Lemma loops_ok d n out n' out' fuel : at_sym d n out -> t_lit (d_tab d) = lit -> t_off (d_tab d) = off ->
  symbols budget litl offl src n out n' out' -> n' <= 8 * Z.of_nat (length src) -> (length out' <= o_limit o)%nat -> n' - n < Z.of_nat fuel ->
  exists d', 
    (do (fin, d) <-
      (if (3 * fastcopy <? remaining_bytes (d_r d))%nat then
         let r := refill_inner_loop (d_r d) in
         do p <- peek_any false 11 r ;
         do entry <- get_at lit (Z.to_nat p) ;
         fast_loop false o lit off fuel entry (mkD r (d_out d) (d_dest d) (d_tab d))
       else Ok (false, d)) ;
     do d <- (if fin : bool then Ok d else slow_loop o lit off fuel d) ;
     if over_consumed (d_r d) then Err ECorrupt else Ok d) = Ok d' /\ d_tab d' = d_tab d /\ at_sym d' n' out'.
Proof.
  intros A _ _ H Hn Hl Hf.
  assert (M : exists fin d1, (if (3 * fastcopy <? remaining_bytes (d_r d))%nat then
         let r := refill_inner_loop (d_r d) in
         do p <- peek_any false 11 r ;
         do entry <- get_at lit (Z.to_nat p) ;
         fast_loop false o lit off fuel entry (mkD r (d_out d) (d_dest d) (d_tab d))
       else Ok (false, d)) = Ok (fin, d1) /\ d_tab d1 = d_tab d /\
       (if fin : bool then at_sym d1 n' out' else exists m out1, n <= m /\ at_sym d1 m out1 /\ symbols budget litl offl src m out1 n' out')).
  { destruct (Nat.ltb_spec (3 * fastcopy) (remaining_bytes (d_r d))) as [H3|H3].
    - destruct A. unfold remaining_bytes in H3. cbv zeta. unfold fastcopy in H3.
      assert (Gt : exists b, get8 (d_r d) = Some b).
      { unfold get8. replace (r_pos (d_r d) + 8 <=? length (r_src (d_r d)))%nat with true by lia. eexists. reflexivity. }
      destruct Gt as [b Gt]. unfold refill_inner_loop. rewrite Gt.
      destruct (rd_refill_fast (d_r d) n b as_rd0 Gt) as (R & L56 & _ & Sr).
      set (r := refill_fast (d_r d) b) in *. clearbody r. assert (Hsrc : r_src r = src) by congruence.
      rewrite (peek_any_ok r n 11 R) by lia. cbn [bind]. change (Z.to_nat 11) with 11%nat. rewrite Hsrc, lit_get. cbn [bind].
      destruct (fast_loop_ok fuel (mkD r (d_out d) (d_dest d) (d_tab d)) n out n' out' _ ltac:(constructor; cbn [d_r d_out d_dest]; auto) eq_refl H Hl Hf)
        as (fin & d1 & E & Et & C). exists fin, d1. auto.
    - exists false, d. split; [reflexivity|]. split; [reflexivity|]. exists n, out. split; [lia|]. auto. }
  destruct M as (fin & d1 & E & Et & C). rewrite E. cbn [bind].
  assert (M2 : exists d2, (if fin then Ok d1 else slow_loop o lit off fuel d1) = Ok d2 /\ d_tab d2 = d_tab d /\ at_sym d2 n' out').
  { destruct fin; [exists d1; auto|]. destruct C as (m & o1 & Hm & A1 & H1).
    destruct (slow_loop_ok fuel d1 m o1 n' out' A1 H1 Hn Hl ltac:(lia)) as (d2 & E2 & T2 & A2). exists d2. split; [exact E2|]. split; [congruence|exact A2]. }
  destruct M2 as (d2 & E2 & T2 & A2). rewrite E2. cbn [bind].
  rewrite (over_fine (d_r d2) n' (as_rd _ _ _ A2)) by (rewrite (as_src _ _ _ A2); lia).
  exists d2. auto.
Qed.
End Loop.
