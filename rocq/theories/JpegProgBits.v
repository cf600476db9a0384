(** Reading bits in progressive scans *)
From Verif Require Import Base BaseProof Loops Slices Bits JpegSimd JpegHuffModel JpegIdctSpec JpegHuffSpec JpegHuffTable JpegHuffBits JpegHuffBlock JpegHuffRun JpegScanModel JpegProgModel.

(** * What stays as it was *)
Lemma refill_byte_eoi s s' go : refill_byte s = Ok (s', go) -> eoi s' = eoi s /\ if go : bool then left s' = left s + 8 else marker s' <> None.
Proof.
  unfold refill_byte. destruct (next_byte (rd s)) as [b r1]. cbv zeta. destruct (b =? 255).
  - destruct (after_ff r1) as [n r2]. destruct (n =? 0); [intros E; injection E as <- <-; cbn [left eoi]; auto|].
    destruct (negb (known_marker n)); [discriminate|]. destruct (n =? 217); match goal with |- Ok (Bits ?a ?b ?c _ ?o _ _, _) = _ -> _ => generalize a b c o end; intros ? ? ? ? E; injection E as <- <-; cbn [marker eoi]; (split; [reflexivity|discriminate]).
  - intros E; injection E as <- <-; cbn [left eoi]; auto.
Qed.
Lemma refill_bytes_eoi n : forall s s', refill_bytes n s = Ok s' -> eoi s' = eoi s /\ (left s' = left s + 8 * Z.of_nat n \/ marker s' <> None).
Proof.
  induction n as [|n IH]; intros s s'; cbn [refill_bytes].
  - intros E; injection E as <-; cbn. split; [reflexivity|left; lia].
  - destruct (refill_byte s) as [[s1 go]| | |] eqn:R; cbn [bind]; try discriminate. apply refill_byte_eoi in R. destruct R as (E1 & E2). destruct go.
    + intros X. apply IH in X. destruct X as (X1 & X2). split; [congruence|]. destruct X2 as [X2|X2]; [left; lia|now right].
    + intros X. injection X as <-. split; [exact E1|now right].
Qed.
Lemma refill_keeps s s' : refill s = Ok s' -> 0 <= left s -> eoi s' = eoi s /\ (32 <= left s' \/ marker s' <> None).
Proof.
  unfold refill. intros E L. destruct (Z.leb_spec 32 (left s)) as [C|C]; [injection E as <-; auto|]. cbv zeta in E.
  assert (G : refill_bytes 4 s = Ok s' -> eoi s' = eoi s /\ (32 <= left s' \/ marker s' <> None)).
  { intros X. apply refill_bytes_eoi in X. destruct X as (X1 & X2). split; [exact X1|]. destruct X2 as [X2|X2]; [left; lia|now right]. }
  destruct (_ || _ || _); [injection E as <-; cbn; split; [reflexivity|left; lia]|].
  destruct (rd s) as [|a [|b [|c [|d r]]]]; try (now apply G). destruct (has_ff _); [now apply G|]. injection E as <-. cbn. split; [reflexivity|left; lia].
Qed.
Lemma decode_huff_keeps t e s x s' : decode_huff t e s = Ok (x, s') -> eoi s' = eoi s /\ marker s' = marker s.
Proof.
  unfold decode_huff. destruct (if 9 <? _ then _ else _) as [[sym l]| | |]; cbn [bind]; try discriminate.
  destruct (left s <? l); [discriminate|]. intros E; injection E as <- <-. now split.
Qed.
Lemma get_bits_keeps n s x s' : get_bits n s = (x, s') -> eoi s' = eoi s /\ marker s' = marker s.
Proof. intros E; injection E as <- <-. now split. Qed.
Lemma decode_dc_keeps t p s x s' : decode_dc t p s = Ok (x, s') -> 0 <= left s -> exists s1, refill s = Ok s1 /\ eoi s' = eoi s /\ marker s' = marker s1.
Proof.
  unfold decode_dc. intros E L. destruct (refill s) as [s1| | |] eqn:R; cbn [bind] in E; try discriminate. exists s1. split; [reflexivity|].
  destruct (refill_keeps _ _ R L) as (R1 & _). destruct (get_at _ _) as [e| | |]; cbn [bind] in E; try discriminate.
  destruct (decode_huff _ _ _) as [[sym s2]| | |] eqn:D; cbn [bind] in E; try discriminate. apply decode_huff_keeps in D. destruct D as (D1 & D2).
  destruct (sym =? 0); [injection E as <- <-; split; congruence|]. destruct (get_bits sym s2) as [r s3] eqn:G. injection E as <- <-. apply get_bits_keeps in G. destruct G. split; congruence.
Qed.

(** * The reader before coded bits, inside a scan *)
Definition rready (st : bits) (s : list bool) (fin : option (Z * list Z)) : Prop := ready st s fin /\ eoi st = false.
Lemma ready_left st s fin : ready st s fin -> 0 <= left st.
Proof. intros (u & H & _). pose proof (h_left _ _ H). lia. Qed.
(** the first of the bits in the reader *)
Lemma source_front st b s u fin : source st (b :: s) u fin -> (0 < length u)%nat -> exists u', u = b :: u'.
Proof.
  intros (_ & _ & _ & S) L. destruct u as [|x u]; [cbn in L; lia|]. exists u.
  assert (X : x = b); [|now rewrite X]. destruct (marker st); [|destruct (eoi st)].
  1, 2: destruct S as (m & k & _ & _ & E & _); cbn [app] in E; congruence.
  destruct S as (data & tail & k & _ & _ & E & _). cbn [app] in E. congruence.
Qed.
Lemma get_bit_ok st b s fin : rready st (b :: s) fin -> 1 <= left st -> exists st', get_bit st = (b, st') /\ rready st' s fin.
Proof.
  intros ((u & H & S) & Eo) L. pose proof (h_left _ _ H) as Lu. destruct (source_front _ _ _ _ _ S ltac:(lia)) as (u' & ->).
  exists (drop_bits 1 st). change (b :: u') with ([b] ++ u') in H. split; [|split; [|exact Eo]].
  - unfold get_bit. pose proof (aligned_top _ _ _ H) as T. cbn [length val] in T. change (64 - Z.of_nat 1) with 63 in T. rewrite Z.shiftr_div_pow2, T by lia.
    change (2 ^ Z.of_nat 0) with 1. f_equal. destruct b; reflexivity.
  - exists u'. split; [exact (drop_held _ _ _ H)|]. exact (source_drop _ [b] _ _ 1 _ S).
Qed.
Lemma refill_more st s fin : rready st s fin -> exists st', refill st = Ok st' /\ rready st' s fin /\ (s <> [] -> 1 <= left st') /\ (32 <= left st' \/ marker st' <> None).
Proof.
  intros (R & Eo). pose proof (ready_left _ _ _ R) as L0. destruct R as (u & H & S). destruct (refill_ok _ _ _ _ H S) as (st' & u' & E & H' & S' & P).
  destruct (refill_keeps _ _ E L0) as (K1 & K2). exists st'. split; [exact E|]. split; [split; [now exists u'|congruence]|]. split; [|exact K2].
  intros Hs. rewrite (h_left _ _ H'). destruct s as [|b s]; [congruence|]. destruct P as (r & ->). cbn [firstn app length]. lia.
Qed.
(** reading a bit where the reader is filled up if it is empty *)
Lemma need_bit st b s fin : rready st (b :: s) fin -> exists st1 st', (if left st <? 1 then refill st else Ok st) = Ok st1 /\ 1 <= left st1 /\ get_bit st1 = (b, st') /\ rready st' s fin.
Proof.
  intros R. destruct (Z.ltb_spec (left st) 1) as [C|C].
  - destruct (refill_more _ _ _ R) as (st1 & E & R1 & L & _). specialize (L ltac:(discriminate)). destruct (get_bit_ok _ _ _ _ R1 L) as (st' & G & R'). exists st1, st'. split; [exact E|]. split; [exact L|]. split; [exact G|exact R'].
  - destruct (get_bit_ok _ _ _ _ R C) as (st' & G & R'). exists st, st'. split; [reflexivity|]. split; [exact C|]. split; [exact G|exact R'].
Qed.
(** A code and up to sixteen bits that follow it *)
Lemma code_length counts values t sym code : dc_table counts values t -> code_of counts values sym code -> (1 <= length code <= 16)%nat.
Proof.
  intros (TO & _ & _) (p & s0 & c & Ec & Ev & ->). destruct (codes_nth _ _ TO _ _ _ Ec) as (Hp & Es & _).
  pose proof (size_range _ _ TO p Hp). rewrite msb_length. lia.
Qed.
Lemma symbol_step counts values t sym code x st rest fin : dc_table counts values t -> code_of counts values sym code -> (length x <= 16)%nat ->
  rready st (code ++ x ++ rest) fin ->
  exists st1 st2 e u, refill st = Ok st1 /\ get_at (lookup t) (Z.to_nat (peek 9 st1)) = Ok e /\ decode_huff t e st1 = Ok (sym, st2) /\
    held st2 (x ++ u) /\ source st2 (x ++ rest) (x ++ u) fin /\ eoi st2 = false.
Proof.
  intros T Co Lx (R & Eo). pose proof (code_length _ _ _ _ _ T Co) as Lc. rewrite app_assoc in R. pose proof (ready_left _ _ _ R) as L0.
  destruct (refill_ready st _ _ _ R) as (st1 & u & Rf & H & S); [rewrite app_length; lia|]. rewrite <- !app_assoc in H. rewrite <- !app_assoc in S.
  destruct (refill_keeps _ _ Rf L0) as (K1 & _).
  destruct (code_front _ _ _ _ _ _ _ T Co H) as (p & _ & _ & _ & _ & _ & _ & _ & _ & G & D).
  do 4 eexists. split; [exact Rf|]. split; [exact G|]. split; [exact D|]. split; [exact (drop_held _ _ _ H)|]. split; [|cbn; congruence].
  exact (source_drop _ code _ _ _ _ S).
Qed.
Lemma bits_step st x u rest fin : held st (x ++ u) -> source st (x ++ rest) (x ++ u) fin -> eoi st = false -> (length x <= 16)%nat ->
  exists st', get_bits (Z.of_nat (length x)) st = (val x, st') /\ rready st' rest fin.
Proof.
  intros H S Eo L. destruct (get_bits_held _ _ _ H L) as (st' & G & H' & E1 & E2 & E3 & E4). exists st'. split; [exact G|]. split; [|congruence].
  exists u. split; [exact H'|]. eapply source_next; [exact S|assumption..].
Qed.
(** The steps of first scans, with [eoi] *)
Lemma ac_value_eoi counts values t a r s v code st rest fin : ac_table counts values t a -> (r <= 15)%nat -> 1 <= s <= 15 -> category s v ->
  code_of counts values (16 * Z.of_nat r + s) code -> rready st (code ++ extra_bits s v ++ rest) fin ->
  exists st1 st2 fa e, refill st = Ok st1 /\ rready st2 rest fin /\ get_at a (Z.to_nat (peek 9 st1)) = Ok fa /\ get_at (lookup t) (Z.to_nat (peek 9 st1)) = Ok e /\
    (fa <> 0 /\ Z.to_nat (Z.land (Z.shiftr fa 4) 15) = r /\ Z.shiftr fa 8 = v /\ drop_bits (Z.land fa 15) st1 = st2 \/
     fa = 0 /\ exists st3 x, decode_huff t e st1 = Ok (16 * Z.of_nat r + s, st3) /\ get_bits s st3 = (x, st2) /\ huff_extend x s = v).
Proof.
  intros T Hr Hs Cat Co (R & Eo). destruct (ac_value_step _ _ _ _ _ _ _ _ _ _ _ T Hr Hs Cat Co R) as (st1 & st2 & fa & e & E1 & R2 & E3 & E4 & E5).
  exists st1, st2, fa, e. destruct (refill_keeps _ _ E1 (ready_left _ _ _ R)) as (K & _). split; [exact E1|]. split; [split; [exact R2|]|auto].
  destruct E5 as [(_ & _ & _ & <-)|(_ & st3 & x & D & G & _)]; [cbn; congruence|]. apply decode_huff_keeps in D. apply get_bits_keeps in G. destruct D, G. congruence.
Qed.
Lemma ac_symbol_eoi counts values t a r code x st rest fin : ac_table counts values t a -> 0 <= r <= 15 -> (length x <= 16)%nat ->
  code_of counts values (16 * r) code -> rready st (code ++ x ++ rest) fin ->
  exists st1 st2 e u, refill st = Ok st1 /\ get_at a (Z.to_nat (peek 9 st1)) = Ok 0 /\ get_at (lookup t) (Z.to_nat (peek 9 st1)) = Ok e /\
    decode_huff t e st1 = Ok (16 * r, st2) /\ held st2 (x ++ u) /\ source st2 (x ++ rest) (x ++ u) fin /\ eoi st2 = false.
Proof.
  intros T Hr Lx Co R. destruct (symbol_step _ _ _ _ _ _ _ _ _ (proj1 T) Co Lx R) as (st1 & st2 & e & u & E1 & E2 & E3 & E4).
  destruct R as (R & _). destruct (ac_plain_step _ _ _ _ _ _ _ _ _ T Hr Co R) as (st1' & st2' & e' & F1 & _ & F3 & _).
  rewrite E1 in F1. injection F1 as <-. exists st1, st2, e, u. auto.
Qed.
