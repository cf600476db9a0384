(** Blocks of progressive scans *)
From Verif Require Import Base BaseProof Loops Slices Bits JpegSimd JpegHuffModel JpegIdctSpec JpegHuffSpec JpegHuffTable JpegHuffBits JpegHuffBlock JpegHuffRun JpegScanModel JpegProgModel JpegProgSpec JpegProgBits.

(** * A block in zigzag order *)
Definition view (b : list Z) : list Z := map (fun i => nth i b 0) zigzag.
Lemma zz_length : length zigzag = 64%nat.
Proof. reflexivity. Qed.
Lemma view_length b : length (view b) = 64%nat.
Proof. unfold view. now rewrite map_length. Qed.
Lemma view_nth b k : (k < 64)%nat -> nth k (view b) 0 = nth (nth k zigzag 0%nat) b 0.
Proof. intros H. unfold view. rewrite (map_nth_in _ _ _ 0%nat) by (rewrite zz_length; exact H). reflexivity. Qed.
Lemma view_upd b k x : length b = 64%nat -> (k < 64)%nat -> view (upd b (nth k zigzag 0%nat) x) = upd (view b) k x.
Proof.
  intros L H. destruct (zz_at k H) as (_ & Hz). apply (list_eq_nth 0); [now rewrite upd_length, !view_length|]. rewrite view_length. intros i Hi.
  rewrite view_nth by exact Hi. destruct (Nat.eq_dec i k) as [->|N].
  - rewrite upd_nth_same by lia. rewrite upd_nth_same by (rewrite view_length; lia). reflexivity.
  - rewrite upd_nth_other by (intros E; apply zz_inj in E; lia). rewrite upd_nth_other by lia. now rewrite view_nth.
Qed.
Lemma view_inj b b' : length b = 64%nat -> length b' = 64%nat -> view b = view b' -> b = b'.
Proof.
  intros L L' E. apply (list_eq_nth 0); [congruence|]. intros i Hi. rewrite L in Hi.
  assert (A : forallb (fun i => existsb (fun k => nth k zigzag 0 =? i) (seq 0 64))%nat (seq 0 64) = true) by (vm_compute; reflexivity).
  rewrite forallb_forall in A. specialize (A i ltac:(apply in_seq; lia)). apply existsb_exists in A. destruct A as (k & Hk & Ek).
  apply in_seq in Hk. apply Nat.eqb_eq in Ek. rewrite <- Ek, <- !view_nth by lia. now rewrite E.
Qed.
Lemma get_view b k : length b = 64%nat -> (k < 64)%nat -> get_at UN_ZIGZAG k = Ok (nth k zigzag 0%nat) /\ get_at b (nth k zigzag 0%nat) = Ok (nth k (view b) 0).
Proof.
  intros L H. destruct (zz_at k H) as (Z1 & Z2). split; [exact Z1|]. rewrite (get_at_ok _ _ 0) by lia. now rewrite view_nth.
Qed.
Lemma upd_app {A} (P : list A) x y Q : upd (P ++ x :: Q) (length P) y = P ++ y :: Q.
Proof. induction P as [|p P IH]; cbn [app length upd]; [reflexivity|]. now rewrite IH. Qed.
Lemma nth_mid {A} (P : list A) x Q d : nth (length P) (P ++ x :: Q) d = x.
Proof. rewrite app_nth2 by lia. now rewrite Nat.sub_diag. Qed.
(** writing where the view is known *)
Lemma write_view b P x y Q : length b = 64%nat -> view b = P ++ x :: Q -> exists b', set_at b (nth (length P) zigzag 0%nat) y = Ok b' /\ length b' = 64%nat /\ view b' = P ++ y :: Q.
Proof.
  intros L V. assert (H : (length P < 64)%nat) by (rewrite <- (view_length b), V, app_length; cbn [length]; lia).
  destruct (zz_at _ H) as (_ & Hz). exists (upd b (nth (length P) zigzag 0%nat) y). split; [apply set_at_ok; lia|]. split; [now rewrite upd_length|].
  rewrite view_upd by assumption. rewrite V. apply upd_app.
Qed.
Lemma read_view b P x Q : length b = 64%nat -> view b = P ++ x :: Q -> get_at UN_ZIGZAG (length P) = Ok (nth (length P) zigzag 0%nat) /\
  get_at b (nth (length P) zigzag 0%nat) = Ok x /\ (length P < 64)%nat.
Proof.
  intros L V. assert (H : (length P < 64)%nat) by (rewrite <- (view_length b), V, app_length; cbn [length]; lia).
  destruct (get_view b _ L H) as (G1 & G2). split; [exact G1|]. split; [|exact H]. rewrite G2, V. now rewrite nth_mid.
Qed.

(** * Arithmetic *)
Lemma pow_al al : 0 < 2 ^ Z.of_nat al.
Proof. apply Z.pow_pos_nonneg; lia. Qed.
Lemma i16_id x : - 2 ^ 15 <= x < 2 ^ 15 -> i16 x = x.
Proof. intros H. unfold i16. change (2 ^ 15) with 32768 in *. change (2 ^ 16) with 65536. rewrite Z.mod_small; lia. Qed.
Lemma known_dc_range al c : - 2 ^ 15 <= c < 2 ^ 15 -> (al <= 13)%nat -> - 2 ^ 15 <= known_dc al c < 2 ^ 15 /\ - 2 ^ 15 <= c / 2 ^ Z.of_nat al < 2 ^ 15.
Proof.
  intros H Ha. unfold known_dc. pose proof (pow_al al) as P.
  assert (E : 2 ^ 15 = 2 ^ Z.of_nat al * 2 ^ (15 - Z.of_nat al)) by (rewrite <- Z.pow_add_r by lia; f_equal; lia).
  assert (Q : 0 < 2 ^ (15 - Z.of_nat al)) by (apply Z.pow_pos_nonneg; lia).
  pose proof (Z.div_mod c (2 ^ Z.of_nat al) ltac:(lia)) as D. pose proof (Z.mod_pos_bound c _ P).
  set (p := 2 ^ Z.of_nat al) in *. set (q := 2 ^ (15 - Z.of_nat al)) in *. set (d := c / p) in *. set (r := c mod p) in *. clearbody p q d r. rewrite E in *. clear E.
  assert (- q <= d) by nia. assert (d < q) by nia. assert (q <= p * q) by nia. split; nia.
Qed.
Lemma known_dc_fine al c : known_dc (al + 1) c + (if Z.testbit c (Z.of_nat al) then 2 ^ Z.of_nat al else 0) = known_dc al c.
Proof.
  unfold known_dc. rewrite Nat2Z.inj_add, Z.pow_add_r by lia. change (2 ^ Z.of_nat 1) with 2. pose proof (pow_al al) as P.
  rewrite <- Z.div_div by lia. pose proof (Z.testbit_spec' c (Z.of_nat al) ltac:(lia)) as T. pose proof (Z.div_mod (c / 2 ^ Z.of_nat al) 2 ltac:(lia)) as D. rewrite <- T in D.
  set (p := 2 ^ Z.of_nat al) in *. set (d := c / p) in *. clearbody p d. destruct (Z.testbit c (Z.of_nat al)); cbn [Z.b2z] in D; nia.
Qed.
(** parts of the absolute value *)
Lemma quot_abs c p : 0 < p -> Z.quot c p = Z.sgn c * (Z.abs c / p).
Proof.
  intros P. destruct (Z.lt_trichotomy c 0) as [H|[->|H]].
  - rewrite Z.sgn_neg by exact H. rewrite Z.abs_neq by lia. replace c with (- (- c)) at 1 by lia. rewrite Z.quot_opp_l by lia. rewrite Z.quot_div_nonneg by lia. lia.
  - rewrite Z.quot_0_l by lia. reflexivity.
  - rewrite Z.sgn_pos, Z.abs_eq by lia. rewrite Z.quot_div_nonneg by lia. lia.
Qed.
Lemma known_ac_abs al c : known_ac al c = Z.sgn c * (Z.abs c / 2 ^ Z.of_nat al * 2 ^ Z.of_nat al).
Proof. unfold known_ac. rewrite quot_abs by apply pow_al. ring. Qed.
Lemma known_ac_range al c : Z.abs c < 2 ^ 15 -> - 2 ^ 15 < known_ac al c < 2 ^ 15 /\ - 2 ^ 15 < Z.quot c (2 ^ Z.of_nat al) < 2 ^ 15.
Proof.
  intros H. rewrite known_ac_abs, quot_abs by apply pow_al. pose proof (pow_al al) as P. pose proof (Z.div_mod (Z.abs c) (2 ^ Z.of_nat al) ltac:(lia)). pose proof (Z.mod_pos_bound (Z.abs c) _ P).
  pose proof (Z.abs_nonneg c). set (p := 2 ^ Z.of_nat al) in *. set (d := Z.abs c / p) in *. set (r := Z.abs c mod p) in *. clearbody p d r.
  assert (0 <= d) by nia. destruct (Z.lt_trichotomy c 0) as [X|[X|X]]; [rewrite Z.sgn_neg by exact X|rewrite X; cbn [Z.sgn]|rewrite Z.sgn_pos by lia]; split; nia.
Qed.
Lemma div_double al c : 0 <= c -> c / 2 ^ Z.of_nat al = 2 * (c / 2 ^ (Z.of_nat al + 1)) + Z.b2z (Z.testbit c (Z.of_nat al)).
Proof.
  intros H. rewrite Z.pow_add_r by lia. change (2 ^ 1) with 2. rewrite <- Z.div_div by (try apply pow_al; lia). rewrite Z.testbit_spec' by lia. apply Z.div_mod. lia.
Qed.
Lemma was_spec al c : was al c = negb (known_ac (al + 1) c =? 0).
Proof.
  unfold was. rewrite known_ac_abs, Nat2Z.inj_add. change (Z.of_nat 1) with 1. set (p := 2 ^ (Z.of_nat al + 1)). assert (P : 0 < p) by (apply Z.pow_pos_nonneg; lia). clearbody p.
  destruct (Z.leb_spec p (Z.abs c)) as [H|H].
  - symmetry. apply negb_true_iff, Z.eqb_neq. assert (1 <= Z.abs c / p) by (apply Z.div_le_lower_bound; lia).
    destruct (Z.lt_trichotomy c 0) as [X|[X|X]]; [rewrite Z.sgn_neg by exact X|lia|rewrite Z.sgn_pos by lia]; nia.
  - symmetry. apply negb_false_iff, Z.eqb_eq. rewrite Z.div_small by lia. lia.
Qed.
Lemma not_new_zero al c : was al c = false -> new al c = false -> known_ac al c = 0 /\ known_ac (al + 1) c = 0.
Proof.
  intros W N. split; [|rewrite was_spec in W; apply negb_false_iff, Z.eqb_eq in W; exact W]. unfold was, new in *. rewrite known_ac_abs. rewrite Z.div_small; [lia|]. pose proof (pow_al al). lia.
Qed.
Lemma new_value al c : new al c = true -> was al c = false /\ known_ac al c = (if 0 <? c then 2 ^ Z.of_nat al else - 2 ^ Z.of_nat al).
Proof.
  unfold new, was. intros H. apply andb_prop in H. destruct H as (H1 & H2). apply Z.leb_le in H1. apply Z.ltb_lt in H2. split; [apply Z.leb_gt; exact H2|].
  rewrite known_ac_abs. pose proof (pow_al al). rewrite Z.pow_add_r in H2 by lia. change (2 ^ 1) with 2 in H2. set (p := 2 ^ Z.of_nat al) in *. clearbody p.
  replace (Z.abs c / p) with 1 by (apply (Z.div_unique _ _ _ (Z.abs c - p)); lia). destruct (Z.ltb_spec 0 c); [rewrite Z.sgn_pos by lia|rewrite Z.sgn_neg by lia]; lia.
Qed.
(** a correction bit *)
Lemma correct_value al c : was al c = true -> Z.land (known_ac (al + 1) c) (2 ^ Z.of_nat al) = 0 /\
  known_ac al c = known_ac (al + 1) c + (if Z.testbit (Z.abs c) (Z.of_nat al) then (if 0 <=? known_ac (al + 1) c then 2 ^ Z.of_nat al else - 2 ^ Z.of_nat al) else 0).
Proof.
  intros W. split.
  - rewrite <- Z.shiftl_1_l. apply Z.bits_inj'. intros n Hn. rewrite Z.land_spec, Z.bits_0, Z.shiftl_1_l, Z.pow2_bits_eqb by lia.
    destruct (Z.eqb_spec (Z.of_nat al) n) as [<-|N]; [|apply andb_false_r]. rewrite andb_true_r. unfold known_ac. apply Z.mul_pow2_bits_low. lia.
  - rewrite was_spec in W. apply negb_true_iff, Z.eqb_neq in W. rewrite !known_ac_abs in *. pose proof (div_double al (Z.abs c) (Z.abs_nonneg c)) as D. rewrite Nat2Z.inj_add in *. change (Z.of_nat 1) with 1 in *.
    rewrite D. pose proof (pow_al al). rewrite Z.pow_add_r in * by lia. change (2 ^ 1) with 2 in *. set (p := 2 ^ Z.of_nat al) in *. set (d := Z.abs c / (p * 2)) in *.
    assert (0 <= d) by (apply Z.div_pos; lia). clearbody d. clearbody p. clear D.
    destruct (Z.lt_trichotomy c 0) as [X|[X|X]]; [rewrite Z.sgn_neg in * by exact X|exfalso; apply W; rewrite X; reflexivity|rewrite Z.sgn_pos in * by exact X].
    + replace (0 <=? -1 * (d * (p * 2))) with false by (symmetry; apply Z.leb_gt; nia). destruct (Z.testbit _ _); cbn [Z.b2z]; ring.
    + replace (0 <=? 1 * (d * (p * 2))) with true by (symmetry; apply Z.leb_le; nia). destruct (Z.testbit _ _); cbn [Z.b2z]; ring.
Qed.

(** * First scans of AC coefficients *)
Definition ac_next (fuel : nat) (t : table) (fast : list Z) (bit : Z) (se k : nat) (block : list Z) (s : bits) : list Z * res (Z * bits) :=
  if (se <? k)%nat then (block, Ok (0, s)) else ac_first fuel t fast bit se k block s.
Lemma then_ok {S A B} (s : S) (a : A) (f : S -> A -> S * res B) r : r = Ok a -> then_ (s, r) f = f s a.
Proof. now intros ->. Qed.
Lemma app_repeat {A} n m (x : A) : repeat x (n + m) = repeat x n ++ repeat x m.
Proof. apply repeat_app. Qed.
Lemma eob_val e run : 2 ^ Z.of_nat e <= Z.of_nat run < 2 ^ (Z.of_nat e + 1) -> 2 ^ Z.of_nat e + val (msb e (Z.of_nat run - 2 ^ Z.of_nat e)) = Z.of_nat run.
Proof. intros H. rewrite val_msb. rewrite Z.pow_add_r in H by lia. change (2 ^ 1) with 2 in H. rewrite Z.mod_small by lia. lia. Qed.
Section First.
  Variables (counts values : list Z) (t : table) (fast : list Z) (al se : nat) (fin : option (Z * list Z)).
  Hypotheses (T : ac_table counts values t fast) (Al : (al <= 13)%nat) (Se : (se <= 63)%nat).
  Let bit := Z.shiftl 1 (Z.of_nat al).
  Lemma bit_eq : bit = 2 ^ Z.of_nat al.
  Proof. apply Z.shiftl_1_l. Qed.
  Definition fits (v : Z) : Prop := - 2 ^ 15 < v * 2 ^ Z.of_nat al < 2 ^ 15.
  Lemma fits_value v s : category s v -> 1 <= s <= 15 -> fits v -> i16 (v * bit) = v * 2 ^ Z.of_nat al /\ i16 v = v.
  Proof. intros C Hs F. unfold fits in F. rewrite bit_eq. pose proof (category_bound _ _ Hs C). split; apply i16_id; lia. Qed.
  Lemma ac_first_run : forall cs bs, run_coded counts values cs bs -> forall fuel P Q block st rest, Forall fits cs ->
    (length P + length cs <= se + 1)%nat -> (length cs <= fuel)%nat -> length block = 64%nat -> view block = P ++ repeat 0 (length cs) ++ Q -> rready st (bs ++ rest) fin ->
    exists fuel' block' st', ac_next fuel t fast bit se (length P) block st = ac_next fuel' t fast bit se (length P + length cs) block' st' /\ (fuel <= length cs + fuel')%nat /\
      length block' = 64%nat /\ view block' = P ++ map (fun v => v * 2 ^ Z.of_nat al) cs ++ Q /\ rready st' rest fin.
  Proof.
    intros cs bs C. induction C as [|cs code bs Co C IH|r s v cs code bs Hr Hs Cat Co C IH]; intros fuel P Q block st rest F Lp Hf Lb V R.
    - exists fuel, block, st. cbn [length map app] in *. rewrite Nat.add_0_r. split; [reflexivity|]. split; [lia|]. split; [exact Lb|]. split; [exact V|exact R].
    - rewrite app_length, repeat_length in *. destruct fuel as [|f]; [lia|]. unfold ac_next at 1. replace (se <? length P)%nat with false by (symmetry; apply Nat.ltb_ge; lia).
      cbn [ac_first]. rewrite <- app_assoc in R. destruct (ac_symbol_eoi _ _ _ _ 15 _ [] _ _ _ T ltac:(lia) ltac:(cbn; lia) Co R) as (st1 & st2 & e & u & E1 & E2 & E3 & E4 & H2 & S2 & Eo2).
      rewrite (then_ok _ _ _ _ E1), (then_ok _ _ _ _ E2), (then_ok _ _ _ _ E3). change (negb (0 =? 0)) with false. cbv iota. rewrite (then_ok _ _ _ _ E4). cbv beta iota.
      change (Z.land (16 * 15) 15 =? 0) with true. change (Z.shiftr (16 * 15) 4 =? 15) with true. cbn [negb].
      change (if (se <? length P + 16)%nat then (block, Ok (0, st2)) else ac_first f t fast bit se (length P + 16) block st2) with (ac_next f t fast bit se (length P + 16) block st2).
      apply Forall_app in F. destruct F as (_ & F). rewrite app_repeat, <- app_assoc in V.
      replace (length P + 16)%nat with (length (P ++ repeat 0 16)) by (rewrite app_length, repeat_length; lia).
      destruct (IH f (P ++ repeat 0 16) Q block st2 rest F) as (f' & b' & st' & A1 & A2 & A3 & A4 & A5);
        [rewrite app_length, repeat_length; lia|lia|exact Lb|rewrite <- app_assoc; exact V|split; [exists u; now split|exact Eo2]|].
      exists f', b', st'. rewrite A1. split; [f_equal; rewrite app_length, repeat_length; lia|]. split; [lia|]. split; [exact A3|]. split; [|exact A5].
      rewrite A4, map_app, <- !app_assoc. cbn [repeat map app]. reflexivity.
    - rewrite !app_length, repeat_length in *. cbn [length] in *. destruct fuel as [|f]; [lia|]. unfold ac_next at 1. replace (se <? length P)%nat with false by (symmetry; apply Nat.ltb_ge; lia).
      cbn [ac_first]. rewrite <- !app_assoc in R. destruct (ac_value_eoi _ _ _ _ _ _ _ _ _ _ _ T Hr Hs Cat Co R) as (st1 & st2 & fa & e & E1 & R2 & E3 & E4 & E5).
      rewrite (then_ok _ _ _ _ E1), (then_ok _ _ _ _ E3), (then_ok _ _ _ _ E4).
      apply Forall_app in F. destruct F as (_ & F). cbn [app] in F. inversion F as [|x y Fv F']. subst x y.
      rewrite app_repeat, <- app_assoc in V. cbn [repeat Nat.add] in V.
      assert (V' : view block = (P ++ repeat 0 r) ++ 0 :: repeat 0 (length cs) ++ Q) by (rewrite <- app_assoc; exact V).
      destruct (write_view block (P ++ repeat 0 r) 0 (v * 2 ^ Z.of_nat al) _ Lb V') as (b1 & W1 & W2 & W3). destruct (read_view _ _ _ _ Lb V') as (W4 & _ & W5).
      assert (Lr : length (P ++ repeat 0 r) = (length P + r)%nat) by now rewrite app_length, repeat_length. rewrite Lr in *.
      destruct (IH f ((P ++ repeat 0 r) ++ [v * 2 ^ Z.of_nat al]) Q b1 st2 rest F') as (f' & b' & st' & A1 & A2 & A3 & A4 & A5);
        [rewrite app_length, Lr; cbn [length]; lia|lia|exact W2|rewrite <- app_assoc; exact W3|exact R2|].
      rewrite app_length, Lr in A1. cbn [length] in A1.
      exists f', b', st'. replace (length P + (r + (1 + length cs)))%nat with (length P + r + 1 + length cs)%nat by lia. rewrite <- A1.
      split; [|split; [lia|split; [exact A3|split; [|exact A5]]]].
      2: { rewrite A4, !map_app. cbn [map app]. replace (map _ (repeat 0 r)) with (repeat 0 r) by (clear; induction r; cbn; congruence). now rewrite <- !app_assoc. }
      destruct (fits_value _ _ Cat Hs Fv) as (I1 & I2).
      destruct E5 as [(Ez & P1 & P2 & P3)|(Ez & st3 & x & P1 & P2 & P3)].
      + replace (fa =? 0) with false by (symmetry; apply Z.eqb_neq; exact Ez). cbn [negb]. rewrite P1, Nat.min_l by lia.
        rewrite (then_ok _ _ _ _ W4). rewrite P2, I1. rewrite (then_ok _ _ _ _ W1). cbv beta. rewrite P3. reflexivity.
      + rewrite Ez. change (negb (0 =? 0)) with false. cbv iota. rewrite (then_ok _ _ _ _ P1). cbv beta iota.
        destruct (land_15 (Z.of_nat r) s ltac:(lia) ltac:(lia)) as (L15 & L4). rewrite L15, L4, Nat2Z.id. replace (s =? 0) with false by (symmetry; apply Z.eqb_neq; lia). cbn [negb].
        rewrite P2. rewrite Nat.mod_small by lia. rewrite (then_ok _ _ _ _ W4). rewrite P3, I2, I1. rewrite (then_ok _ _ _ _ W1). reflexivity.
  Qed.
  Lemma quot_zero_fits : fits 0.
  Proof. unfold fits. lia. Qed.
  (** a band of a block, that is not in a run *)
  Lemma ac_first_full ss P cs bs Q block st rest : ss = length P -> run_coded counts values cs bs -> Forall fits cs -> (0 < length cs)%nat -> (length P + length cs = se + 1)%nat ->
    length block = 64%nat -> view block = P ++ repeat 0 (length cs) ++ Q -> rready st (bs ++ rest) fin ->
    exists block' st', ac_first 65 t fast bit se ss block st = (block', Ok (0, st')) /\ length block' = 64%nat /\
      view block' = P ++ map (fun v => v * 2 ^ Z.of_nat al) cs ++ Q /\ rready st' rest fin.
  Proof.
    intros -> C F L0 Lp Lb V R. destruct (ac_first_run cs bs C 65 P Q block st rest F) as (f' & b' & st' & A1 & A2 & A3 & A4 & A5); [lia|lia|exact Lb|exact V|exact R|].
    exists b', st'. split; [|auto]. unfold ac_next in A1. replace (se <? length P)%nat with false in A1 by (symmetry; apply Nat.ltb_ge; lia).
    replace (se <? length P + length cs)%nat with true in A1 by (symmetry; apply Nat.ltb_lt; lia). exact A1.
  Qed.
  Lemma ac_first_end ss P cs n run b1 b2 Q block st rest : ss = length P -> run_coded counts values cs b1 -> Forall fits cs -> (0 < n)%nat -> (length P + length cs + n = se + 1)%nat ->
    eob_coded counts values (S run) b2 -> length block = 64%nat -> view block = P ++ repeat 0 (length cs + n) ++ Q -> rready st (b1 ++ b2 ++ rest) fin ->
    exists block' st', ac_first 65 t fast bit se ss block st = (block', Ok (Z.of_nat run, st')) /\ length block' = 64%nat /\
      view block' = P ++ map (fun v => v * 2 ^ Z.of_nat al) (cs ++ repeat 0 n) ++ Q /\ rready st' rest fin.
  Proof.
    intros -> C F Hn Lp (e & code & He & Hr & Co & ->) Lb V R. rewrite app_repeat, <- app_assoc in V.
    destruct (ac_first_run cs b1 C 65 P (repeat 0 n ++ Q) block st _ F ltac:(lia) ltac:(lia) Lb V R) as (f' & b' & st' & A1 & A2 & A3 & A4 & A5).
    unfold ac_next in A1. replace (se <? length P)%nat with false in A1 by (symmetry; apply Nat.ltb_ge; lia).
    replace (se <? length P + length cs)%nat with false in A1 by (symmetry; apply Nat.ltb_ge; lia). rewrite A1. destruct f' as [|f']; [lia|]. cbn [ac_first].
    rewrite <- app_assoc in A5. destruct (ac_symbol_eoi _ _ _ _ (Z.of_nat e) _ (msb e (Z.of_nat (S run) - 2 ^ Z.of_nat e)) _ _ _ T ltac:(lia) ltac:(rewrite msb_length; lia) Co A5) as (st1 & st2 & en & u & E1 & E2 & E3 & E4 & H2 & S2 & Eo2).
    rewrite (then_ok _ _ _ _ E1), (then_ok _ _ _ _ E2), (then_ok _ _ _ _ E3). change (negb (0 =? 0)) with false. cbv iota. rewrite (then_ok _ _ _ _ E4). cbv beta iota.
    destruct (land_15 (Z.of_nat e) 0 ltac:(lia) ltac:(lia)) as (L15 & L4). rewrite Z.add_0_r in L15, L4. rewrite L15, L4. change (negb (0 =? 0)) with false. cbv iota.
    replace (Z.of_nat e =? 15) with false by (symmetry; apply Z.eqb_neq; lia). cbn [negb].
    destruct (bits_step _ _ _ _ _ H2 S2 Eo2) as (st3 & G & R3); [rewrite msb_length; lia|]. rewrite msb_length in G. rewrite G.
    exists b', st3. split; [|split; [exact A3|split; [|exact R3]]].
    - do 3 f_equal. pose proof (eob_val _ _ Hr). lia.
    - rewrite A4, map_app, <- !app_assoc. do 2 f_equal. replace (map _ (repeat 0 n)) with (repeat 0 n) by (clear; induction n; cbn; congruence). reflexivity.
  Qed.
End First.

(** * Refinement scans of AC coefficients *)
Definition refine_next (debug : bool) (fuel : nat) (t : table) (bit : Z) (se k : nat) (block : list Z) (s : bits) : list Z * res (nat * Z * bits) :=
  if (se <? k)%nat then (block, Ok (k, 0, s)) else refine_loop debug fuel t bit se k block s.
Section Fine.
  Variables (counts values : list Z) (t : table) (al se : nat) (fin : option (Z * list Z)) (debug : bool).
  Hypotheses (T : dc_table counts values t) (Al : (al <= 13)%nat) (Se : (se <= 63)%nat).
  Let bit := Z.shiftl 1 (Z.of_nat al).
  Notation old := (known_ac (al + 1)).
  Notation now_ := (known_ac al).
  Definition small (c : Z) : Prop := Z.abs c < 2 ^ 15.
  Lemma fbit : bit = 2 ^ Z.of_nat al.
  Proof. apply Z.shiftl_1_l. Qed.
  Lemma fbit_range : 0 < bit <= 2 ^ 13.
  Proof. rewrite fbit. split; [apply pow_al|]. apply Z.pow_le_mono_r; lia. Qed.
  Lemma add_small c : small c -> was al c = true -> Z.testbit (Z.abs c) (Z.of_nat al) = true ->
    Z.land (old c) bit = 0 /\ add_i16 debug (old c) (if 0 <=? old c then bit else - bit) = Ok (now_ c) /\ i16 (old c + (if 0 <=? old c then bit else - bit)) = now_ c.
  Proof.
    intros S W B. destruct (correct_value al c W) as (L & E). rewrite B in E. rewrite <- fbit in L, E. split; [exact L|]. rewrite <- E.
    destruct (known_ac_range al c S) as (R & _). split; [|apply i16_id; lia]. unfold add_i16. rewrite <- E.
    replace (_ && _) with true; [reflexivity|]. symmetry. apply andb_true_intro. split; [apply Z.leb_le|apply Z.ltb_lt]; lia.
  Qed.
  Lemma add_none c : was al c = true -> Z.testbit (Z.abs c) (Z.of_nat al) = false -> now_ c = old c.
  Proof. intros W B. destruct (correct_value al c W) as (L & E). rewrite B in E. lia. Qed.
  Lemma advance_ok z : forall sk fuel P Q block st rest, Forall small sk -> no_new al sk -> was al z = false -> (length P + length sk <= se)%nat -> (length sk < fuel)%nat ->
    length block = 64%nat -> view block = P ++ map old sk ++ old z :: Q -> rready st (corrections al sk ++ rest) fin ->
    exists block' st', advance debug fuel bit se (length P) (Z.of_nat (zeros al sk)) block st = (block', Ok ((length P + length sk)%nat, st')) /\
      length block' = 64%nat /\ view block' = P ++ map now_ sk ++ old z :: Q /\ rready st' rest fin.
  Proof.
    induction sk as [|c sk IH]; intros fuel P Q block st rest S N W Lp Hf Lb V R; (destruct fuel as [|f]; [cbn in Hf; lia|]); cbn [advance].
    - cbn [map app] in *. destruct (read_view _ _ _ _ Lb V) as (G1 & G2 & G3). rewrite Nat.mod_small by lia. rewrite (then_ok _ _ _ _ G1), (then_ok _ _ _ _ G2).
      rewrite was_spec in W. rewrite W. cbn [zeros filter length]. change (Z.of_nat 0 - 1 <? 0) with true. cbv iota. exists block, st. rewrite Nat.add_0_r. auto.
    - cbn [map app length] in *. destruct (read_view _ _ _ _ Lb V) as (G1 & G2 & G3). rewrite Nat.mod_small by lia. rewrite (then_ok _ _ _ _ G1), (then_ok _ _ _ _ G2). rewrite <- was_spec.
      inversion S as [|x y Sc S']. subst x y. inversion N as [|x y Nc N']. subst x y.
      replace (length P =? se)%nat with false by (symmetry; apply Nat.eqb_neq; lia).
      unfold corrections, zeros in *. cbn [filter] in *. destruct (was al c) eqn:Wc.
      + cbn [map app negb length] in *.
        destruct (need_bit _ _ _ _ R) as (st1 & st2 & F1 & F2 & F3 & F4).
        replace (if left st <? 1 then do s <- refill st; if (left s <? 1) && match marker s with Some _ => true | None => false end then Err EOther else Ok s else Ok st) with (Ok st1).
        2: { symmetry. destruct (left st <? 1); [|exact F1]. rewrite F1. cbn [bind]. replace (left st1 <? 1) with false by (symmetry; apply Z.ltb_ge; exact F2). reflexivity. }
        rewrite (then_ok _ _ _ _ eq_refl), F3.
        assert (X : exists b1, (if Z.testbit (Z.abs c) (Z.of_nat al) && (Z.land (old c) bit =? 0) then then_ (block, add_i16 debug (old c) (if 0 <=? old c then bit else - bit))
           (fun block x => then_ (block, set_at block (nth (length P) zigzag 0%nat) x) (fun _ block => (block, Ok tt))) else (block, Ok tt)) = (b1, Ok tt) /\ length b1 = 64%nat /\
           view b1 = (P ++ [now_ c]) ++ map old sk ++ old z :: Q).
        { destruct (Z.testbit (Z.abs c) (Z.of_nat al)) eqn:B.
          - destruct (add_small c Sc Wc B) as (A1 & A2 & _). rewrite A1. change (true && (0 =? 0)) with true. cbv iota. rewrite (then_ok _ _ _ _ A2).
            destruct (write_view block P (old c) (now_ c) _ Lb V) as (b1 & W1 & W2 & W3). exists b1. rewrite (then_ok _ _ _ _ W1). split; [reflexivity|]. split; [exact W2|]. now rewrite <- app_assoc.
          - exists block. split; [reflexivity|]. split; [exact Lb|]. rewrite (add_none _ Wc B), <- app_assoc. exact V. }
        destruct X as (b1 & X1 & X2 & X3). rewrite X1. rewrite (then_ok _ _ _ _ eq_refl).
        destruct (IH f (P ++ [now_ c]) Q b1 st2 rest S' N' W) as (b' & st' & A1 & A2 & A3 & A4); [rewrite app_length; cbn [length]; lia|lia|exact X2|exact X3|exact F4|].
        rewrite app_length in A1. cbn [length] in A1. exists b', st'. split; [rewrite A1; do 3 f_equal; lia|]. split; [exact A2|]. split; [|exact A4]. now rewrite <- app_assoc in A3.
      + cbn [negb length] in *. rewrite Nat2Z.inj_succ. replace (Z.succ (Z.of_nat _) - 1) with (Z.of_nat (length (filter (fun c => negb (was al c)) sk))) by lia.
        replace (Z.of_nat _ <? 0) with false by (symmetry; apply Z.ltb_ge; lia).
        destruct (not_new_zero al c Wc Nc) as (Z1 & Z2). rewrite Z2 in V. rewrite Z1.
        destruct (IH f (P ++ [0]) Q block st rest S' N' W) as (b' & st' & A1 & A2 & A3 & A4); [rewrite app_length; cbn [length]; lia|lia|exact Lb|rewrite <- app_assoc; exact V|exact R|].
        rewrite app_length in A1. cbn [length] in A1. exists b', st'. split; [rewrite A1; do 3 f_equal; lia|]. split; [exact A2|]. split; [|exact A4]. now rewrite <- app_assoc in A3.
  Qed.
  Lemma refine_run : forall cs bs, fine_coded counts values al cs bs -> forall fuel P Q block st rest, Forall small cs ->
    (length P + length cs <= se + 1)%nat -> (length cs <= fuel)%nat -> length block = 64%nat -> view block = P ++ map old cs ++ Q -> rready st (bs ++ rest) fin ->
    exists fuel' block' st', refine_next debug fuel t bit se (length P) block st = refine_next debug fuel' t bit se (length P + length cs) block' st' /\ (fuel <= length cs + fuel')%nat /\
      length block' = 64%nat /\ view block' = P ++ map now_ cs ++ Q /\ rready st' rest fin.
  Proof.
    intros cs bs C. pose proof fbit_range as Fb. induction C as [|sk z cs code bs N Zs W Co C IH|sk c cs code bs N Zs W Co C IH]; intros fuel P Q block st rest F Lp Hf Lb V R.
    - exists fuel, block, st. cbn [length map app] in *. rewrite Nat.add_0_r. split; [reflexivity|]. split; [lia|]. split; [exact Lb|]. split; [exact V|exact R].
    - rewrite !app_length in *. cbn [length] in *. destruct fuel as [|f]; [lia|]. unfold refine_next at 1. replace (se <? length P)%nat with false by (symmetry; apply Nat.ltb_ge; lia).
      cbn [refine_loop]. rewrite <- !app_assoc in R. destruct (symbol_step _ _ _ _ _ [] _ _ _ T Co ltac:(cbn; lia) R) as (st1 & st2 & e & u & E1 & E2 & E3 & H2 & S2 & Eo2).
      rewrite (then_ok _ _ _ _ E1), (then_ok _ _ _ _ E2), (then_ok _ _ _ _ E3). cbv beta iota zeta.
      change (Z.land 240 15) with 0. change (Z.shiftr 240 4) with 15. change (0 =? 0) with true. change (15 =? 15) with true. cbn [negb]. cbv iota.
      replace (length P <=? se)%nat with true by (symmetry; apply Nat.leb_le; lia).
      apply Forall_app in F. destruct F as (Fs & F). cbn [app] in F. inversion F as [|x y Fz F']. subst x y.
      apply Forall_app in N. destruct N as (Ns & Nz). inversion Nz as [|x y Nz' _]. subst x y.
      rewrite !map_app, <- !app_assoc in V. cbn [map app] in V.
      destruct (advance_ok z sk 65 P (map old cs ++ Q) block st2 (bs ++ rest) Fs Ns W) as (b1 & st3 & A1 & A2 & A3 & A4); [lia|lia|exact Lb|exact V|split; [exists u; now split|exact Eo2]|].
      rewrite Zs in A1. change (Z.of_nat 15) with 15 in A1. rewrite A1, (then_ok _ _ _ _ eq_refl). rewrite (then_ok _ _ _ _ eq_refl).
      destruct (not_new_zero al z W Nz') as (Z1 & Z2). rewrite Z2 in A3.
      destruct (IH f ((P ++ map now_ sk) ++ [0]) Q b1 st3 rest F') as (f' & b' & st' & B1 & B2 & B3 & B4 & B5);
        [rewrite !app_length, map_length; cbn [length]; lia|lia|exact A2|rewrite <- !app_assoc; exact A3|exact A4|].
      rewrite !app_length, map_length in B1. cbn [length] in B1.
      exists f', b', st'. split; [|split; [lia|split; [exact B3|split; [|exact B5]]]].
      + unfold refine_next in B1 at 1. rewrite B1. f_equal. lia.
      + rewrite B4, !map_app, <- !app_assoc. cbn [map app]. now rewrite Z1.
    - rewrite !app_length in *. cbn [length] in *. destruct fuel as [|f]; [lia|]. unfold refine_next at 1. replace (se <? length P)%nat with false by (symmetry; apply Nat.ltb_ge; lia).
      cbn [refine_loop]. rewrite <- !app_assoc in R. destruct (symbol_step _ _ _ _ _ [0 <? c] _ _ _ T Co ltac:(cbn; lia) R) as (st1 & st2 & e & u & E1 & E2 & E3 & H2 & S2 & Eo2).
      rewrite (then_ok _ _ _ _ E1), (then_ok _ _ _ _ E2), (then_ok _ _ _ _ E3). cbv beta iota zeta.
      destruct (land_15 (Z.of_nat (zeros al sk)) 1 ltac:(lia) ltac:(lia)) as (L15 & L4). rewrite L15, L4. change (1 =? 0) with false. change (1 =? 1) with true. cbn [negb]. cbv iota.
      assert (R2 : rready st2 ((0 <? c) :: corrections al sk ++ bs ++ rest) fin) by (split; [exists ([0 <? c] ++ u); now split|exact Eo2]).
      destruct (get_bit_ok _ _ _ _ R2) as (st3 & Gb & R3). { rewrite (h_left _ _ H2). cbn [app length]. lia. }
      rewrite Gb. replace (length P <=? se)%nat with true by (symmetry; apply Nat.leb_le; lia).
      apply Forall_app in F. destruct F as (Fs & F). cbn [app] in F. inversion F as [|x y Fz F']. subst x y.
      rewrite !map_app, <- !app_assoc in V. cbn [map app] in V. destruct (new_value al c W) as (Wc & Vc).
      destruct (advance_ok c sk 65 P (map old cs ++ Q) block st3 (bs ++ rest) Fs N Wc) as (b1 & st4 & A1 & A2 & A3 & A4); [lia|lia|exact Lb|exact V|exact R3|].
      rewrite A1, (then_ok _ _ _ _ eq_refl). rewrite app_assoc in A3.
      assert (Lm : length (P ++ map now_ sk) = (length P + length sk)%nat) by now rewrite app_length, map_length.
      destruct (read_view _ _ _ _ A2 A3) as (G1 & _ & G3). destruct (write_view _ _ _ (now_ c) _ A2 A3) as (b2 & W1 & W2 & W3). rewrite Lm in *.
      assert (Vb : (if 0 <? c then bit else - bit) = now_ c) by (rewrite Vc, fbit; reflexivity). rewrite Vb.
      replace (now_ c =? 0) with false by (symmetry; apply Z.eqb_neq; rewrite <- Vb; destruct (0 <? c); lia). cbn [negb].
      rewrite Nat.mod_small by lia. rewrite (then_ok _ _ _ _ G1). rewrite i16_id by (destruct (known_ac_range al c Fz); lia).
      rewrite (then_ok _ _ _ _ W1), (then_ok _ _ _ _ eq_refl).
      destruct (IH f ((P ++ map now_ sk) ++ [now_ c]) Q b2 st4 rest F') as (f' & b' & st' & B1 & B2 & B3 & B4 & B5);
        [rewrite app_length, Lm; cbn [length]; lia|lia|exact W2|rewrite <- app_assoc; exact W3|exact A4|].
      rewrite app_length, Lm in B1. cbn [length] in B1.
      exists f', b', st'. split; [|split; [lia|split; [exact B3|split; [|exact B5]]]].
      + unfold refine_next in B1 at 1. rewrite B1. f_equal. lia.
      + rewrite B4, !map_app, <- !app_assoc. reflexivity.
  Qed.
  Lemma correct_ok : forall tl P Q block st rest, Forall small tl -> no_new al tl -> (length P + length tl <= 64)%nat ->
    length block = 64%nat -> view block = P ++ map old tl ++ Q -> rready st (corrections al tl ++ rest) fin -> (corrections al tl ++ rest <> [] -> 1 <= left st) ->
    exists block' st', correct (length tl) bit (length P) block st = (block', Ok st') /\
      length block' = 64%nat /\ view block' = P ++ map now_ tl ++ Q /\ rready st' rest fin.
  Proof.
    induction tl as [|c tl IH]; intros P Q block st rest S N Lp Lb V R L1; cbn [correct length].
    - cbn [map app] in *. exists block, st. auto.
    - cbn [map app length] in *. destruct (read_view _ _ _ _ Lb V) as (G1 & G2 & G3). rewrite Nat.mod_small by lia. rewrite (then_ok _ _ _ _ G1), (then_ok _ _ _ _ G2). rewrite <- was_spec.
      inversion S as [|x y Sc S']. subst x y. inversion N as [|x y Nc N']. subst x y.
      unfold corrections in *. cbn [filter] in *. destruct (was al c) eqn:Wc.
      + cbn [map app] in *. destruct (get_bit_ok _ _ _ _ R (L1 ltac:(discriminate))) as (st2 & F3 & F4). rewrite F3.
        assert (X : exists b1, (if Z.testbit (Z.abs c) (Z.of_nat al) && (Z.land (old c) bit =? 0) then 
           then_ (block, set_at block (nth (length P) zigzag 0%nat) (i16 (old c + (if 0 <=? old c then bit else - bit)))) (fun _ block => (block, Ok tt)) else (block, Ok tt)) = (b1, Ok tt) /\ length b1 = 64%nat /\
           view b1 = (P ++ [now_ c]) ++ map old tl ++ Q).
        { destruct (Z.testbit (Z.abs c) (Z.of_nat al)) eqn:B.
          - destruct (add_small c Sc Wc B) as (A1 & _ & A2). rewrite A1, A2. change (true && (0 =? 0)) with true. cbv iota.
            destruct (write_view block P (old c) (now_ c) _ Lb V) as (b1 & W1 & W2 & W3). exists b1. rewrite (then_ok _ _ _ _ W1). split; [reflexivity|]. split; [exact W2|]. now rewrite <- app_assoc.
          - exists block. split; [reflexivity|]. split; [exact Lb|]. rewrite (add_none _ Wc B), <- app_assoc. exact V. }
        destruct X as (b1 & X1 & X2 & X3). rewrite X1. rewrite (then_ok _ _ _ _ eq_refl).
        assert (Y : exists st3, (if left st2 <? 1 then refill st2 else Ok st2) = Ok st3 /\ rready st3 (map (fun c => Z.testbit (Z.abs c) (Z.of_nat al)) (filter (was al) tl) ++ rest) fin /\
          (map (fun c => Z.testbit (Z.abs c) (Z.of_nat al)) (filter (was al) tl) ++ rest <> [] -> 1 <= left st3)).
        { destruct (Z.ltb_spec (left st2) 1) as [Lt|Ge]; [|exists st2; auto]. destruct (refill_more _ _ _ F4) as (st3 & Y1 & Y2 & Y3 & _). exists st3. auto. }
        destruct Y as (st3 & Y1 & Y2 & Y3). rewrite (then_ok _ _ _ _ Y1).
        destruct (IH (P ++ [now_ c]) Q b1 st3 rest S' N') as (b' & st' & A1 & A2 & A3 & A4); [rewrite app_length; cbn [length]; lia|exact X2|exact X3|exact Y2|exact Y3|].
        rewrite app_length in A1. cbn [length] in A1. exists b', st'. split; [exact A1|]. split; [exact A2|]. split; [|exact A4]. now rewrite <- app_assoc in A3.
      + cbn [andb]. rewrite (then_ok _ _ _ _ eq_refl). 
        assert (Y : exists st3, (if left st <? 1 then refill st else Ok st) = Ok st3 /\ rready st3 (map (fun c => Z.testbit (Z.abs c) (Z.of_nat al)) (filter (was al) tl) ++ rest) fin /\
          (map (fun c => Z.testbit (Z.abs c) (Z.of_nat al)) (filter (was al) tl) ++ rest <> [] -> 1 <= left st3)).
        { destruct (Z.ltb_spec (left st) 1) as [Lt|Ge]; [|exists st; auto]. destruct (refill_more _ _ _ R) as (st3 & Y1 & Y2 & Y3 & _). exists st3. auto. }
        destruct Y as (st3 & Y1 & Y2 & Y3). rewrite (then_ok _ _ _ _ Y1).
        destruct (not_new_zero al c Wc Nc) as (Z1 & Z2). rewrite Z2 in V. rewrite Z1.
        destruct (IH (P ++ [0]) Q block st3 rest S' N') as (b' & st' & A1 & A2 & A3 & A4); [rewrite app_length; cbn [length]; lia|exact Lb|rewrite <- app_assoc; exact V|exact Y2|exact Y3|].
        rewrite app_length in A1. cbn [length] in A1. exists b', st'. split; [exact A1|]. split; [exact A2|]. split; [|exact A4]. now rewrite <- app_assoc in A3.
  Qed.
  (** the rest of a block without new coefficients *)
  Lemma zz_zero : nth 0 zigzag 0%nat = 0%nat /\ forall k, (1 <= k < 64)%nat -> (1 <= nth k zigzag 0)%nat.
  Proof.
    split; [reflexivity|]. intros k H. destruct (Nat.eq_dec (nth k zigzag 0%nat) 0) as [E|E]; [|lia].
    assert (X : k = 0%nat); [|lia]. apply zz_inj; [lia|lia|]. exact E.
  Qed.
  Lemma no_coefficients block : existsb (fun x => negb (x =? 0)) (skipn 1 block) = false -> forall k, (1 <= k < 64)%nat -> nth k (view block) 0 = 0.
  Proof.
    intros E k H. rewrite view_nth by lia. destruct zz_zero as (_ & Zk). specialize (Zk k H). set (j := nth k zigzag 0%nat) in *. clearbody j.
    destruct (Nat.lt_ge_cases j (length block)) as [L|L]; [|now apply nth_overflow].
    destruct (Z.eqb_spec (nth j block 0) 0) as [X|X]; [exact X|]. exfalso. apply not_true_iff_false in E. apply E. apply existsb_exists. exists (nth j block 0). split.
    - replace j with (1 + (j - 1))%nat at 1 by lia. rewrite <- nth_skipn. apply nth_In. rewrite skipn_length. lia.
    - apply negb_true_iff. now apply Z.eqb_neq.
  Qed.
  Lemma rest_ok tl P Q block st rest : Forall small tl -> no_new al tl -> (1 <= length P)%nat -> (length P + length tl = se + 1)%nat ->
    length block = 64%nat -> view block = P ++ map old tl ++ Q -> rready st (corrections al tl ++ rest) fin ->
    exists block' st', (if existsb (fun x => negb (x =? 0)) (skipn 1 block) then then_ (block, refill st) (fun block s => correct (se + 1 - length P) bit (length P) block s) else (block, Ok st)) = (block', Ok st') /\
      length block' = 64%nat /\ view block' = P ++ map now_ tl ++ Q /\ rready st' rest fin.
  Proof.
    intros S N L1 Lp Lb V R. destruct (existsb _ _) eqn:E.
    - destruct (refill_more _ _ _ R) as (st1 & E1 & R1 & Le & _). rewrite (then_ok _ _ _ _ E1). replace (se + 1 - length P)%nat with (length tl) by lia. apply correct_ok; try assumption. lia.
    - pose proof (no_coefficients _ E) as Z. 
      assert (A : Forall (fun c => was al c = false) tl).
      { apply Forall_forall. intros c Hc. destruct (In_nth _ _ 0 Hc) as (i & Hi & Ec). specialize (Z (length P + i)%nat ltac:(lia)). rewrite V in Z. rewrite app_nth2 in Z by lia.
        replace (length P + i - length P)%nat with i in Z by lia. rewrite app_nth1 in Z by (rewrite map_length; exact Hi). rewrite (map_nth_in _ _ _ 0) in Z by exact Hi.
        rewrite Ec in Z. rewrite was_spec, Z. reflexivity. }
      assert (C0 : corrections al tl = []). { unfold corrections. clear -A. induction A as [|c tl W A IH]; [reflexivity|]. cbn [filter]. now rewrite W. }
      rewrite C0 in R. exists block, st. split; [reflexivity|]. split; [exact Lb|]. split; [|exact R]. rewrite V. do 2 f_equal. apply map_ext_in. intros c Hc.
      rewrite Forall_forall in A. unfold no_new in N. rewrite Forall_forall in N. destruct (not_new_zero al c (A c Hc) (N c Hc)) as (Z1 & Z2). congruence.
  Qed.
  (** the three cases of a block *)
  Lemma ac_refine_skip e ss P tl Q block st rest : ss = length P -> Forall small tl -> no_new al tl -> (1 <= length P)%nat -> (length P + length tl = se + 1)%nat ->
    length block = 64%nat -> view block = P ++ map old tl ++ Q -> rready st (corrections al tl ++ rest) fin ->
    exists block' st', ac_refine debug t bit ss se (Z.of_nat (S e)) block st = (block', Ok (Z.of_nat e, st')) /\
      length block' = 64%nat /\ view block' = P ++ map now_ tl ++ Q /\ rready st' rest fin.
  Proof.
    intros -> S N L1 Lp Lb V R. unfold ac_refine. replace (Z.of_nat (Datatypes.S e) =? 0) with false by (symmetry; apply Z.eqb_neq; lia). rewrite (then_ok _ _ _ _ eq_refl).
    replace (0 <? Z.of_nat (Datatypes.S e)) with true by (symmetry; apply Z.ltb_lt; lia).
    destruct (rest_ok tl P Q block st rest S N L1 Lp Lb V R) as (b' & st' & E & X). rewrite E, (then_ok _ _ _ _ eq_refl). exists b', st'. split; [do 3 f_equal; lia|exact X].
  Qed.
  Lemma ac_refine_full ss P cs bs Q block st rest : ss = length P -> Forall small cs -> fine_coded counts values al cs bs -> (0 < length cs)%nat -> (length P + length cs = se + 1)%nat ->
    length block = 64%nat -> view block = P ++ map old cs ++ Q -> rready st (bs ++ rest) fin ->
    exists block' st', ac_refine debug t bit ss se 0 block st = (block', Ok (0, st')) /\
      length block' = 64%nat /\ view block' = P ++ map now_ cs ++ Q /\ rready st' rest fin.
  Proof.
    intros -> S C L1 Lp Lb V R. destruct (refine_run cs bs C 65 P Q block st rest S ltac:(lia) ltac:(lia) Lb V R) as (f' & b' & st' & A1 & A2 & A3 & A4 & A5).
    exists b', st'. split; [|auto]. unfold ac_refine. change (0 =? 0) with true. cbv iota. unfold refine_next in A1. replace (se <? length P)%nat with false in A1 by (symmetry; apply Nat.ltb_ge; lia).
    replace (se <? length P + length cs)%nat with true in A1 by (symmetry; apply Nat.ltb_lt; lia). rewrite A1, (then_ok _ _ _ _ eq_refl). reflexivity.
  Qed.
  Lemma ac_refine_end ss P cs tl run b1 b2 Q block st rest : ss = length P -> Forall small (cs ++ tl) -> fine_coded counts values al cs b1 -> tl <> [] -> no_new al tl ->
    eob_coded counts values (S run) b2 -> (1 <= length P)%nat -> (length P + length (cs ++ tl) = se + 1)%nat ->
    length block = 64%nat -> view block = P ++ map old (cs ++ tl) ++ Q -> rready st (b1 ++ b2 ++ corrections al tl ++ rest) fin ->
    exists block' st', ac_refine debug t bit ss se 0 block st = (block', Ok (Z.of_nat run, st')) /\
      length block' = 64%nat /\ view block' = P ++ map now_ (cs ++ tl) ++ Q /\ rready st' rest fin.
  Proof.
    intros -> S C Ht N (e & code & He & Hr & Co & ->) L1 Lp Lb V R. apply Forall_app in S. destruct S as (S1 & S2). rewrite app_length in Lp. rewrite map_app, <- app_assoc in V.
    assert (Lt : (1 <= length tl)%nat) by (destruct tl; [congruence|cbn; lia]).
    destruct (refine_run cs b1 C 65 P (map old tl ++ Q) block st _ S1 ltac:(lia) ltac:(lia) Lb V R) as (f' & b' & st' & A1 & A2 & A3 & A4 & A5).
    unfold refine_next in A1. replace (se <? length P)%nat with false in A1 by (symmetry; apply Nat.ltb_ge; lia). replace (se <? length P + length cs)%nat with false in A1 by (symmetry; apply Nat.ltb_ge; lia).
    unfold ac_refine. change (0 =? 0) with true. cbv iota. rewrite A1. destruct f' as [|f']; [lia|]. cbn [refine_loop].
    rewrite <- app_assoc in A5. destruct (symbol_step _ _ _ _ _ (msb e (Z.of_nat (Datatypes.S run) - 2 ^ Z.of_nat e)) _ _ _ T Co ltac:(rewrite msb_length; lia) A5) as (st1 & st2 & en & u & E1 & E2 & E3 & H2 & X2 & Eo2).
    rewrite (then_ok _ _ _ _ E1), (then_ok _ _ _ _ E2), (then_ok _ _ _ _ E3). cbv beta iota zeta.
    destruct (land_15 (Z.of_nat e) 0 ltac:(lia) ltac:(lia)) as (L15 & L4). rewrite Z.add_0_r in L15, L4. rewrite L15, L4. change (0 =? 0) with true. cbv iota.
    replace (Z.of_nat e =? 15) with false by (symmetry; apply Z.eqb_neq; lia). cbn [negb].
    destruct (bits_step _ _ _ _ _ H2 X2 Eo2) as (st3 & G & R3); [rewrite msb_length; lia|]. rewrite msb_length in G. rewrite G. rewrite (then_ok _ _ _ _ eq_refl).
    rewrite eob_val by exact Hr. replace (0 <? Z.of_nat (Datatypes.S run)) with true by (symmetry; apply Z.ltb_lt; lia).
    assert (Lm : length (P ++ map now_ cs) = (length P + length cs)%nat) by now rewrite app_length, map_length.
    destruct (rest_ok tl (P ++ map now_ cs) Q b' st3 rest S2 N) as (b2 & st4 & E & B1 & B2 & B3); [lia|lia|exact A3|rewrite <- app_assoc; exact A4|exact R3|].
    rewrite Lm in E. rewrite E, (then_ok _ _ _ _ eq_refl). exists b2, st4. split; [do 3 f_equal; lia|]. split; [exact B1|]. split; [|exact B3]. rewrite B2, map_app, <- !app_assoc. reflexivity.
  Qed.
End Fine.
