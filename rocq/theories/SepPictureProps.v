(** Shrinking whole pictures by odd factors with an interpolating kernel: rows, then columns. *)
From Verif Require Import Base F32 F32Round ResizeProof AffineProof SepModel SepProof SepProps SepValueProps.

Lemma dot_spike_rep hi c pad vals : forall line ws s acc za, 0 <= hi < 2 ^ 24 -> Forall2 rep line vals -> Forall (fun v => 0 <= v <= hi) vals -> Forall2 rep ws (map (fun i => spike c s i) (seq 0 (length vals)) ++ repeat 0 pad) ->
  rep acc za -> (s <= c -> za = 0) -> 0 <= za <= hi ->
  rep (fold_left (fun acc pw => fadd acc (fmul (fst pw) (snd pw))) (combine line ws) acc)
      (if (s <=? c) && (c <? s + Z.of_nat (length vals)) then nth (Z.to_nat (c - s)) vals 0 else za).
Proof.
  induction vals as [|v vals IH]; intros line ws s acc za Hh HL Hv R Ra Z0 Hz.
  - inversion HL; subst. cbn [map combine fold_left length]. destruct (Z.leb_spec s c), (Z.ltb_spec c (s + Z.of_nat 0)); cbn [andb]; try easy; lia.
  - inversion HL as [|p ? line' ? Hp HL']; subst. cbn [length seq map app] in R. inversion R as [|w z ws' zs Hw R' E1 E2]; subst. inversion Hv as [|? ? Hv1 Hv2]; subst.
    cbn [map combine fold_left fst snd length].
    assert (R2 : Forall2 rep ws' (map (fun i => spike c (s + 1) i) (seq 0 (length vals)) ++ repeat 0 pad)).
    { rewrite <- seq_shift, map_map in R'. erewrite map_ext; [exact R'|]. intros i. unfold spike. now replace (s + 1 + Z.of_nat i) with (s + Z.of_nat (S i)) by lia. }
    assert (Q : 0 <= spike c s 0 <= 1) by (unfold spike; destruct (_ =? _); lia). assert (Qv : 0 <= v * spike c s 0 <= v) by (clear - Q Hv1; nia).
    assert (Qa : za + v * spike c s 0 <= hi /\ (s + 1 <= c -> za + v * spike c s 0 = 0) /\ (s = c -> za + v * spike c s 0 = v) /\ (s <> c -> za + v * spike c s 0 = za)).
    { clear - Z0 Hz Hv1. unfold spike. destruct (Z.eqb_spec (s + Z.of_nat 0) c); repeat split; try lia. }
    destruct Qa as (Qa & Qb & Qc & Qd).
    assert (Rv : rep (fmul p w) (v * spike c s 0)) by (apply fmul_rep; [exact Hp|easy|lia]).
    pose proof (fadd_rep _ _ _ _ Ra Rv ltac:(lia)) as RA.
    specialize (IH line' ws' (s + 1) _ _ Hh HL' Hv2 R2 RA Qb ltac:(lia)).
    replace (if (s <=? c) && (c <? s + Z.of_nat (S (length vals))) then nth (Z.to_nat (c - s)) (v :: vals) 0 else za)
      with (if (s + 1 <=? c) && (c <? s + 1 + Z.of_nat (length vals)) then nth (Z.to_nat (c - (s + 1))) vals 0 else za + v * spike c s 0); [exact IH|].
    clear - Qc Qd. destruct (Z.leb_spec (s + 1) c), (Z.leb_spec s c), (Z.ltb_spec c (s + 1 + Z.of_nat (length vals))), (Z.ltb_spec c (s + Z.of_nat (S (length vals)))); cbn [andb]; try lia.
    + replace (Z.to_nat (c - s)) with (S (Z.to_nat (c - (s + 1)))) by lia. reflexivity.
    + replace (Z.to_nat (c - s)) with 0%nat by lia. cbn [nth]. apply Qc. lia.
Qed.
Lemma Forall2_firstn {A B} (R : A -> B -> Prop) l l' n : Forall2 R l l' -> Forall2 R (firstn n l) (firstn n l').
Proof. intros H. revert n. induction H as [|x y l l' Hx H IH]; intros [|n]; cbn [firstn]; try apply Forall2_nil. apply Forall2_cons; [exact Hx|apply IH]. Qed.
Lemma Forall2_skipn {A B} (R : A -> B -> Prop) l l' n : Forall2 R l l' -> Forall2 R (skipn n l) (skipn n l').
Proof. intros H. revert n. induction H as [|x y l l' Hx H IH]; intros [|n]; cbn [skipn]; try apply Forall2_nil; [apply Forall2_cons; assumption|apply IH]. Qed.
Lemma Forall2_len {A B} (R : A -> B -> Prop) l l' : Forall2 R l l' -> length l = length l'.
Proof. induction 1; cbn; congruence. Qed.
Lemma weigh_spike hi a line vals ws pad c : 0 <= hi < 2 ^ 24 -> 2 <= a <= 3 -> Forall2 rep line vals -> (forall v, In v vals -> 0 <= v <= hi) -> (c < length vals)%nat ->
  let n := Z.of_nat (length vals) in let s := fst (window a n (Z.of_nat c)) in let e := snd (window a n (Z.of_nat c)) in
  Forall2 rep ws (map (spike (Z.of_nat c) s) (seq 0 (Z.to_nat (e - s + 1))) ++ repeat 0 pad) ->
  exists x, weigh line (Kern ws s e) = Ok x /\ rep x (nth c vals 0).
Proof.
  intros Hh Ha HL Hr Hc n s e R. assert (Ew : window a n (Z.of_nat c) = (s, e)) by (unfold s, e; apply surjective_pairing). clearbody s e.
  pose proof (window_size a n (Z.of_nat c)) as W. rewrite Ew in W. destruct W as (W1 & W2 & W3). unfold window in Ew. injection Ew as Es Ee.
  assert (B : s <= Z.of_nat c <= e) by (unfold n in *; lia). clear Es Ee. unfold n in W3. clear n. set (cnt := Z.to_nat (e - s + 1)) in *.
  set (part := firstn cnt (skipn (Z.to_nat s) vals)). assert (Lv : length part = cnt) by (unfold part; rewrite firstn_length, skipn_length; lia).
  assert (HP : Forall2 rep (firstn cnt (skipn (Z.to_nat s) line)) part) by (apply Forall2_firstn, Forall2_skipn, HL).
  unfold weigh. cbn [kend kstart kw]. destruct (Z.ltb_spec e s); [lia|]. destruct (Z.ltb_spec s 0); [lia|]. cbn [orb]. fold cnt.
  rewrite (Forall2_len _ _ _ HP), Lv, Nat.eqb_refl. eexists. split; [reflexivity|].
  assert (Hv : Forall (fun v => 0 <= v <= hi) part).
  { apply Forall_forall. intros v Hv. apply Hr. unfold part in Hv. rewrite <- (firstn_skipn (Z.to_nat s) vals). apply in_or_app. right. rewrite <- (firstn_skipn cnt (skipn (Z.to_nat s) vals)). apply in_or_app. now left. }
  rewrite <- Lv in R. pose proof (dot_spike_rep hi (Z.of_nat c) pad part _ ws s (of_int 0) 0 Hh HP Hv R (of_int_rep 0 ltac:(lia)) ltac:(lia) ltac:(lia)) as D.
  destruct (Z.leb_spec s (Z.of_nat c)); [|lia]. destruct (Z.ltb_spec (Z.of_nat c) (s + Z.of_nat (length part))); [|lia]. cbn [andb] in D.
  replace (nth c vals 0) with (nth (Z.to_nat (Z.of_nat c - s)) part 0); [exact D|].
  unfold part. rewrite <- (firstn_skipn (Z.to_nat s) vals) at 2. rewrite app_nth2 by (rewrite firstn_length; lia). rewrite firstn_length, Nat.min_l by lia.
  replace (Z.to_nat (Z.of_nat c - s)) with (c - Z.to_nat s)%nat by lia.
  rewrite <- (firstn_skipn cnt (skipn (Z.to_nat s) vals)) at 2. rewrite app_nth1; [reflexivity|]. rewrite firstn_length, skipn_length. lia.
Qed.
Lemma Forall2_weaken {A B} (R S : A -> B -> Prop) l l' : (forall x y, R x y -> S x y) -> Forall2 R l l' -> Forall2 S l l'.
Proof. intros H. induction 1; [apply Forall2_nil|apply Forall2_cons; auto]. Qed.
Lemma collect_two {A B C} (f : A -> res B) (g : B -> res C) (P : A -> C -> Prop) l : (forall x, In x l -> exists k v, f x = Ok k /\ g k = Ok v /\ P x v) ->
  exists r, (do ks <- collect (map f l) ; collect (map g ks)) = Ok r /\ Forall2 P l r.
Proof.
  induction l as [|x l IH]; intros H; [exists []; split; [reflexivity|apply Forall2_nil]|].
  destruct (H x (or_introl eq_refl)) as (k & v & E1 & E2 & Hv). destruct IH as (r & Er & Hr); [intros; apply H; now right|].
  cbn [map collect]. rewrite E1. cbn [bind]. destruct (collect (map f l)) as [ks|e| |]; try discriminate. cbn [bind] in *. cbn [map collect]. rewrite E2. cbn [bind]. rewrite Er. cbn [bind].
  exists (v :: r). split; [reflexivity|apply Forall2_cons; assumption].
Qed.
Lemma Forall2_right {A B C} (R : C -> B -> Prop) (g : A -> B) l r : Forall2 (fun x y => R y (g x)) l r -> Forall2 R r (map g l).
Proof. induction 1; cbn [map]; [apply Forall2_nil|apply Forall2_cons; auto]. Qed.

Definition middle (j o : nat) : nat := (o * (2 * j + 1) + j)%nat.
Lemma resample_middle hi kf a j m line vals n : interpolates kf -> 2 <= a <= 3 -> 0 <= hi < 2 ^ 24 -> (1 <= m)%nat -> length vals = n -> n = ((2 * j + 1) * m)%nat -> Z.of_nat n <= 2 ^ 20 ->
  Forall2 rep line vals -> (forall v, In v vals -> 0 <= v <= hi) ->
  exists l, resample kf a n m line = Ok l /\ Forall2 rep l (map (fun o => nth (middle j o) vals 0) (seq 0 m)).
Proof.
  intros HK Ha Hh Hm Hn Hl Hb HL Hr. unfold resample, kernels. set (ratio := fdiv _ _).
  assert (P : forall o, (o < m)%nat -> rep (position ratio o) (Z.of_nat (middle j o)) /\ (middle j o < n)%nat).
  { intros o Ho. unfold middle. split; [|rewrite Hl; nia]. unfold ratio. replace (Z.of_nat n) with ((2 * Z.of_nat j + 1) * Z.of_nat m) in * by (rewrite Hl; lia).
    replace (Z.of_nat (o * (2 * j + 1) + j)) with (Z.of_nat o * (2 * Z.of_nat j + 1) + Z.of_nat j) by lia. apply position_odd; lia. }
  clearbody ratio.
  destruct (collect_two (precompute kf a (Z.of_nat n) ratio) (weigh line) (fun o x => rep x (nth (middle j o) vals 0)) (seq 0 m)) as (l & E & F).
  - intros o Ho. apply in_seq in Ho. destruct (P o ltac:(lia)) as [Rp Hc].
    destruct (precompute_spike kf a (Z.of_nat n) ratio o (Z.of_nat (middle j o)) HK Ha ltac:(lia) ltac:(lia) Rp) as (ws & E & pad & R).
    subst n. destruct (weigh_spike hi a line vals ws pad (middle j o) Hh Ha HL Hr Hc R) as (x & Ex & Rx). eexists _, x. split; [exact E|]. split; assumption.
  - exists l. split; [exact E|]. apply Forall2_right. exact F.
Qed.
Lemma nth_rows {A} (d : A) w y inp x : (x < w)%nat -> nth x (firstn w (skipn (y * w) inp)) d = nth (y * w + x) inp d.
Proof.
  intros Hx. transitivity (nth x (skipn (y * w) inp) d).
  - revert x Hx. generalize (skipn (y * w) inp) as l. induction w as [|w IH]; intros l x Hx; [lia|]. destruct l as [|v l], x as [|x]; cbn [firstn nth]; try reflexivity. apply IH. lia.
  - generalize (y * w)%nat as k. intros k. revert inp. induction k as [|k IH]; intros inp; [reflexivity|]. destruct inp as [|v inp]; cbn [skipn plus nth]; [destruct x; reflexivity|apply IH].
Qed.
Lemma list_nth {A} (d : A) l n : length l = n -> l = map (fun i => nth i l d) (seq 0 n).
Proof.
  intros <-. induction l as [|x l IH]; [reflexivity|]. cbn [length seq map nth]. f_equal. rewrite <- seq_shift, map_map. cbn [nth]. exact IH.
Qed.
Lemma nth_map_seq (f : nat -> Z) n i : (i < n)%nat -> nth i (map f (seq 0 n)) 0 = f i.
Proof. intros H. rewrite (nth_indep _ 0 (f 0%nat)) by (rewrite map_length, seq_length; exact H). rewrite map_nth, seq_nth by exact H. reflexivity. Qed.
Lemma column_rep hs g n x ow : (x < ow)%nat -> Forall2 (Forall2 rep) hs (map (fun y => map (g y) (seq 0 ow)) (seq 0 n)) -> Forall2 rep (column hs x) (map (fun y => g y x) (seq 0 n)).
Proof.
  intros Hx. generalize (seq 0 n) as ys. intros ys. revert hs. induction ys as [|y ys IH]; intros hs H; inversion H as [|r ? hs' ? Hr Hs]; subst; cbn [column map]; [apply Forall2_nil|].
  apply Forall2_cons; [|apply IH; exact Hs]. clear - Hx Hr.
  assert (N : forall l zs i, Forall2 rep l zs -> (i < length zs)%nat -> rep (nth i l (of_int 0)) (nth i zs 0)).
  { intros l zs i H. revert i. induction H as [|u z l zs Hu H IH]; intros i Hi; [cbn in Hi; lia|]. destruct i as [|i]; cbn [nth]; [exact Hu|apply IH; cbn in Hi; lia]. }
  specialize (N _ _ x Hr). rewrite map_length, seq_length in N. specialize (N Hx).
  rewrite (nth_indep _ 0 (g y 0%nat)) in N by (rewrite map_length, seq_length; exact Hx). rewrite map_nth, seq_nth in N by exact Hx. exact N.
Qed.

(** ** C144, whole pictures: both sides shrink by odd factors (a factor of 1 leaves the side as it is) *)
Theorem sep_middle_picture hi kf a j1 j2 w h ow oh inp : interpolates kf -> 2 <= a <= 3 -> 0 <= hi < 2 ^ 24 -> (1 <= ow)%nat -> (1 <= oh)%nat ->
  w = ((2 * j1 + 1) * ow)%nat -> h = ((2 * j2 + 1) * oh)%nat -> Z.of_nat w <= 2 ^ 20 -> Z.of_nat h <= 2 ^ 20 -> length inp = (w * h)%nat -> (forall v, In v inp -> 0 <= v <= hi) ->
  resize_picture hi kf a w h ow oh inp =
    Ok (concat (map (fun y => map (fun x => nth ((y * (2 * j2 + 1) + j2) * w + (x * (2 * j1 + 1) + j1)) inp 0) (seq 0 ow)) (seq 0 oh))).
Proof.
  intros HK Ha Hh How Hoh Ew Eh Hw Hht Hl Hr. unfold resize_picture.
  assert (M1 : forall x, (x < ow)%nat -> (middle j1 x < w)%nat) by (intros x Hx; unfold middle; rewrite Ew; clear - Hx; nia).
  assert (M2 : forall y, (y < oh)%nat -> (middle j2 y < h)%nat) by (intros y Hy; unfold middle; rewrite Eh; clear - Hy; nia).
  assert (IN : forall y x, (y < h)%nat -> (x < w)%nat -> 0 <= nth (y * w + x) inp 0 <= hi) by (intros y x Hy Hx; apply Hr, nth_In; rewrite Hl; clear - Hy Hx; nia).
  set (rows := rows_of w h (map of_int inp)).
  assert (RW : Forall2 (Forall2 rep) rows (map (fun y => map (fun x => nth (y * w + x) inp 0) (seq 0 w)) (seq 0 h))).
  { unfold rows, rows_of. apply Forall2_map2. intros y Hy. apply in_seq in Hy. rewrite (list_nth (of_int 0) (firstn w (skipn (y * w) (map of_int inp))) w).
    2: { rewrite firstn_length, skipn_length, map_length, Hl. clear - Hy. nia. }
    apply Forall2_map2. intros x Hx. apply in_seq in Hx. rewrite nth_rows, map_nth by lia. apply of_int_rep. pose proof (IN y x ltac:(lia) ltac:(lia)). lia. }
  assert (HS : exists hs, (if (w =? ow)%nat then Ok rows else collect (map (resample kf a w ow) rows)) = Ok hs /\
    Forall2 (Forall2 rep) hs (map (fun y => map (fun x => nth (y * w + middle j1 x) inp 0) (seq 0 ow)) (seq 0 h))).
  { destruct (Nat.eqb_spec w ow) as [E|E].
    - exists rows. split; [reflexivity|]. assert (j1 = 0)%nat by (clear - E Ew How; nia). subst j1. rewrite <- E.
      erewrite map_ext; [exact RW|]. intros y. apply map_ext. intros x. unfold middle. do 2 f_equal. lia.
    - destruct (collect_map (fun r => resample kf a w ow r) (fun r l => forall zs, Forall2 rep r zs -> (exists y, (y < h)%nat /\ zs = map (fun x => nth (y * w + x) inp 0) (seq 0 w)) ->
          Forall2 rep l (map (fun o => nth (middle j1 o) zs 0) (seq 0 ow))) rows) as (hs & Ehs & Fhs).
      + intros r Hin. assert (RR : exists y, (y < h)%nat /\ Forall2 rep r (map (fun x => nth (y * w + x) inp 0) (seq 0 w))).
        { clear - RW Hin. assert (G : forall ys rs, (forall y, In y ys -> (y < h)%nat) -> Forall2 (Forall2 rep) rs (map (fun y => map (fun x => nth (y * w + x) inp 0) (seq 0 w)) ys) -> In r rs -> exists y, (y < h)%nat /\ Forall2 rep r (map (fun x => nth (y * w + x) inp 0) (seq 0 w))).
          { induction ys as [|y ys IH]; intros rs Hy H Hi; inversion H as [|r0 ? rs' ? H1 H2]; subst; [easy|]. destruct Hi as [->|Hi]; [exists y; split; [apply Hy; now left|exact H1]|]. apply (IH rs'); [intros; apply Hy; now right|exact H2|exact Hi]. }
          apply (G (seq 0 h) rows); [intros y Hy; apply in_seq in Hy; lia|exact RW|exact Hin]. }
        destruct RR as (y & Hy & RR). destruct (resample_middle hi kf a j1 ow r _ w HK Ha Hh How ltac:(rewrite map_length; apply seq_length) Ew Hw RR) as (l & El & Fl).
        { intros v Hv. apply in_map_iff in Hv as (x & <- & Hx). apply in_seq in Hx. apply IN; lia. }
        exists l. split; [exact El|]. intros zs Hz _. 
        assert (zs = map (fun x => nth (y * w + x) inp 0) (seq 0 w)).
        { clear - Hz RR. revert Hz. generalize dependent (map (fun x => nth (y * w + x) inp 0) (seq 0 w)). intros us RR. revert zs. induction RR as [|u z l us Hu H IH]; intros zs Hz; inversion Hz as [|? z' ? zs' Hu' Hz']; subst; [reflexivity|].
          f_equal; [|now apply IH]. destruct Hu as [_ V], Hu' as [_ V']. rewrite V in V'. clear - V'. lia. }
        subst zs. exact Fl.
      + exists hs. split; [exact Ehs|]. clear Ehs.
        assert (G : forall ys rs hs, (forall y, In y ys -> (y < h)%nat) -> Forall2 (Forall2 rep) rs (map (fun y => map (fun x => nth (y * w + x) inp 0) (seq 0 w)) ys) ->
          Forall2 (fun r l => forall zs, Forall2 rep r zs -> (exists y, (y < h)%nat /\ zs = map (fun x => nth (y * w + x) inp 0) (seq 0 w)) -> Forall2 rep l (map (fun o => nth (middle j1 o) zs 0) (seq 0 ow))) rs hs ->
          Forall2 (Forall2 rep) hs (map (fun y => map (fun x => nth (y * w + middle j1 x) inp 0) (seq 0 ow)) ys)).
        { clear - M1. induction ys as [|y ys IH]; intros rs hs Hy H1 H2; inversion H1 as [|r ? rs' ? Hr1 Hr2]; subst; inversion H2 as [|? l ? hs' Hl1 Hl2]; subst; cbn [map]; [apply Forall2_nil|].
          apply Forall2_cons; [|apply (IH rs'); [intros; apply Hy; now right|assumption|assumption]].
          specialize (Hl1 _ Hr1 (ex_intro _ y (conj (Hy y (or_introl eq_refl)) eq_refl))).
          erewrite map_ext_in; [exact Hl1|]. intros x Hx. apply in_seq in Hx. cbv beta. specialize (M1 x ltac:(lia)).
          symmetry. apply (nth_map_seq (fun x => nth (y * w + x) inp 0)). exact M1. }
        apply (G (seq 0 h) rows hs); [intros y Hy; apply in_seq in Hy; lia|exact RW|exact Fhs]. }
  destruct HS as (hs & Ehs & Fhs).
  assert (VS : exists vs, (if (h =? oh)%nat then Ok hs else do cols <- collect (map (fun x => resample kf a h oh (column hs x)) (seq 0 ow)) ; Ok (map (column cols) (seq 0 oh))) = Ok vs /\
    Forall2 (Forall2 rep) vs (map (fun y => map (fun x => nth (middle j2 y * w + middle j1 x) inp 0) (seq 0 ow)) (seq 0 oh))).
  { destruct (Nat.eqb_spec h oh) as [E|E].
    - exists hs. split; [reflexivity|]. assert (j2 = 0)%nat by (clear - E Eh Hoh; nia). subst j2. rewrite <- E.
      erewrite map_ext; [exact Fhs|]. intros y. apply map_ext. intros x. unfold middle at 1. do 2 f_equal. f_equal. lia.
    - destruct (collect_map (fun x => resample kf a h oh (column hs x)) (fun x l => Forall2 rep l (map (fun y => nth (middle j2 y * w + middle j1 x) inp 0) (seq 0 oh))) (seq 0 ow)) as (cols & Ec & Fc).
      + intros x Hx. apply in_seq in Hx. pose proof (column_rep hs _ h x ow ltac:(lia) Fhs) as C. cbv beta in C.
        destruct (resample_middle hi kf a j2 oh _ _ h HK Ha Hh Hoh ltac:(rewrite map_length; apply seq_length) Eh Hht C) as (l & El & Fl).
        { intros v Hv. apply in_map_iff in Hv as (y & <- & Hy). apply in_seq in Hy. apply IN; [lia|apply M1; lia]. }
        exists l. split; [exact El|]. erewrite map_ext_in; [exact Fl|]. intros y Hy. apply in_seq in Hy. cbv beta. specialize (M2 y ltac:(lia)).
        symmetry. apply (nth_map_seq (fun y => nth (y * w + middle j1 x) inp 0)). exact M2.
      + rewrite Ec. cbn [bind]. eexists. split; [reflexivity|]. apply Forall2_map2. intros y Hy. apply in_seq in Hy.
        apply (column_rep cols (fun x y => nth (middle j2 y * w + middle j1 x) inp 0) ow y oh ltac:(lia)). apply Forall2_right. exact Fc. }
  destruct VS as (vs & Evs & Fvs).
  destruct ((w =? ow)%nat && (h =? oh)%nat) eqn:Q.
  - apply andb_prop in Q as [Q1 Q2]. apply Nat.eqb_eq in Q1, Q2. assert (j1 = 0 /\ j2 = 0)%nat as [-> ->] by (clear - Q1 Q2 Ew Eh How Hoh; nia). f_equal. rewrite <- Q1, <- Q2.
    clear - Hl. revert inp Hl. 
    assert (G : forall n inp, length inp = (w * n)%nat -> inp = concat (map (fun y => map (fun x => nth (y * w + x) inp 0) (seq 0 w)) (seq 0 n))).
    { induction n as [|n IH]; intros inp Hl; [destruct inp; [reflexivity|cbn in Hl; lia]|]. rewrite seq_S, map_app, concat_app. cbn [map concat plus]. rewrite app_nil_r.
      rewrite <- (firstn_skipn (w * n) inp) at 1. f_equal.
      - rewrite (IH (firstn (w * n) inp)) by (rewrite firstn_length; nia). f_equal. apply map_ext_in. intros y Hy. apply in_seq in Hy. apply map_ext_in. intros x Hx. apply in_seq in Hx.
        assert (y * w + x < w * n)%nat by nia. pose proof (nth_rows 0 (w * n) 0 inp (y * w + x) ltac:(assumption)) as N. cbn [Nat.mul skipn plus] in N. exact N.
      - rewrite (list_nth 0 (skipn (w * n) inp) w) by (rewrite skipn_length; nia). apply map_ext_in. intros x Hx. apply in_seq in Hx.
        pose proof (nth_rows 0 w n inp x ltac:(lia)) as N. rewrite Nat.mul_comm. rewrite <- N. rewrite firstn_all2; [reflexivity|]. rewrite skipn_length. nia. }
    intros inp Hl. rewrite (G h inp Hl) at 1. f_equal. apply map_ext. intros y. apply map_ext. intros x. f_equal. lia.
  - rewrite Ehs. cbn [bind]. rewrite Evs. cbn [bind]. f_equal. clear Ehs Evs Fhs RW.
    assert (G : forall ys vs, (forall y, In y ys -> (y < oh)%nat) -> Forall2 (Forall2 rep) vs (map (fun y => map (fun x => nth (middle j2 y * w + middle j1 x) inp 0) (seq 0 ow)) ys) ->
       map (to_uint hi) (concat vs) = concat (map (fun y => map (fun x => nth (middle j2 y * w + middle j1 x) inp 0) (seq 0 ow)) ys)).
    { clear - M1 M2 IN Hh. induction ys as [|y ys IH]; intros vs Hy H; inversion H as [|r ? vs' ? H1 H2]; subst; [reflexivity|]. cbn [map concat]. rewrite map_app, (IH vs') by (try assumption; intros; apply Hy; now right). f_equal.
      assert (V : forall x, In x (seq 0 ow) -> 0 <= nth (middle j2 y * w + middle j1 x) inp 0 <= hi) by (intros x Hx; apply in_seq in Hx; apply IN; [apply M2, Hy; now left|apply M1; lia]).
      clear - H1 V Hh. revert r H1 V. generalize (seq 0 ow) as xs. induction xs as [|x xs IH]; intros r H1 V; inversion H1 as [|u ? r' ? Hu Hr]; subst; [reflexivity|]. cbn [map]. f_equal; [|apply IH; [exact Hr|intros; apply V; now right]].
      rewrite (to_uint_rep hi u _ ltac:(lia) Hu). specialize (V x (or_introl eq_refl)). lia. }
    apply (G (seq 0 oh) vs); [intros y Hy; apply in_seq in Hy; lia|exact Fvs].
Qed.
Example sep_middle_picture_example :
  resize_picture 255 catmull_rom 2 6 3 2 1 [1; 2; 3; 4; 5; 6; 11; 12; 13; 14; 15; 16; 21; 22; 23; 24; 25; 26] = Ok [12; 15].
Proof. vm_compute. reflexivity. Qed.
