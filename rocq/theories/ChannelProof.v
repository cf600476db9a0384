(** Proofs about channels. *)
From Verif Require Import Base BaseProof Slices ChannelModel ChannelSpec.

(** The channel [c] of type [t] holds the bytes [v]. *)
Record holds (t : elem_ty) (c : channel) (v : list Z) : Prop := Holds {
  h_type : ctype c = t;
  h_block : length (blk c) = cap c;
  h_pos : (0 < cap c)%nat;
  h_len : len c = length v;
  h_fits : (len c <= cap c)%nat;
  h_bytes : firstn (len c) (blk c) = map Some v }.

(** Not reallocated since it was created. *)
Definition fresh (c : channel) : Prop := lay c = cap c.

Lemma append_holds t c v d : holds t c v -> (len c + length d <= cap c)%nat ->
  exists c', append c (map Some d) = Val c' /\ holds t c' (v ++ d) /\ cap c' = cap c /\ lay c' = lay c.
Proof.
  intros [T B P L F Y] Hd. unfold append. rewrite map_length. replace (len c + length d <=? length (blk c))%nat with true by lia.
  eexists. split; [reflexivity|]. split; [|now split]. constructor; cbn [ctype blk cap len lay]; try easy; try lia.
  - rewrite !app_length, map_length, firstn_length, skipn_length. lia.
  - rewrite app_length. lia.
  - rewrite app_assoc. rewrite firstn_app_exact by (rewrite app_length, map_length, firstn_length; lia). now rewrite map_app, Y.
Qed.

(** Growing a channel that was not reallocated yet keeps what it holds. *)
Lemma realloc_holds t c v n : holds t c v -> fresh c -> (cap c <= n)%nat -> (0 < n)%nat ->
  exists c', realloc true c n = Val c' /\ holds t c' v /\ cap c' = n.
Proof.
  unfold fresh. intros [T B P L F Y] Fr Hn H0. unfold realloc. replace (n =? 0)%nat with false by lia.
  replace (lay c =? length (blk c))%nat with true by lia. cbn [negb andb]. eexists. split; [reflexivity|]. split; [|easy].
  constructor; cbn [ctype blk cap len lay]; try easy; try lia.
  - rewrite app_length, firstn_length, repeat_length. lia.
  - rewrite firstn_app, firstn_firstn, firstn_length.
    replace (len c - Nat.min (Nat.min (lay c) n) (length (blk c)))%nat with O by lia. cbn [firstn]. rewrite app_nil_r.
    replace (Nat.min (len c) (Nat.min (lay c) n)) with (len c) by lia. exact Y.
Qed.

Lemma with_capacity_holds n t : (0 < n)%nat -> exists c, with_capacity n t = Val c /\ holds t c [] /\ fresh c /\ cap c = n.
Proof.
  intros H. unfold with_capacity, alloc_zeroed. replace (n =? 0)%nat with false by lia. cbn [mbind]. eexists. split; [reflexivity|].
  split; [|now split]. constructor; cbn [ctype blk cap len lay length]; try easy; try lia. apply repeat_length.
Qed.

Lemma map_repeat_some (x : Z) n : map Some (repeat x n) = repeat (Some x) n.
Proof. induction n as [|n IH]; cbn [repeat map]; [easy|now rewrite IH]. Qed.

Lemma with_length_holds n t : (0 < n)%nat -> exists c, with_length n t = Val c /\ holds t c (repeat 0 n) /\ fresh c /\ cap c = n.
Proof.
  intros H. unfold with_length, with_capacity, alloc_zeroed. replace (n =? 0)%nat with false by lia. cbn [mbind].
  eexists. split; [reflexivity|]. split; [|now split].
  constructor; cbn [ctype blk cap len lay]; try easy; try lia.
  - apply repeat_length.
  - now rewrite repeat_length.
  - rewrite map_repeat_some, firstn_all2; [easy|]. now rewrite repeat_length.
Qed.

Lemma concat_repeat_map (e : list Z) n : concat (repeat (map Some e) n) = map Some (concat (repeat e n)).
Proof. induction n as [|n IH]; cbn [repeat concat]; [easy|]. now rewrite IH, map_app. Qed.
Lemma concat_repeat_length {A} (e : list A) n : length (concat (repeat e n)) = (n * length e)%nat.
Proof. induction n as [|n IH]; cbn [repeat concat]; [easy|]. rewrite app_length, IH. lia. Qed.

Lemma ty_size_pos t : (1 <= ty_size t <= 4)%nat.
Proof. destruct t; cbn; lia. Qed.

Lemma fill_holds t c v t' e : holds t c v -> length e = ty_size t' ->
  exists c', fill c t' e = Val (c', snd (vec_op t (OFill t' e) v)) /\ holds t c' (fst (vec_op t (OFill t' e) v)) /\ cap c' = cap c /\ lay c' = lay c.
Proof.
  intros H He. pose proof H as [T B P L F Y]. unfold fill, can_view, vec_op. rewrite L, T.
  destruct ((length v mod ty_size t' =? 0)%nat && ty_eqb t' t) eqn:E; cbn [fst snd].
  - replace (length v <=? length (blk c))%nat with true by lia. eexists. split; [reflexivity|]. split; [|now split].
    apply andb_true_iff in E as [E _]. apply Nat.eqb_eq in E. pose proof (ty_size_pos t').
    assert (M : (length v / ty_size t' * ty_size t' = length v)%nat).
    { apply Nat.mod_divides in E as [q Hq]; [|lia]. rewrite Hq. rewrite (Nat.mul_comm (ty_size t') q), Nat.div_mul by lia. lia. }
    constructor; cbn [ctype blk cap len lay]; try easy; try lia.
    + rewrite app_length, concat_repeat_length, map_length, skipn_length, He, M. lia.
    + now rewrite concat_repeat_length, He.
    + rewrite firstn_app_exact by (rewrite concat_repeat_length, map_length, He; lia). apply concat_repeat_map.
  - exists c. now split.
Qed.

Lemma clone_holds strict t c v : holds t c v ->
  exists c', clone strict c = Val c' /\ holds t c' v /\ fresh c' /\ cap c' = cap c.
Proof.
  intros [T B P L F Y]. unfold clone. destruct (with_capacity_holds (cap c) (ctype c) P) as (n & -> & Hn & Fn & Cn). cbn [mbind].
  replace (len c <=? length (blk c))%nat with true by lia. unfold extend_unchecked, has_capacity.
  pose proof Hn as [Tn Bn Pn Ln Fin Yn]. cbn [length] in Ln. rewrite Y, map_length, Ln. cbn [Nat.add].
  replace (length v <=? cap n)%nat with true by lia. cbn [mbind].
  destruct (append_holds (ctype c) n [] v Hn ltac:(lia)) as (c' & E & H' & C' & L').
  exists c'. split; [exact E|]. split; [now rewrite T in H'|]. unfold fresh in *. split; lia.
Qed.

(** Within the capacity nothing is reallocated: the channel is the vector, whether or not it grew before. *)
Lemma apply_within strict t o c v : holds t c v -> op_ok t o -> (length v + added o <= cap c)%nat ->
  exists c', apply strict o c = Val (c', snd (vec_op t o v)) /\ holds t c' (fst (vec_op t o v)) /\ cap c' = cap c.
Proof.
  intros H Ho Hc. pose proof H as [T B P L F Y]. destruct o as [e|t' d|t' e|]; cbn [apply op_ok added vec_op] in *.
  - unfold push, has_capacity. replace (len c + length e <=? cap c)%nat with true by lia. cbn [mbind].
    destruct (append_holds t c v e H ltac:(lia)) as (c' & -> & H' & C' & _). cbn [mbind fst snd]. now exists c'.
  - destruct Ho as [-> Hm]. unfold extend, extend_unchecked, has_capacity. rewrite T. replace (ty_eqb t t) with true by (now destruct t).
    rewrite map_length. replace (len c + length d <=? cap c)%nat with true by lia. cbn [mbind].
    destruct (append_holds t c v d H ltac:(lia)) as (c' & -> & H' & C' & _). cbn [mbind fst snd]. now exists c'.
  - destruct (fill_holds t c v t' e H Ho) as (c' & E & H' & C' & _). now exists c'.
  - destruct (clone_holds strict t c v H) as (c' & -> & H' & _ & C'). cbn [mbind fst snd]. now exists c'.
Qed.

Lemma vec_op_length t o v : op_ok t o -> length (fst (vec_op t o v)) = (length v + added o)%nat.
Proof.
  intros Ho. destruct o as [e|t' d|t' e|]; cbn [vec_op added fst] in *; try (rewrite app_length; lia); [|lia].
  destruct ((length v mod ty_size t' =? 0)%nat && ty_eqb t' t) eqn:E; cbn [fst]; [|lia].
  apply andb_true_iff in E as [E _]. apply Nat.eqb_eq in E. pose proof (ty_size_pos t').
  rewrite concat_repeat_length. cbn [op_ok] in Ho. rewrite Ho.
  apply Nat.mod_divides in E as [q Hq]; [|lia]. rewrite Hq. rewrite (Nat.mul_comm (ty_size t') q), Nat.div_mul by lia. lia.
Qed.

Lemma run_within strict t h : forall c v, holds t c v -> Forall (op_ok t) h -> (length v + added_all h <= cap c)%nat ->
  exists c', run strict h c = Val (c', snd (vec_run t h v)) /\ holds t c' (fst (vec_run t h v)) /\ cap c' = cap c.
Proof.
  induction h as [|o h IH]; intros c v H Ho Hc; cbn [run vec_run].
  - exists c. now split.
  - apply Forall_cons_iff in Ho as [Ho Hh]. unfold added_all in *. cbn [fold_right] in Hc.
    destruct (apply_within strict t o c v H Ho ltac:(lia)) as (c1 & -> & H1 & C1). cbn [mbind fst snd].
    pose proof (vec_op_length t o v Ho) as Lv. destruct (vec_op t o v) as [v1 b1] eqn:E1. cbn [fst snd] in *.
    destruct (IH c1 v1 H1 Hh ltac:(lia)) as (c2 & -> & H2 & C2). cbn [mbind fst snd].
    destruct (vec_run t h v1) as [v2 bs] eqn:E2. cbn [fst snd] in *. exists c2. split; [easy|]. split; [easy|lia].
Qed.

(** The first growth of a channel is sound, whatever operation causes it. *)
Lemma apply_first_growth t o c v : holds t c v -> fresh c -> op_ok t o ->
  (forall e, o = OPush e -> length e = 1%nat -> (2 <= cap c)%nat) ->
  exists c', apply true o c = Val (c', snd (vec_op t o v)) /\ holds t c' (fst (vec_op t o v)).
Proof.
  intros H Fr Ho H1. destruct (Nat.le_gt_cases (length v + added o) (cap c)) as [W|G].
  { destruct (apply_within true t o c v H Ho W) as (c' & E & H' & _). now exists c'. }
  pose proof H as [T B P L F Y]. destruct o as [e|t' d|t' e|]; cbn [apply op_ok added vec_op] in *.
  - unfold push, has_capacity. replace (len c + length e <=? cap c)%nat with false by lia.
    assert (Hg : (len c + length e <= cap c * (length e * 3) / 2)%nat /\ (cap c <= cap c * (length e * 3) / 2)%nat).
    { destruct Ho as [t' He]. destruct t'; cbn in He; rewrite He in *.
      - specialize (H1 e eq_refl He). cbn [Nat.mul Nat.add]. lia.
      - cbn [Nat.mul Nat.add]. lia.
      - cbn [Nat.mul Nat.add]. lia. }
    set (n := (cap c * (length e * 3) / 2)%nat) in *. clearbody n.
    destruct (realloc_holds t c v n H Fr ltac:(lia) ltac:(lia)) as (c1 & -> & Hc1 & C1). cbn [mbind].
    destruct (append_holds t c1 v e Hc1) as (c2 & -> & Hc2 & _).
    { destruct Hc1 as [_ _ _ L1 _ _]. lia. }
    cbn [mbind fst snd]. now exists c2.
  - destruct Ho as [-> Hm]. unfold extend, extend_unchecked, has_capacity. rewrite T. replace (ty_eqb t t) with true by (now destruct t).
    rewrite map_length. replace (len c + length d <=? cap c)%nat with false by lia.
    destruct (realloc_holds t c v (cap c + length d + 10) H Fr ltac:(lia) ltac:(lia)) as (c1 & -> & Hc1 & C1). cbn [mbind].
    destruct (append_holds t c1 v d Hc1) as (c2 & -> & Hc2 & _).
    { destruct Hc1 as [_ _ _ L1 _ _]. lia. }
    cbn [mbind fst snd]. now exists c2.
  - lia.
  - lia.
Qed.

Lemma view_holds t c v t' : holds t c v ->
  view c t' = Val (if (length v mod ty_size t' =? 0)%nat && ty_eqb t' t then Some (chunks_exact (ty_size t') (map Some v)) else None).
Proof.
  intros [T B P L F Y]. unfold view, can_view. rewrite L, T. destruct ((length v mod ty_size t' =? 0)%nat && ty_eqb t' t); [|easy].
  replace (length v <=? length (blk c))%nat with true by lia. rewrite L in Y. now rewrite Y.
Qed.
Lemma drop_holds t c v : holds t c v -> drop c = Val tt.
Proof.
  intros [T B P L F Y]. unfold drop. replace (cap c =? length (blk c))%nat with true by lia. now replace (cap c =? 0)%nat with false by lia.
Qed.

(** One operation, exactly *)
Lemma apply_within_lay strict t o c v : holds t c v -> op_ok t o -> (length v + added o <= cap c)%nat ->
  exists c', apply strict o c = Val (c', snd (vec_op t o v)) /\ holds t c' (fst (vec_op t o v)) /\ cap c' = cap c /\
    (lay c' =? cap c')%nat = ((lay c =? cap c)%nat || is_clone o).
Proof.
  intros H Ho Hc. pose proof H as [T B P L F Y]. destruct o as [e|t' d|t' e|]; cbn [apply op_ok added vec_op is_clone] in *;
    rewrite ?orb_false_r, ?orb_true_r.
  - unfold push, has_capacity. replace (len c + length e <=? cap c)%nat with true by lia. cbn [mbind].
    destruct (append_holds t c v e H ltac:(lia)) as (c' & -> & H' & C' & L'). cbn [mbind fst snd]. exists c'. now rewrite C', L'.
  - destruct Ho as [-> Hm]. unfold extend, extend_unchecked, has_capacity. rewrite T. replace (ty_eqb t t) with true by (now destruct t).
    rewrite map_length. replace (len c + length d <=? cap c)%nat with true by lia. cbn [mbind].
    destruct (append_holds t c v d H ltac:(lia)) as (c' & -> & H' & C' & L'). cbn [mbind fst snd]. exists c'. now rewrite C', L'.
  - destruct (fill_holds t c v t' e H Ho) as (c' & E & H' & C' & L'). exists c'. cbn [vec_op] in *. now rewrite C', L'.
  - destruct (clone_holds strict t c v H) as (c' & -> & H' & Fr & C'). cbn [mbind fst snd]. exists c'. unfold fresh in Fr.
    repeat apply conj; try easy. lia.
Qed.

Lemma apply_growing t o c v : holds t c v -> op_ok t o -> (cap c < length v + added o)%nat ->
  if (lay c =? cap c)%nat && negb (tiny o (cap c)) then
    exists c', apply true o c = Val (c', snd (vec_op t o v)) /\ holds t c' (fst (vec_op t o v)) /\ cap c' = grown o (cap c) /\
      (lay c' =? cap c')%nat = false
  else apply true o c = Undefined.
Proof.
  intros H Ho G. pose proof H as [T B P L F Y]. destruct (lay c =? cap c)%nat eqn:Fr; cbn [andb].
  2:{ destruct o as [e|t' d|t' e|]; cbn [apply op_ok added] in *; try lia.
    - unfold push, has_capacity. replace (len c + length e <=? cap c)%nat with false by lia. unfold realloc.
      destruct (_ * _ / 2 =? 0)%nat; [easy|]. rewrite B, Fr. easy.
    - destruct Ho as [-> Hm]. unfold extend, extend_unchecked, has_capacity. rewrite T. replace (ty_eqb t t) with true by (now destruct t).
      rewrite map_length. replace (len c + length d <=? cap c)%nat with false by lia. unfold realloc.
      destruct (_ =? 0)%nat; [easy|]. rewrite B, Fr. easy. }
  apply Nat.eqb_eq in Fr. destruct o as [e|t' d|t' e|]; cbn [apply op_ok added vec_op grown tiny] in *; try lia.
  - unfold push, has_capacity. replace (len c + length e <=? cap c)%nat with false by lia.
    destruct ((length e =? 1)%nat && (cap c =? 1)%nat) eqn:Ti; cbn [negb].
    + apply andb_true_iff in Ti as [E1 C1]. apply Nat.eqb_eq in E1, C1. rewrite E1, C1. cbn [Nat.mul Nat.add Nat.div Nat.divmod fst].
      unfold realloc. rewrite B, Fr, C1. cbn [Nat.eqb negb andb mbind]. unfold append. cbn [len blk].
      replace (_ <=? _)%nat with false; [easy|]. symmetry. apply Nat.leb_gt. rewrite app_length, firstn_length, repeat_length, map_length. lia.
    + assert (Hg : (len c + length e <= cap c * (length e * 3) / 2)%nat /\ (cap c < cap c * (length e * 3) / 2)%nat).
      { destruct Ho as [t' He]. destruct t'; cbn in He; rewrite He in *.
        - cbn [Nat.eqb andb] in Ti. apply Nat.eqb_neq in Ti. cbn [Nat.mul Nat.add]. clear B Y. lia.
        - cbn [Nat.mul Nat.add]. clear B Y. lia.
        - cbn [Nat.mul Nat.add]. clear B Y. lia. }
      set (n := (cap c * (length e * 3) / 2)%nat) in *. clearbody n.
      destruct (realloc_holds t c v n H Fr ltac:(lia) ltac:(lia)) as (c1 & R1 & Hc1 & C1).
      assert (L1 : lay c1 = lay c) by (clear -R1; unfold realloc in R1; destruct (n =? 0)%nat; [easy|]; destruct (true && _); [easy|]; now injection R1 as <-).
      rewrite R1. cbn [mbind].
      destruct (append_holds t c1 v e Hc1) as (c2 & -> & Hc2 & C2 & L2).
      { destruct Hc1 as [_ _ _ L1' _ _]. lia. }
      cbn [mbind fst snd]. exists c2. repeat apply conj; try easy; lia.
  - cbn [negb]. destruct Ho as [-> Hm]. unfold extend, extend_unchecked, has_capacity. rewrite T. replace (ty_eqb t t) with true by (now destruct t).
    rewrite map_length. replace (len c + length d <=? cap c)%nat with false by lia.
    destruct (realloc_holds t c v (cap c + length d + 10) H Fr ltac:(lia) ltac:(lia)) as (c1 & R1 & Hc1 & C1).
    assert (L1 : lay c1 = lay c).
    { clear -R1. unfold realloc in R1. destruct (_ =? 0)%nat; [easy|]. destruct (true && _); [easy|]. now injection R1 as <-. }
    rewrite R1. cbn [mbind].
    destruct (append_holds t c1 v d Hc1) as (c2 & -> & Hc2 & C2 & L2).
    { destruct Hc1 as [_ _ _ L1' _ _]. lia. }
    cbn [mbind fst snd]. exists c2. repeat apply conj; try easy; lia.
Qed.

Lemma run_exact t h : forall c v, holds t c v -> Forall (op_ok t) h ->
  if legal h (length v) (cap c) (lay c =? cap c)%nat then
    exists c', run true h c = Val (c', snd (vec_run t h v)) /\ holds t c' (fst (vec_run t h v))
  else run true h c = Undefined.
Proof.
  induction h as [|o h IH]; intros c v H Ho; cbn [run vec_run legal].
  - exists c. now split.
  - apply Forall_cons_iff in Ho as [Ho Hh]. pose proof (vec_op_length t o v Ho) as Lv.
    destruct (length v + added o <=? cap c)%nat eqn:W.
    + apply Nat.leb_le in W. destruct (apply_within_lay true t o c v H Ho W) as (c1 & -> & H1 & C1 & F1). cbn [mbind fst snd].
      destruct (vec_op t o v) as [v1 b1] eqn:E1. cbn [fst snd] in *. specialize (IH c1 v1 H1 Hh). rewrite Lv, C1 in IH. rewrite C1 in F1. rewrite F1 in IH.
      destruct (legal _ _ _ _); [|now rewrite IH]. destruct IH as (c2 & -> & H2). cbn [mbind fst snd].
      destruct (vec_run t h v1) as [v2 bs]. now exists c2.
    + apply Nat.leb_gt in W. pose proof (apply_growing t o c v H Ho W) as A.
      destruct ((lay c =? cap c)%nat && negb (tiny o (cap c))); cbn [andb]; [|now rewrite A].
      destruct A as (c1 & -> & H1 & C1 & F1). cbn [mbind fst snd].
      destruct (vec_op t o v) as [v1 b1] eqn:E1. cbn [fst snd] in *. specialize (IH c1 v1 H1 Hh). rewrite Lv, F1, C1 in IH.
      destruct (legal _ _ _ _); [|now rewrite IH]. destruct IH as (c2 & -> & H2). cbn [mbind fst snd].
      destruct (vec_run t h v1) as [v2 bs]. now exists c2.
Qed.

Lemma chunks_exact_map {A B} (f : A -> B) n : (0 < n)%nat -> forall l, chunks_exact n (map f l) = map (map f) (chunks_exact n l).
Proof.
  intros Hn l. induction l as [l IH] using (induction_ltof1 _ (@length A)). unfold ltof in IH.
  destruct (Nat.le_gt_cases n (length l)) as [G|G].
  - rewrite <- (firstn_skipn n l). rewrite map_app. 
    rewrite !chunks_exact_cons by (rewrite ?map_length, ?firstn_length; lia). cbn [map]. f_equal. apply IH. rewrite skipn_length. lia.
  - rewrite !chunks_exact_short by (rewrite ?map_length; lia). reflexivity.
Qed.

Lemma holds_looks t c v : holds t c v -> looks_like t c v.
Proof.
  intros H. pose proof H as [T B P L F Y]. constructor; [easy| |lia|now apply (drop_holds t c v)].
  intros t'. rewrite (view_holds t c v t' H). destruct (_ && _); [|easy]. rewrite chunks_exact_map; [easy|]. pose proof (ty_size_pos t'). lia.
Qed.

Lemma ty_eqb_refl t : ty_eqb t t = true. Proof. now destruct t. Qed.
Lemma made_holds t r v n : made t r v n -> exists c, r = Val c /\ holds t c v /\ fresh c /\ cap c = n.
Proof.
  intros M. destruct M as [|n Hn|n Hn|n e Hn He].
  - apply with_capacity_holds. lia.
  - now apply with_capacity_holds.
  - now apply with_length_holds.
  - unfold from_elm. pose proof (ty_size_pos t). destruct (with_length_holds (n * ty_size t) t ltac:(nia)) as (c & -> & H1 & F1 & C1). cbn [mbind].
    destruct (fill_holds t c _ t e H1 He) as (c' & E & H' & C' & L'). cbn [vec_op] in *. rewrite repeat_length in *.
    rewrite Nat.mod_mul, Nat.div_mul in * by lia. rewrite ty_eqb_refl in *. cbn [Nat.eqb andb fst snd] in *. rewrite E. cbn [mbind snd fst].
    exists c'. unfold fresh in *. repeat apply conj; try easy; lia.
Qed.
