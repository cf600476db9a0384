(** Proofs about splitting into channels. *)
From Verif Require Import Base BaseProof Slices Loops ChannelModel DeintModel DeintSpec.

Section Chunks.
Context {A : Type} (d : A).

Lemma chunks_app n (a b : list A) : (0 < n)%nat -> (length a mod n = 0)%nat -> chunks_exact n (a ++ b) = chunks_exact n a ++ chunks_exact n b.
Proof.
  intros Hn. revert a b. intros a. induction a as [a IH] using (induction_ltof1 _ (@length A)). unfold ltof in IH. intros b Hm.
  destruct (Nat.le_gt_cases n (length a)) as [G|G].
  - rewrite <- (firstn_skipn n a), <- app_assoc. rewrite (chunks_exact_cons n (firstn n a) (skipn n a ++ b)) by (rewrite ?firstn_length; lia).
    rewrite (chunks_exact_cons n (firstn n a) (skipn n a)) by (rewrite ?firstn_length; lia). cbn [app]. f_equal.
    apply IH; [rewrite skipn_length; lia|]. rewrite skipn_length. apply Nat.mod_divides in Hm as [q Hq]; [|lia].
    apply Nat.mod_divides; [lia|]. exists (q - 1)%nat. nia.
  - rewrite Nat.mod_small in Hm by lia. destruct a; [|cbn [length] in Hm; lia]. now rewrite chunks_exact_nil.
Qed.

Lemma chunks_nth n : (0 < n)%nat -> forall (l : list A) p i, (p < length l / n)%nat -> (i < n)%nat ->
  nth i (nth p (chunks_exact n l) []) d = nth (p * n + i) l d.
Proof.
  intros Hn l. induction l as [l IH] using (induction_ltof1 _ (@length A)). unfold ltof in IH. intros p i Hp Hi.
  assert (G : (n <= length l)%nat).
  { destruct (Nat.le_gt_cases n (length l)); [easy|]. rewrite Nat.div_small in Hp by lia. lia. }
  pose proof (firstn_skipn n l) as E. set (a := firstn n l) in *. set (b := skipn n l) in *.
  assert (La : length a = n) by (unfold a; rewrite firstn_length; lia).
  assert (Lb : length b = (length l - n)%nat) by (unfold b; rewrite skipn_length; lia). clearbody a b. subst l.
  rewrite chunks_exact_cons by lia. rewrite app_length in *. destruct p as [|p]; cbn [nth].
  - cbn [Nat.mul Nat.add]. rewrite app_nth1 by lia. easy.
  - rewrite IH; [|lia| |easy].
    + rewrite (app_nth2 a) by (cbn [Nat.mul]; lia). f_equal. cbn [Nat.mul]. lia.
    + replace (length a + length b)%nat with (length b + 1 * n)%nat in Hp by lia. rewrite Nat.div_add in Hp by lia. lia.
Qed.
Lemma chunks_count n (l : list A) : (0 < n)%nat -> length (chunks_exact n l) = (length l / n)%nat.
Proof. intros. now apply chunks_exact_length. Qed.

(** Channel [i] of the samples *)
Definition ch (n i : nat) (l : list A) : list A := map (fun g => nth i g d) (chunks_exact n l).
Definition canon (n : nat) (l : list A) : list (list A) := map (fun i => ch n i l) (seq 0 n).
Lemma ch_length n i l : (0 < n)%nat -> length (ch n i l) = (length l / n)%nat.
Proof. intros. unfold ch. rewrite map_length. now apply chunks_count. Qed.
Lemma ch_app n i a b : (0 < n)%nat -> (length a mod n = 0)%nat -> ch n i (a ++ b) = ch n i a ++ ch n i b.
Proof. intros. unfold ch. rewrite chunks_app by easy. apply map_app. Qed.
Lemma ch_nth n i l p : (0 < n)%nat -> (i < n)%nat -> (p < length l / n)%nat -> nth p (ch n i l) d = nth (p * n + i) l d.
Proof.
  intros Hn Hi Hp. unfold ch. rewrite (map_nth_in _ _ _ []) by (rewrite chunks_count; easy). now apply chunks_nth.
Qed.
Lemma canon_length n l : length (canon n l) = n.
Proof. unfold canon. now rewrite map_length, seq_length. Qed.
Lemma canon_nth n l i : (i < n)%nat -> nth i (canon n l) [] = ch n i l.
Proof. intros. unfold canon. rewrite (map_nth_in _ _ _ O) by (now rewrite seq_length). now rewrite seq_nth. Qed.
Lemma canon_splits n l : (0 < n)%nat -> splits d n l (canon n l).
Proof.
  intros Hn. split; [apply canon_length|]. intros i Hi. rewrite canon_nth by easy. split; [now apply ch_length|].
  intros p Hp. now apply ch_nth.
Qed.
Lemma splits_canon n l chs : (0 < n)%nat -> splits d n l chs -> chs = canon n l.
Proof.
  intros Hn [L S]. apply (nth_ext _ _ [] []); [now rewrite canon_length|]. intros i Hi. rewrite L in Hi. rewrite canon_nth by easy.
  destruct (S i Hi) as [Li Si]. apply (nth_ext _ _ d d); [now rewrite Li, ch_length|]. intros p Hp. rewrite Li in Hp. rewrite Si, ch_nth; easy.
Qed.

Lemma min_len_all {B} (ls : list (list B)) m k : Forall (fun l => length l = k) ls -> (ls <> [] \/ m = k) -> (k <= m)%nat -> min_len ls m = k.
Proof.
  intros F N Hm. unfold min_len. induction F as [|l ls E F IH]; cbn [fold_right].
  - now destruct N.
  - destruct ls as [|l' ls]; [cbn [fold_right]; lia|]. rewrite IH; [lia|now left].
Qed.

Lemma map_combine_seq {B C} (f : nat * B -> C) (l : list B) s d' :
  map f (combine (seq s (length l)) l) = map (fun i => f (s + i, nth i l d')%nat) (seq 0 (length l)).
Proof.
  revert s. induction l as [|x l IH]; intros s; cbn [length seq combine map nth]; [easy|]. rewrite Nat.add_0_r. f_equal.
  rewrite IH. rewrite <- seq_shift, map_map. apply map_ext. intros i. cbn [nth]. do 2 f_equal. lia.
Qed.

Lemma scalar_canon n l outs : (0 < n)%nat -> length outs = n -> Forall (fun o => length o = (length l / n)%nat) outs ->
  scalar_split d n l outs = canon n l.
Proof.
  intros Hn Lo F. unfold scalar_split, zip_split. rewrite (map_combine_seq _ outs 0 []), Lo.
  assert (M : min_len outs (length (chunks_exact n l)) = (length l / n)%nat).
  { apply min_len_all; [easy| |rewrite chunks_count; easy]. right. now apply chunks_count. }
  rewrite M. unfold canon. apply map_ext_in. intros i Hi. apply in_seq in Hi. cbn [fst snd Nat.add].
  assert (Li : length (nth i outs []) = (length l / n)%nat).
  { rewrite Forall_forall in F. apply F. apply nth_In. lia. }
  rewrite skipn_all2 by lia. rewrite app_nil_r. rewrite firstn_all2 by (rewrite chunks_count by easy; lia). reflexivity.
Qed.

(** The generic loop *)
Lemma write_group_ok chs pos g : length chs = length g -> Forall (fun c => (pos < length c)%nat) chs ->
  write_group chs pos g = Ok (map (fun cx : list A * A => upd (fst cx) pos (snd cx)) (combine chs g)).
Proof.
  revert g. induction chs as [|c cs IH]; intros [|x g] L F; cbn [write_group combine map]; try easy.
  apply Forall_cons_iff in F as [F1 F2]. rewrite set_at_ok by easy. cbn [bind]. rewrite IH by (cbn [length] in L; try easy; lia). reflexivity.
Qed.

Lemma upd_app_repeat (a : list A) k x : upd (a ++ repeat d (S k)) (length a) x = (a ++ [x]) ++ repeat d k.
Proof. induction a as [|y a IH]; [easy|]. cbn [app length upd]. f_equal. exact IH. Qed.

Lemma combine_map_seq {B C} (F : nat -> B) (g : list C) (dc : C) :
  combine (map F (seq 0 (length g))) g = map (fun i => (F i, nth i g dc)) (seq 0 (length g)).
Proof.
  assert (G : forall s, combine (map F (seq s (length g))) g = map (fun i => (F (s + i)%nat, nth i g dc)) (seq 0 (length g))).
  { induction g as [|x g IH]; intros s; cbn [length seq map combine nth]; [easy|]. rewrite Nat.add_0_r. f_equal. rewrite IH.
    rewrite <- seq_shift, map_map. apply map_ext. intros i. now rewrite Nat.add_succ_comm. }
  apply (G O).
Qed.

Lemma write_groups_ok n gs : forall done, (0 < n)%nat -> Forall (fun g => length g = n) gs ->
  write_groups (map (fun i => map (fun g => nth i g d) done ++ repeat d (length gs)) (seq 0 n)) (length done) gs =
  Ok (map (fun i => map (fun g => nth i g d) (done ++ gs)) (seq 0 n)).
Proof.
  induction gs as [|g gs IH]; intros dn Hn F; cbn [write_groups length].
  - cbn [repeat]. f_equal. apply map_ext. intros i. now rewrite !app_nil_r.
  - apply Forall_cons_iff in F as [L F]. rewrite write_group_ok.
    + cbn [bind]. rewrite <- L at 1. rewrite (combine_map_seq _ g d). rewrite map_map. cbn [fst snd].
      specialize (IH (dn ++ [g]) Hn F). rewrite app_length in IH. cbn [length] in IH. rewrite Nat.add_1_r in IH.
      rewrite <- app_assoc in IH. cbn [app] in IH. rewrite <- IH. f_equal. rewrite L. apply map_ext. intros i.
      rewrite map_app. cbn [map]. rewrite <- (map_length (fun g => nth i g d) dn) at 1. apply upd_app_repeat.
    + now rewrite map_length, seq_length.
    + apply Forall_forall. intros c Hc. apply in_map_iff in Hc as (i & <- & _). rewrite app_length, map_length, repeat_length. lia.
Qed.

Lemma generic_canon cs px : let n := num_components cs in (0 < n)%nat -> (length px mod n = 0)%nat -> px <> [] ->
  deinterleave_generic d cs px = Ok (canon n px).
Proof.
  intros n Hn Hm Hp. unfold deinterleave_generic. fold n. replace (n =? 0)%nat with false by lia. rewrite Hm. cbn [Nat.eqb negb].
  assert (Hs : (0 < length px / n)%nat).
  { apply Nat.div_str_pos. split; [easy|]. destruct (Nat.le_gt_cases n (length px)); [easy|]. rewrite Nat.mod_small in Hm by easy. now destruct px. }
  replace (length px / n =? 0)%nat with false by (symmetry; apply Nat.eqb_neq; lia).
  pose proof (write_groups_ok n (chunks_exact n px) [] Hn) as W. rewrite chunks_count in W by easy. cbn [length map app] in W.
  unfold canon, ch. rewrite <- W.
  - f_equal. clear. generalize (length px / n)%nat. intros k. generalize O. induction n as [|n IH]; intros s; cbn [repeat seq map]; [easy|]. now rewrite <- IH.
  - now apply chunks_exact_lengths.
Qed.

Lemma deinterleave_canon three four cs px : let n := num_components cs in
  (n = 3%nat -> three px (repeat (repeat d (length px / 3)) 3) = Val (canon 3 px)) ->
  (n = 4%nat -> four px (repeat (repeat d (length px / 4)) 4) = Val (canon 4 px)) ->
  (0 < n)%nat -> (length px mod n = 0)%nat -> px <> [] ->
  deinterleave d three four cs px = Val (Ok (canon n px)).
Proof.
  intros n H3 H4 Hn Hm Hp. pose proof (generic_canon cs px Hn Hm Hp) as G. unfold deinterleave. fold n. fold n in G.
  replace (n =? 0)%nat with false by lia. rewrite Hm. cbn [Nat.eqb negb].
  assert (Hs : (0 < length px / n)%nat).
  { apply Nat.div_str_pos. split; [easy|]. destruct (Nat.le_gt_cases n (length px)); [easy|]. rewrite Nat.mod_small in Hm by easy. now destruct px. }
  replace (length px / n =? 0)%nat with false by (symmetry; apply Nat.eqb_neq; lia).
  assert (C1 : n = 1%nat -> [px] = canon 1 px).
  { intros _. unfold canon. cbn [seq map]. f_equal. apply (nth_ext _ _ d d); [rewrite ch_length by lia; now rewrite Nat.div_1_r|].
    intros p Hpp. rewrite ch_nth; [f_equal; lia|lia|lia|]. now rewrite Nat.div_1_r. }
  clearbody n. destruct n as [|[|[|[|[|n]]]]]; [lia| | | | |now rewrite G].
  - now rewrite C1.
  - f_equal. f_equal. apply scalar_canon; [lia|easy|]. repeat (apply Forall_cons; [now rewrite repeat_length|]). apply Forall_nil.
  - change [repeat d (length px / 3); repeat d (length px / 3); repeat d (length px / 3)] with (repeat (repeat d (length px / 3)) 3).
    now rewrite H3.
  - change [repeat d (length px / 4); repeat d (length px / 4); repeat d (length px / 4); repeat d (length px / 4)] with (repeat (repeat d (length px / 4)) 4).
    now rewrite H4.
Qed.

(** Back again *)
Lemma column_canon n l p : (0 < n)%nat -> (p < length l / n)%nat -> column d (canon n l) p = nth p (chunks_exact n l) [].
Proof.
  intros Hn Hp. unfold column, canon. rewrite map_map. apply (nth_ext _ _ d d).
  - rewrite map_length, seq_length. symmetry. pose proof (chunks_exact_lengths n l) as F. rewrite Forall_forall in F. apply F.
    apply nth_In. now rewrite chunks_count.
  - intros i Hi. rewrite map_length, seq_length in Hi. rewrite (map_nth_in _ _ _ O) by (now rewrite seq_length). rewrite seq_nth by easy. cbn [Nat.add].
    rewrite ch_nth by easy. now rewrite chunks_nth.
Qed.
Lemma columns_canon n l : (0 < n)%nat -> map (column d (canon n l)) (seq 0 (length l / n)) = chunks_exact n l.
Proof.
  intros Hn. apply (nth_ext _ _ [] []); [now rewrite map_length, seq_length, chunks_count|]. intros p Hp.
  rewrite map_length, seq_length in Hp. rewrite (map_nth_in _ _ _ O) by (now rewrite seq_length). rewrite seq_nth by easy. now apply column_canon.
Qed.
Lemma column_checked_ok chs p : Forall (fun c => (p < length c)%nat) chs -> column_checked chs p = Ok (column d chs p).
Proof.
  induction 1 as [|c cs H F IH]; [easy|]. cbn [column_checked]. rewrite (get_at_ok c p d) by easy. cbn [bind]. now rewrite IH.
Qed.
Lemma columns_checked_ok chs k : forall p, Forall (fun c => (p + k <= length c)%nat) chs ->
  columns_checked chs p k = Ok (map (column d chs) (seq p k)).
Proof.
  induction k as [|k IH]; intros p F; cbn [columns_checked seq map]; [easy|].
  rewrite column_checked_ok by (eapply Forall_impl; [|exact F]; cbn beta; intros; lia). cbn [bind].
  rewrite IH by (eapply Forall_impl; [|exact F]; cbn beta; intros; lia). reflexivity.
Qed.
Lemma canon_lengths n l : (0 < n)%nat -> Forall (fun c => length c = (length l / n)%nat) (canon n l).
Proof. intros Hn. apply Forall_forall. intros c Hc. apply in_map_iff in Hc as (i & <- & _). now apply ch_length. Qed.
Lemma concat_columns n l : (0 < n)%nat -> (length l mod n = 0)%nat -> concat (map (column d (canon n l)) (seq 0 (length l / n))) = l.
Proof. intros Hn Hm. rewrite columns_canon by easy. apply chunks_exact_concat; [easy|]. exact Hm. Qed.

Lemma flatten_canon n l : (0 < n)%nat -> (length l mod n = 0)%nat -> flatten d (canon n l) = Ok l.
Proof.
  intros Hn Hm. pose proof (concat_columns n l Hn Hm) as C. pose proof (canon_lengths n l Hn) as F. pose proof (canon_length n l) as L.
  unfold flatten. remember (canon n l) as chs eqn:E. destruct chs as [|c1 chs]; [cbn [length] in L; lia|].
  pose proof F as F'. apply Forall_cons_iff in F' as [F1 _]. cbn [hd]. rewrite F1.
  assert (M : min_len (c1 :: chs) (length l / n) = (length l / n)%nat) by (apply min_len_all; [easy|now left|easy]). rewrite M.
  assert (K : columns_checked (c1 :: chs) 0 (length l / n) = Ok (map (column d (c1 :: chs)) (seq 0 (length l / n)))).
  { apply columns_checked_ok. eapply Forall_impl; [|exact F]. cbn beta. intros; lia. }
  destruct chs as [|c2 [|c3 [|c4 [|c5 chs]]]]; try (now rewrite C); [|rewrite K; cbn [bind]; now rewrite C].
  cbn [length] in L. subst n. unfold canon in E. cbn [seq map] in E. injection E as E. f_equal. rewrite E.
  apply (nth_ext _ _ d d); [rewrite ch_length by lia; now rewrite Nat.div_1_r|]. intros p Hp.
  rewrite ch_length, Nat.div_1_r in Hp by lia. rewrite ch_nth; [f_equal; lia|lia|lia|now rewrite Nat.div_1_r].
Qed.

Lemma swizzle_canon n l out : (0 < n)%nat -> (length l mod n = 0)%nat -> length out = length l ->
  swizzle d (canon n l) out = Ok (l, length l).
Proof.
  intros Hn Hm Lo. pose proof (concat_columns n l Hn Hm) as C. pose proof (canon_lengths n l Hn) as F. pose proof (canon_length n l) as L.
  assert (Hq : (length l = n * (length l / n))%nat) by (pose proof (Nat.div_mod (length l) n); lia).
  unfold swizzle. rewrite L, Lo. remember (canon n l) as chs eqn:E. destruct chs as [|c1 chs]; [cbn [length] in L; lia|].
  pose proof F as F'. apply Forall_cons_iff in F' as [F1 _]. rewrite F1.
  assert (M : min_len (c1 :: chs) (length l / n) = (length l / n)%nat) by (apply min_len_all; [easy|now left|easy]). rewrite M.
  assert (K : columns_checked (c1 :: chs) 0 (length l / n) = Ok (map (column d (c1 :: chs)) (seq 0 (length l / n)))).
  { apply columns_checked_ok. eapply Forall_impl; [|exact F]. cbn beta. intros; lia. }
  assert (S : skipn (n * (length l / n)) out = []) by (apply skipn_all2; lia). rewrite S.
  set (q := (length l / n)%nat) in *. clearbody q.
  destruct chs as [|c2 [|c3 [|c4 [|c5 chs]]]];
    try (rewrite C, app_nil_r; do 2 f_equal; clear -Hq; lia).
  - cbn [length] in L. subst n. cbn [Nat.mul] in Hq. rewrite Nat.add_0_r in Hq. rewrite <- Hq. rewrite Nat.eqb_refl. do 2 f_equal.
    cbn [seq map concat app] in C. rewrite <- C. clear -F1 Hq. rewrite <- F1. clear. cbn [column map].
    assert (G : forall s (c : list A), concat (map (column d [c]) (seq s (length c - s))) = skipn s c).
    { clear. intros s c. remember (length c - s)%nat as k eqn:Ek. revert s Ek. induction k as [|k IH]; intros s Ek; cbn [seq map concat].
      - now rewrite skipn_all2 by lia.
      - rewrite IH by lia. unfold column. cbn [map app]. apply (nth_ext _ _ d d).
        + cbn [length]. rewrite !skipn_length. lia.
        + intros i Hi. destruct i as [|i]; cbn [nth]; rewrite !nth_skipn; f_equal; lia. }
    specialize (G O c1). rewrite Nat.sub_0_r in G. now rewrite G.
  - rewrite K. cbn [bind]. rewrite C, app_nil_r. do 2 f_equal. lia.
Qed.
End Chunks.

(** The vector routines, block by block *)
Lemma list_as_map (l : list Z) n : length l = n -> l = map (fun i => nth i l 0) (seq 0 n).
Proof.
  intros <-. apply (nth_ext _ _ 0 0); [now rewrite map_length, seq_length|]. intros i Hi. rewrite (map_nth_in _ _ _ O) by (now rewrite seq_length).
  now rewrite seq_nth.
Qed.
Lemma sse2_block_ok s : length s = 96%nat -> sse2_block s = canon 0 3 s.
Proof. intros L. rewrite (list_as_map s 96 L). generalize (fun i => nth i s 0). intros f. vm_compute. reflexivity. Qed.
Lemma sse3_block_ok s : length s = 48%nat -> sse3_block s = canon 0 3 s.
Proof.
  intros L. rewrite (list_as_map s 48 L). generalize (fun i => nth i s 0). intros f. cbv -[Z.lor]. now rewrite ?Z.lor_0_r, ?Z.lor_0_l.
Qed.

Lemma blocks_ch n i block (l : list Z) : (0 < n)%nat -> (0 < block)%nat -> (block mod n = 0)%nat ->
  ch 0 n i l = concat (map (ch 0 n i) (chunks_exact block l)) ++ ch 0 n i (skipn (block * (length l / block)) l).
Proof.
  intros Hn Hb Hm. induction l as [l IH] using (induction_ltof1 _ (@length Z)). unfold ltof in IH.
  destruct (Nat.le_gt_cases block (length l)) as [G|G].
  - pose proof (firstn_skipn block l) as E. set (a := firstn block l) in *. set (b := skipn block l) in *.
    assert (La : length a = block) by (unfold a; rewrite firstn_length; lia). clearbody a b. subst l. rewrite app_length in *.
    rewrite chunks_exact_cons by lia. cbn [map concat]. rewrite <- app_assoc. rewrite ch_app by (rewrite ?La; easy). f_equal.
    replace (length a + length b)%nat with (length b + 1 * block)%nat by lia. rewrite Nat.div_add by lia.
    rewrite (IH b) at 1 by lia. f_equal. f_equal. replace (block * (length b / block + 1))%nat with (length a + block * (length b / block))%nat by lia.
    rewrite <- skipn_skipn'. rewrite skipn_app, skipn_all, Nat.sub_diag. reflexivity.
  - rewrite chunks_exact_short by easy. rewrite Nat.div_small by easy. rewrite Nat.mul_0_r. reflexivity.
Qed.

Lemma block_split_ok checked n block f source outs : (0 < n)%nat -> (0 < block)%nat -> (block mod n = 0)%nat ->
  (forall b, length b = block -> f b = canon 0 n b) ->
  (length source mod n = 0)%nat -> length outs = n -> Forall (fun o => length o = (length source / n)%nat) outs ->
  block_split checked n block f source outs = Ok (canon 0 n source).
Proof.
  intros Hn Hb Hm Hf Hs Lo F. unfold block_split.
  assert (Hd : length (hd [] outs) = (length source / n)%nat).
  { destruct outs as [|o outs]; [cbn [length] in Lo; lia|]. now apply Forall_cons_iff in F as [F _]. }
  assert (Sm : forallb (fun o => (length o =? length (hd [] outs))%nat) outs = true).
  { apply forallb_forall. intros o Ho. rewrite Forall_forall in F. rewrite (F o Ho), Hd. apply Nat.eqb_refl. }
  rewrite Sm, Hs. cbn [Nat.eqb negb andb]. rewrite andb_false_r.
  apply Nat.mod_divides in Hm as [k Hk]; [|lia]. apply Nat.mod_divides in Hs as [px Hpx]; [|lia].
  assert (Hkp : (0 < k)%nat) by (destruct k; [lia|lia]).
  assert (Dk : (block / n = k)%nat) by (rewrite Hk, Nat.mul_comm; apply Nat.div_mul; lia). rewrite Dk.
  assert (Dp : (length source / n = px)%nat) by (rewrite Hpx, Nat.mul_comm; apply Nat.div_mul; lia). rewrite Dp in *.
  assert (Db : (length source / block = px / k)%nat) by (rewrite Hpx, Hk; apply Nat.div_mul_cancel_l; lia).
  assert (Mb : (length source mod block = n * (px mod k))%nat) by (rewrite Hpx, Hk; apply Nat.mul_mod_distr_l; lia).
  set (m := (px / k)%nat) in *. set (r := (px mod k)%nat) in *.
  assert (Hmr : px = (k * m + r)%nat) by (apply Nat.div_mod; lia). assert (Hrk : (r < k)%nat) by (apply Nat.mod_upper_bound; lia).
  assert (Em : (px / k = m)%nat) by reflexivity. clearbody m r. assert (Ls : length source = (block * m + n * r)%nat) by (rewrite Hpx, Hk, Hmr; ring).
  assert (Mn : min_len (map (chunks_exact k) outs) (length source / block) = m).
  { apply min_len_all; [|right; exact Db|rewrite Db; easy]. apply Forall_forall. intros c Hc. apply in_map_iff in Hc as (o & <- & Ho).
    rewrite chunks_count by easy. rewrite Forall_forall in F. now rewrite (F o Ho). }
  clear Em. rewrite Mn. rewrite Mb. rewrite (firstn_all2 (chunks_exact block source)) by (rewrite chunks_count by easy; lia).
  rewrite (map_combine_seq _ outs 0 []), Lo.
  set (lead := fun i => concat (map (ch 0 n i) (chunks_exact block source))).
  assert (E1 : map (fun i => concat (map (fun b => nth (fst (0 + i, nth i outs [])%nat) b []) (map f (chunks_exact block source))) ++
                             skipn (k * m) (snd (0 + i, nth i outs [])%nat)) (seq 0 n) =
               map (fun i => lead i ++ skipn (k * m) (nth i outs [])) (seq 0 n)).
  { apply map_ext_in. intros i Hi. apply in_seq in Hi. cbn [fst snd Nat.add]. f_equal. unfold lead. f_equal. rewrite map_map.
    apply map_ext_in. intros b Hb'. pose proof (chunks_exact_lengths block source) as FL. rewrite Forall_forall in FL.
    rewrite Hf by (now apply FL). rewrite canon_nth by lia. reflexivity. }
  rewrite E1. clear E1.
  assert (Ll : forall i, length (lead i) = (k * m)%nat).
  { intros i. unfold lead. rewrite (concat_length_const k).
    - rewrite map_length, chunks_count by easy. rewrite Db. lia.
    - apply Forall_forall. intros c Hc. apply in_map_iff in Hc as (b & <- & Hb'). rewrite ch_length by easy.
      pose proof (chunks_exact_lengths block source) as FL. rewrite Forall_forall in FL. now rewrite (FL b Hb'). }
  assert (Lk : forall i, (i < n)%nat -> length (nth i outs []) = px).
  { intros i Hi. rewrite Forall_forall in F. apply F. apply nth_In. lia. }
  assert (Full : forall i, ch 0 n i source = lead i ++ ch 0 n i (skipn (block * m) source)).
  { intros i. rewrite <- Db. apply blocks_ch; [easy|easy|]. apply Nat.mod_divides; [lia|]. now exists k. }
  assert (H0 : (0 < length (seq 0 n))%nat) by (now rewrite seq_length).
  destruct (n * r =? 0)%nat eqn:R0.
  - apply Nat.eqb_eq in R0. assert (r0 : r = O) by (clear -R0 Hn; apply Nat.mul_eq_0 in R0; lia). f_equal. unfold canon. apply map_ext_in. intros i Hi. apply in_seq in Hi.
    rewrite Full. f_equal. rewrite (skipn_all2 (nth i outs [])) by (rewrite Lk by lia; lia).
    rewrite (skipn_all2 source) by (clear -Ls r0; subst r; lia). unfold ch. now rewrite chunks_exact_nil.
  - replace (n * r / n)%nat with r by (symmetry; rewrite Nat.mul_comm; apply Nat.div_mul; lia).
    assert (Lh : length (hd [] (map (fun i => lead i ++ skipn (k * m) (nth i outs [])) (seq 0 n))) = px).
    { destruct n as [|n']; [lia|]. cbn [seq map hd]. rewrite app_length, skipn_length, Ll, Lk by lia. lia. }
    rewrite Lh. replace (px <? r)%nat with false by (symmetry; apply Nat.ltb_ge; lia).
    replace (px - r)%nat with (k * m)%nat by lia.
    assert (FB : forallb (fun o => (k * m <=? length o)%nat) (map (fun i => lead i ++ skipn (k * m) (nth i outs [])) (seq 0 n)) = true).
    { apply forallb_forall. intros o Ho. apply in_map_iff in Ho as (i & <- & Hi). apply Nat.leb_le. rewrite app_length, Ll. lia. }
    rewrite FB. cbn [negb]. replace (length source - n * r)%nat with (block * m)%nat by (clear -Ls; lia).
    set (rest := skipn (block * m) source).
    assert (Lr : length rest = (n * r)%nat) by (unfold rest; rewrite skipn_length; clear -Ls; lia).
    assert (Lr' : (length rest / n = r)%nat) by (rewrite Lr, Nat.mul_comm; apply Nat.div_mul; lia).
    rewrite map_map. rewrite (scalar_canon 0 n rest).
    + f_equal. unfold canon. 
      assert (G : forall (X Y : nat -> list Z) (s : list nat), map (fun ot => firstn (k * m) (fst ot) ++ snd ot) (combine (map X s) (map Y s)) =
                  map (fun i => firstn (k * m) (X i) ++ Y i) s).
      { clear. intros X Y s. induction s as [|x s IH]; cbn [map combine fst snd]; [easy|]. now rewrite IH. }
      rewrite G. apply map_ext. intros i. rewrite Full. f_equal. rewrite <- (Ll i) at 1. rewrite firstn_app, firstn_all, Nat.sub_diag. cbn [firstn].
      apply app_nil_r.
    + easy.
    + now rewrite map_length, seq_length.
    + apply Forall_forall. intros o Ho. apply in_map_iff in Ho as (i & <- & Hi). apply in_seq in Hi. rewrite Lr'.
      rewrite skipn_length, app_length, skipn_length, Ll, Lk by lia. lia.
Qed.
