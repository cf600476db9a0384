(** Legal headers are read right. *)
From Verif Require Import Base BaseProof Loops JpegIdctSpec JpegHuffSpec JpegHuffModel JpegScanModel JpegHuffRun JpegHuffProps JpegProgModel JpegHeadModel JpegHeadSpec.

(** * What the decoder knows and what the file has said *)
Definition table_as (dc : bool) (o : option table) (x : option (list Z * list Z)) : Prop :=
  match x with None => o = None | Some (c, s) => ht_ok dc c s /\ exists t, o = Some t /\ new_table dc c (pad s) = Ok t end.
(** quantisation tables are kept in natural order *)
Definition natural (q n : list Z) : Prop := length q = 64%nat /\ length n = 64%nat /\ forall k, (k < 64)%nat -> nth (nth k zigzag 0%nat) n 0 = nth k q 0.
Definition q_as (o : option (list Z)) (x : option (list Z)) : Prop :=
  match x with None => o = None | Some q => exists n, o = Some n /\ natural q n /\ Forall (fun x => 0 <= x < 65536) q end.
(** metadata; gain maps are not compared *)
Definition notes_as (m : meta) (n : notes) : Prop := m_exif m = n_exif n /\ m_xmp m = n_xmp n /\ m_iptc m = n_iptc n /\ m_mpf m = n_mpf n /\ m_icc m = n_icc n.
Definition as_told (d : dec) (t : told) : Prop :=
  length (d_qt d) = 4%nat /\ length (d_dc d) = 4%nat /\ length (d_ac d) = 4%nat /\
  (forall i, (i < 4)%nat -> q_as (nth i (d_qt d) None) (t_q t i) /\ table_as true (nth i (d_dc d) None) (t_dc t i) /\ table_as false (nth i (d_ac d) None) (t_ac t i)) /\
  d_dri d = t_dri t /\ 0 <= t_dri t < 65536 /\ notes_as (d_meta d) (t_notes t).
Definition as_frame (d : dec) (h : fhead) : Prop :=
  d_sof d = true /\ d_prog d = h_prog h /\ d_w d = h_x h /\ d_h d = h_y h /\ map (fun c => FPart (c_id c) (c_hs c) (c_vs c) (c_tq c)) (d_comps d) = h_parts h.
Definition as_scan (d : dec) (e : shead) : Prop :=
  d_sos d = Sos (map (fun x => fst (fst x)) (e_order e)) (Z.of_nat (e_ss e)) (Z.of_nat (e_se e)) (Z.of_nat (e_ah e)) (Z.of_nat (e_al e)) /\
  Forall (fun '(k, td, ta) => exists c, nth_error (d_comps d) k = Some c /\ c_dc c = td /\ c_ac c = ta) (e_order e).
(** what segments other than frame and scan headers do not touch *)
Definition keeps (d d' : dec) : Prop :=
  d_prog d' = d_prog d /\ d_sof d' = d_sof d /\ d_w d' = d_w d /\ d_h d' = d_h d /\ d_comps d' = d_comps d /\ d_sos d' = d_sos d.

(** * Reading *)
Lemma rd_u16_be n l : 0 <= n < 65536 -> rd_u16 (be16 n ++ l) = Ok (n, l).
Proof. intros H. unfold be16, rd_u16. cbn [app]. do 2 f_equal. pose proof (Z.div_mod n 256). lia. Qed.
Lemma rd_u16_0_be n l : 0 <= n < 65536 -> rd_u16_0 (be16 n ++ l) = (n, l).
Proof. intros H. unfold be16, rd_u16_0. cbn [app]. f_equal. pose proof (Z.div_mod n 256). lia. Qed.
Lemma rd_n_app a l n : length a = n -> rd_n n (a ++ l) = Ok (a, l).
Proof.
  intros <-. unfold rd_n. rewrite app_length. replace (length a + length l <? length a)%nat with false by (symmetry; apply Nat.ltb_ge; lia).
  rewrite firstn_app, Nat.sub_diag, firstn_all, skipn_app, Nat.sub_diag, skipn_all. cbn [firstn skipn app]. now rewrite app_nil_r.
Qed.
Lemma peek_app a l n : length a = n -> JpegHeadModel.peek n (a ++ l) = Ok a.
Proof.
  intros <-. unfold JpegHeadModel.peek. rewrite app_length. replace (length a + length l <? length a)%nat with false by (symmetry; apply Nat.ltb_ge; lia).
  now rewrite firstn_app, Nat.sub_diag, firstn_all, app_nil_r.
Qed.
Lemma skipn_over {A} (a l : list A) n : length a = n -> skipn n (a ++ l) = l.
Proof. intros <-. now rewrite skipn_app, Nat.sub_diag, skipn_all. Qed.
Lemma peek_ok n l : (n <= length l)%nat -> JpegHeadModel.peek n l = Ok (firstn n l).
Proof. intros H. unfold JpegHeadModel.peek. now replace (length l <? n)%nat with false by (symmetry; apply Nat.ltb_ge; exact H). Qed.
Lemma pairs_be q : Forall (fun x => 0 <= x < 65536) q -> pairs (flat_map be16 q) = q.
Proof.
  induction q as [|x q IH]; intros F; [reflexivity|]. inversion F as [|? ? Hx F']. subst. cbn [flat_map be16 app pairs]. rewrite IH by exact F'. f_equal. pose proof (Z.div_mod x 256). lia.
Qed.
Lemma be_length q : length (flat_map be16 q) = (2 * length q)%nat.
Proof. induction q as [|x q IH]; [reflexivity|]. cbn [flat_map]. rewrite app_length, IH. cbn [be16 length]. lia. Qed.

(** * Quantisation tables *)
Lemma zz_eq : firstn 64 UN_ZIGZAG = zigzag. Proof. reflexivity. Qed.
Lemma zz_nodup : NoDup zigzag.
Proof. apply (NoDup_nth zigzag 0%nat). intros i j Hi Hj E. now apply zz_inj. Qed.
Definition put_all (ps : list nat) (a out : list Z) : list Z := fold_left (fun out p => upd out (fst p) (snd p)) (combine ps a) out.
Lemma put_all_length ps : forall a out, length (put_all ps a out) = length out.
Proof. induction ps as [|p ps IH]; intros [|x a] out; try reflexivity. unfold put_all in *. cbn [combine fold_left fst snd]. rewrite IH. apply upd_length. Qed.
Lemma put_all_other ps j : forall a out, ~ In j ps -> nth j (put_all ps a out) 0 = nth j out 0.
Proof.
  induction ps as [|p ps IH]; intros [|x a] out N; try reflexivity. unfold put_all in *. cbn [combine fold_left fst snd]. rewrite IH; [|intros C; apply N; now right].
  apply upd_nth_other. intros C. apply N. now left.
Qed.
Lemma put_all_nth ps : forall a out k, NoDup ps -> Forall (fun p => (p < length out)%nat) ps -> (k < length ps)%nat -> (k < length a)%nat -> nth (nth k ps 0%nat) (put_all ps a out) 0 = nth k a 0.
Proof.
  induction ps as [|p ps IH]; intros [|x a] out k N F Hk Ha; cbn [length] in *; try lia. inversion N as [|? ? N1 N2]. inversion F as [|? ? F1 F2]. subst. destruct k as [|k]; cbn [nth].
  - change (put_all (p :: ps) (x :: a) out) with (put_all ps a (upd out p x)). rewrite put_all_other by exact N1. now apply upd_nth_same.
  - change (put_all (p :: ps) (x :: a) out) with (put_all ps a (upd out p x)). apply IH; [exact N2|now rewrite upd_length|lia|lia].
Qed.
Lemma un_zig_zag_natural q : length q = 64%nat -> natural q (un_zig_zag q).
Proof.
  intros L. unfold natural, un_zig_zag. rewrite zz_eq. fold (put_all zigzag q (repeat 0 64)). split; [exact L|]. split; [now rewrite put_all_length|]. intros k Hk.
  apply put_all_nth; [exact zz_nodup|apply Forall_forall; intros p Hp; unfold zigzag in Hp; cbn [In] in Hp; cbn [repeat length]; repeat (destruct Hp as [<-|Hp]; [lia|]); destruct Hp|exact Hk|lia].
Qed.
Lemma low_index i : (i < 4)%nat -> Z.shiftr (Z.of_nat i) 4 = 0 /\ Z.to_nat (Z.land (Z.of_nat i) 15) = i /\ Z.shiftr (16 + Z.of_nat i) 4 = 1 /\ Z.to_nat (Z.land (16 + Z.of_nat i) 15) = i.
Proof. intros H. destruct i as [|[|[|[|i]]]]; [now repeat split..|lia]. Qed.
Lemma nth_upd {A} (l : list (option A)) i j x : (i < length l)%nat -> nth j (upd l i (Some x)) None = if (j =? i)%nat then Some x else nth j l None.
Proof. intros H. destruct (j =? i)%nat eqn:E; [apply Nat.eqb_eq in E; subst; now apply upd_nth_same|apply Nat.eqb_neq in E; apply upd_nth_other; congruence]. Qed.
Lemma dqt_ok t data t' : qts_coded t data t' -> forall fuel d rest, (length data < fuel)%nat -> as_told d t ->
  exists d', dqt_loop fuel (Z.of_nat (length data)) d (data ++ rest) = Ok (d', rest) /\ as_told d' t' /\ keeps d d' /\ d_color d' = d_color d /\ t_adobe t' = t_adobe t.
Proof.
  intros Q. induction Q as [t|t i q l t' l' C Q IH]; intros [|fuel] d rest Fu A; try (cbn [length] in Fu; lia).
  - exists d. split; [reflexivity|]. split; [exact A|]. split; [now repeat split|]. now split.
  - pose proof A as (L1 & L2 & L3 & Ai & Ar & Ad).
    assert (St : forall n, natural q n -> as_told (with_qt d (upd (d_qt d) i (Some n))) (Told (put_at (t_q t) i q) (t_dc t) (t_ac t) (t_dri t) (t_adobe t) (t_notes t)) \/ ~ (i < 4)%nat).
    { intros n Hn. destruct (Nat.lt_ge_cases i 4) as [Hi|Hi]; [left|right; lia]. split; [cbn [with_qt d_qt]; now rewrite upd_length|]. split; [exact L2|]. split; [exact L3|]. split; [|split; [exact Ar|exact Ad]].
      intros j Hj. destruct (Ai j Hj) as (B1 & B2). split; [|exact B2]. cbn [with_qt d_qt t_q]. rewrite nth_upd by (rewrite L1; exact Hi). unfold put_at. destruct (j =? i)%nat; [|exact B1].
      exists n. split; [reflexivity|]. split; [exact Hn|]. destruct C as [_ _ F|_ _ F]; [|exact F]. eapply Forall_impl; [|exact F]. cbv beta. intros; lia. }
    assert (Le : length (l ++ l') = (length l + length l')%nat) by apply app_length.
    cbn [dqt_loop]. destruct C as [Hi Lq F|Hi Lq F]; destruct (low_index i Hi) as (X1 & X2 & X3 & X4).
    + cbn [length] in Le. rewrite Lq in Le. rewrite Le in *. replace (0 <? Z.of_nat _) with true by (symmetry; apply Z.ltb_lt; lia). cbn [app rd_u8 bind]. rewrite X1, X2. cbv zeta. change (64 * (0 + 1)) with 64.
      replace (Z.of_nat _ <? 64 + 1) with false by (symmetry; apply Z.ltb_ge; lia). change (1 <? 0) with false. change (0 =? 0) with true. cbv iota. rewrite <- app_assoc, rd_n_app by exact Lq. cbn [bind].
      replace (4 <=? i)%nat with false by (symmetry; apply Nat.leb_gt; exact Hi). replace (Z.of_nat (65 + length l') - (64 + 1)) with (Z.of_nat (length l')) by lia.
      destruct (St _ (un_zig_zag_natural q Lq)) as [A'|N]; [|lia]. destruct (IH fuel _ rest ltac:(lia) A') as (d' & E1 & E2 & E3 & E4). exists d'. split; [exact E1|]. split; [exact E2|]. split; [exact E3|exact E4].
    + cbn [length] in Le. rewrite be_length, Lq in Le. rewrite Le in *. replace (0 <? Z.of_nat _) with true by (symmetry; apply Z.ltb_lt; lia). cbn [app rd_u8 bind]. rewrite X3, X4. cbv zeta. change (64 * (1 + 1)) with 128.
      replace (Z.of_nat _ <? 128 + 1) with false by (symmetry; apply Z.ltb_ge; lia). change (1 <? 1) with false. change (1 =? 0) with false. cbv iota. rewrite <- app_assoc, rd_n_app by (rewrite be_length; lia). cbn [bind].
      rewrite pairs_be by exact F.
      replace (4 <=? i)%nat with false by (symmetry; apply Nat.leb_gt; exact Hi). replace (Z.of_nat (S (2 * 64) + length l') - (128 + 1)) with (Z.of_nat (length l')) by lia.
      destruct (St _ (un_zig_zag_natural q Lq)) as [A'|N]; [|lia]. destruct (IH fuel _ rest ltac:(lia) A') as (d' & E1 & E2 & E3 & E4). exists d'. split; [exact E1|]. split; [exact E2|]. split; [exact E3|exact E4].
Qed.

(** * Huffman tables *)
Lemma sizes_length : forall counts l, Forall (fun n => 0 <= n) counts -> Z.of_nat (length (sizes_from l counts)) = fold_right Z.add 0 counts.
Proof.
  induction counts as [|n counts IH]; intros l F; [reflexivity|]. inversion F as [|? ? F1 F2]. subst. cbn [sizes_from fold_right]. rewrite app_length, repeat_length, Nat2Z.inj_add, IH by exact F2. lia.
Qed.
Lemma assign_length : forall sizes p n, length (assign p n sizes) = length sizes.
Proof. induction sizes as [|s sizes IH]; intros p n; [reflexivity|]. cbn [assign length]. now rewrite IH. Qed.
Lemma ht_table dc counts syms : ht_ok dc counts syms -> table_ok counts (pad syms) /\ exists t, new_table dc counts (pad syms) = Ok t.
Proof.
  intros (L & B & S & L2 & B2 & Lg & Dc). assert (F : Forall (fun n => 0 <= n) counts) by (eapply Forall_impl; [|exact B]; unfold is_byte; intros; lia).
  assert (Lc : length (codes counts) = length syms). { unfold codes. rewrite assign_length. apply Nat2Z.inj. rewrite sizes_length by exact F. exact S. }
  assert (TO : table_ok counts (pad syms)).
  { split; [exact L|]. split; [exact F|]. split; [rewrite Lc; exact L2|]. split; [unfold pad; rewrite app_length, repeat_length; lia|].
    apply Forall_app. split; [exact B2|]. apply Forall_forall. intros x Hx. apply repeat_spec in Hx. subst. unfold is_byte. lia. }
  split; [exact TO|]. apply (tables_accepted dc _ _ TO). split; [exact Lg|]. intros E. specialize (Dc E).
  intros p sc sym E1 E2. assert (Hp : (p < length syms)%nat) by (rewrite <- Lc; apply nth_error_Some; congruence). unfold pad in E2. rewrite nth_error_app1 in E2 by exact Hp.
  rewrite Forall_forall in Dc. apply Dc. now apply (nth_error_In _ p).
Qed.
Lemma dht_ok t data t' : hts_coded t data t' -> forall fuel d rest, (length data < fuel)%nat -> as_told d t ->
  exists d', dht_loop fuel (Z.of_nat (length data)) d (data ++ rest) = Ok (d', rest) /\ as_told d' t' /\ keeps d d' /\ d_color d' = d_color d /\ t_adobe t' = t_adobe t.
Proof.
  intros Q. induction Q as [t|t i counts syms t' l Hi Ht Q IH|t i counts syms t' l Hi Ht Q IH]; intros [|fuel] d rest Fu A; try (cbn [length] in Fu; lia).
  - exists d. split; [reflexivity|]. split; [exact A|]. split; [now repeat split|]. now split.
  - destruct (low_index i Hi) as (X1 & X2 & _). destruct (ht_table _ _ _ Ht) as (_ & tb & Et). pose proof Ht as (Lc & _ & Su & Ls & _).
    assert (Le : length (Z.of_nat i :: counts ++ syms ++ l) = (17 + length syms + length l)%nat) by (cbn [length]; rewrite !app_length; lia). rewrite Le in *.
    cbn [dht_loop]. replace (16 <? Z.of_nat _) with true by (symmetry; apply Z.ltb_lt; lia). cbn [app rd_u8 bind]. rewrite X1, X2. cbv zeta.
    replace (4 <=? i)%nat with false by (symmetry; apply Nat.leb_gt; exact Hi). change (1 <? 0) with false. cbv iota. rewrite <- !app_assoc, rd_n_app by exact Lc. cbn [bind]. rewrite Su.
    replace (256 <? _) with false by (symmetry; apply Z.ltb_ge; lia). replace (_ <? Z.of_nat (length syms)) with false by (symmetry; apply Z.ltb_ge; lia). rewrite Nat2Z.id, rd_n_app by reflexivity. cbn [bind].
    change (0 =? 0) with true. cbv iota. fold (pad syms). rewrite Et. cbn [bind]. replace (Z.of_nat (17 + length syms + length l) - 17 - Z.of_nat (length syms)) with (Z.of_nat (length l)) by lia.
    pose proof A as (L1 & L2 & L3 & Ai & Ar & Ad).
    destruct (IH fuel (with_dc d (upd (d_dc d) i (Some tb))) rest ltac:(lia)) as (d' & E1 & E2 & E3 & E4).
    { split; [exact L1|]. split; [cbn [with_dc d_dc]; now rewrite upd_length|]. split; [exact L3|]. split; [|split; [exact Ar|exact Ad]].
      intros j Hj. destruct (Ai j Hj) as (B1 & B2 & B3). split; [exact B1|]. split; [|exact B3]. cbn [with_dc d_dc t_dc]. rewrite nth_upd by (rewrite L2; exact Hi). unfold put_at. destruct (j =? i)%nat; [|exact B2].
      split; [exact Ht|]. exists tb. now split. }
    exists d'. split; [exact E1|]. split; [exact E2|]. split; [exact E3|exact E4].
  - destruct (low_index i Hi) as (_ & _ & X1 & X2). destruct (ht_table _ _ _ Ht) as (_ & tb & Et). pose proof Ht as (Lc & _ & Su & Ls & _).
    assert (Le : length (16 + Z.of_nat i :: counts ++ syms ++ l) = (17 + length syms + length l)%nat) by (cbn [length]; rewrite !app_length; lia). rewrite Le in *.
    cbn [dht_loop]. replace (16 <? Z.of_nat _) with true by (symmetry; apply Z.ltb_lt; lia). cbn [app rd_u8 bind]. rewrite X1, X2. cbv zeta.
    replace (4 <=? i)%nat with false by (symmetry; apply Nat.leb_gt; exact Hi). change (1 <? 1) with false. cbv iota. rewrite <- !app_assoc, rd_n_app by exact Lc. cbn [bind]. rewrite Su.
    replace (256 <? _) with false by (symmetry; apply Z.ltb_ge; lia). replace (_ <? Z.of_nat (length syms)) with false by (symmetry; apply Z.ltb_ge; lia). rewrite Nat2Z.id, rd_n_app by reflexivity. cbn [bind].
    change (1 =? 0) with false. cbv iota. fold (pad syms). rewrite Et. cbn [bind]. replace (Z.of_nat (17 + length syms + length l) - 17 - Z.of_nat (length syms)) with (Z.of_nat (length l)) by lia.
    pose proof A as (L1 & L2 & L3 & Ai & Ar & Ad).
    destruct (IH fuel (with_ac d (upd (d_ac d) i (Some tb))) rest ltac:(lia)) as (d' & E1 & E2 & E3 & E4).
    { split; [exact L1|]. split; [exact L2|]. split; [cbn [with_ac d_ac]; now rewrite upd_length|]. split; [|split; [exact Ar|exact Ad]].
      intros j Hj. destruct (Ai j Hj) as (B1 & B2 & B3). split; [exact B1|]. split; [exact B2|]. cbn [with_ac d_ac t_ac]. rewrite nth_upd by (rewrite L3; exact Hi). unfold put_at. destruct (j =? i)%nat; [|exact B3].
      split; [exact Ht|]. exists tb. now split. }
    exists d'. split; [exact E1|]. split; [exact E2|]. split; [exact E3|exact E4].
Qed.

(** * Application segments: whatever their data is, reading goes on behind them, and only metadata changes. *)
Definition only_meta (d d' : dec) : Prop := exists x, d' = with_meta d x.
Lemma only_meta_same d : only_meta d d. Proof. exists (d_meta d). now destruct d. Qed.
(** what becomes of the metadata *)
Definition noted (m : Z) (data : list Z) (d d' : dec) : Prop := only_meta d d' /\ forall n, notes_as (d_meta d) n -> notes_as (d_meta d') (note m data n).
Lemma strip_app : forall pre r, strip pre (pre ++ r) = Some r.
Proof. induction pre as [|p pre IH]; intros r; [reflexivity|]. cbn [app strip]. rewrite Z.eqb_refl. apply IH. Qed.
Lemma strip_inv : forall pre l r, strip pre l = Some r -> l = pre ++ r.
Proof.
  induction pre as [|p pre IH]; intros l r E; [now injection E|]. destruct l as [|x l]; cbn [strip] in E; [discriminate E|]. destruct (p =? x) eqn:C; [|discriminate E]. apply Z.eqb_eq in C. subst. cbn [app]. f_equal. now apply IH.
Qed.
Lemma starts_ok n pre min data rest : n = length data -> (length pre <= min)%nat -> exists b, starts n pre min (data ++ rest) = Ok b /\
  if b : bool then (min < n)%nat /\ exists r, data = pre ++ r else (n <= min)%nat \/ strip pre data = None.
Proof.
  intros -> H. unfold starts. destruct (min <? length data)%nat eqn:E; [|exists false; split; [reflexivity|]; apply Nat.ltb_ge in E; now left]. apply Nat.ltb_lt in E. rewrite peek_ok by (rewrite app_length; lia). cbn [bind].
  rewrite firstn_app. replace (length pre - length data)%nat with 0%nat by lia. cbn [firstn]. rewrite app_nil_r. eexists. split; [reflexivity|].
  unfold list_eqb. destruct (list_eq_dec _ _ _) as [X|X]; [split; [exact E|]; exists (skipn (length pre) data); rewrite <- X at 1; symmetry; apply firstn_skipn|right].
  destruct (strip pre data) as [r|] eqn:St; [exfalso|reflexivity]. apply strip_inv in St. apply X. rewrite St, firstn_app, Nat.sub_diag, firstn_all. cbn [firstn]. apply app_nil_r.
Qed.
Lemma seg_len data : fits16 data -> 0 <= 2 + Z.of_nat (length data) < 65536 /\ (2 + Z.of_nat (length data) <? 2) = false /\ (Z.to_nat (2 + Z.of_nat (length data)) - 2)%nat = length data.
Proof. unfold fits16. intros H. split; [lia|]. split; [apply Z.ltb_ge; lia|lia]. Qed.
Lemma past_pre (pre r rest : list Z) k : length pre = k -> skipn k ((pre ++ r) ++ rest) = r ++ rest /\ (length (pre ++ r) - k)%nat = length r.
Proof. intros E. rewrite <- app_assoc, skipn_over by exact E. rewrite app_length. split; [reflexivity|lia]. Qed.
Lemma short_strip pre data min : (length data <= min)%nat -> (length pre <= min)%nat -> (exists r, strip pre data = Some r /\ (length r <= min - length pre)%nat) \/ strip pre data = None.
Proof.
  intros H Hp. destruct (strip pre data) as [r|] eqn:E; [left|now right]. exists r. split; [reflexivity|]. apply strip_inv in E. subst. rewrite app_length in H. lia.
Qed.
Lemma app1_ok d data rest : fits16 data -> exists d', parse_app1 d (segment data ++ rest) = Ok (d', rest) /\ noted 225 data d d'.
Proof.
  intros F. destruct (seg_len _ F) as (S1 & S2 & S3). unfold parse_app1, segment. rewrite <- app_assoc, rd_u16_0_be by exact S1. rewrite S2. cbv zeta. rewrite S3. unfold noted, note. change (225 =? 225) with true. cbv iota.
  destruct (starts_ok (length data) pre_exif 6 data rest eq_refl ltac:(cbn; lia)) as (b & -> & B). cbn [bind]. destruct b.
  - destruct B as (B1 & r & ->). destruct (past_pre pre_exif r rest 6 eq_refl) as (-> & ->). rewrite peek_app by reflexivity. cbn [bind]. rewrite skipn_over by reflexivity. eexists. split; [reflexivity|]. split; [eexists; reflexivity|].
    change exif_id with pre_exif. rewrite strip_app. destruct r as [|x r]; [cbn in B1; lia|]. intros n (N1 & N2 & N3 & N4 & N5). repeat split; assumption.
  - assert (X : strip exif_id data = None \/ strip exif_id data = Some []).
    { destruct B as [B|B]; [|now left]. destruct (short_strip exif_id data 6 B ltac:(cbn; lia)) as [(r & E & L)|E]; [right|now left]. destruct r; [exact E|cbn in L; lia]. }
    destruct (starts_ok (length data) pre_xmp (length pre_xmp) data rest eq_refl ltac:(lia)) as (b & -> & B'). cbn [bind]. destruct b.
    + destruct B' as (B1 & r & ->). destruct (past_pre pre_xmp r rest (length pre_xmp) eq_refl) as (-> & ->). rewrite peek_app by reflexivity. cbn [bind]. rewrite skipn_over by reflexivity. eexists. split; [reflexivity|]. split; [eexists; reflexivity|].
      intros n (N1 & N2 & N3 & N4 & N5). change xmp_id with pre_xmp. rewrite strip_app. destruct r as [|x r]; [rewrite app_nil_r in B1; lia|]. destruct X as [-> | ->]; repeat split; assumption.
    + exists d. rewrite skipn_over by reflexivity. split; [reflexivity|]. split; [apply only_meta_same|]. intros n N.
      assert (Y : strip xmp_id data = None \/ strip xmp_id data = Some []).
      { destruct B' as [B'|B']; [|now left]. destruct (short_strip xmp_id data (length pre_xmp) B' ltac:(cbn; lia)) as [(r & E & L)|E]; [right|now left]. destruct r; [exact E|cbn in L; lia]. }
      destruct X as [-> | ->]; destruct Y as [-> | ->]; exact N.
Qed.
Lemma app13_ok d data rest : fits16 data -> exists d', parse_app13 d (segment data ++ rest) = Ok (d', rest) /\ noted 237 data d d'.
Proof.
  intros F. destruct (seg_len _ F) as (S1 & S2 & S3). unfold parse_app13, segment. rewrite <- app_assoc, rd_u16_0_be by exact S1. rewrite S2. cbv zeta. rewrite S3. unfold noted, note. change (237 =? 225) with false. change (237 =? 226) with false. change (237 =? 237) with true. cbv iota.
  destruct (starts_ok (length data) pre_iptc (length pre_iptc) data rest eq_refl ltac:(lia)) as (b & -> & B'). cbn [bind]. destruct b.
  - destruct B' as (B1 & r & ->). destruct (past_pre pre_iptc r rest (length pre_iptc) eq_refl) as (-> & ->). rewrite peek_app by reflexivity. cbn [bind]. rewrite skipn_over by reflexivity. eexists. split; [reflexivity|]. split; [eexists; reflexivity|].
    intros n (N1 & N2 & N3 & N4 & N5). change photoshop_id with pre_iptc. rewrite strip_app. destruct r as [|x r]; [rewrite app_nil_r in B1; lia|]. repeat split; assumption.
  - exists d. rewrite skipn_over by reflexivity. split; [reflexivity|]. split; [apply only_meta_same|]. intros n N.
    assert (Y : strip photoshop_id data = None \/ strip photoshop_id data = Some []).
    { destruct B' as [B'|B']; [|now left]. destruct (short_strip photoshop_id data (length pre_iptc) B' ltac:(cbn; lia)) as [(r & E & L)|E]; [right|now left]. destruct r; [exact E|cbn in L; lia]. }
    destruct Y as [-> | ->]; exact N.
Qed.
Lemma app2_ok d data rest : fits16 data -> exists d', parse_app2 d (segment data ++ rest) = Ok (d', rest) /\ noted 226 data d d'.
Proof.
  intros F. destruct (seg_len _ F) as (S1 & S2 & S3). unfold parse_app2, segment. rewrite <- app_assoc, rd_u16_0_be by exact S1. rewrite S2. cbv zeta. rewrite S3. unfold noted, note. change (226 =? 225) with false. change (226 =? 226) with true. cbv iota.
  destruct (starts_ok (length data) pre_icc 14 data rest eq_refl ltac:(cbn; lia)) as (b & -> & B). cbn [bind]. destruct b.
  - destruct B as (B1 & r & ->). rewrite <- app_assoc, skipn_over by reflexivity. rewrite app_length in B1. change (length pre_icc) with 12%nat in B1. destruct r as [|a [|k [|x r]]]; cbn [length] in B1; try lia.
    cbn [app rd_u8_0]. replace (length (pre_icc ++ a :: k :: x :: r) - 12 - 2)%nat with (length (x :: r)) by (rewrite app_length; cbn [length]; change (length pre_icc) with 12%nat; lia).
    change (x :: r ++ rest) with ((x :: r) ++ rest). rewrite peek_app by reflexivity. cbn [bind]. rewrite skipn_over by reflexivity. eexists. split; [reflexivity|]. split; [eexists; reflexivity|].
    intros n (N1 & N2 & N3 & N4 & N5). change icc_id with pre_icc. change (pre_icc ++ a :: k :: x :: r) with (pre_icc ++ (a :: k :: x :: r)). rewrite strip_app. repeat split; try assumption. cbn [with_meta d_meta m_icc n_icc]. now rewrite N5.
  - assert (X : match strip icc_id data with Some (_ :: _ :: _ :: _) => False | _ => True end).
    { destruct B as [B|B]; [|change icc_id with pre_icc; now rewrite B]. destruct (short_strip icc_id data 14 B ltac:(cbn; lia)) as [(r & E & L)|E]; rewrite E; [|exact I]. change (14 - length icc_id)%nat with 2%nat in L. destruct r as [|? [|? [|? ?]]]; cbn [length] in L; try exact I; lia. }
    assert (X' : forall n, match strip icc_id data, strip mpf_id data with
      | Some (i :: k :: x :: r), _ => Notes (n_exif n) (n_xmp n) (n_iptc n) (n_mpf n) (n_icc n ++ [(i, k, x :: r)])
      | _, Some (x :: r) => Notes (n_exif n) (n_xmp n) (n_iptc n) (Some (x :: r)) (n_icc n)
      | _, _ => n end = match strip mpf_id data with Some (x :: r) => Notes (n_exif n) (n_xmp n) (n_iptc n) (Some (x :: r)) (n_icc n) | _ => n end).
    { intros n. destruct (strip icc_id data) as [[|? [|? [|? ?]]]|]; try reflexivity. destruct X. }
    destruct (starts_ok (length data) pre_hdr (length pre_hdr) data rest eq_refl ltac:(lia)) as (b & -> & B'). cbn [bind]. destruct b.
    + destruct B' as (B1 & r & ->). assert (Y : strip mpf_id (pre_hdr ++ r) = None) by reflexivity. destruct (past_pre pre_hdr r rest (length pre_hdr) eq_refl) as (-> & ->). destruct (length r =? 4)%nat eqn:E4.
      * apply Nat.eqb_eq in E4. destruct r as [|r1 [|r2 [|r3 [|r4 [|? ?]]]]]; try discriminate E4. cbn [app rd_u16_0]. eexists. split; [reflexivity|]. split; [eexists; reflexivity|].
        intros n (N1 & N2 & N3 & N4 & N5). cbn [app] in X', Y. rewrite X', Y. repeat split; assumption.
      * destruct (4 <? _)%nat eqn:E5.
        -- rewrite peek_app by reflexivity. cbn [bind]. rewrite skipn_over by reflexivity. eexists. split; [reflexivity|]. split; [eexists; reflexivity|]. intros n (N1 & N2 & N3 & N4 & N5). rewrite X', Y. repeat split; assumption.
        -- exists d. rewrite skipn_over by reflexivity. split; [reflexivity|]. split; [apply only_meta_same|]. intros n N. rewrite X', Y. exact N.
    + destruct (starts_ok (length data) pre_mpf (length pre_mpf) data rest eq_refl ltac:(lia)) as (b & -> & B2). cbn [bind]. destruct b.
      * destruct B2 as (B1 & r & ->). destruct (past_pre pre_mpf r rest (length pre_mpf) eq_refl) as (-> & ->). rewrite peek_app by reflexivity. cbn [bind]. rewrite skipn_over by reflexivity. eexists. split; [reflexivity|]. split; [eexists; reflexivity|].
        intros n (N1 & N2 & N3 & N4 & N5). rewrite X'. change mpf_id with pre_mpf. rewrite strip_app. destruct r as [|x r]; [rewrite app_nil_r in B1; lia|]. repeat split; assumption.
      * exists d. rewrite skipn_over by reflexivity. split; [reflexivity|]. split; [apply only_meta_same|]. intros n N. rewrite X'.
        assert (Y : strip mpf_id data = None \/ strip mpf_id data = Some []).
        { destruct B2 as [B2|B2]; [|now left]. destruct (short_strip mpf_id data (length pre_mpf) B2 ltac:(cbn; lia)) as [(r & E & L)|E]; [right|now left]. destruct r; [exact E|cbn in L; lia]. }
        destruct Y as [-> | ->]; exact N.
Qed.
Lemma skip_ok d data rest : fits16 data -> skip_segment d (segment data ++ rest) = Ok (d, rest).
Proof.
  intros F. destruct (seg_len _ F) as (S1 & S2 & S3). unfold skip_segment, segment. rewrite <- app_assoc, rd_u16_be by exact S1. cbn [bind]. rewrite S2, S3. now rewrite skipn_over.
Qed.

(** * Tables and other segments *)
Definition color_by (a : option Z) (c : incolor) : incolor := match a with Some 0 => CCMYK | Some 1 => CYCbCr | Some _ => CYCCK | None => c end.
Definition color_moves (m : Z) (c : incolor) (a a' : option Z) (c' : incolor) : Prop := m <> 238 /\ c' = c /\ a' = a \/ m = 238 /\ a' <> None /\ c' = color_by a' c.
Lemma misc_ok o d t m l t' rest : misc t m l t' -> as_told d t ->
  exists d', parse_marker o d m (l ++ rest) = Ok (d', rest) /\ as_told d' t' /\ keeps d d' /\ color_moves m (d_color d) (t_adobe t) (t_adobe t') (d_color d') /\ ~ In m [0; 217; 218; 255] /\ is_rst m = false.
Proof.
  intros M A. destruct M as [data t' Q F|data t' Q F|n Hn|m data Im B F N4|info tr more Li B Ht F].
  - destruct (seg_len _ F) as (S1 & S2 & S3). change (parse_marker o d 219 (segment data ++ rest)) with (parse_dqt d (segment data ++ rest)). unfold parse_dqt, segment. rewrite <- app_assoc, rd_u16_be by exact S1. cbn [bind].
    rewrite S2. replace (2 + Z.of_nat (length data) - 2) with (Z.of_nat (length data)) by lia. destruct (dqt_ok _ _ _ Q (Z.to_nat (2 + Z.of_nat (length data))) d rest ltac:(lia) A) as (d' & E1 & E2 & E3 & E4 & E5).
    exists d'. split; [exact E1|]. split; [exact E2|]. split; [exact E3|]. split; [left; split; [discriminate|now split]|]. split; [cbn; intuition discriminate|reflexivity].
  - destruct (seg_len _ F) as (S1 & S2 & S3). change (parse_marker o d 196 (segment data ++ rest)) with (parse_dht d (segment data ++ rest)). unfold parse_dht, segment. rewrite <- app_assoc, rd_u16_be by exact S1. cbn [bind].
    rewrite S2. replace (2 + Z.of_nat (length data) - 2) with (Z.of_nat (length data)) by lia. destruct (dht_ok _ _ _ Q (Z.to_nat (2 + Z.of_nat (length data))) d rest ltac:(lia) A) as (d' & E1 & E2 & E3 & E4 & E5).
    exists d'. split; [exact E1|]. split; [exact E2|]. split; [exact E3|]. split; [left; split; [discriminate|now split]|]. split; [cbn; intuition discriminate|reflexivity].
  - exists (with_dri d n). change (parse_marker o d 221 (segment (be16 n) ++ rest)) with (do (len, l) <- rd_u16 (be16 4 ++ be16 n ++ rest) ; if negb (len =? 4) then Err EOther else do (x, l) <- rd_u16 l ; Ok (with_dri d x, l)).
    rewrite rd_u16_be by lia. cbn [bind]. change (negb (4 =? 4)) with false. cbv iota. rewrite rd_u16_be by exact Hn. cbn [bind]. split; [reflexivity|].
    destruct A as (L1 & L2 & L3 & Ai & Ar & Ad). split; [split; [exact L1|]; split; [exact L2|]; split; [exact L3|]; split; [exact Ai|]; split; [reflexivity|]; split; [exact Hn|exact (proj2 Ad)]|]. split; [now repeat split|].
    split; [left; split; [discriminate|now split]|]. split; [cbn; intuition discriminate|reflexivity].
  - assert (X : forall d', parse_marker o d m (segment data ++ rest) = Ok (d', rest) -> noted m data d d' \/ note m data (t_notes t) = t_notes t /\ (d' = d \/ d' = with_mjpeg d) ->
       exists d', parse_marker o d m (segment data ++ rest) = Ok (d', rest) /\ as_told d' (Told (t_q t) (t_dc t) (t_ac t) (t_dri t) (t_adobe t) (note m data (t_notes t))) /\ keeps d d' /\
       color_moves m (d_color d) (t_adobe t) (t_adobe t) (d_color d') /\ ~ In m [0; 217; 218; 255] /\ is_rst m = false).
    { intros d' E O. exists d'. split; [exact E|].
      assert (K : as_told d' (Told (t_q t) (t_dc t) (t_ac t) (t_dri t) (t_adobe t) (note m data (t_notes t))) /\ keeps d d' /\ d_color d' = d_color d).
      { destruct A as (L1 & L2 & L3 & Ai & Ar & Ad & An). destruct O as [((x & ->) & O)|(O & [-> | ->])].
        - split; [split; [exact L1|]; split; [exact L2|]; split; [exact L3|]; split; [exact Ai|]; split; [exact Ar|]; split; [exact Ad|exact (O _ An)]|]. split; [now repeat split|reflexivity].
        - rewrite O. split; [split; [exact L1|]; split; [exact L2|]; split; [exact L3|]; split; [exact Ai|]; split; [exact Ar|]; split; [exact Ad|exact An]|]. split; [now repeat split|reflexivity].
        - rewrite O. split; [split; [exact L1|]; split; [exact L2|]; split; [exact L3|]; split; [exact Ai|]; split; [exact Ar|]; split; [exact Ad|exact An]|]. split; [now repeat split|reflexivity]. }
      destruct K as (K1 & K2 & K3). split; [exact K1|]. split; [exact K2|]. unfold app_markers in Im. cbn [In] in Im.
      split; [left; split; [intros ->; repeat (destruct Im as [Im|Im]; [discriminate Im|]); destruct Im|now split]|].
      split; [repeat (destruct Im as [<-|Im]; [cbn; intuition discriminate|]); destruct Im|repeat (destruct Im as [<-|Im]; [reflexivity|]); destruct Im]. }
    pose proof (skip_ok d data rest F) as Sk. 
    destruct (seg_len _ F) as (S1 & S2 & S3).
    unfold app_markers in Im. cbn [In] in Im.
    destruct Im as [<-|Im].
    { change (parse_marker o d 224 (segment data ++ rest)) with (do (len, l) <- rd_u16 (segment data ++ rest) ; if len <? 2 then Err EOther else if 5 <? len then do (p, l) <- rd_n 5 l ;
        Ok (if list_eqb p [65; 86; 73; 49; 0] then with_mjpeg d else d, skipn (Z.to_nat (len - 5) - 2) l) else Ok (d, skipn (Z.to_nat len - 2) l)) in X.
      change (parse_marker o d 224 (segment data ++ rest)) with (do (len, l) <- rd_u16 (segment data ++ rest) ; if len <? 2 then Err EOther else if 5 <? len then do (p, l) <- rd_n 5 l ;
        Ok (if list_eqb p [65; 86; 73; 49; 0] then with_mjpeg d else d, skipn (Z.to_nat (len - 5) - 2) l) else Ok (d, skipn (Z.to_nat len - 2) l)).
      unfold segment in *. rewrite <- app_assoc, rd_u16_be in * by exact S1. cbn [bind] in *. rewrite S2 in *. destruct (5 <? _) eqn:E5.
      2:{ apply (X d); [rewrite S3; now rewrite skipn_over|right; split; [reflexivity|now left]]. }
      apply Z.ltb_lt in E5. specialize (N4 eq_refl). destruct data as [|x1 [|x2 [|x3 [|x4 [|x5 data]]]]]; cbn [length] in E5, N4; try lia.
      change ((x1 :: x2 :: x3 :: x4 :: x5 :: data) ++ rest) with ([x1; x2; x3; x4; x5] ++ data ++ rest) in *. rewrite rd_n_app in * by reflexivity. cbn [bind] in *.
      replace (Z.to_nat (2 + Z.of_nat (length (x1 :: x2 :: x3 :: x4 :: x5 :: data)) - 5) - 2)%nat with (length data) in * by (cbn [length]; lia). rewrite skipn_over in * by reflexivity.
      eapply X; [reflexivity|]. right. split; [reflexivity|]. destruct (list_eqb _ _); [now right|now left]. }
    destruct Im as [<-|Im]; [destruct (app1_ok d data rest F) as (d' & E & O); apply (X d' E); now left|].
    destruct Im as [<-|Im]; [destruct (app2_ok d data rest F) as (d' & E & O); apply (X d' E); now left|].
    do 10 (destruct Im as [<-|Im]; [apply (X d Sk); right; split; [reflexivity|now left]|]).
    destruct Im as [<-|Im]; [destruct (app13_ok d data rest F) as (d' & E & O); apply (X d' E); now left|].
    do 2 (destruct Im as [<-|Im]; [apply (X d Sk); right; split; [reflexivity|now left]|]). destruct Im.
  - destruct (seg_len _ F) as (S1 & S2 & S3). change (parse_marker o d 238 (segment (adobe_id ++ info ++ tr :: more) ++ rest)) with (parse_app14 d (segment (adobe_id ++ info ++ tr :: more) ++ rest)).
    unfold parse_app14, segment. rewrite <- app_assoc, rd_u16_0_be by exact S1. rewrite S2. rewrite <- app_assoc, peek_app by reflexivity. cbn [bind]. change (list_eqb adobe_id adobe) with true. cbv iota.
    assert (Ld : length (adobe_id ++ info ++ tr :: more) = (12 + length more)%nat) by (rewrite !app_length, Li; cbn [adobe_id length]; lia). rewrite Ld.
    replace (2 + Z.of_nat (12 + length more) <? 14) with false by (symmetry; apply Z.ltb_ge; lia).
    replace (skipn 11 (adobe_id ++ (info ++ tr :: more) ++ rest)) with (tr :: more ++ rest).
    2:{ symmetry. rewrite <- app_assoc, app_assoc. cbn [app]. apply skipn_over. rewrite app_length, Li. reflexivity. }
    cbn [rd_u8_0]. replace (Z.to_nat (2 + Z.of_nat (12 + length more)) - 14)%nat with (length more) by lia. cbv zeta. rewrite skipn_over by reflexivity.
    assert (C : tr = 0 \/ tr = 1 \/ tr = 2) by lia.
    destruct C as [-> |[-> | ->]]; eexists; (split; [reflexivity|]); (split; [exact A|]); (split; [now repeat split|]); (split; [right; split; [reflexivity|]; split; [discriminate|reflexivity]|]); (split; [cbn; intuition discriminate|reflexivity]).
Qed.

(** * The frame header *)
Lemma part_bytes_ok p pos : fpart_ok p -> (pos < 4)%nat -> new_fcomp pos (i_id p) (16 * Z.of_nat (i_hs p) + Z.of_nat (i_vs p)) (Z.of_nat (i_tq p)) = Ok (FComp (i_id p) (i_hs p) (i_vs p) (i_tq p) 0 0).
Proof.
  destruct p as [id hs vs tq]. intros (_ & Hh & Hv & Hq) Hp. cbn [i_id i_hs i_vs i_tq] in *. unfold new_fcomp. replace (4 <=? pos)%nat with false by (symmetry; apply Nat.leb_gt; exact Hp).
  replace (4 <=? Z.of_nat tq) with false by (symmetry; apply Z.leb_gt; lia). rewrite Nat2Z.id. cbn [In] in Hh. assert (V : (vs = 1 \/ vs = 2 \/ vs = 3 \/ vs = 4)%nat) by lia.
  destruct Hh as [<-|[<-|[<-|[]]]]; destruct V as [-> |[-> |[-> | ->]]]; reflexivity.
Qed.
Lemma sof_comps_ok : forall ps pos rest, Forall fpart_ok ps -> (pos + length ps <= 4)%nat -> sof_comps (length ps) pos (flat_map fpart_bytes ps ++ rest) = Ok (map (fun p => FComp (i_id p) (i_hs p) (i_vs p) (i_tq p) 0 0) ps, rest).
Proof.
  induction ps as [|p ps IH]; intros pos rest F L; [reflexivity|]. inversion F as [|? ? F1 F2]. subst. cbn [length] in *. cbn [sof_comps flat_map map]. rewrite <- app_assoc, rd_n_app by reflexivity. cbn [bind fpart_bytes nth].
  rewrite part_bytes_ok by (try exact F1; lia). cbn [bind]. rewrite IH by (try exact F2; lia). reflexivity.
Qed.
Lemma sof_ok o d t h m rest : as_told d t -> sof_marker h m -> fhead_ok h -> d_sof d = false -> d_prog d = false -> h_x h <= max_w o -> h_y h <= max_h o ->
  exists d', parse_marker o d m (sof_bytes h ++ rest) = Ok (d', rest) /\ as_told d' t /\ as_frame d' h /\ ~ In m [0; 217; 218; 255] /\
    d_color d' = if (length (h_parts h) =? 1)%nat then CLuma else if (length (h_parts h) =? 4)%nat && (match d_color d with CYCbCr => true | _ => false end) then CCMYK else d_color d.
Proof.
  intros A M (Hx & Hy & Hn & Nd & Fp) S P Mw Mh.
  assert (E : parse_marker o d m (sof_bytes h ++ rest) = parse_sof o (h_prog h) d (sof_bytes h ++ rest) /\ ~ In m [0; 217; 218; 255]).
  { unfold sof_marker in M. destruct (h_prog h); [subst; split; [reflexivity|cbn; intuition discriminate]|]. destruct M as [-> | ->]; (split; [reflexivity|cbn; intuition discriminate]). }
  destruct E as (-> & Nm). unfold parse_sof, sof_bytes, segment. rewrite S.
  set (n := length (h_parts h)) in *.
  assert (Lb : length (flat_map fpart_bytes (h_parts h)) = (3 * n)%nat).
  { unfold n. clear. induction (h_parts h) as [|p ps IH]; [reflexivity|]. cbn [flat_map]. rewrite app_length, IH. cbn [fpart_bytes length]. lia. }
  assert (L : 2 + Z.of_nat (length (8 :: be16 (h_y h) ++ be16 (h_x h) ++ Z.of_nat n :: flat_map fpart_bytes (h_parts h))) = 8 + 3 * Z.of_nat n).
  { cbn [length]. rewrite !app_length. cbn [length be16]. rewrite Lb. lia. }
  rewrite L. rewrite <- app_assoc, rd_u16_be by lia. cbn [bind app rd_u8]. change (negb (8 =? 8)) with false. cbv iota. rewrite <- !app_assoc, rd_u16_be by lia. cbn [bind]. rewrite rd_u16_be by lia. cbn [bind].
  replace (max_w o <? h_x h) with false by (symmetry; apply Z.ltb_ge; lia). replace (max_h o <? h_y h) with false by (symmetry; apply Z.ltb_ge; lia).
  replace ((h_x h =? 0) || (h_y h =? 0)) with false by (symmetry; apply orb_false_iff; split; apply Z.eqb_neq; lia). cbn [app rd_u8 bind].
  replace (Z.of_nat n =? 0) with false by (symmetry; apply Z.eqb_neq; lia). rewrite Z.eqb_refl. cbn [negb]. rewrite Nat2Z.id. unfold n at 1. rewrite sof_comps_ok by (try exact Fp; fold n; lia). cbn [bind].
  eexists. split; [reflexivity|]. split; [exact A|]. split.
  - split; [reflexivity|]. split; [cbn [d_prog]; rewrite P; reflexivity|]. split; [reflexivity|]. split; [reflexivity|]. cbn [d_comps]. rewrite map_map. rewrite <- (map_id (h_parts h)) at 2. apply map_ext. now intros [].
  - split; [exact Nm|]. cbn [d_color]. replace (Z.of_nat n =? 1) with (n =? 1)%nat; [replace (Z.of_nat n =? 4) with (n =? 4)%nat; [reflexivity|]|].
    + destruct (n =? 4)%nat eqn:E; symmetry; [apply Nat.eqb_eq in E; apply Z.eqb_eq; lia|apply Nat.eqb_neq in E; apply Z.eqb_neq; lia].
    + destruct (n =? 1)%nat eqn:E; symmetry; [apply Nat.eqb_eq in E; apply Z.eqb_eq; lia|apply Nat.eqb_neq in E; apply Z.eqb_neq; lia].
Qed.

(** * The scan header *)
Lemma find_from : forall cs id j k, (forall i, (i < k)%nat -> c_id (nth i cs (FComp 0 0 0 0 0 0)) <> id) -> (k < length cs)%nat -> c_id (nth k cs (FComp 0 0 0 0 0 0)) = id -> find_comp cs id j = Some (j + k)%nat.
Proof.
  induction cs as [|c cs IH]; intros id j k B Hk E; [cbn [length] in Hk; lia|]. cbn [find_comp]. destruct k as [|k].
  - cbn [nth] in E. rewrite E, Z.eqb_refl. f_equal. lia.
  - replace (c_id c =? id) with false by (symmetry; apply Z.eqb_neq; apply (B 0%nat); lia). rewrite (IH id (j + 1)%nat k); [f_equal; lia| |cbn [length] in Hk; lia|exact E]. intros i Hi. apply (B (S i)). lia.
Qed.
Definition frame_part (c : fcomp) : fpart := FPart (c_id c) (c_hs c) (c_vs c) (c_tq c).
Lemma part_at cs ps k : map frame_part cs = ps -> (k < length ps)%nat -> frame_part (nth k cs (FComp 0 0 0 0 0 0)) = nth k ps (FPart 0 1 1 0).
Proof. intros <- H. rewrite map_length in H. now rewrite (map_nth_in _ _ _ (FComp 0 0 0 0 0 0)). Qed.
Lemma nibbles a b : (a < 16)%nat -> (b < 16)%nat -> Z.to_nat (Z.shiftr (16 * Z.of_nat a + Z.of_nat b) 4) = a /\ Z.to_nat (Z.land (16 * Z.of_nat a + Z.of_nat b) 15) = b.
Proof.
  intros Ha Hb. rewrite Z.shiftr_div_pow2 by lia. change 15 with (Z.ones 4). rewrite Z.land_ones by lia. change (2 ^ 4) with 16. split; [|replace (16 * Z.of_nat a + Z.of_nat b) with (Z.of_nat b + Z.of_nat a * 16) by lia; rewrite Z.mod_add by lia; rewrite Z.mod_small by lia; apply Nat2Z.id].
  replace ((16 * Z.of_nat a + Z.of_nat b) / 16) with (Z.of_nat a); [apply Nat2Z.id|]. apply Z.div_unique with (r := Z.of_nat b); lia.
Qed.
Lemma sos_comps_ok h : NoDup (map i_id (h_parts h)) -> forall ord seen cs done rest, map frame_part cs = h_parts h ->
  NoDup (map (fun x => fst (fst x)) ord) -> Forall (fun '(k, td, ta) => k < length (h_parts h) /\ td < 4 /\ ta < 4)%nat ord ->
  (forall k td ta, In (k, td, ta) ord -> ~ In (id_of h k) seen) ->
  exists cs', sos_comps (length ord) seen cs done (flat_map (fun '(k, td, ta) => [id_of h k; 16 * Z.of_nat td + Z.of_nat ta]) ord ++ rest) = Ok (cs', done ++ map (fun x => fst (fst x)) ord, rest) /\
    map frame_part cs' = h_parts h /\ Forall (fun '(k, td, ta) => exists c, nth_error cs' k = Some c /\ c_dc c = td /\ c_ac c = ta) ord /\
    forall k, ~ In k (map (fun x => fst (fst x)) ord) -> nth_error cs' k = nth_error cs k.
Proof.
  intros Nd. induction ord as [|[[k td] ta] ord IH]; intros seen cs done rest Ec No Fo Ns.
  - exists cs. cbn [length sos_comps flat_map map app]. rewrite app_nil_r. split; [reflexivity|]. split; [exact Ec|]. split; [constructor|reflexivity].
  - inversion No as [|? ? No1 No2]. inversion Fo as [|? ? Fo1 Fo2]. subst. destruct Fo1 as (Hk & Ht & Ha). cbn [length sos_comps flat_map map app fst snd rd_u8 bind].
    assert (Lc : length cs = length (h_parts h)) by (rewrite <- Ec; now rewrite map_length).
    replace (existsb (Z.eqb (id_of h k)) seen) with false.
    2:{ symmetry. apply not_true_is_false. intros C. apply existsb_exists in C. destruct C as (x & I & C). apply Z.eqb_eq in C. subst x. apply (Ns k td ta); [now left|exact I]. }
    assert (Idk : forall i, (i < length cs)%nat -> c_id (nth i cs (FComp 0 0 0 0 0 0)) = id_of h i) by (intros i Hi; rewrite Lc in Hi; unfold id_of; rewrite <- (part_at cs _ i Ec Hi); reflexivity).
    assert (Inj : forall i j, (i < length cs)%nat -> (j < length cs)%nat -> id_of h i = id_of h j -> i = j).
    { intros i j Hi Hj E. rewrite Lc in Hi, Hj. apply (NoDup_nth (map i_id (h_parts h)) (i_id (FPart 0 1 1 0))); [exact Nd|now rewrite map_length|now rewrite map_length|]. rewrite !map_nth. exact E. }
    rewrite (find_from cs (id_of h k) 0 k); [|intros i Hi E; rewrite Idk in E by lia; apply Inj in E; lia|lia|apply Idk; lia]. cbn [Nat.add]. cbv zeta.
    set (c := nth k cs _). set (c1 := FComp _ _ _ _ _ _).
    assert (Ec1 : map frame_part (upd cs k c1) = h_parts h).
    { rewrite <- Ec. apply (list_eq_nth (FPart 0 1 1 0)); [now rewrite !map_length, upd_length|]. intros i Hi. rewrite map_length, upd_length in Hi.
      rewrite !(map_nth_in _ _ _ (FComp 0 0 0 0 0 0)) by (rewrite ?upd_length; exact Hi). destruct (Nat.eq_dec i k) as [->|N]; [rewrite upd_nth_same by lia; reflexivity|now rewrite upd_nth_other by congruence]. }
    destruct (IH (id_of h k :: seen) (upd cs k c1) (done ++ [k]) rest Ec1 No2 Fo2) as (cs' & E1 & E2 & E3 & E4).
    { intros k' td' ta' I [C|C]; [|apply (Ns k' td' ta'); [now right|exact C]]. rewrite Forall_forall in Fo2. pose proof (Fo2 _ I) as (Hk' & _). apply Inj in C; [|lia|lia]. subst k'. apply No1.
      apply in_map_iff. exists (k, td', ta'). now split. }
    exists cs'. rewrite E1. split; [rewrite <- app_assoc; reflexivity|]. split; [exact E2|]. split.
    + constructor; [|exact E3]. exists c1. rewrite E4 by exact No1. destruct (nibbles td ta ltac:(lia) ltac:(lia)) as (X1 & X2).
      split; [|split; [exact X1|exact X2]]. rewrite (nth_error_nth' _ (FComp 0 0 0 0 0 0)) by (rewrite upd_length; lia). now rewrite upd_nth_same by lia.
    + intros k' Nk. rewrite E4 by (intros C; apply Nk; now right). assert (N : k' <> k) by (intros ->; apply Nk; now left).
      destruct (Nat.lt_ge_cases k' (length cs)) as [Hk'|Hk'].
      * rewrite !(nth_error_nth' _ (FComp 0 0 0 0 0 0)) by (rewrite ?upd_length; exact Hk'). now rewrite upd_nth_other by congruence.
      * replace (nth_error cs k') with (@None fcomp) by (symmetry; now apply nth_error_None). apply nth_error_None. now rewrite upd_length.
Qed.
Lemma sos_ok o d t h e rest : as_told d t -> as_frame d h -> fhead_ok h -> shead_ok h e ->
  exists d', parse_marker o d 218 (sos_bytes h e ++ rest) = Ok (d', rest) /\ parse_sos d (sos_bytes h e ++ rest) = Ok (d', rest) /\ as_told d' t /\ as_frame d' h /\ as_scan d' e /\ d_color d' = d_color d.
Proof.
  intros A (F1 & F2 & F3 & F4 & F5) (Hx & Hy & Hn & Nd & Fp) (On & Od & Of & H1 & H2 & H3 & H4).
  change (parse_marker o d 218 (sos_bytes h e ++ rest)) with (parse_sos d (sos_bytes h e ++ rest)).
  enough (X : exists d', parse_sos d (sos_bytes h e ++ rest) = Ok (d', rest) /\ as_told d' t /\ as_frame d' h /\ as_scan d' e /\ d_color d' = d_color d).
  { destruct X as (d' & X & Y). exists d'. split; [exact X|]. split; [exact X|exact Y]. }
  unfold parse_sos, sos_bytes, segment. set (n := length (e_order e)) in *.
  set (fm := flat_map _ (e_order e)). assert (Lb : length fm = (2 * n)%nat).
  { unfold fm, n. clear. induction (e_order e) as [|[[k td] ta] ps IH]; [reflexivity|]. cbn [flat_map]. rewrite app_length, IH. cbn [length]. lia. }
  set (tl := [Z.of_nat (e_ss e); _; _]).
  assert (L : 2 + Z.of_nat (length (Z.of_nat n :: fm ++ tl)) = 6 + 2 * Z.of_nat n) by (cbn [length]; rewrite app_length, Lb; cbn [tl length]; lia).
  rewrite L, <- app_assoc, rd_u16_be by lia. cbn [bind app rd_u8]. rewrite Z.eqb_refl. cbn [negb].
  replace ((Z.of_nat n <? 1) || (5 <=? Z.of_nat n)) with false by (symmetry; apply orb_false_iff; split; [apply Z.ltb_ge|apply Z.leb_gt]; lia).
  assert (Lc : length (d_comps d) = length (h_parts h)) by (rewrite <- F5; now rewrite map_length).
  replace (length (d_comps d) =? 0)%nat with false by (symmetry; apply Nat.eqb_neq; lia). rewrite Nat2Z.id, <- app_assoc.
  destruct (sos_comps_ok h Nd (e_order e) [] (d_comps d) [] (tl ++ rest) F5 Od Of) as (cs' & E1 & E2 & E3 & _); [intros k td ta _ []|].
  fold fm in E1. unfold n. rewrite E1. cbn [bind]. unfold tl. cbn [app rd_u8 bind]. destruct (nibbles (e_ah e) (e_al e) ltac:(lia) ltac:(lia)) as (X1 & X2).
  assert (P : 0 <= 16 * Z.of_nat (e_ah e) + Z.of_nat (e_al e)) by lia.
  assert (Y1 : Z.shiftr (16 * Z.of_nat (e_ah e) + Z.of_nat (e_al e)) 4 = Z.of_nat (e_ah e)) by (rewrite <- X1 at 2; rewrite Z2Nat.id; [reflexivity|apply Z.shiftr_nonneg; exact P]).
  assert (Y2 : Z.land (16 * Z.of_nat (e_ah e) + Z.of_nat (e_al e)) 15 = Z.of_nat (e_al e)) by (rewrite <- X2 at 2; rewrite Z2Nat.id; [reflexivity|apply Z.land_nonneg; right; lia]).
  rewrite Y1, Y2. cbv zeta. repeat (match goal with |- context [if ?a <? ?b then Err EOther else _] => replace (a <? b) with false by (symmetry; apply Z.ltb_ge; lia) end).
  eexists. split; [reflexivity|]. split; [exact A|]. split; [|split; [|reflexivity]].
  - split; [exact F1|]. split; [exact F2|]. split; [exact F3|]. split; [exact F4|exact E2].
  - split; [reflexivity|exact E3].
Qed.

(** * Files *)
Lemma skip_fill_ok : forall n last m l, m <> 255 -> m <> 0 -> exists last', skip_fill last 255 (repeat 255 n ++ m :: l) = Ok (last', m, l) /\ last' = 255.
Proof.
  induction n as [|n IH]; intros last m l N1 N0; cbn [repeat app skip_fill]; change (255 =? 255) with true; cbn [orb].
  - exists 255. destruct l; cbn [skip_fill]; replace (m =? 255) with false by (symmetry; apply Z.eqb_neq; exact N1); replace (m =? 0) with false by (symmetry; apply Z.eqb_neq; exact N0); now split.
  - apply IH; assumption.
Qed.
(** a marker *)
Lemma head_step f o last before d n m l : last <> 255 -> before <= 2 -> m <> 255 -> m <> 0 ->
  head_loop (S (S f)) o last before d (repeat 255 (S n) ++ m :: l) = (do (d, l) <- parse_marker o d m l ; if m =? 218 then Ok (d, l) else head_loop f o m 1 d l).
Proof.
  intros N1 B M1 M0. cbn [repeat app]. cbn [head_loop rd_u8 bind]. change (255 =? 255) with true. cbn [orb]. rewrite (proj2 (Z.eqb_neq last 255) N1). cbn [andb bind]. rewrite (proj2 (Z.eqb_neq last 255) N1).
  destruct n as [|n].
  - cbn [repeat app head_loop rd_u8 bind]. rewrite (proj2 (Z.eqb_neq m 255) M1), (proj2 (Z.eqb_neq m 0) M0). cbn [orb andb bind]. change (255 =? 255) with true. cbv iota.
    replace (3 <? before + 1) with false by (symmetry; apply Z.ltb_ge; lia). reflexivity.
  - cbn [repeat app head_loop rd_u8 bind]. change (255 =? 255) with true. cbn [orb andb]. destruct (skip_fill_ok n 255 m l M1 M0) as (last' & -> & ->). cbn [bind]. change (255 =? 255) with true. cbv iota.
    replace (3 <? before + 1) with false by (symmetry; apply Z.ltb_ge; lia). reflexivity.
Qed.
Lemma keeps_frame d d' h : keeps d d' -> as_frame d h -> as_frame d' h.
Proof. intros (K1 & K2 & K3 & K4 & K5 & K6) (F1 & F2 & F3 & F4 & F5). unfold as_frame. rewrite K1, K2, K3, K4, K5. split; [exact F1|]. split; [exact F2|]. split; [exact F3|]. split; [exact F4|exact F5]. Qed.
Lemma not_special m : ~ In m [0; 217; 218; 255] -> m <> 0 /\ m <> 217 /\ m <> 218 /\ m <> 255.
Proof. intros N. repeat split; intros ->; apply N; cbn; tauto. Qed.
(** the colours, if Adobe segments are early *)
Lemma to_scan_ok o early h e : fhead_ok h -> forall t l rest t', to_scan early h e t l rest t' -> forall fuel last d, (length l < fuel)%nat -> last <> 255 -> as_told d t -> as_frame d h ->
  exists d', head_loop fuel o last 1 d l = Ok (d', rest) /\ as_told d' t' /\ as_frame d' h /\ as_scan d' e /\ (early = true -> d_color d' = d_color d /\ t_adobe t' = t_adobe t).
Proof.
  intros Ho t l rest t' T. induction T as [t n rest Sh|t t1 t' n m l l' rest M Ea T IH]; intros fuel last d Fu Nl A F; rewrite app_length in Fu; cbn [length] in Fu; rewrite repeat_length in Fu.
  - destruct fuel as [|[|fuel]]; [lia|lia|]. rewrite head_step by (try lia; exact Nl). destruct (sos_ok o d t h e rest A F Ho Sh) as (d' & E1 & _ & E2 & E3 & E4 & E5). rewrite E1. cbn [bind]. change (218 =? 218) with true. cbv iota.
    exists d'. split; [reflexivity|]. split; [exact E2|]. split; [exact E3|]. split; [exact E4|]. intros _. now split.
  - destruct (misc_ok o d t m l t1 l' M A) as (d1 & E1 & E2 & E3 & E4 & E5 & E6). destruct (not_special m E5) as (N0 & N1 & N2 & N3). destruct fuel as [|[|fuel]]; [lia|lia|].
    rewrite head_step by (try lia; assumption). rewrite E1. cbn [bind]. rewrite (proj2 (Z.eqb_neq m 218) N2). rewrite app_length in Fu.
    destruct (IH fuel m d1 ltac:(lia) N3 E2 (keeps_frame _ _ _ E3 F)) as (d' & X1 & X2 & X3 & X4 & X5). exists d'. split; [exact X1|]. split; [exact X2|]. split; [exact X3|]. split; [exact X4|].
    intros Y. destruct (X5 Y) as (-> & ->). destruct E4 as [(_ & -> & ->)|(C & _)]; [now split|]. destruct (Ea Y C).
Qed.
Definition sof_color (h : fhead) (c : incolor) : incolor :=
  if (length (h_parts h) =? 1)%nat then CLuma else if (length (h_parts h) =? 4)%nat && (match c with CYCbCr => true | _ => false end) then CCMYK else c.
Lemma to_frame_ok o early h e : h_x h <= max_w o -> h_y h <= max_h o -> forall t l rest t', to_frame early h e t l rest t' -> forall fuel last before d, (length l < fuel)%nat -> last <> 255 -> before <= 2 -> as_told d t -> d_sof d = false -> d_prog d = false ->
  d_color d = color_by (t_adobe t) CYCbCr ->
  exists d', head_loop fuel o last before d l = Ok (d', rest) /\ as_told d' t' /\ as_frame d' h /\ as_scan d' e /\ (early = true -> d_color d' = sof_color h (color_by (t_adobe t') CYCbCr)).
Proof.
  intros Mw Mh t l rest t' T. induction T as [t n m l rest t' Sm Ho T|t t1 t' n m l l' rest M T IH]; intros fuel last before d Fu Nl Bf A S P Co; rewrite app_length in Fu; cbn [length] in Fu; rewrite repeat_length, app_length in Fu.
  - destruct fuel as [|[|fuel]]; [lia|lia|]. destruct (sof_ok o d t h m l A Sm Ho S P Mw Mh) as (d1 & E1 & E2 & E3 & E4 & E5). destruct (not_special m E4) as (N0 & N1 & N2 & N3).
    rewrite head_step by (try lia; assumption). rewrite E1. cbn [bind]. rewrite (proj2 (Z.eqb_neq m 218) N2).
    destruct (to_scan_ok o early h e Ho t l rest t' T fuel m d1 ltac:(lia) N3 E2 E3) as (d' & X1 & X2 & X3 & X4 & X5). exists d'. split; [exact X1|]. split; [exact X2|]. split; [exact X3|]. split; [exact X4|].
    intros Y. destruct (X5 Y) as (-> & ->). rewrite E5, Co. reflexivity.
  - destruct (misc_ok o d t m l t1 l' M A) as (d1 & E1 & E2 & (K1 & K2 & K3) & E4 & E5 & E6). destruct (not_special m E5) as (N0 & N1 & N2 & N3). destruct fuel as [|[|fuel]]; [lia|lia|].
    rewrite head_step by (try lia; assumption). rewrite E1. cbn [bind]. rewrite (proj2 (Z.eqb_neq m 218) N2).
    apply IH; [lia|exact N3|lia|exact E2|congruence|congruence|].
    destruct E4 as [(_ & -> & ->)|(_ & Nn & ->)]; [exact Co|]. destruct (t_adobe t1); [reflexivity|now destruct Nn].
Qed.
Lemma start_told : as_told start_dec no_tables.
Proof.
  split; [reflexivity|]. split; [reflexivity|]. split; [reflexivity|]. split; [|split; [reflexivity|]; split; [cbn; lia|now repeat split]]. intros i Hi. cbn [start_dec d_qt d_dc d_ac no_tables t_q t_dc t_ac]. rewrite !nth_repeat. now repeat split.
Qed.
Lemma rgb_same d : as_told (rgb_ids d) = as_told d /\ as_frame (rgb_ids d) = as_frame d /\ as_scan (rgb_ids d) = as_scan d.
Proof. unfold rgb_ids. destruct (list_eqb _ _); now repeat split. Qed.
Lemma start_ok o early h e file rest t : file_start early h e file rest t -> h_x h <= max_w o -> h_y h <= max_h o ->
  exists d, decode_headers o file = Ok (d, rest) /\ as_told d t /\ as_frame d h /\ as_scan d e /\
    (early = true -> d_color d = if list_eqb (map i_id (h_parts h)) [82; 71; 66] then CRGB else sof_color h (color_by (t_adobe t) CYCbCr)).
Proof.
  intros (l & -> & T) Mw Mh. unfold decode_headers. cbn [app rd_u16 bind]. change (negb (255 * 256 + 216 =? 65496)) with false. cbv iota.
  destruct (to_frame_ok o early h e Mw Mh _ _ _ _ T (S (length l)) 0 0 start_dec ltac:(lia) ltac:(lia) ltac:(lia) start_told eq_refl eq_refl eq_refl) as (d & E1 & E2 & E3 & E4 & E5).
  rewrite E1. cbn [bind]. exists (rgb_ids d). destruct (rgb_same d) as (-> & -> & ->). split; [reflexivity|]. split; [exact E2|]. split; [exact E3|]. split; [exact E4|].
  intros Y. specialize (E5 Y). unfold rgb_ids. destruct E3 as (_ & _ & _ & _ & E3). rewrite <- E3 at 1. rewrite map_map. cbn [i_id]. destruct (list_eqb _ _); [reflexivity|exact E5].
Qed.

(** * Between scans *)
Lemma get_marker_fill f n m l : m <> 0 -> m <> 255 -> get_marker (S f) (repeat 255 (S n) ++ m :: l) = (Some m, l).
Proof.
  intros N0 N1. cbn [repeat app get_marker]. change (255 =? 255) with true. cbv iota. replace (skip_ff _) with (Some (m, l)); [now rewrite (proj2 (Z.eqb_neq m 0) N0)|].
  symmetry. induction n as [|n IH]; cbn [repeat app skip_ff]; [now rewrite (proj2 (Z.eqb_neq m 255) N1)|exact IH].
Qed.
Lemma next_to_scan o early h e : fhead_ok h -> forall t l rest t', to_scan early h e t l rest t' -> forall fuel d, (length l <= fuel)%nat -> as_told d t -> as_frame d h ->
  exists m l0 d', (forall f, get_marker (S f) l = (Some m, l0)) /\ next_scan fuel o d m l0 = Ok (Some (d', rest)) /\ as_told d' t' /\ as_frame d' h /\ as_scan d' e.
Proof.
  intros Ho t l rest t' T. induction T as [t n rest Sh|t t1 t' n m l l' rest M Ea T IH]; intros fuel d Fu A F; rewrite app_length in Fu; cbn [length] in Fu; rewrite repeat_length in Fu.
  - destruct fuel as [|fuel]; [lia|]. destruct (sos_ok o d t h e rest A F Ho Sh) as (d' & _ & E1 & E2 & E3 & E4 & E5). exists 218, (sos_bytes h e ++ rest), d'. split; [intros f; now apply get_marker_fill|].
    cbn [next_scan]. change (218 =? 217) with false. change (218 =? 218) with true. cbv iota. rewrite E1. cbn [bind]. split; [reflexivity|]. split; [exact E2|]. split; [exact E3|exact E4].
  - destruct (misc_ok o d t m l t1 l' M A) as (d1 & E1 & E2 & E3 & E4 & E5 & E6). destruct (not_special m E5) as (N0 & N1 & N2 & N3). destruct fuel as [|fuel]; [lia|]. rewrite app_length in Fu.
    destruct (IH fuel d1 ltac:(lia) E2 (keeps_frame _ _ _ E3 F)) as (m1 & l1 & d' & X1 & X2 & X3). exists m, (l ++ l'), d'. split; [intros f; now apply get_marker_fill|].
    cbn [next_scan]. rewrite (proj2 (Z.eqb_neq m 217) N1), (proj2 (Z.eqb_neq m 218) N2), E6, E1. cbn [bind]. rewrite X1. split; [exact X2|exact X3].
Qed.
Lemma next_ok o h e t m l rest t' d : fhead_ok h -> to_next h e t m l rest t' -> as_told d t -> as_frame d h ->
  m <> 217 /\ exists d', next_scan (S (length l)) o d m l = Ok (Some (d', rest)) /\ as_told d' t' /\ as_frame d' h /\ as_scan d' e.
Proof.
  intros Ho [(-> & (r & -> & ->) & Sh & ->)|(t1 & l1 & l2 & M & -> & T)] A F.
  - split; [discriminate|]. destruct (sos_ok o d t h e r A F Ho Sh) as (d' & _ & E1 & E2 & E3 & E4 & E5). exists d'. cbn [next_scan]. change (218 =? 217) with false. change (218 =? 218) with true. cbv iota. rewrite E1. cbn [bind].
    split; [reflexivity|]. split; [exact E2|]. split; [exact E3|exact E4].
  - destruct (misc_ok o d t m l1 t1 l2 M A) as (d1 & E1 & E2 & E3 & E4 & E5 & E6). destruct (not_special m E5) as (N0 & N1 & N2 & N3). split; [exact N1|].
    destruct (next_to_scan o true h e Ho t1 l2 rest t' T (length (l1 ++ l2)) d1) as (m1 & l0 & d' & X1 & X2 & X3); [rewrite app_length; lia|exact E2|exact (keeps_frame _ _ _ E3 F)|].
    exists d'. cbn [next_scan]. rewrite (proj2 (Z.eqb_neq m 217) N1), (proj2 (Z.eqb_neq m 218) N2), E6, E1. cbn [bind]. rewrite X1. split; [exact X2|exact X3].
Qed.
