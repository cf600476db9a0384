From Verif Require Import Base BaseProof Loops Slices StreamModel StreamSpec StreamProof CrcModel CrcSpec PngFilterModel PngFilterSpec
  InflateModel PngRowModel PngSpec PngRowProof DeintModel ApngModel ApngSpec PngModel PngFileSpec PngChunkProof PngNoteProof PngLoopProof PngInterProof PngFileProof
  ApngFileModel ApngFileSpec.

(** * Reading the chunks of animations *)
(** States that differ in the position in the file and the notes only *)
Definition like (s s' : png) : Prop := exists c md, s' = at_cursor c (with_meta md s).
Lemma like_refl s : like s s.
Proof. exists (strm s), (mdata s). destruct s; reflexivity. Qed.
Lemma like_trans s1 s2 s3 : like s1 s2 -> like s2 s3 -> like s1 s3.
Proof. intros (c & md & ->) (c' & md' & ->). exists c', md'. reflexivity. Qed.
Lemma like_advance s n : like s (advance s n).
Proof. eexists _, (mdata s). unfold advance. rewrite with_meta_same. reflexivity. Qed.

Lemma rewind_advance s n : rewind (strm (advance s n)) n = Ok (strm s).
Proof. unfold rewind, advance. cbn [strm at_cursor]. rewrite seek_cur_back by lia. rewrite Nat.add_sub, at_pos_same. reflexivity. Qed.
Lemma ahead_length s l : ahead s l -> (length l <= length (cdata (strm s)))%nat.
Proof. unfold ahead, remaining. intros <-. rewrite skipn_length. lia. Qed.

Lemma chunks_ge ks : Forall chunk_ok ks -> (length ks <= size ks)%nat.
Proof.
  intros F. induction F as [|k ks Hk F IH]; [cbn; lia|]. change (k :: ks) with ([k] ++ ks). rewrite size_app. unfold size at 1. cbn [map concat]. rewrite app_nil_r, chunk_len by exact Hk. cbn [length app]. lia.
Qed.

Section File.
Variables (huff : Z -> dstate -> res dstate).
Notation no_anim := (fun (_ : nat) (_ : list Z) (_ : png) => @Panic png).
Notation run := (run huff no_anim).
Notation phase := (phase huff no_anim).
Notation outer := (achunk_loop huff).
Notation inner := (fctl_loop huff).

Lemma other_step len name s s1 a : parse_header huff no_anim len name s = Ok s1 -> hdr s <> None -> name <> acTL ->
  parse_other huff len name (on_base s a) = Ok (on_base s1 a).
Proof.
  intros P Hh N. unfold parse_other. change n_acTL with acTL. rewrite zlist_neq by exact N. cbn [base on_base]. rewrite P. cbn [bind].
  destruct (hdr s); [reflexivity|contradiction].
Qed.
Lemma parse_header_hdr len name s s1 : parse_header huff no_anim len name s = Ok s1 -> hdr s1 <> None.
Proof. unfold parse_header. intros H. match type of H with bind ?e _ = _ => destruct e as [q| | |]; cbn [bind] in H; try discriminate H end. destruct (hdr q) eqn:E; [|discriminate]. injection H as <-. congruence. Qed.
Lemma outer_run ks s s' : run ks s s' -> hdr s <> None -> Forall (fun k => c_name k <> acTL) ks -> forall a fuel,
  outer (length ks + fuel) (on_base s a) = outer fuel (on_base s' a).
Proof.
  induction 1 as [|k ks s R s1 s2 [Fk Fc] A N1 N2 P _ IH]; intros Hh F a fuel; [reflexivity|]. inversion F as [|? ? Na F']; subst.
  cbn [length Nat.add achunk_loop]. cbn [base on_base]. rewrite (header_ok s k R A Fk Fc). cbn [bind]. change n_fcTL with fcTL. change n_IEND with IEND. rewrite (zlist_neq _ fcTL) by assumption.
  change (on_base (advance s 8) (on_base s a)) with (on_base (advance s 8) a). rewrite (other_step _ _ _ s1) by assumption. cbn [bind]. rewrite zlist_neq by assumption.
  apply IH; [|exact F']. eapply parse_header_hdr; exact P.
Qed.
Definition has_idat (ks : list chunk) : bool := existsb (fun k => zlist_eqb (c_name k) IDAT) ks.
Definition quiet (k : chunk) : Prop := c_name k <> acTL /\ c_name k <> fdAT.
Lemma inner_run ks s s' : run ks s s' -> hdr s <> None -> Forall quiet ks -> forall ac f0 l f add fuel,
  inner (length ks + fuel) f add (mkApng s ac f0 l) =
  inner fuel f (match ks with [] => add | _ => false end) (mkApng s' ac (if has_idat ks then f else f0) l).
Proof.
  induction 1 as [|k ks s R s1 s2 [Fk Fc] A N1 N2 P _ IH]; intros Hh F ac f0 l f add fuel; [reflexivity|]. inversion F as [|? ? [Na Nf] F']; subst.
  pose proof (parse_header_hdr _ _ _ _ P) as Hh1.
  cbn [length Nat.add fctl_loop]. cbn [base]. rewrite (header_ok s k R A Fk Fc). cbn [bind].
  change n_fcTL with fcTL. change n_IEND with IEND. change n_IDAT with IDAT. change n_fdAT with fdAT. rewrite (zlist_neq _ IEND), (zlist_neq _ fcTL), (zlist_neq _ fdAT) by assumption.
  unfold has_idat. cbn [existsb]. destruct (zlist_eqb (c_name k) IDAT) eqn:E.
  - apply zlist_eqb_spec in E. unfold parse_header in P. rewrite E in P. change (zlist_eqb IDAT n_IHDR) with false in P. change (zlist_eqb IDAT n_PLTE) with false in P. change (zlist_eqb IDAT n_IDAT) with true in P. cbv iota in P.
    destruct (parse_idat (length (c_data k)) (advance s 8)) as [q| | |] eqn:Eq; cbn [bind] in P; try discriminate P. destruct (hdr q) eqn:Hq; [|discriminate P]. injection P as ->.
    cbn [bind a_actl a_later]. rewrite (IH Hh1 F'). cbn [orb]. destruct ks; [reflexivity|]. fold (has_idat (c :: ks)). destruct (has_idat (c :: ks)); reflexivity.
  - change (on_base (advance s 8) (mkApng s ac f0 l)) with (on_base (advance s 8) (mkApng s ac f0 l)). rewrite (other_step _ _ _ s1) by assumption. cbn [bind orb].
    change (on_base s1 (mkApng s ac f0 l)) with (mkApng s1 ac f0 l). rewrite (IH Hh1 F'). destruct ks; reflexivity.
Qed.

(** acTL *)
Lemma actl_step s k R : ahead (advance s 8) (c_data k ++ c_sum k ++ R) -> chunk_ok k -> is_actl k -> hdr s <> None -> forall ac f l,
  exists p, parse_other huff (length (c_data k)) (c_name k) (mkApng (advance s 8) ac f l) = Ok (mkApng (advance s (12 + length (c_data k))) (Some p) f l).
Proof.
  intros A Ck [Nk Lk] Hh ac f l. unfold parse_other. rewrite Nk. change (zlist_eqb acTL n_acTL) with true. cbv iota. unfold parse_actl. rewrite Lk. change (negb (8 =? 8)%nat) with false. cbn [bind base].
  pose proof A as A'. unfold ahead in A'. rewrite <- (firstn_skipn 4 (c_data k)), <- app_assoc in A'.
  assert (L1 : length (firstn 4 (c_data k)) = 4%nat) by (rewrite firstn_length; lia). rewrite (get_zero_ok 4 _ _ _ A' L1). pose proof (fwd_remaining _ _ _ _ A' L1) as A1.
  assert (L2 : length (skipn 4 (c_data k)) = 4%nat) by (rewrite skipn_length; lia). rewrite (get_zero_ok 4 _ _ _ A1 L2).
  rewrite skip_to_ok. cbn [bind base a_first a_later]. match goal with |- context [hdr ?q] => change (hdr q) with (hdr s) end. destruct (hdr s); [|contradiction]. eexists. do 2 f_equal.
  unfold advance, at_cursor, fwd, at_pos. fields. cbn [cpos cdata]. f_equal. f_equal. lia.
Qed.

Definition anote (st : bool) (k : chunk) : Prop := note_ok huff st k /\ c_name k <> fdAT.
Lemma note_phase k s i : hdr s = Some i -> anote (strict (opts s)) k -> exists s', phase [k] s s' /\ like s s'.
Proof.
  intros Hh [Hn _]. pose proof (notes_phase huff no_anim [k] s i Hh ltac:(constructor; [exact Hn|constructor])) as P. eexists. split; [exact P|].
  unfold advance. fields. eexists _, _. reflexivity.
Qed.
Lemma note_quiet st k : anote st k -> quiet k.
Proof. intros [(An & _) N]. split; [apply An|exact N]. Qed.
Lemma mixed_run ks : forall s R i, hdr s = Some i -> Forall (fine (opts s)) ks -> Forall (fun k => anote (strict (opts s)) k \/ is_actl k) ks ->
  ahead s (concat (map chunk_bytes ks) ++ R) -> forall ac f l fuel,
  exists s' ac', outer (length ks + fuel) (mkApng s ac f l) = outer fuel (mkApng s' ac' f l) /\ like s s' /\ ahead s' R /\
    (ac <> None \/ Exists is_actl ks -> ac' <> None).
Proof.
  induction ks as [|k ks IH]; intros s R i Hh F N A ac f l fuel.
  - exists s, ac. repeat split; [apply like_refl|exact A|]. intros [H|H]; [exact H|inversion H].
  - inversion F as [|? ? Fk F']; subst. inversion N as [|? ? Nk N']; subst. cbn [map concat] in A. rewrite <- app_assoc in A.
    assert (St : exists s1 ac1, outer (length (k :: ks) + fuel) (mkApng s ac f l) = outer (length ks + fuel) (mkApng s1 ac1 f l) /\ like s s1 /\
                   ahead s1 (concat (map chunk_bytes ks) ++ R) /\ (ac <> None \/ is_actl k -> ac1 <> None)).
    { destruct Nk as [Nk|Nk].
      - destruct (note_phase k s i Hh Nk) as (s1 & P & L1). destruct (P (concat (map chunk_bytes ks) ++ R)) as [Rn A1].
        { now constructor. } { cbn [map concat]. rewrite app_nil_r. exact A. }
        exists s1, ac. change (mkApng s ac f l) with (on_base s (mkApng s ac f l)). change (length (k :: ks) + fuel)%nat with (length [k] + (length ks + fuel))%nat.
        rewrite (outer_run _ _ _ Rn); [|congruence|constructor; [apply (note_quiet _ _ Nk)|constructor]]. split; [reflexivity|]. split; [exact L1|]. split; [exact A1|].
        intros [H|[H _]]; [exact H|]. destruct Nk as [(An & _) _]. destruct An as (_ & _ & An & _). contradiction.
      - destruct Fk as [Ck Sk]. destruct (actl_step s k _ (chunk_tail s k _ Ck A) Ck Nk ltac:(congruence) ac f l) as (p & E).
        exists (advance s (12 + length (c_data k))), (Some p). split.
        + cbn [length Nat.add achunk_loop base]. rewrite (header_ok s k _ A Ck Sk). cbn [bind]. destruct Nk as [Nk _]. rewrite Nk in *. change (zlist_eqb acTL n_fcTL) with false. cbv iota.
          change (on_base (advance s 8) (mkApng s ac f l)) with (mkApng (advance s 8) ac f l). rewrite E. cbn [bind]. change (zlist_eqb acTL n_IEND) with false. reflexivity.
        + split; [apply like_advance|]. split; [|discriminate]. apply (ahead_advance_n s (chunk_bytes k)); [exact A|]. now apply chunk_len. }
    destruct St as (s1 & ac1 & E1 & L1 & A1 & C1). pose proof L1 as (c & md & Es1).
    destruct (IH s1 R i) with (ac := ac1) (f := f) (l := l) (fuel := fuel) as (s2 & ac2 & E2 & L2 & A2 & C2).
    { rewrite Es1. exact Hh. } { rewrite Es1. exact F'. } { rewrite Es1. exact N'. } { exact A1. }
    exists s2, ac2. split; [congruence|]. split; [eapply like_trans; eassumption|]. split; [exact A2|].
    intros [H|H]; [apply C2; left; apply C1; now left|]. inversion H; subst; [apply C2; left; apply C1; now right|apply C2; now right].
Qed.

(** fcTL *)
Lemma dispose_code_ok d : dispose_of_int (dispose_code d) = Ok d.
Proof. destruct d; reflexivity. Qed.
Lemma blend_code_ok b : blend_of_int (blend_code b) = Ok b.
Proof. destruct b; reflexivity. Qed.
Lemma fctl_data_length f : length (fctl_data f) = 26%nat.
Proof. unfold fctl_data. rewrite !app_length, !be_bytes_length. reflexivity. Qed.
Lemma fctl_ok m f s sum R : image_ok m -> frame_ok m f -> ahead s (fctl_data f ++ sum ++ R) ->
  parse_fctl_external 26 s = Ok (f, advance s 30).
Proof.
  intros (W & H & _) (Sq & Nu & De & Iq & Wi & Hi & Xi & Yi) A. unfold parse_fctl_external. change (negb (26 =? 26)%nat) with false. cbv iota.
  unfold ahead, fctl_data in A. rewrite <- !app_assoc in A.
  set (b1 := be_bytes 4 (f_seq f)) in *. set (b2 := be_bytes 4 (Z.of_nat (f_w f))) in *. set (b3 := be_bytes 4 (Z.of_nat (f_h f))) in *.
  set (b4 := be_bytes 4 (Z.of_nat (f_x f))) in *. set (b5 := be_bytes 4 (Z.of_nat (f_y f))) in *. set (b6 := be_bytes 2 (f_num f)) in *. set (b7 := be_bytes 2 (f_den f)) in *.
  assert (L1 : length b1 = 4%nat) by apply be_bytes_length. assert (L2 : length b2 = 4%nat) by apply be_bytes_length. assert (L3 : length b3 = 4%nat) by apply be_bytes_length.
  assert (L4 : length b4 = 4%nat) by apply be_bytes_length. assert (L5 : length b5 = 4%nat) by apply be_bytes_length. assert (L6 : length b6 = 2%nat) by apply be_bytes_length. assert (L7 : length b7 = 2%nat) by apply be_bytes_length.
  rewrite (get_zero_ok 4 _ _ _ A L1). pose proof (fwd_remaining _ _ _ _ A L1) as A1. clear A.
  rewrite (get_zero_ok 4 _ _ _ A1 L2). pose proof (fwd_remaining _ _ _ _ A1 L2) as A2. clear A1.
  rewrite (get_zero_ok 4 _ _ _ A2 L3). pose proof (fwd_remaining _ _ _ _ A2 L3) as A3. clear A2.
  rewrite (get_zero_ok 4 _ _ _ A3 L4). pose proof (fwd_remaining _ _ _ _ A3 L4) as A4. clear A3.
  rewrite (get_zero_ok 4 _ _ _ A4 L5). pose proof (fwd_remaining _ _ _ _ A4 L5) as A5. clear A4.
  rewrite (get_zero_ok 2 _ _ _ A5 L6). pose proof (fwd_remaining _ _ _ _ A5 L6) as A6. clear A5.
  rewrite (get_zero_ok 2 _ _ _ A6 L7). pose proof (fwd_remaining _ _ _ _ A6 L7) as A7. clear A6. cbn [app] in A7.
  destruct (read_u8_ok _ _ _ A7) as [E8 A8]. rewrite E8. clear A7 E8. rewrite dispose_code_ok. cbn [bind].
  destruct (read_u8_ok _ _ _ A8) as [E9 A9]. rewrite E9. clear A8 E9 A9. rewrite blend_code_ok. cbn [bind]. rewrite skip_to_ok. cbn [bind].
  unfold b1, b2, b3, b4, b5, b6, b7. rewrite !be_val_be_bytes by (try change (256 ^ Z.of_nat 4) with (2 ^ 32); try change (256 ^ Z.of_nat 2) with 65536; lia).
  rewrite !Nat2Z.id. unfold as_i32. replace (f_seq f <? 2 ^ 31) with true by lia. rewrite !fwd_fwd.
  match goal with |- Ok (?a, ?b) = Ok (?c, ?d) => assert (E : a = c) by (rewrite <- Iq; destruct f; reflexivity); rewrite E; assert (E' : b = d) by (unfold advance, at_cursor, fwd, at_pos; fields; cbn [cpos cdata]; do 2 f_equal; lia); rewrite E' end.
  reflexivity.
Qed.

(** fdAT *)
Lemma extend_last_snoc l f d z : extend_last (l ++ [(f, d)]) z = l ++ [(f, d ++ z)].
Proof. induction l as [|x l IH]; [reflexivity|]. cbn [app]. cbn [extend_last]. rewrite IH. destruct x, l; reflexivity. Qed.
Lemma on_base_same a : on_base (base a) a = a.
Proof. destruct a; reflexivity. Qed.
Lemma fdat_step s k R ac f0 l f d : ahead (advance s 8) (c_data k ++ c_sum k ++ R) -> chunk_ok k -> (4 <= length (c_data k))%nat ->
  parse_fdat (length (c_data k)) f true (mkApng (advance s 8) ac f0 l) = Ok (mkApng (advance s (12 + length (c_data k))) ac f0 (l ++ [(f, skipn 4 (c_data k))])) /\
  parse_fdat (length (c_data k)) f false (mkApng (advance s 8) ac f0 (l ++ [(f, d)])) = Ok (mkApng (advance s (12 + length (c_data k))) ac f0 (l ++ [(f, d ++ skipn 4 (c_data k))])).
Proof.
  intros A (_ & Ls & _) L4. unfold ahead in A. rewrite <- (firstn_skipn 4 (c_data k)), <- app_assoc in A. assert (L1 : length (firstn 4 (c_data k)) = 4%nat) by (rewrite firstn_length; lia).
  pose proof (fwd_remaining _ _ _ _ A L1) as A1. assert (L2 : length (skipn 4 (c_data k)) = (length (c_data k) - 4)%nat) by (rewrite skipn_length; lia).
  assert (X : forall l' z, extend_frames z (mkApng (advance s 8) ac f0 (l ++ [(f, l')])) = mkApng (advance s 8) ac f0 (l ++ [(f, l' ++ z)])).
  { intros. rewrite <- extend_last_snoc. unfold extend_frames. cbn [a_later base a_actl a_first]. destruct l; reflexivity. }
  split; unfold parse_fdat; cbn [base a_actl a_first a_later]; rewrite skip_fwd; cbn [bind]; rewrite (read_exact_spec _ (length (c_data k) - 4)) by apply repeat_length;
    rewrite A1, app_length, L2; replace (length (c_data k) - 4 <=? _)%nat with true by lia; rewrite skip_fwd; cbn [bind]; rewrite firstn_app_exact by exact L2; rewrite X.
  all: f_equal; unfold on_base; cbn [base a_actl a_first a_later app]; f_equal; unfold advance, at_cursor, fwd, at_pos; fields; cbn [cpos cdata]; do 2 f_equal; lia.
Qed.
Lemma fdats_run fds : forall s R, Forall (fine (opts s)) fds -> Forall (fun d => c_name d = fdAT /\ (4 <= length (c_data d))%nat) fds ->
  ahead s (concat (map chunk_bytes fds) ++ R) -> forall ac f0 l f d fuel,
  inner (length fds + fuel) f false (mkApng s ac f0 (l ++ [(f, d)])) =
  inner fuel f false (mkApng (advance s (size fds)) ac f0 (l ++ [(f, d ++ concat (map (fun k => skipn 4 (c_data k)) fds))])) /\ ahead (advance s (size fds)) R.
Proof.
  induction fds as [|k fds IH]; intros s R F N A ac f0 l f d fuel.
  - unfold size. cbn [map concat length Nat.add]. rewrite app_nil_r. assert (E : advance s 0 = s) by (unfold advance; rewrite Nat.add_0_r, at_pos_same; destruct s; reflexivity). rewrite E. split; [reflexivity|exact A].
  - inversion F as [|? ? [Ck Sk] F']; subst. inversion N as [|? ? [Nk Lk] N']; subst. cbn [map concat] in A. rewrite <- app_assoc in A.
    change (k :: fds) with ([k] ++ fds). rewrite size_app, <- advance_advance.
    assert (Sz : size [k] = (12 + length (c_data k))%nat) by (unfold size; cbn [map concat]; rewrite app_nil_r; now apply chunk_len). rewrite Sz.
    pose proof (ahead_advance_n s (chunk_bytes k) _ _ A (chunk_len k Ck)) as A1.
    destruct (IH (advance s (12 + length (c_data k))) R F' N' A1 ac f0 l f (d ++ skipn 4 (c_data k)) fuel) as [E A2]. split; [|exact A2].
    cbn [app length Nat.add fctl_loop base]. rewrite (header_ok s k _ A Ck Sk). cbn [bind]. rewrite Nk.
    change (zlist_eqb fdAT n_IEND) with false. change (zlist_eqb fdAT n_IDAT) with false. change (zlist_eqb fdAT n_fcTL) with false. change (zlist_eqb fdAT n_fdAT) with true. cbv iota.
    change (on_base (advance s 8) (mkApng s ac f0 (l ++ [(f, d)]))) with (mkApng (advance s 8) ac f0 (l ++ [(f, d)])).
    rewrite (proj2 (fdat_step s k _ ac f0 l f d (chunk_tail s k _ Ck A) Ck Lk)). cbn [bind]. rewrite E. cbn [map concat]. rewrite <- app_assoc. reflexivity.
Qed.
(** Ancillary chunks in the inner loop *)
Lemma notes_inner ks s R i : hdr s = Some i -> Forall (fine (opts s)) ks -> Forall (anote (strict (opts s))) ks -> ahead s (concat (map chunk_bytes ks) ++ R) ->
  forall ac f0 l f add fuel, exists s', inner (length ks + fuel) f add (mkApng s ac f0 l) = inner fuel f (match ks with [] => add | _ => false end) (mkApng s' ac f0 l) /\ like s s' /\ ahead s' R.
Proof.
  intros Hh F N A ac f0 l f add fuel. assert (Nn : Forall (note_ok huff (strict (opts s))) ks) by (eapply Forall_impl; [|exact N]; intros k [H _]; exact H).
  destruct (notes_phase huff no_anim ks s i Hh Nn R F A) as [Rn A1]. eexists. rewrite (inner_run _ _ _ Rn).
  - assert (HI : has_idat ks = false). { apply not_true_is_false. intros H. apply existsb_exists in H. destruct H as (k & I & E). apply zlist_eqb_spec in E. rewrite Forall_forall in Nn. destruct (Nn k I) as ((Lo & _) & _). rewrite E in Lo. cbn in Lo. lia. }
    rewrite HI. split; [reflexivity|]. split; [|exact A1]. unfold advance. fields. eexists _, _. reflexivity.
  - congruence.
  - eapply Forall_impl; [|exact N]. intros k. apply note_quiet.
Qed.
(** The end of a frame *)
Definition stops (k : chunk) : Prop := c_name k = fcTL \/ c_name k = IEND.
Definition ended (k : chunk) (s : png) : png := if zlist_eqb (c_name k) IEND then set_end s else s.
Lemma inner_stop s k R : fine (opts s) k -> ahead s (chunk_bytes k ++ R) -> stops k -> forall ac f0 l f add fuel,
  inner (S fuel) f add (mkApng s ac f0 l) = Ok (mkApng (ended k s) ac f0 l).
Proof.
  intros [Ck Sk] A N ac f0 l f add fuel. cbn [fctl_loop base]. rewrite (header_ok s k R A Ck Sk). cbn [bind]. unfold ended.
  assert (X : at_cursor (strm s) (advance s 8) = s) by (destruct s; reflexivity).
  destruct N as [N|N]; rewrite N; [change (zlist_eqb fcTL n_IEND) with false; change (zlist_eqb fcTL n_IDAT) with false; change (zlist_eqb fcTL n_fcTL) with true; change (zlist_eqb fcTL IEND) with false
    |change (zlist_eqb IEND n_IEND) with true; change (zlist_eqb IEND IEND) with true]; cbv iota; rewrite rewind_advance; cbn [bind]; rewrite X; reflexivity.
Qed.

(** A frame of fdAT chunks *)
Lemma ended_like s s' k : like s s' -> like (ended k s) (ended k s').
Proof. intros (c & md & ->). exists c, md. unfold ended. destruct (zlist_eqb _ _); reflexivity. Qed.
Lemma group_ok m f z g s nk R i : image_ok m -> frame_ok m f -> frame_chunks (anote (strict (opts s))) f z g -> hdr s = Some i ->
  Forall (fine (opts s)) g -> fine (opts s) nk -> stops nk -> ahead s (concat (map chunk_bytes g) ++ chunk_bytes nk ++ R) -> forall ac f0 l fuel,
  exists s', outer (S fuel) (mkApng s ac f0 l) = Ok (mkApng (ended nk s') ac f0 (l ++ [(f, z)])) /\ like s s' /\ ahead s' (chunk_bytes nk ++ R).
Proof.
  intros Im Fo (k & fds & ns & -> & [Nk Dk] & Nf & Hf & Hz & Hn) Hh F Fn St A ac f0 l fuel.
  inversion F as [|? ? [Ck Sk] F']; subst. apply Forall_app in F'. destruct F' as [Ff Fs].
  cbn [map concat] in A. rewrite <- app_assoc in A. rewrite map_app, concat_app, <- app_assoc in A.
  cbn [achunk_loop base]. rewrite (header_ok s k _ A Ck Sk). cbn [bind]. rewrite Nk, Dk, fctl_data_length. change (zlist_eqb fcTL n_fcTL) with true. cbv iota.
  change (on_base (advance s 8) (mkApng s ac f0 l)) with (mkApng (advance s 8) ac f0 l). unfold parse_fctl. cbn [base].
  pose proof (chunk_tail s k _ Ck A) as A0. rewrite Dk in A0. rewrite (fctl_ok m f _ _ _ Im Fo A0). cbn [bind]. rewrite advance_advance. change (8 + 30)%nat with 38%nat.
  pose proof (ahead_advance_n s (chunk_bytes k) _ 38 A ltac:(rewrite chunk_len, Dk, fctl_data_length by exact Ck; reflexivity)) as A1.
  change (on_base (advance s 38) (mkApng (advance s 8) ac f0 l)) with (mkApng (advance s 38) ac f0 l).
  assert (LEN : (length fds + (length ns + 1) <= S (length (cdata (strm (advance s 38)))))%nat).
  { pose proof (ahead_length _ _ A1) as H. rewrite !app_length in H. assert (Cf : Forall chunk_ok fds) by (eapply Forall_impl; [|exact Ff]; intros q [Hq _]; exact Hq).
    assert (Cn : Forall chunk_ok ns) by (eapply Forall_impl; [|exact Fs]; intros q [Hq _]; exact Hq). pose proof (chunks_ge fds Cf) as S1. pose proof (chunks_ge ns Cn) as S2. unfold size in S1, S2. lia. }
  set (N := S (length (cdata (strm (advance s 38))))) in *. clearbody N. set (t := advance s 38) in *. assert (Ht : hdr t = Some i) by exact Hh. assert (Ot : opts t = opts s) by reflexivity.
  assert (Lt : like s t) by apply like_advance. rewrite <- Ot in Ff, Fs, Hn, Fn. clearbody t.
  destruct fds as [|d fds]; [contradiction|]. inversion Ff as [|? ? [Cd Sd] Ff']; subst. inversion Hf as [|? ? [Nd Ld] Hf']; subst.
  assert (EN : N = S (length fds + (length ns + S (N - length fds - length ns - 2)))) by (cbn [length] in LEN; lia). rewrite EN. clear EN LEN.
  cbn [map concat] in A1. rewrite <- app_assoc in A1.
  cbn [fctl_loop base]. rewrite (header_ok t d _ A1 Cd Sd). cbn [bind]. rewrite Nd.
  change (zlist_eqb fdAT n_IEND) with false. change (zlist_eqb fdAT n_IDAT) with false. change (zlist_eqb fdAT n_fcTL) with false. change (zlist_eqb fdAT n_fdAT) with true. cbv iota.
  change (on_base (advance t 8) (mkApng t ac f0 l)) with (mkApng (advance t 8) ac f0 l).
  rewrite (proj1 (fdat_step t d _ ac f0 l f [] (chunk_tail t d _ Cd A1) Cd Ld)). cbn [bind].
  pose proof (ahead_advance_n t (chunk_bytes d) _ _ A1 (chunk_len d Cd)) as A2.
  match goal with |- context [fctl_loop huff (_ + ?x)] => destruct (fdats_run fds (advance t (12 + length (c_data d))) _ Ff' Hf' A2 ac f0 l f (skipn 4 (c_data d)) x) as [E3 A3] end.
  rewrite E3. clear E3. set (t2 := advance (advance t (12 + length (c_data d))) (size fds)) in *.
  assert (L2 : like s t2) by (eapply like_trans; [exact Lt|]; unfold t2; rewrite advance_advance; apply like_advance).
  assert (H2 : hdr t2 = Some i) by exact Ht. assert (O2 : opts t2 = opts t) by reflexivity. rewrite <- O2 in Fs, Hn, Fn. clearbody t2.
  match goal with |- context [fctl_loop huff (_ + S ?x) _ _ {| base := _; a_actl := _; a_first := _; a_later := ?L |}] => destruct (notes_inner ns t2 _ i H2 Fs Hn A3 ac f0 L f false (S x)) as (t3 & E4 & L3 & A4) end.
  rewrite E4. clear E4. assert (O3 : opts t3 = opts t2) by (destruct L3 as (? & ? & ->); reflexivity). rewrite <- O3 in Fn.
  rewrite (inner_stop t3 nk R Fn A4 St). cbn [bind base]. assert (H3 : hdr (ended nk t3) = Some i) by (destruct L3 as (? & ? & ->); unfold ended; destruct (zlist_eqb _ _); exact H2). rewrite H3.
  exists t3. split; [|split; [eapply like_trans; eassumption|exact A4]]. reflexivity.
Qed.
End File.
