From Verif Require Import Base BaseProof Loops Slices StreamModel StreamSpec StreamProof CrcModel CrcSpec PngFilterModel PngFilterSpec
  InflateModel PngRowModel PngSpec PngRowProof DeintModel ApngModel ApngSpec PngModel PngFileSpec PngChunkProof PngNoteProof PngLoopProof PngInterProof PngFileProof PngDecodeProof
  ApngFileModel ApngFileSpec ApngFileProof.

Lemma skipn_cons {A} n : forall (l : list A) d, (n < length l)%nat -> skipn n l = nth n l d :: skipn (S n) l.
Proof. induction n as [|n IH]; intros [|x l] d H; cbn [length] in H; try lia; [reflexivity|]. cbn [skipn nth]. rewrite (IH l d) by lia. reflexivity. Qed.
Lemma firstn_S_nth {A} n : forall (l : list A) d, (n < length l)%nat -> firstn (S n) l = firstn n l ++ [nth n l d].
Proof. induction n as [|n IH]; intros [|x l] d H; cbn [length] in H; try lia; [reflexivity|]. cbn [firstn nth app]. f_equal. apply IH. lia. Qed.
Lemma Forall2_nth {A B} (P : A -> B -> Prop) l l' : Forall2 P l l' -> forall n d d', (n < length l)%nat -> P (nth n l d) (nth n l' d').
Proof. induction 1 as [|x y l l' H _ IH]; intros n d d' L; cbn [length] in L; [lia|]. destruct n; [exact H|]. cbn [nth]. apply IH. lia. Qed.
Lemma Forall2_len {A B} (P : A -> B -> Prop) l l' : Forall2 P l l' -> length l = length l'.
Proof. induction 1; cbn [length]; congruence. Qed.

(** * The frames of a file *)
Section Frames.
Variables (huff : Z -> dstate -> res dstate) (m : image) (o : popts).
Notation no_anim := (fun (_ : nat) (_ : list Z) (_ : png) => @Panic png).
Notation run := (PngFileProof.run huff no_anim).
Notation outer := (achunk_loop huff).
Notation inner := (fctl_loop huff).
Notation note := (anote huff (strict o)).
Hypothesis (Om : image_ok m) (Lw : (m_w m <= o_max_w o)%nat) (Lh : (m_h m <= o_max_h o)%nat).

Variables (first : option frame) (idat : list Z) (later : list (frame * list Z)) (groups : list (list chunk)) (en : chunk) (tail : list Z).
Hypothesis (Hfirst : match first with Some f => frame_ok m f | None => True end) (Hlater : Forall (fun fz => frame_ok m (fst fz)) later).
Hypothesis (Hgroups : Forall2 (fun fz g => frame_chunks note (fst fz) (snd fz) g) later groups) (Gfine : Forall (Forall (fine o)) groups).
Hypothesis (Hen : is_chunk en IEND []) (Efine : fine o en).
Notation all := (all_frames m first idat later).
Notation rest n := (concat (map chunk_bytes (concat (skipn n groups) ++ [en])) ++ tail).

Lemma next_chunk n : exists nk R, rest n = chunk_bytes nk ++ R /\ stops nk /\ fine o nk /\
  forall s, ended nk s = if (n <? length groups)%nat then s else set_end s.
Proof.
  destruct (Nat.ltb_spec n (length groups)) as [L|L].
  - rewrite (skipn_cons n groups []) by exact L. pose proof (Forall2_nth _ _ _ Hgroups n (still_frame 0 0, []) [] ltac:(rewrite (Forall2_len _ _ _ Hgroups); exact L)) as (k & fds & ns & E & [Nk _] & _).
    rewrite E. assert (Fk : Forall (fine o) (nth n groups [])) by (rewrite Forall_forall in Gfine; apply Gfine, nth_In; exact L). rewrite E in Fk.
    exists k. eexists. split; [cbn [concat app map]; rewrite <- app_assoc; reflexivity|]. split; [left; exact Nk|]. split; [now inversion Fk|]. intros s. unfold ended. rewrite Nk. reflexivity.
  - rewrite skipn_all2 by exact L. cbn [concat app map]. rewrite app_nil_r. exists en, tail. split; [reflexivity|]. destruct Hen as [N _]. split; [right; exact N|]. split; [exact Efine|]. intros s. unfold ended. rewrite N. reflexivity.
Qed.

Definition core (s : png) : Prop :=
  (opts s = o \/ opts s = little_popts o) /\ hdr s = Some (info_of m) /\ pal s = final_pal m /\ p_plte s = is_some (m_pal m) /\ p_trns s = is_some (m_trns m) /\ p_key s = final_key m.
Lemma core_like s s' : like s s' -> core s -> core s'.
Proof. intros (c & md & ->). exact (fun H => H). Qed.
(** The state with [n] frames read *)
Record inv (n : nat) (a : apng) : Prop := mkInv {
  iv_core : core (base a); iv_headers : p_headers (base a) = true; iv_end : p_iend (base a) = (n =? length all)%nat;
  iv_actl : a_actl a <> None; iv_len : length (frames a) = n; iv_cur : (current (base a) <= n)%nat;
  iv_frames : skipn (current (base a)) (frames a) = skipn (current (base a)) (firstn n all);
  iv_range : (1 <= n <= length all)%nat;
  iv_ahead : (n < length all)%nat -> ahead (base a) (rest (n - 1))
}.
Lemma all_length : length all = S (length groups).
Proof. unfold all_frames. cbn [length]. now rewrite (Forall2_len _ _ _ Hgroups). Qed.

(** One more frame of fdAT chunks *)
Lemma more_group n s ac f0 l fuel : (n < length groups)%nat -> core s -> p_iend s = false -> ahead s (rest n) ->
  exists s', outer (S fuel) (mkApng s ac f0 l) = Ok (mkApng s' ac f0 (l ++ [nth n later (still_frame 0 0, [])])) /\ core s' /\ p_iend s' = (S n =? length groups)%nat /\
    fdat s' = fdat s /\ current s' = current s /\ opts s' = opts s /\ p_headers s' = p_headers s /\ p_stride s' = p_stride s /\ from_into s' = from_into s /\ ahead s' (rest (S n)).
Proof.
  intros L Co Ie A. destruct (next_chunk (S n)) as (nk & R & ER & St & Fn & En).
  pose proof (Forall2_nth _ _ _ Hgroups n (still_frame 0 0, []) [] ltac:(rewrite (Forall2_len _ _ _ Hgroups); exact L)) as G.
  set (g := nth n groups []) in *. set (fz := nth n later (still_frame 0 0, [])) in *.
  assert (Fg : Forall (fine o) g) by (rewrite Forall_forall in Gfine; apply Gfine, nth_In; exact L).
  assert (Fo : frame_ok m (fst fz)). { rewrite Forall_forall in Hlater. apply Hlater, nth_In. rewrite (Forall2_len _ _ _ Hgroups). exact L. }
  rewrite (skipn_cons n groups []) in A by exact L. cbn [concat] in A. rewrite <- app_assoc, map_app, concat_app, <- app_assoc in A. fold g in A. rewrite ER in A.
  assert (SO : strict (opts s) = strict o) by (destruct Co as ([->| ->] & _); reflexivity).
  assert (FO : forall k, fine o k -> fine (opts s) k) by (intros k Hk; destruct Co as ([->| ->] & _); exact Hk).
  destruct (group_ok huff m (fst fz) (snd fz) g s nk R (info_of m) Om Fo) with (ac := ac) (f0 := f0) (l := l) (fuel := fuel) as (s1 & E & L1 & A1).
  { rewrite SO. exact G. } { apply Co. } { eapply Forall_impl; [|exact Fg]. exact FO. } { now apply FO. } { exact St. } { exact A. }
  exists (ended nk s1). rewrite E. destruct L1 as (c & md & ->). rewrite En. split; [destruct fz; reflexivity|].
  destruct (Nat.ltb_spec (S n) (length groups)) as [Q|Q].
  - repeat apply conj; try apply Co; try reflexivity; [replace (S n =? length groups)%nat with false by (symmetry; apply Nat.eqb_neq; lia); exact Ie|]. rewrite ER. exact A1.
  - repeat apply conj; try apply Co; try reflexivity; [replace (S n =? length groups)%nat with true by (symmetry; apply Nat.eqb_eq; lia); reflexivity|]. rewrite ER. exact A1.
Qed.

Lemma frames_hdr s ac f0 l : core s -> frames (mkApng s ac f0 l) = (f0, fdat s) :: l.
Proof. intros Co. unfold frames. cbn [base a_first a_later]. destruct Co as (_ & -> & _). reflexivity. Qed.
Lemma headers_step n a : inv n a -> exists a', adecode_headers huff a = Ok a' /\ inv (Nat.min (length all) (S n)) a' /\
  current (base a') = current (base a) /\ opts (base a') = opts (base a) /\ from_into (base a') = from_into (base a).
Proof.
  intros I. destruct I as [Co Hh Ie Ac Le Cu Fr Ra Ah]. unfold adecode_headers. rewrite Hh, Ie. cbn [andb]. destruct (Nat.eqb_spec n (length all)) as [En|Nn].
  - exists a. split; [reflexivity|]. rewrite Nat.min_l by lia. rewrite <- En. split; [|auto]. constructor; auto. now rewrite Ie, En, Nat.eqb_refl.
  - pose proof all_length as AL. assert (NL : (n < length all)%nat) by lia. specialize (Ah NL).
    assert (Hd : hdr (base a) = Some (info_of m)) by apply Co. rewrite Hd. cbn [bind].
    destruct a as [s ac f0 l]. cbn [base a_actl] in *.
    destruct (more_group (n - 1) s ac f0 l (length (cdata (strm s))) ltac:(lia) Co Ie Ah) as (s' & E & Co' & Ie' & Fd & Cu' & Op & Hd' & St & Fi & A'). rewrite E. cbn [bind base].
    eexists. split; [reflexivity|]. rewrite Nat.min_r by lia. split; [|cbn [on_base base set_seen current opts from_into]; auto].
    assert (LL : length l = (n - 1)%nat) by (rewrite frames_hdr in Le by exact Co; cbn [length] in Le; lia).
    assert (FN : firstn (S n) all = firstn n all ++ [nth (n - 1) later (still_frame 0 0, [])]).
    { rewrite (firstn_S_nth n all (still_frame 0 0, [])) by lia. do 2 f_equal. unfold all_frames. destruct n; [lia|]. cbn [nth]. now rewrite Nat.sub_succ, Nat.sub_0_r. }
    assert (FR : frames (on_base (set_seen s') (mkApng s' ac f0 (l ++ [nth (n - 1) later (still_frame 0 0, [])]))) = frames (mkApng s ac f0 l) ++ [nth (n - 1) later (still_frame 0 0, [])]).
    { change (on_base (set_seen s') (mkApng s' ac f0 (l ++ [nth (n - 1) later (still_frame 0 0, [])]))) with (mkApng (set_seen s') ac f0 (l ++ [nth (n - 1) later (still_frame 0 0, [])])).
      rewrite !frames_hdr; [|exact Co|exact Co']. cbn [set_seen fdat]. rewrite Fd. reflexivity. }
    constructor; cbn [on_base base set_seen p_headers p_iend a_actl current] in *.
    + exact Co'.
    + reflexivity.
    + rewrite Ie'. replace (S (n - 1)) with n by lia. rewrite AL. reflexivity.
    + exact Ac.
    + rewrite FR, app_length, Le. cbn [length]. lia.
    + lia.
    + rewrite FR, FN, Cu', !skipn_app, Fr. do 2 f_equal. rewrite Le, firstn_length. lia.
    + lia.
    + intros _. replace (S n - 1)%nat with (S (n - 1)) by lia. exact A'.
Qed.

(** ** Up to the first frame *)
Lemma outer_ihdr k s s1 i ac f l fuel : run [k] s s1 -> hdr s = None -> hdr s1 = Some i -> c_name k = IHDR ->
  outer (S fuel) (mkApng s ac f l) = outer fuel (mkApng s1 ac (still_frame (i_w i) (i_h i)) l).
Proof.
  intros Rn Hn Hs Nk. inversion Rn as [|k' ks s' R s1' s2 [Fk Fc] A N1 N2 P R2]; subst. inversion R2; subst.
  cbn [achunk_loop base]. rewrite (header_ok s k R A Fk Fc). cbn [bind]. rewrite Nk in *. change (zlist_eqb IHDR n_fcTL) with false. change (zlist_eqb IHDR n_IEND) with false. cbv iota.
  unfold parse_other. change (zlist_eqb IHDR n_acTL) with false. cbn [on_base base]. rewrite P. cbn [bind].
  change (hdr (advance s 8)) with (hdr s). rewrite Hn, Hs. reflexivity.
Qed.
Lemma opt_quiet name d ks : opt_chunk ks name d -> name <> acTL -> Forall (fun k => c_name k <> acTL) ks.
Proof. destruct d; cbn [opt_chunk]; [|intros -> _; constructor]. intros (k & -> & [N _]) Nn. constructor; [congruence|constructor]. Qed.

Lemma pre_ok hd a1 pl a2 tr a3 R0 s0 fuel :
  is_chunk hd IHDR (ihdr_data m) -> opt_chunk pl PLTE (option_map plte_data (m_pal m)) -> opt_chunk tr tRNS (m_trns m) ->
  Forall (fun k => note k \/ is_actl k) (a1 ++ a2 ++ a3) -> Exists is_actl (a1 ++ a2 ++ a3) ->
  Forall (fine o) (hd :: a1 ++ pl ++ a2 ++ tr ++ a3) ->
  (exists D, s0 = advance (new_png o D) 8) -> ahead s0 (concat (map chunk_bytes (hd :: a1 ++ pl ++ a2 ++ tr ++ a3)) ++ R0) ->
  exists s ac, outer (length (hd :: a1 ++ pl ++ a2 ++ tr ++ a3) + fuel) (mkApng s0 None (still_frame 0 0) []) = outer fuel (mkApng s ac (default_frame m) []) /\ ac <> None /\
    core s /\ opts s = o /\ fdat s = [] /\ current s = 0%nat /\ p_iend s = false /\ from_into s = true /\ ahead s R0.
Proof.
  intros Hhd Hpl Htr Fn Ex Ff (D & ES0) A0. assert (O0 : opts s0 = o) by (subst s0; reflexivity).
  apply Forall_app in Fn. destruct Fn as [F1 Fn]. apply Forall_app in Fn. destruct Fn as [F2 F3].
  inversion Ff as [|? ? Fhd Ff1]; subst x l. apply Forall_app in Ff1. destruct Ff1 as [Fa1 Ff1]. apply Forall_app in Ff1. destruct Ff1 as [Fpl Ff1]. apply Forall_app in Ff1. destruct Ff1 as [Fa2 Ff1]. apply Forall_app in Ff1. destruct Ff1 as [Ftr Fa3].
  change (hd :: a1 ++ pl ++ a2 ++ tr ++ a3) with ([hd] ++ a1 ++ pl ++ a2 ++ tr ++ a3) in A0. rewrite !map_app, !concat_app, <- !app_assoc in A0.
  cbn [length]. rewrite !app_length. replace (S (length a1 + (length pl + (length a2 + (length tr + length a3)))) + fuel)%nat with (S (length a1 + (length pl + (length a2 + (length tr + (length a3 + fuel)))))) by lia.
  destruct (hdr_phase huff no_anim m o Om Lw Lh hd s0 Hhd ltac:(subst s0; reflexivity) O0 _ ltac:(constructor; [rewrite O0; exact Fhd|constructor]) A0) as [Rn1 A1]. clear A0.
  rewrite (outer_ihdr hd s0 _ (info_of m) None _ [] _ Rn1 ltac:(subst s0; reflexivity) eq_refl (proj1 Hhd)). cbn [info_of i_w i_h]. change (still_frame (m_w m) (m_h m)) with (default_frame m).
  set (s1 := advance (after_hdr m s0) (size [hd])) in *. assert (H1 : hdr s1 = Some (info_of m)) by reflexivity. assert (O1 : opts s1 = o) by exact O0.
  destruct (mixed_run huff a1 s1 (concat (map chunk_bytes pl) ++ concat (map chunk_bytes a2) ++ concat (map chunk_bytes tr) ++ concat (map chunk_bytes a3) ++ R0) (info_of m) H1) with (ac := @None (Z * Z)) (f := default_frame m) (l := @nil (frame * list Z)) (fuel := (length pl + (length a2 + (length tr + (length a3 + fuel))))%nat)
    as (s2 & ac2 & E2 & L2 & A2 & C2); [rewrite O1; exact Fa1|rewrite O1; exact F1|exact A1|]. rewrite E2. clear E2 A1 Rn1.
  destruct L2 as (c2 & md2 & ES2). assert (H2 : hdr s2 = Some (info_of m)) by (subst s2; reflexivity). assert (O2 : opts s2 = o) by (subst s2; exact O1).
  destruct (plte_phase huff no_anim m o Om Lw Lh pl s2 (info_of m) Hpl H2 ltac:(subst s2 s1 s0; reflexivity) _ ltac:(rewrite O2; exact Fpl) A2) as [Rn3 A3]. clear A2.
  change (mkApng s2 ac2 (default_frame m) []) with (on_base s2 (mkApng s2 ac2 (default_frame m) [])). rewrite (outer_run huff pl _ _ Rn3 ltac:(congruence) (opt_quiet _ _ _ Hpl ltac:(discriminate))). clear Rn3.
  set (s3 := advance (after_plte m s2) (size pl)) in *. assert (H3 : hdr s3 = Some (info_of m)) by (unfold s3, after_plte; destruct (m_pal m); exact H2). assert (O3 : opts s3 = o) by (unfold s3, after_plte; destruct (m_pal m); exact O2).
  change (on_base s3 (mkApng s2 ac2 (default_frame m) [])) with (mkApng s3 ac2 (default_frame m) []).
  destruct (mixed_run huff a2 s3 (concat (map chunk_bytes tr) ++ concat (map chunk_bytes a3) ++ R0) (info_of m) H3) with (ac := ac2) (f := default_frame m) (l := @nil (frame * list Z)) (fuel := (length tr + (length a3 + fuel))%nat)
    as (s4 & ac4 & E4 & L4 & A4 & C4); [rewrite O3; exact Fa2|rewrite O3; exact F2|exact A3|]. rewrite E4. clear E4 A3.
  destruct L4 as (c4 & md4 & ES4). assert (H4 : hdr s4 = Some (info_of m)) by (subst s4; exact H3). assert (O4 : opts s4 = o) by (subst s4; exact O3).
  assert (K4 : p_key s4 = [0; 0; 0; 0]) by (subst s4; unfold s3, after_plte; subst s2; unfold s1; subst s0; destruct (m_pal m); reflexivity).
  assert (P4 : pal s4 = match m_pal m with Some p => opaque_pal p | None => [] end) by (subst s4; unfold s3, after_plte; subst s2; unfold s1; subst s0; destruct (m_pal m); reflexivity).
  destruct (trns_phase huff no_anim m o Om Lw Lh tr s4 Htr H4 ltac:(now rewrite K4) P4 _ ltac:(rewrite O4; exact Ftr) A4) as [Rn5 A5]. clear A4.
  change (mkApng s4 ac4 (default_frame m) []) with (on_base s4 (mkApng s4 ac4 (default_frame m) [])). rewrite (outer_run huff tr _ _ Rn5 ltac:(congruence) (opt_quiet _ _ _ Htr ltac:(discriminate))). clear Rn5.
  set (s5 := advance (after_trns m s4) (size tr)) in *. assert (H5 : hdr s5 = Some (info_of m)) by (unfold s5, after_trns; destruct (m_trns m); exact H4). assert (O5 : opts s5 = o) by (unfold s5, after_trns; destruct (m_trns m); exact O4).
  change (on_base s5 (mkApng s4 ac4 (default_frame m) [])) with (mkApng s5 ac4 (default_frame m) []).
  destruct (mixed_run huff a3 s5 (R0) (info_of m) H5) with (ac := ac4) (f := default_frame m) (l := @nil (frame * list Z)) (fuel := fuel)
    as (s6 & ac6 & E6 & L6 & A6 & C6); [rewrite O5; exact Fa3|rewrite O5; exact F3|exact A5|]. rewrite E6. clear E6 A5.
  exists s6, ac6. split; [reflexivity|]. split. { apply Exists_app in Ex. rewrite Exists_app in Ex. destruct Ex as [Ex|[Ex|Ex]]; apply C6; [left; apply C4; left; apply C2; now right|left; apply C4; now right|now right]. }
  destruct L6 as (c6 & md6 & ES6). rewrite ES6 in *. split; [|split; [exact O5|]].
  - split; [left; exact O5|]. split; [exact H5|]. fields. unfold s5, after_trns, final_pal, final_key.
    destruct (m_trns m) as [t|]; fields; rewrite ?P4, ?K4.
    + split; [destruct (m_pal m); reflexivity|]. split; [subst s4; unfold s3, after_plte; subst s2; unfold s1; subst s0; destruct (m_pal m); reflexivity|]. split; reflexivity.
    + split; [destruct (m_pal m); reflexivity|]. split; [subst s4; unfold s3, after_plte; subst s2; unfold s1; subst s0; destruct (m_pal m); reflexivity|]. split; [|reflexivity].
      subst s4; unfold s3, after_plte; subst s2; unfold s1; subst s0; destruct (m_pal m); reflexivity.
  - fields. unfold s5, after_trns. assert (Q : fdat s4 = [] /\ current s4 = 0%nat /\ p_iend s4 = false /\ from_into s4 = true) by (subst s4; unfold s3, after_plte; subst s2; unfold s1; subst s0; destruct (m_pal m); repeat split; reflexivity).
    destruct Q as (Q1 & Q2 & Q3 & Q4). destruct (m_trns m); fields; auto.
Qed.

Lemma idat_quiet ks : Forall (fun k => c_name k = IDAT) ks -> Forall quiet ks /\ (ks <> [] -> has_idat ks = true).
Proof.
  intros F. split; [eapply Forall_impl; [|exact F]; intros k E; unfold quiet; rewrite E; split; discriminate|]. intros N. destruct F as [|k ks E F]; [contradiction|]. unfold has_idat. cbn [existsb]. rewrite E. reflexivity.
Qed.
Lemma note_out ks : Forall note ks -> Forall (fun k => c_name k <> acTL) ks.
Proof. intros F. eapply Forall_impl; [|exact F]. intros k H. apply (note_quiet huff _ _ H). Qed.
Lemma note_in ks : Forall note ks -> Forall (note_ok huff (strict o)) ks.
Proof. intros F. eapply Forall_impl; [|exact F]. intros k [H _]. exact H. Qed.

(** The image of the IDAT chunks as the first frame *)
Lemma first_ok f k a4 ids a5 s ac fuel : first = Some f -> is_chunk k fcTL (fctl_data f) -> Forall note (a4 ++ a5) -> Forall (fun k => c_name k = IDAT) ids -> ids <> [] ->
  concat (map c_data ids) = idat -> Forall (fine o) (k :: a4 ++ ids ++ a5) -> core s -> opts s = o -> fdat s = [] -> p_iend s = false ->
  ahead s (concat (map chunk_bytes (k :: a4 ++ ids ++ a5)) ++ rest 0) ->
  exists s', outer (S fuel) (mkApng s ac (default_frame m) []) = Ok (mkApng s' ac f []) /\ core s' /\ opts s' = o /\ fdat s' = idat /\ current s' = current s /\ from_into s' = from_into s /\
    p_iend s' = (length groups =? 0)%nat /\ ahead s' (rest 0).
Proof.
  intros Ef [Nk Dk] Fn Fi Ni Hi Ff Co Oo Fd Ie A. rewrite Ef in Hfirst. apply Forall_app in Fn. destruct Fn as [N4 N5].
  inversion Ff as [|? ? [Ck Sk] Ff1]; subst x l. apply Forall_app in Ff1. destruct Ff1 as [F4 Ff1]. apply Forall_app in Ff1. destruct Ff1 as [Fid F5].
  destruct (next_chunk 0) as (nk & R & ER & St & Fnk & En). rewrite ER in *.
  cbn [map concat] in A. rewrite <- app_assoc in A. rewrite !map_app, !concat_app, <- !app_assoc in A.
  cbn [achunk_loop base]. rewrite <- Oo in Sk. rewrite (header_ok s k _ A Ck Sk). cbn [bind]. rewrite Nk, Dk, fctl_data_length. change (zlist_eqb fcTL n_fcTL) with true. cbv iota.
  change (on_base (advance s 8) (mkApng s ac (default_frame m) [])) with (mkApng (advance s 8) ac (default_frame m) []). unfold parse_fctl. cbn [base].
  pose proof (chunk_tail s k _ Ck A) as A0. rewrite Dk in A0. rewrite (fctl_ok m f _ _ _ Om Hfirst A0). cbn [bind]. rewrite advance_advance. change (8 + 30)%nat with 38%nat.
  pose proof (ahead_advance_n s (chunk_bytes k) _ 38 A ltac:(rewrite chunk_len, Dk, fctl_data_length by exact Ck; reflexivity)) as A1. clear A A0.
  change (on_base (advance s 38) (mkApng (advance s 8) ac (default_frame m) [])) with (mkApng (advance s 38) ac (default_frame m) []).
  assert (LEN : (length a4 + (length ids + (length a5 + 1)) <= S (length (cdata (strm (advance s 38)))))%nat).
  { pose proof (ahead_length _ _ A1) as H. rewrite !app_length in H. assert (CC : forall l, Forall (fine o) l -> Forall chunk_ok l) by (intros l Fl; eapply Forall_impl; [|exact Fl]; intros q [Hq _]; exact Hq).
    pose proof (chunks_ge a4 (CC _ F4)) as S1. pose proof (chunks_ge ids (CC _ Fid)) as S2. pose proof (chunks_ge a5 (CC _ F5)) as S3. unfold size in S1, S2, S3. clear - H S1 S2 S3. lia. }
  set (N := S (length (cdata (strm (advance s 38))))) in *. clearbody N. set (t := advance s 38) in *.
  assert (EN : N = (length a4 + (length ids + (length a5 + S (N - length a4 - length ids - length a5 - 1))))%nat) by (clear - LEN; lia). rewrite EN. clear EN LEN. set (X := (N - length a4 - length ids - length a5 - 1)%nat). clearbody X.
  assert (Ht : hdr t = Some (info_of m)) by apply Co. assert (Ot : opts t = o) by exact Oo.
  destruct (notes_inner huff a4 t _ (info_of m) Ht ltac:(rewrite Ot; exact F4) ltac:(rewrite Ot; exact N4) A1 ac (default_frame m) [] f true (length ids + (length a5 + S X))) as (t1 & E1 & L1 & A2). rewrite E1. clear E1 A1.
  assert (H1 : hdr t1 = Some (info_of m)) by (destruct L1 as (? & ? & ->); exact Ht). assert (O1 : opts t1 = o) by (destruct L1 as (? & ? & ->); exact Ot).
  destruct (data_phase huff no_anim ids t1 (info_of m) H1 Fi _ ltac:(rewrite O1; exact Fid) A2) as [Rn A3]. clear A2.
  destruct (idat_quiet ids Fi) as [Qi Hi2]. rewrite (inner_run huff ids _ _ Rn ltac:(congruence) Qi). rewrite (Hi2 Ni). clear Rn.
  set (t2 := advance (with_data (concat (map c_data ids)) t1) (size ids)) in *. assert (H2 : hdr t2 = Some (info_of m)) by exact H1. assert (O2 : opts t2 = o) by exact O1.
  match goal with |- context [fctl_loop huff _ f ?b _] => destruct (notes_inner huff a5 t2 _ (info_of m) H2 ltac:(rewrite O2; exact F5) ltac:(rewrite O2; exact N5) A3 ac f [] f b (S X)) as (t3 & E3 & L3 & A4) end. rewrite E3. clear E3 A3.
  assert (O3 : opts t3 = o) by (destruct L3 as (? & ? & ->); exact O2).
  rewrite (inner_stop huff t3 nk R ltac:(rewrite O3; exact Fnk) A4 St). cbn [bind base].
  assert (C3 : core t3 /\ fdat t3 = idat /\ current t3 = current s /\ from_into t3 = from_into s /\ p_iend t3 = false).
  { destruct L3 as (? & ? & ->). destruct L1 as (? & ? & ->). unfold t2, t. fields. split; [|split; [rewrite Fd; exact Hi|auto]]. exact Co. }
  destruct C3 as (C3 & D3 & U3 & V3 & W3).
  assert (H3 : hdr (ended nk t3) = Some (info_of m)) by (rewrite En; destruct (_ <? _)%nat; apply C3). rewrite H3.
  exists (ended nk t3). split; [reflexivity|]. rewrite En. destruct (Nat.ltb_spec 0 (length groups)) as [Q|Q].
  - replace (length groups =? 0)%nat with false by (symmetry; apply Nat.eqb_neq; lia). auto 10.
  - replace (length groups =? 0)%nat with true by (symmetry; apply Nat.eqb_eq; lia). repeat apply conj; try apply C3; auto.
Qed.
(** The image of the IDAT chunks apart from the animation *)
Lemma default_ok a4 ids a5 s ac fuel : Forall note (a4 ++ a5) -> Forall (fun k => c_name k = IDAT) ids ->
  concat (map c_data ids) = idat -> Forall (fine o) (a4 ++ ids ++ a5) -> core s -> opts s = o -> fdat s = [] -> p_iend s = false ->
  ahead s (concat (map chunk_bytes (a4 ++ ids ++ a5)) ++ rest 0) ->
  exists s', outer (length (a4 ++ ids ++ a5) + fuel) (mkApng s ac (default_frame m) []) = outer fuel (mkApng s' ac (default_frame m) []) /\
    core s' /\ opts s' = o /\ fdat s' = idat /\ current s' = current s /\ from_into s' = from_into s /\ p_iend s' = false /\ ahead s' (rest 0).
Proof.
  intros Fn Fi Hi Ff Co Oo Fd Ie A. set (RR := rest 0) in *. apply Forall_app in Fn. destruct Fn as [N4 N5].
  apply Forall_app in Ff. destruct Ff as [F4 Ff1]. apply Forall_app in Ff1. destruct Ff1 as [Fid F5].
  rewrite !map_app, !concat_app, <- !app_assoc in A. rewrite !app_length. replace (length a4 + (length ids + length a5) + fuel)%nat with (length a4 + (length ids + (length a5 + fuel)))%nat by lia.
  assert (Hs : hdr s = Some (info_of m)) by apply Co.
  destruct (notes_phase huff no_anim a4 s (info_of m) Hs ltac:(rewrite Oo; exact (note_in _ N4)) _ ltac:(rewrite Oo; exact F4) A) as [R1 A1]. clear A.
  change (mkApng s ac (default_frame m) []) with (on_base s (mkApng s ac (default_frame m) [])). rewrite (outer_run huff a4 _ _ R1 ltac:(congruence) (note_out _ N4)). clear R1.
  set (t1 := advance (with_meta (notes huff a4 (mdata s)) s) (size a4)) in *. assert (H1 : hdr t1 = Some (info_of m)) by exact Hs. assert (O1 : opts t1 = o) by exact Oo.
  destruct (data_phase huff no_anim ids t1 (info_of m) H1 Fi _ ltac:(rewrite O1; exact Fid) A1) as [R2 A2]. clear A1.
  rewrite (outer_run huff ids _ _ R2 ltac:(congruence)) by (eapply Forall_impl; [|exact Fi]; intros k E; rewrite E; discriminate). clear R2.
  set (t2 := advance (with_data (concat (map c_data ids)) t1) (size ids)) in *. assert (H2 : hdr t2 = Some (info_of m)) by exact Hs. assert (O2 : opts t2 = o) by exact Oo.
  destruct (notes_phase huff no_anim a5 t2 (info_of m) H2 ltac:(rewrite O2; exact (note_in _ N5)) _ ltac:(rewrite O2; exact F5) A2) as [R3 A3]. clear A2.
  rewrite (outer_run huff a5 _ _ R3 ltac:(congruence) (note_out _ N5)). clear R3.
  eexists. split; [reflexivity|]. fields. unfold t2, t1. fields. rewrite Fd. split; [exact Co|]. split; [exact Oo|]. split; [exact Hi|]. split; [reflexivity|]. split; [reflexivity|]. split; [exact Ie|]. exact A3.
Qed.

Lemma start_ok hd a1 pl a2 tr a3 fc a4 ids a5 :
  is_chunk hd IHDR (ihdr_data m) -> opt_chunk pl PLTE (option_map plte_data (m_pal m)) -> opt_chunk tr tRNS (m_trns m) ->
  Forall (fun k => note k \/ is_actl k) (a1 ++ a2 ++ a3) -> Exists is_actl (a1 ++ a2 ++ a3) -> Forall note (a4 ++ a5) ->
  opt_chunk fc fcTL (option_map fctl_data first) -> Forall (fun k => c_name k = IDAT) ids -> ids <> [] -> concat (map c_data ids) = idat ->
  first <> None \/ later <> [] ->
  Forall (fine o) ((hd :: a1 ++ pl ++ a2 ++ tr ++ a3) ++ fc ++ a4 ++ ids ++ a5) ->
  exists a n, adecode_headers huff (new_apng o (file_bytes ((hd :: a1 ++ pl ++ a2 ++ tr ++ a3) ++ fc ++ a4 ++ ids ++ a5 ++ concat groups ++ [en]) tail)) = Ok a /\
    inv n a /\ current (base a) = 0%nat /\ opts (base a) = o /\ from_into (base a) = true.
Proof.
  intros Hhd Hpl Htr Fn Ex Fn2 Hfc Fi Ni Hi Hany Ff.
  set (pre := hd :: a1 ++ pl ++ a2 ++ tr ++ a3) in *. set (mid := fc ++ a4 ++ ids ++ a5) in *.
  set (cs := pre ++ fc ++ a4 ++ ids ++ a5 ++ concat groups ++ [en]).
  apply Forall_app in Ff. destruct Ff as [Fpre Fmid].
  assert (EB : concat (map chunk_bytes cs) ++ tail = concat (map chunk_bytes pre) ++ concat (map chunk_bytes mid) ++ rest 0) by (unfold cs, mid; rewrite !map_app, !concat_app, <- !app_assoc; reflexivity).
  unfold adecode_headers. cbn [new_apng new_png base p_headers p_iend andb hdr strm].
  set (D := file_bytes cs tail). rewrite get_err_spec. unfold remaining at 1 2. cbn [cpos cdata skipn]. unfold D at 1 2. unfold file_bytes at 1 2. rewrite app_length.
  change (length magic) with 8%nat. replace (8 <=? 8 + _)%nat with true by lia. rewrite firstn_app_exact by reflexivity. cbn [bind].
  change (negb (of_bytes BE magic =? be_val signature)) with false. cbv iota.
  set (s0 := advance (new_png o D) 8).
  assert (A0 : ahead s0 (concat (map chunk_bytes pre) ++ concat (map chunk_bytes mid) ++ rest 0)).
  { rewrite <- EB. apply (ahead_advance_n _ magic); [|reflexivity]. reflexivity. }
  assert (Chd : chunk_ok hd) by (inversion Fpre as [|? ? [Q _] _]; exact Q).
  match goal with |- context [peek_at ?c 4 4] => change c with (strm s0) end.
  assert (A0' : remaining (strm s0) = be_bytes 4 (Z.of_nat (length (c_data hd))) ++ c_name hd ++ (c_data hd ++ c_sum hd ++ concat (map chunk_bytes (a1 ++ pl ++ a2 ++ tr ++ a3)) ++ concat (map chunk_bytes mid) ++ rest 0)).
  { unfold ahead in A0. rewrite A0. unfold pre. cbn [map concat]. unfold chunk_bytes at 1. rewrite <- !app_assoc. reflexivity. }
  rewrite peek_at_spec. change (peek_cap <? Z.of_nat 4) with false. rewrite A0'.
  rewrite !app_length, be_bytes_length, (proj1 Chd). match goal with |- context [((4 <=? ?a)%nat && ?b)] => replace ((4 <=? a)%nat && b) with true by (symmetry; apply andb_true_iff; split; lia) end.
  rewrite skipn_app_exact by apply be_bytes_length. rewrite firstn_app_exact by apply Chd. cbn [bind]. pose proof Hhd as [Nhd Dhd]. rewrite Nhd.
  change (negb (zlist_eqb IHDR n_IHDR)) with false. cbv iota. cbn [bind].
  match goal with |- context [on_base ?b ?c] => change (on_base b c) with (mkApng s0 None (still_frame 0 0) []) end. cbn [base].
  change (length (cdata (strm s0))) with (length D).
  assert (LD : (length pre + length mid + 12 <= length D)%nat).
  { unfold D, file_bytes. rewrite EB, !app_length. assert (CC : forall l, Forall (fine o) l -> Forall chunk_ok l) by (intros l Fl; eapply Forall_impl; [|exact Fl]; intros q [Hq _]; exact Hq).
    pose proof (chunks_ge pre (CC _ Fpre)) as S1. pose proof (chunks_ge mid (CC _ Fmid)) as S2. unfold size in S1, S2.
    assert (S3 : (12 <= length (concat (map chunk_bytes (concat (skipn 0 groups) ++ [en]))))%nat).
    { rewrite map_app, concat_app, app_length. cbn [map concat]. rewrite app_nil_r, chunk_len by apply Efine. lia. }
    clear - S1 S2 S3. lia. }
  clearbody D. pose proof all_length as AL.
  replace (S (length D)) with (length pre + (S (length D) - length pre))%nat by (clear - LD; lia). set (N := (S (length D) - length pre)%nat). assert (LN : (length mid + 13 <= N)%nat) by (unfold N; clear - LD; lia). clearbody N. clear LD.
  destruct (pre_ok hd a1 pl a2 tr a3 _ s0 N Hhd Hpl Htr Fn Ex Fpre ltac:(exists D; reflexivity) A0) as (s & ac & E & Nac & Co & Oo & Fd & Cu & Ie & Fr & A1). fold pre in E. rewrite E. clear E A0 A0'.
  unfold mid in A1, Fmid, LN. assert (FC : (exists f, first = Some f) \/ first = None) by (clear; destruct first; eauto).
  destruct FC as [[f Ef]|Ef]; rewrite Ef in Hfc, Hany; cbn [option_map opt_chunk] in Hfc.
  - destruct Hfc as (k & -> & Hk). destruct N as [|N]; [clear - LN; lia|].
    change ([k] ++ a4 ++ ids ++ a5) with (k :: a4 ++ ids ++ a5) in A1, Fmid.
    destruct (first_ok f k a4 ids a5 s ac N) as (s' & E & Co' & Oo' & Fd' & Cu' & Fr' & Ie' & A2); auto. rewrite E. cbn [bind base].
    exists (mkApng (set_seen s') ac f []), 1%nat. split; [reflexivity|]. cbn [on_base base set_seen current opts from_into a_actl a_first a_later].
    split; [|rewrite Cu', Fr'; auto].
    assert (FR : frames (mkApng (set_seen s') ac f []) = [(f, idat)]) by (rewrite frames_hdr by exact Co'; cbn [set_seen fdat]; now rewrite Fd').
    constructor; cbn [on_base base set_seen p_headers p_iend a_actl current a_first a_later].
    + exact Co'.
    + reflexivity.
    + rewrite Ie'. unfold all_frames. cbn [length]. rewrite (Forall2_len _ _ _ Hgroups). destruct (length groups); reflexivity.
    + exact Nac.
    + rewrite FR. reflexivity.
    + lia.
    + rewrite FR, Cu', Cu. unfold all_frames. rewrite Ef. reflexivity.
    + unfold all_frames. cbn [length]. lia.
    + intros _. exact A2.
  - subst fc. cbn [app] in A1, Fmid, LN. destruct Hany as [Hany|Hany]; [contradiction|].
    assert (Lg : (0 < length groups)%nat). { rewrite <- (Forall2_len _ _ _ Hgroups). clear - Hany. destruct later; [contradiction|cbn; lia]. }
    replace N with (length (a4 ++ ids ++ a5) + S (N - length (a4 ++ ids ++ a5) - 1))%nat by (clear - LN; lia).
    match goal with |- context [achunk_loop huff (_ + ?x)] => destruct (default_ok a4 ids a5 s ac x) as (s' & E & Co' & Oo' & Fd' & Cu' & Fr' & Ie' & A2); auto end. rewrite E. clear E.
    match goal with |- context [achunk_loop huff (S ?x)] => destruct (more_group 0 s' ac (default_frame m) [] x Lg Co' Ie' A2) as (s2 & E & Co2 & Ie2 & Fd2 & Cu2 & Oo2 & Hd2 & _ & Fr2 & A3) end. rewrite E. cbn [bind base app].
    assert (Hl : (0 < length later)%nat) by (rewrite (Forall2_len _ _ _ Hgroups); exact Lg).
    exists (mkApng (set_seen s2) ac (default_frame m) [nth 0 later (still_frame 0 0, [])]), 2%nat. split; [reflexivity|]. cbn [on_base base set_seen current opts from_into a_actl a_first a_later].
    split; [|rewrite Cu2, Cu', Fr2, Fr', Oo2, Oo'; auto].
    assert (FR : frames (mkApng (set_seen s2) ac (default_frame m) [nth 0 later (still_frame 0 0, [])]) = [(default_frame m, idat); nth 0 later (still_frame 0 0, [])]) by (rewrite frames_hdr by exact Co2; cbn [set_seen fdat]; now rewrite Fd2, Fd').
    constructor; cbn [on_base base set_seen p_headers p_iend a_actl current a_first a_later].
    + exact Co2.
    + reflexivity.
    + rewrite Ie2. unfold all_frames. cbn [length]. rewrite (Forall2_len _ _ _ Hgroups). reflexivity.
    + exact Nac.
    + rewrite FR. reflexivity.
    + lia.
    + rewrite FR, Cu2, Cu', Cu. cbn [skipn]. unfold all_frames. rewrite Ef. cbn [firstn]. clear - Hl. destruct later; [cbn in Hl; lia|reflexivity].
    + unfold all_frames. cbn [length]. lia.
    + intros _. exact A3.
Qed.
End Frames.
