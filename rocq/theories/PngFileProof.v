From Verif Require Import Base BaseProof Loops Slices StreamModel StreamSpec StreamProof CrcModel CrcSpec PngFilterModel PngFilterSpec
  InflateModel PngRowModel PngModel PngSpec PngFileSpec PngRowProof PngChunkProof PngNoteProof PngLoopProof PngInterProof.

(** * Whole files *)
Lemma opaque_pal_length p : (length p <= 256)%nat -> length (opaque_pal p) = 256%nat.
Proof. intros H. unfold opaque_pal. rewrite app_length, map_length, repeat_length. lia. Qed.
Section File.
Variables (huff : Z -> dstate -> res dstate) (anim : nat -> list Z -> png -> res png).
Notation loop := (chunk_loop huff anim).
Definition fine (o : popts) (k : chunk) : Prop := chunk_ok k /\ (o_crc o = true -> sum_ok k /\ Z.of_nat (length (c_data k)) + 4 <= peek_cap).
Definition size (ks : list chunk) : nat := length (concat (map chunk_bytes ks)).
(** Reading chunks one after the other, none of which ends the loop *)
Inductive run : list chunk -> png -> png -> Prop :=
| run_nil s : run [] s s
| run_cons k ks s R s1 s2 : fine (opts s) k -> ahead s (chunk_bytes k ++ R) -> c_name k <> IEND -> c_name k <> fcTL ->
    parse_header huff anim (length (c_data k)) (c_name k) (advance s 8) = Ok s1 -> run ks s1 s2 -> run (k :: ks) s s2.
Lemma run_loop ks s s' : run ks s s' -> forall fuel, loop (length ks + fuel) s = loop fuel s'.
Proof.
  induction 1 as [|k ks s R s1 s2 [Fk Fc] A N1 N2 P _ IH]; intros fuel; [reflexivity|].
  cbn [length Nat.add chunk_loop]. rewrite (header_ok s k R A Fk Fc). cbn [bind]. rewrite P. cbn [bind]. rewrite !zlist_neq by assumption. apply IH.
Qed.
Lemma run_app a b s1 s2 s3 : run a s1 s2 -> run b s2 s3 -> run (a ++ b) s1 s3.
Proof. induction 1; intros; [assumption|]. econstructor; eauto. Qed.
Definition phase (ks : list chunk) (s s' : png) : Prop := forall R,
  Forall (fine (opts s)) ks -> ahead s (concat (map chunk_bytes ks) ++ R) -> run ks s s' /\ ahead s' R.
Lemma phase_nil s : phase [] s s.
Proof. intros R _ A. split; [constructor|exact A]. Qed.
Lemma phase_app a b s1 s2 s3 : opts s2 = opts s1 -> phase a s1 s2 -> phase b s2 s3 -> phase (a ++ b) s1 s3.
Proof.
  intros O P Q R F A. apply Forall_app in F. destruct F as [Fa Fb]. rewrite map_app, concat_app, <- app_assoc in A.
  destruct (P _ Fa A) as [E1 A1]. rewrite <- O in Fb. destruct (Q _ Fb A1) as [E2 A2]. split; [eapply run_app; eassumption|exact A2].
Qed.
Lemma chunk_len k : chunk_ok k -> length (chunk_bytes k) = (12 + length (c_data k))%nat.
Proof. intros (Ln & Ls & _). unfold chunk_bytes. rewrite !app_length, be_bytes_length, Ln, Ls. lia. Qed.
Lemma chunk_tail s k R : chunk_ok k -> ahead s (chunk_bytes k ++ R) -> ahead (advance s 8) (c_data k ++ c_sum k ++ R).
Proof.
  intros (Ln & Ls & _) A. unfold chunk_bytes in A. rewrite <- !app_assoc in A. rewrite app_assoc in A.
  apply (ahead_advance_n s _ _ 8) in A; [exact A|]. rewrite app_length, be_bytes_length, Ln. reflexivity.
Qed.
Lemma phase_one k s f : c_name k <> IEND -> c_name k <> fcTL ->
  (forall R, chunk_ok k -> ahead (advance s 8) (c_data k ++ c_sum k ++ R) ->
     parse_header huff anim (length (c_data k)) (c_name k) (advance s 8) = Ok (advance f (12 + length (c_data k)))) ->
  strm f = strm s -> phase [k] s (advance f (size [k])).
Proof.
  intros N1 N2 P St R F A. inversion F as [|? ? [Fk Fc] _]; subst. cbn [map concat] in A. rewrite app_nil_r in A.
  assert (Sz : size [k] = (12 + length (c_data k))%nat) by (unfold size; cbn [map concat]; rewrite app_nil_r; now apply chunk_len).
  rewrite Sz. split.
  - eapply run_cons with (R := R); [split; assumption|exact A|exact N1|exact N2|exact (P R Fk (chunk_tail s k R Fk A))|constructor].
  - apply (ahead_advance_n f (chunk_bytes k)); [|now apply chunk_len]. unfold ahead in *. now rewrite St.
Qed.
Lemma size_app a b : size (a ++ b) = (size a + size b)%nat.
Proof. unfold size. now rewrite map_app, concat_app, app_length. Qed.
Definition notes (ks : list chunk) (m : meta) : meta := fold_left (fun m k => note huff k m) ks m.
Lemma notes_phase ks : forall s i, hdr s = Some i -> Forall (note_ok huff (strict (opts s))) ks ->
  phase ks s (advance (with_meta (notes ks (mdata s)) s) (size ks)).
Proof.
  induction ks as [|k ks IH]; intros s i Hh F.
  - cbn [notes fold_left]. rewrite with_meta_same. replace (advance s (size [])) with s; [apply phase_nil|]. unfold advance, size. cbn [map concat length]. rewrite Nat.add_0_r, at_pos_same. destruct s; reflexivity.
  - inversion F as [|? ? Fk Fks]; subst. change (k :: ks) with ([k] ++ ks). rewrite size_app, <- advance_advance.
    eapply phase_app with (s2 := advance (with_meta (note huff k (mdata s)) s) (size [k])); [reflexivity| |].
    + pose proof Fk as (An & _). apply phase_one.
      * intros E. destruct An as (Lo & _). rewrite E in Lo. cbn in Lo. lia.
      * apply An.
      * intros R Ck A. rewrite (note_step huff anim _ k R i A Ck Fk Hh). f_equal. unfold advance, at_cursor, with_meta, at_pos. fields. cbn [cpos cdata].
        replace (cpos (strm s) + 8 + (length (c_data k) + 4))%nat with (cpos (strm s) + (12 + length (c_data k)))%nat by lia. reflexivity.
      * reflexivity.
    + apply (IH (advance (with_meta (note huff k (mdata s)) s) (size [k])) i Hh Fks).
Qed.
Lemma data_phase ks : forall s i, hdr s = Some i -> Forall (fun k => c_name k = IDAT) ks ->
  phase ks s (advance (with_data (concat (map c_data ks)) s) (size ks)).
Proof.
  induction ks as [|k ks IH]; intros s i Hh F.
  - cbn [map concat]. replace (advance (with_data [] s) (size [])) with s; [apply phase_nil|]. unfold advance, size. cbn [map concat length]. unfold with_data. fields. rewrite Nat.add_0_r, at_pos_same, app_nil_r. destruct s; reflexivity.
  - inversion F as [|? ? Fk Fks]; subst. change (k :: ks) with ([k] ++ ks). rewrite size_app, <- advance_advance.
    eapply phase_app with (s2 := advance (with_data (c_data k) s) (size [k])); [reflexivity| |].
    + apply phase_one; [rewrite Fk; discriminate..| |reflexivity].
      intros R Ck A. unfold parse_header. rewrite Fk. rewrite (idat_ok _ _ _ R A) by apply Ck.
      change (zlist_eqb IDAT n_IHDR) with false. change (zlist_eqb IDAT n_PLTE) with false. change (zlist_eqb IDAT n_IDAT) with true. cbv iota. cbn [bind].
      change (hdr (advance (with_data (c_data k) (advance s 8)) (length (c_data k) + 4))) with (hdr s). rewrite Hh.
      f_equal. unfold advance, at_cursor, with_data, at_pos. fields. cbn [cpos cdata].
      replace (cpos (strm s) + 8 + (length (c_data k) + 4))%nat with (cpos (strm s) + (12 + length (c_data k)))%nat by lia. reflexivity.
    + pose proof (IH (advance (with_data (c_data k) s) (size [k])) i Hh Fks) as Q.
      replace (advance (with_data (concat (map c_data ([k] ++ ks))) s) (size [k])) with (with_data (concat (map c_data ks)) (advance (with_data (c_data k) s) (size [k]))); [exact Q|].
      unfold advance, at_cursor, with_data. fields. cbn [app map concat]. now rewrite <- app_assoc.
Qed.

Variables (m : image) (o : popts).
Hypothesis (Ok_m : image_ok m) (Lim_w : (m_w m <= o_max_w o)%nat) (Lim_h : (m_h m <= o_max_h o)%nat).
Definition after_plte (s : png) : png := match m_pal m with Some p => with_pal (opaque_pal p) s | None => s end.
Definition after_trns (s : png) : png := match m_trns m with Some t => with_trns (trns_pal m t (pal s)) (trns_key m t (p_key s)) s | None => s end.
Lemma plte_phase ks s i : opt_chunk ks PLTE (option_map plte_data (m_pal m)) -> hdr s = Some i -> pal s = [] -> phase ks s (advance (after_plte s) (size ks)).
Proof.
  intros O Hh P. unfold after_plte. destruct Ok_m as (_ & _ & _ & Hp & _). destruct (m_pal m) as [p|]; cbn [opt_chunk option_map] in O.
  - destruct O as (k & -> & N & D). destruct Hp as [Lp _]. apply phase_one; [rewrite N; discriminate..| |reflexivity].
    intros R Ck A. unfold parse_header. rewrite N, D in *. rewrite (plte_ok _ p _ R A) by (auto; try apply Ck; lia).
    change (zlist_eqb PLTE n_IHDR) with false. change (zlist_eqb PLTE n_PLTE) with true. cbv iota. cbn [bind].
    match goal with |- match hdr ?q with _ => _ end = _ => change (hdr q) with (hdr s) end. rewrite Hh. f_equal. unfold advance, at_cursor, with_pal, at_pos. fields. cbn [cpos cdata].
    match goal with |- {| strm := {| cpos := ?a |} |} = {| strm := {| cpos := ?b |} |} => replace a with b by lia end. reflexivity.
  - subst ks. replace (advance s (size [])) with s; [apply phase_nil|]. unfold advance, size. cbn [map concat length]. rewrite Nat.add_0_r, at_pos_same. destruct s; reflexivity.
Qed.
Lemma trns_phase ks s : opt_chunk ks tRNS (m_trns m) -> hdr s = Some (info_of m) -> length (p_key s) = 4%nat ->
  pal s = match m_pal m with Some p => opaque_pal p | None => [] end -> phase ks s (advance (after_trns s) (size ks)).
Proof.
  intros O Hh Lk P. unfold after_trns. destruct (m_trns m) as [t|] eqn:Et; cbn [opt_chunk] in O.
  - destruct O as (k & -> & N & D). apply phase_one; [rewrite N; discriminate..| |reflexivity].
    intros R Ck A. unfold parse_header. rewrite N, D in *. rewrite (trns_ok _ m t _ R A); [|apply Ck|exact Hh|exact Ok_m|exact Et|exact Lk|].
    + change (zlist_eqb tRNS n_IHDR) with false. change (zlist_eqb tRNS n_PLTE) with false. change (zlist_eqb tRNS n_IDAT) with false. change (zlist_eqb tRNS n_tRNS) with true. cbv iota. cbn [bind].
      match goal with |- match hdr ?q with _ => _ end = _ => change (hdr q) with (hdr s) end. rewrite Hh. f_equal. unfold advance, at_cursor, with_trns, at_pos. fields. cbn [cpos cdata].
      match goal with |- {| strm := {| cpos := ?a |} |} = {| strm := {| cpos := ?b |} |} => replace a with b by lia end. reflexivity.
    + intros T. fields. rewrite P. destruct Ok_m as (_ & _ & _ & Hp & Ht). rewrite Et in Ht. destruct Ht as [_ [[T' _]|[[T' _]|[_ Ht]]]]; [congruence..|].
      destruct (m_pal m) as [p|]; [|contradiction]. rewrite opaque_pal_length by lia. lia.
  - subst ks. replace (advance s (size [])) with s; [apply phase_nil|]. unfold advance, size. cbn [map concat length]. rewrite Nat.add_0_r, at_pos_same. destruct s; reflexivity.
Qed.

Definition after_hdr (s : png) : png := with_hdr (info_of m) s.
Lemma hdr_phase k s : is_chunk k IHDR (ihdr_data m) -> hdr s = None -> opts s = o -> phase [k] s (advance (after_hdr s) (size [k])).
Proof.
  intros [N D] Hh Ho. apply phase_one; [rewrite N; discriminate..| |reflexivity].
  assert (L : length (ihdr_data m) = 13%nat) by (unfold ihdr_data; rewrite !app_length, !be_bytes_length; reflexivity).
  intros R Ck A. unfold parse_header. rewrite N, D in *. rewrite L. rewrite (ihdr_ok _ m _ R A); [|apply Ck|exact Hh|exact Ok_m|fields; rewrite Ho; assumption..].
  change (zlist_eqb IHDR n_IHDR) with true. cbv iota. cbn [bind].
  match goal with |- match hdr ?q with _ => _ end = _ => change (hdr q) with (Some (info_of m)) end. cbv iota. f_equal. unfold after_hdr, advance, at_cursor, with_hdr, at_pos. fields. cbn [cpos cdata].
  match goal with |- {| strm := {| cpos := ?a |} |} = {| strm := {| cpos := ?b |} |} => replace a with b by lia end. reflexivity.
Qed.
Definition final_pal : list entry :=
  match m_pal m with
  | Some p => match m_trns m with Some t => trns_pal m t (opaque_pal p) | None => opaque_pal p end
  | None => match m_trns m with Some t => trns_pal m t [] | None => [] end
  end.
Definition final_key : list Z := match m_trns m with Some t => trns_key m t [0; 0; 0; 0] | None => [0; 0; 0; 0] end.
Definition is_some {A} (q : option A) : bool := match q with Some _ => true | None => false end.
(** The decoder once the headers are read *)
Record read_all (idat : list Z) (ns : list chunk) (s : png) : Prop := mkRead {
  ra_opts : opts s = o; ra_hdr : hdr s = Some (info_of m); ra_meta : mdata s = notes ns no_meta;
  ra_pal : pal s = final_pal; ra_plte : p_plte s = is_some (m_pal m); ra_trns : p_trns s = is_some (m_trns m); ra_key : p_key s = final_key;
  ra_data : fdat s = idat; ra_cur : current s = 0%nat; ra_headers : p_headers s = true; ra_iend : p_iend s = true
}.
Lemma notes_app a b q : notes (a ++ b) q = notes b (notes a q).
Proof. unfold notes. apply fold_left_app. Qed.
Lemma size_ge ks : Forall chunk_ok ks -> (length ks <= size ks)%nat.
Proof.
  intros F. induction F as [|k ks Hk F IH]; [cbn; lia|]. change (k :: ks) with ([k] ++ ks). rewrite size_app. unfold size at 1. cbn [map concat]. rewrite app_nil_r, chunk_len by exact Hk. cbn [length app]. lia.
Qed.
Lemma headers_ok idat ns cs tail : lays_out (note_ok huff (strict o)) m idat ns cs -> Forall (fine o) cs ->
  exists s, decode_headers huff anim (new_png o (file_bytes cs tail)) = Ok s /\ read_all idat ns s /\ p_stride s = [] /\ from_into s = true.
Proof.
  intros (hd & a1 & pl & a2 & tr & a3 & ids & a4 & en & Ecs & Ens & Fn & Fc & Hhd & Hpl & Htr & Hids & Hidat & [Nen Den]) Ff.
  set (body := [hd] ++ a1 ++ pl ++ a2 ++ tr ++ a3 ++ ids ++ a4).
  assert (EB : cs = body ++ [en]) by (subst cs body; rewrite <- !app_assoc; reflexivity).
  unfold decode_headers. cbn [new_png p_headers p_iend andb hdr strm].
  set (D := file_bytes cs tail). rewrite get_err_spec. unfold remaining at 1 2. cbn [cpos cdata skipn]. unfold D at 1 2. unfold file_bytes at 1 2. rewrite app_length.
  change (length magic) with 8%nat. replace (8 <=? 8 + _)%nat with true by lia. rewrite firstn_app_exact by reflexivity. cbn [bind].
  change (negb (of_bytes BE magic =? be_val signature)) with false. cbv iota.
  set (s0 := advance (new_png o D) 8).
  assert (A0 : ahead s0 (concat (map chunk_bytes cs) ++ tail)).
  { apply (ahead_advance_n _ magic); [|reflexivity]. reflexivity. }
  assert (Chd : chunk_ok hd) by (rewrite Ecs in Fc; now inversion Fc).
  match goal with |- context [peek_at ?c 4 4] => change c with (strm s0) end.
  assert (A0' : remaining (strm s0) = be_bytes 4 (Z.of_nat (length (c_data hd))) ++ c_name hd ++ (c_data hd ++ c_sum hd ++ concat (map chunk_bytes (a1 ++ pl ++ a2 ++ tr ++ a3 ++ ids ++ a4 ++ [en])) ++ tail)).
  { unfold ahead in A0. rewrite A0, Ecs. cbn [map concat]. unfold chunk_bytes at 1. rewrite <- !app_assoc. reflexivity. }
  rewrite peek_at_spec. change (peek_cap <? Z.of_nat 4) with false. rewrite A0'.
  rewrite !app_length, be_bytes_length, (proj1 Chd). match goal with |- context [((4 <=? ?a)%nat && ?b)] => replace ((4 <=? a)%nat && b) with true by (symmetry; apply andb_true_iff; split; lia) end.
  rewrite skipn_app_exact by apply be_bytes_length. rewrite firstn_app_exact by apply Chd. cbn [bind]. destruct Hhd as [Nhd Dhd] eqn:Q. clear Q. rewrite Nhd.
  change (negb (zlist_eqb IHDR n_IHDR)) with false. cbv iota. cbn [bind].
  match goal with |- context [at_cursor (strm s0) ?q] => change (at_cursor (strm s0) q) with s0 end.
  change (length (cdata (strm s0))) with (length D).
  assert (LD : (length cs <= length D)%nat).
  { unfold D, file_bytes. rewrite !app_length. pose proof (size_ge cs Fc) as SG. unfold size in SG. lia. }
  assert (Lcs : length cs = (length body + 1)%nat) by (rewrite EB, app_length; reflexivity).
  replace (S (length D)) with (length body + S (length D - length body))%nat by lia.
  (* the phases *)
  rewrite Ens in Fn. apply Forall_app in Fn. destruct Fn as [F1 Fn]. apply Forall_app in Fn. destruct Fn as [F2 Fn]. apply Forall_app in Fn. destruct Fn as [F3 F4].
  assert (H0 : hdr s0 = None) by reflexivity. assert (O0 : opts s0 = o) by reflexivity.
  pose proof (hdr_phase hd s0 (conj Nhd Dhd) H0 O0) as P0. set (s1 := advance (after_hdr s0) (size [hd])) in *.
  assert (H1 : hdr s1 = Some (info_of m)) by reflexivity. assert (O1 : opts s1 = o) by reflexivity.
  pose proof (notes_phase a1 s1 (info_of m) H1 ltac:(rewrite O1; exact F1)) as P1. set (s2 := advance (with_meta (notes a1 (mdata s1)) s1) (size a1)) in *.
  assert (H2 : hdr s2 = Some (info_of m)) by reflexivity. assert (O2 : opts s2 = o) by reflexivity.
  pose proof (plte_phase pl s2 (info_of m) Hpl H2 eq_refl) as P2. set (s3 := advance (after_plte s2) (size pl)) in *.
  assert (H3 : hdr s3 = Some (info_of m)) by (unfold s3, after_plte; destruct (m_pal m); exact H2). assert (O3 : opts s3 = o) by (unfold s3, after_plte; destruct (m_pal m); exact O2).
  pose proof (notes_phase a2 s3 (info_of m) H3 ltac:(rewrite O3; exact F2)) as P3. set (s4 := advance (with_meta (notes a2 (mdata s3)) s3) (size a2)) in *.
  assert (H4 : hdr s4 = Some (info_of m)) by exact H3. assert (O4 : opts s4 = o) by exact O3.
  assert (K4 : p_key s4 = [0; 0; 0; 0]) by (unfold s4, s3, after_plte; destruct (m_pal m); reflexivity).
  assert (L4 : pal s4 = match m_pal m with Some p => opaque_pal p | None => [] end) by (unfold s4, s3, after_plte; destruct (m_pal m); reflexivity).
  pose proof (trns_phase tr s4 Htr H4 ltac:(now rewrite K4) L4) as P4. set (s5 := advance (after_trns s4) (size tr)) in *.
  assert (H5 : hdr s5 = Some (info_of m)) by (unfold s5, after_trns; destruct (m_trns m); exact H4). assert (O5 : opts s5 = o) by (unfold s5, after_trns; destruct (m_trns m); exact O4).
  pose proof (notes_phase a3 s5 (info_of m) H5 ltac:(rewrite O5; exact F3)) as P5. set (s6 := advance (with_meta (notes a3 (mdata s5)) s5) (size a3)) in *.
  assert (H6 : hdr s6 = Some (info_of m)) by exact H5. assert (O6 : opts s6 = o) by exact O5.
  pose proof (data_phase ids s6 (info_of m) H6 Hids) as P6. set (s7 := advance (with_data (concat (map c_data ids)) s6) (size ids)) in *.
  assert (H7 : hdr s7 = Some (info_of m)) by exact H6. assert (O7 : opts s7 = o) by exact O6.
  pose proof (notes_phase a4 s7 (info_of m) H7 ltac:(rewrite O7; exact F4)) as P7. set (s8 := advance (with_meta (notes a4 (mdata s7)) s7) (size a4)) in *.
  assert (H8 : hdr s8 = Some (info_of m)) by exact H7. assert (O8 : opts s8 = o) by exact O7.
  assert (P : phase body s0 s8).
  { unfold body. eapply phase_app; [|exact P0|]; [now rewrite O0, O1|]. eapply phase_app; [|exact P1|]; [now rewrite O1, O2|]. eapply phase_app; [|exact P2|]; [now rewrite O2, O3|].
    eapply phase_app; [|exact P3|]; [now rewrite O3, O4|]. eapply phase_app; [|exact P4|]; [now rewrite O4, O5|]. eapply phase_app; [|exact P5|]; [now rewrite O5, O6|].
    eapply phase_app; [|exact P6|]; [now rewrite O6, O7|]. exact P7. }
  rewrite EB in Ff. apply Forall_app in Ff. destruct Ff as [Fb Fe]. inversion Fe as [|? ? [Ce Se] _]; subst x l.
  rewrite EB, map_app, concat_app, <- app_assoc in A0. rewrite <- O0 in Fb. destruct (P _ Fb A0) as [LE A8]. rewrite (run_loop _ _ _ LE).
  cbn [map concat] in A8. rewrite app_nil_r in A8. cbn [chunk_loop]. rewrite (header_ok s8 en tail A8 Ce) by (rewrite O8; exact Se). cbn [bind]. rewrite Nen.
  unfold parse_header. repeat match goal with |- context [zlist_eqb IEND ?b] => let v := eval vm_compute in (zlist_eqb IEND b) in change (zlist_eqb IEND b) with v end. cbn [orb]. cbv iota. cbn [bind].
  match goal with |- context [match hdr ?q with _ => _ end] => change (hdr q) with (hdr s8) end. rewrite H8. cbn [bind]. eexists. split; [reflexivity|]. split; [constructor; fields|].
  - exact O8.
  - exact H8.
  - rewrite Ens, !notes_app. unfold s8, s7, s6. fields. f_equal. f_equal. unfold s5, after_trns. destruct (m_trns m); fields; (unfold s4; fields; f_equal; unfold s3, after_plte; destruct (m_pal m); reflexivity).
  - unfold s8, s7, s6. fields. unfold s5, after_trns, final_pal. destruct (m_trns m); fields; rewrite L4; destruct (m_pal m); reflexivity.
  - unfold s8, s7, s6. fields. unfold s5, after_trns. destruct (m_trns m); fields; unfold s4; fields; unfold s3, after_plte; destruct (m_pal m); reflexivity.
  - unfold s8, s7, s6. fields. unfold s5, after_trns. destruct (m_trns m); fields; [reflexivity|]. unfold s4. fields. unfold s3, after_plte. destruct (m_pal m); reflexivity.
  - unfold s8, s7, s6. fields. unfold s5, after_trns, final_key. destruct (m_trns m); fields; rewrite K4; reflexivity.
  - unfold s8, s7. fields. rewrite Hidat. replace (fdat s6) with (@nil Z); [reflexivity|]. unfold s6. fields. unfold s5, after_trns. destruct (m_trns m); fields; unfold s4; fields; unfold s3, after_plte; destruct (m_pal m); reflexivity.
  - unfold s8, s7, s6. fields. unfold s5, after_trns. destruct (m_trns m); fields; unfold s4; fields; unfold s3, after_plte; destruct (m_pal m); reflexivity.
  - reflexivity.
  - reflexivity.
  - split.
    + unfold s8, s7, s6. fields. unfold s5, after_trns. destruct (m_trns m); fields; unfold s4; fields; unfold s3, after_plte; destruct (m_pal m); reflexivity.
    + unfold s8, s7, s6. fields. unfold s5, after_trns. destruct (m_trns m); fields; unfold s4; fields; unfold s3, after_plte; destruct (m_pal m); reflexivity.
Qed.
End File.
