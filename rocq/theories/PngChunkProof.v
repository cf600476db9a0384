From Verif Require Import Base BaseProof Loops Slices StreamModel StreamSpec StreamProof CrcModel CrcSpec CrcProof PngFilterModel PngFilterSpec PngFilterProps
  InflateModel PngRowModel PngModel PngSpec PngFileSpec PngRowProof.

Definition advance (s : png) (n : nat) : png := at_cursor (at_pos (strm s) (cpos (strm s) + n)) s.
Definition ahead (s : png) (l : list Z) : Prop := remaining (strm s) = l.
Lemma ahead_advance s a b : ahead s (a ++ b) -> ahead (advance s (length a)) b.
Proof. unfold ahead, advance. cbn [strm at_cursor]. rewrite remaining_at. intros ->. now apply skipn_app_exact. Qed.
Lemma ahead_advance_n s a b n : ahead s (a ++ b) -> length a = n -> ahead (advance s n) b.
Proof. intros H <-. now apply ahead_advance. Qed.
Lemma advance_advance s a b : advance (advance s a) b = advance s (a + b).
Proof. unfold advance, at_cursor, at_pos. cbn [strm opts hdr mdata pal p_plte p_trns p_key fdat current p_headers p_iend p_stride from_into cpos cdata]. now rewrite Nat.add_assoc. Qed.
Lemma skip_to_ok n s : skip_to n s = Ok (advance s n).
Proof. unfold skip_to. rewrite skip_spec. reflexivity. Qed.

(** Reading a header *)
Lemma header_ok s k R : ahead s (chunk_bytes k ++ R) -> chunk_ok k ->
  (o_crc (opts s) = true -> sum_ok k /\ Z.of_nat (length (c_data k)) + 4 <= peek_cap) ->
  read_chunk_header s = Ok (length (c_data k), c_name k, advance s 8).
Proof.
  intros A (Ln & Ls & Bn & Bd & Bs & Ld) C. unfold ahead in A. unfold chunk_bytes in A. rewrite <- !app_assoc in A.
  set (lb := be_bytes 4 (Z.of_nat (length (c_data k)))) in *. assert (Ll : length lb = 4%nat) by apply be_bytes_length.
  unfold read_chunk_header. rewrite get_err_spec, A.
  assert (L : length (lb ++ c_name k ++ c_data k ++ c_sum k ++ R) = (12 + length (c_data k) + length R)%nat) by (rewrite !app_length, Ll, Ln, Ls; lia).
  rewrite L. replace (4 <=? 12 + length (c_data k) + length R)%nat with true by lia.
  rewrite firstn_app_exact by exact Ll. cbn [bind].
  assert (LV : Z.to_nat (of_bytes BE lb) = length (c_data k)).
  { change (of_bytes BE lb) with (be_val lb). unfold lb. rewrite be_val_be_bytes by (change (256 ^ Z.of_nat 4) with (2 ^ 32); lia). apply Nat2Z.id. }
  rewrite LV.
  assert (A4 : remaining (at_pos (strm s) (cpos (strm s) + 4)) = c_name k ++ c_data k ++ c_sum k ++ R).
  { rewrite remaining_at, A. now apply skipn_app_exact. }
  rewrite read_fixed_or_error_spec, A4.
  replace (4 <=? length (c_name k ++ c_data k ++ c_sum k ++ R))%nat with true by (rewrite app_length; lia).
  rewrite firstn_app_exact by exact Ln. cbn [bind].
  assert (A8 : remaining (at_pos (at_pos (strm s) (cpos (strm s) + 4)) (cpos (at_pos (strm s) (cpos (strm s) + 4)) + 4)) = c_data k ++ c_sum k ++ R).
  { rewrite remaining_at, A4. now apply skipn_app_exact. }
  set (c8 := at_pos (at_pos (strm s) (cpos (strm s) + 4)) (cpos (at_pos (strm s) (cpos (strm s) + 4)) + 4)) in *.
  assert (E8 : c8 = at_pos (strm s) (cpos (strm s) + 8)) by (unfold c8, at_pos; cbn [cpos cdata]; f_equal; lia).
  rewrite peek_at_spec, A8. replace (peek_cap <? Z.of_nat 4) with false by reflexivity.
  rewrite !app_length, Ls. replace ((4 <=? _)%nat && _) with true by lia.
  rewrite skipn_app_exact by reflexivity. rewrite firstn_app_exact by exact Ls. cbn [bind].
  destruct (o_crc (opts s)); [|unfold advance; now rewrite E8].
  destruct (C eq_refl) as [S Cap]. unfold rewind. rewrite E8, seek_cur_back by lia. replace (cpos (strm s) + 8 - 4)%nat with (cpos (strm s) + 4)%nat by lia. cbn [bind].
  rewrite peek_at_spec, A4. replace (peek_cap <? Z.of_nat (length (c_data k) + 4)) with false by lia.
  rewrite !app_length, Ls, Ln. replace ((length (c_data k) + 4 <=? _)%nat && _) with true by (symmetry; apply andb_true_iff; split; lia). cbn [skipn].
  rewrite app_assoc, firstn_app_exact by (rewrite app_length; lia). cbn [bind].
  rewrite png_crc_is_crc32 by (apply bytes_app; auto). cbn [bind]. unfold sum_ok in S. rewrite S, Z.eqb_refl. cbn [negb].
  rewrite skip_spec. cbn [bind]. unfold advance. do 3 f_equal. unfold at_pos. cbn [cpos cdata]. f_equal. lia.
Qed.

(** ** The readers of the chunks *)
Definition fwd (c : cursor) (n : nat) : cursor := at_pos c (cpos c + n).
Lemma fwd_remaining c a b n : remaining c = a ++ b -> length a = n -> remaining (fwd c n) = b.
Proof. intros H L. unfold fwd. rewrite remaining_at, H. now apply skipn_app_exact. Qed.
Lemma fwd_fwd c a b : fwd (fwd c a) b = fwd c (a + b).
Proof. unfold fwd, at_pos. cbn [cpos cdata]. now rewrite Nat.add_assoc. Qed.
Lemma get_zero_ok k c a b : remaining c = a ++ b -> length a = k -> get_zero BE k c = (be_val a, fwd c k).
Proof.
  intros H L. unfold get_zero. rewrite read_fixed_or_zero_spec, H. rewrite firstn_app_exact by exact L. rewrite app_length.
  replace (k - (length a + length b))%nat with 0%nat by lia. replace (k <=? length a + length b)%nat with true by lia. cbn [repeat]. rewrite app_nil_r. reflexivity.
Qed.
Lemma read_u8_ok c a b : remaining c = a :: b -> read_u8 c = (a, fwd c 1) /\ remaining (fwd c 1) = b.
Proof. intros H. rewrite read_u8_spec, H. split; [reflexivity|]. apply (fwd_remaining c [a]); [exact H|reflexivity]. Qed.
Lemma skip_fwd c n : skip c n = Ok (fwd c n).
Proof. apply skip_spec. Qed.

Definition colour_of (m : image) : color := match color_of_int (m_type m) with Some c => c | None => CLuma end.
Definition info_of (m : image) : info := mkInfo (m_w m) (m_h m) (m_depth m) (colour_of m) (m_adam7 m).
Definition with_hdr (i : info) (s : png) : png :=
  mkPng (strm s) (opts s) (Some i) (mdata s) (pal s) (p_plte s) (p_trns s) (p_key s) (fdat s) (current s) (p_headers s) (p_iend s) (p_stride s) (from_into s).
Definition with_pal (p : list entry) (s : png) : png :=
  mkPng (strm s) (opts s) (hdr s) (mdata s) p true (p_trns s) (p_key s) (fdat s) (current s) (p_headers s) (p_iend s) (p_stride s) (from_into s).
Definition with_trns (p : list entry) (k : list Z) (s : png) : png :=
  mkPng (strm s) (opts s) (hdr s) (mdata s) p (p_plte s) true k (fdat s) (current s) (p_headers s) (p_iend s) (p_stride s) (from_into s).
Definition with_data (d : list Z) (s : png) : png :=
  mkPng (strm s) (opts s) (hdr s) (mdata s) (pal s) (p_plte s) (p_trns s) (p_key s) (fdat s ++ d) (current s) (p_headers s) (p_iend s) (p_stride s) (from_into s).
Definition with_end (s : png) : png :=
  mkPng (strm s) (opts s) (hdr s) (mdata s) (pal s) (p_plte s) (p_trns s) (p_key s) (fdat s) (current s) (p_headers s) true (p_stride s) (from_into s).
Ltac fields := cbn [strm opts hdr mdata pal p_plte p_trns p_key fdat current p_headers p_iend p_stride from_into at_cursor advance with_hdr with_pal with_trns with_data with_end with_meta].

Lemma type_cases m : In (m_depth m) (type_depths (m_type m)) ->
  (m_type m = 0 /\ In (m_depth m) [1; 2; 4; 8; 16]%nat) \/ (m_type m = 2 /\ In (m_depth m) [8; 16]%nat) \/ (m_type m = 3 /\ In (m_depth m) [1; 2; 4; 8]%nat) \/
  (m_type m = 4 /\ In (m_depth m) [8; 16]%nat) \/ (m_type m = 6 /\ In (m_depth m) [8; 16]%nat).
Proof.
  unfold type_depths. intros H.
  destruct (Z.eqb_spec (m_type m) 0) as [E|_]; [tauto|]. destruct (Z.eqb_spec (m_type m) 3) as [E|_]; [tauto|].
  destruct (Z.eqb_spec (m_type m) 2) as [E|_]; [tauto|]. destruct (Z.eqb_spec (m_type m) 4) as [E|_]; [tauto|].
  destruct (Z.eqb_spec (m_type m) 6) as [E|_]; [tauto|]. destruct H.
Qed.
Lemma ihdr_ok s m sum R : ahead s (ihdr_data m ++ sum ++ R) -> length sum = 4%nat -> hdr s = None -> image_ok m ->
  (m_w m <= o_max_w (opts s))%nat -> (m_h m <= o_max_h (opts s))%nat ->
  parse_ihdr 13 s = Ok (advance (with_hdr (info_of m) s) 17).
Proof.
  intros A Ls Hn (W & H & T & _) Mw Mh. unfold ahead, ihdr_data in A. rewrite <- !app_assoc in A. cbn [app] in A.
  unfold parse_ihdr. rewrite Hn. change (negb (13 =? 13)%nat) with false. cbv iota.
  set (wb := be_bytes 4 (Z.of_nat (m_w m))) in *. set (hb := be_bytes 4 (Z.of_nat (m_h m))) in *.
  assert (Lw : length wb = 4%nat) by apply be_bytes_length. assert (Lh : length hb = 4%nat) by apply be_bytes_length.
  rewrite (get_zero_ok 4 _ _ _ A Lw). pose proof (fwd_remaining _ _ _ _ A Lw) as A1.
  rewrite (get_zero_ok 4 _ _ _ A1 Lh). pose proof (fwd_remaining _ _ _ _ A1 Lh) as A2.
  unfold wb, hb. rewrite !be_val_be_bytes by (change (256 ^ Z.of_nat 4) with (2 ^ 32); lia).
  replace ((Z.of_nat (m_w m) =? 0) || (Z.of_nat (m_h m) =? 0)) with false by lia.
  replace (Z.of_nat (o_max_w (opts s)) <? Z.of_nat (m_w m)) with false by lia.
  replace (Z.of_nat (o_max_h (opts s)) <? Z.of_nat (m_h m)) with false by lia.
  destruct (read_u8_ok _ _ _ A2) as [-> A3]. destruct (read_u8_ok _ _ _ A3) as [-> A4].
  destruct (read_u8_ok _ _ _ A4) as [U5 A5]. destruct (read_u8_ok _ _ _ A5) as [U6 A6]. destruct (read_u8_ok _ _ _ A6) as [U7 A7].
  assert (C : color_of_int (m_type m) = Some (colour_of m)).
  { unfold colour_of. apply type_cases in T. destruct T as [[-> _]|[[-> _]|[[-> _]|[[-> _]|[-> _]]]]]; reflexivity. }
  rewrite C. set (d := Z.of_nat (m_depth m)).
  assert (D : negb ((d =? 1) || (d =? 2) || (d =? 4) || (d =? 8) || (d =? 16)) = false /\ (d =? 16) && is_palette (colour_of m) = false).
  { apply type_cases in T. unfold colour_of, d. destruct T as [[-> T]|[[-> T]|[[-> T]|[[-> T]|[-> T]]]]]; cbn [In] in T; cbn; lia. }
  destruct D as [-> ->]. rewrite U5. change (negb (0 =? 0)) with false. cbv iota. rewrite U6. change (negb ((0 <=? 0) && (0 <=? 4))) with false. cbv iota.
  rewrite U7. replace (negb (((if m_adam7 m then 1 else 0) =? 0) || ((if m_adam7 m then 1 else 0) =? 1))) with false by (destruct (m_adam7 m); reflexivity).
  rewrite skip_fwd. cbn [bind]. rewrite !fwd_fwd. unfold advance, with_hdr, info_of, at_cursor. fields. unfold fwd. rewrite !Nat2Z.id. unfold d. rewrite Nat2Z.id.
  repeat f_equal. destruct (m_adam7 m); reflexivity.
Qed.

Lemma read_entries_ok es : forall old c R, (length es <= length old)%nat -> Forall (fun e : entry => snd e = 255) old -> remaining c = plte_data es ++ R ->
  read_entries (length es) old c = (map (fun q : Z * Z * Z => let '(r, g, b) := q in (r, g, b, 255)) es ++ skipn (length es) old, fwd c (3 * length es)).
Proof.
  induction es as [|[[r g] b] es IH]; intros old c R L F H.
  - cbn [length read_entries map app skipn]. unfold fwd, at_pos. rewrite Nat.add_0_r. destruct old as [|e old]; destruct c; reflexivity.
  - destruct old as [|[[[r' g'] b'] a'] old]; [cbn in L; lia|]. cbn [length read_entries].
    inversion F as [|? ? Fa Fo]; subst. cbn [snd] in Fa. subst a'.
    unfold plte_data in H. cbn [map concat app] in H. fold (plte_data es) in H.
    destruct (read_u8_ok _ _ _ H) as [-> H1]. destruct (read_u8_ok _ _ _ H1) as [-> H2]. destruct (read_u8_ok _ _ _ H2) as [-> H3].
    rewrite (IH old _ R ltac:(cbn in L; lia) Fo H3). cbn [map app skipn]. rewrite !fwd_fwd. do 2 f_equal. lia.
Qed.
Lemma plte_length es : length (plte_data es) = (3 * length es)%nat.
Proof. unfold plte_data. induction es as [|[[r g] b] es IH]; [reflexivity|]. cbn [map concat length app]. rewrite IH. lia. Qed.
Definition opaque_pal (es : list (Z * Z * Z)) : list entry := map (fun q : Z * Z * Z => let '(r, g, b) := q in (r, g, b, 255)) es ++ repeat (0, 0, 0, 255) (256 - length es).
Lemma opaque_repeat n : Forall (fun e : entry => snd e = 255) (repeat (0, 0, 0, 255) n).
Proof. induction n; constructor; [reflexivity|assumption]. Qed.
Lemma plte_ok s es sum R : ahead s (plte_data es ++ sum ++ R) -> length sum = 4%nat -> pal s = [] -> (length es <= 256)%nat ->
  parse_plte (length (plte_data es)) s = Ok (advance (with_pal (opaque_pal es) s) (length (plte_data es) + 4)).
Proof.
  intros A Ls P L. unfold parse_plte. rewrite plte_length. replace (3 * length es mod 3)%nat with 0%nat by lia. change (negb (0 =? 0)%nat) with false. cbv iota.
  replace (3 * length es / 3)%nat with (length es) by lia. rewrite P, resize_grow by (cbn; lia). cbn [app length]. rewrite Nat.sub_0_r.
  rewrite (read_entries_ok es _ _ _ ltac:(rewrite repeat_length; exact L) (opaque_repeat _) A).
  rewrite skip_fwd. cbn [bind]. rewrite fwd_fwd, skipn_repeat. reflexivity.
Qed.

Lemma idat_ok s d sum R : ahead s (d ++ sum ++ R) -> length sum = 4%nat ->
  parse_idat (length d) s = Ok (advance (with_data d s) (length d + 4)).
Proof.
  intros A Ls. unfold parse_idat. unfold ahead in A. rewrite (read_exact_spec _ (length d)) by apply repeat_length. rewrite A, app_length.
  replace (length d <=? length d + _)%nat with true by lia. rewrite skip_fwd. cbn [bind]. fold (fwd (strm s) (length d)). rewrite fwd_fwd, firstn_app_exact by reflexivity. reflexivity.
Qed.

Fixpoint set_alphas (p : list entry) (a : list Z) : list entry :=
  match p, a with (r, g, b, _) :: p', x :: a' => (r, g, b, x) :: set_alphas p' a' | _, _ => p end.
Lemma read_alphas_ok a : forall p c R, (length a <= length p)%nat -> remaining c = a ++ R -> read_alphas (length a) p c = (set_alphas p a, fwd c (length a)).
Proof.
  induction a as [|x a IH]; intros p c R L H.
  - cbn [length read_alphas]. unfold fwd, at_pos. rewrite Nat.add_0_r. destruct p as [|[[[r g] b] y] p]; destruct c; reflexivity.
  - destruct p as [|[[[r g] b] y] p]; [cbn in L; lia|]. cbn [length read_alphas app] in *. destruct (read_u8_ok _ _ _ H) as [-> H1].
    rewrite (IH p _ R ltac:(lia) H1). cbn [set_alphas]. rewrite fwd_fwd. reflexivity.
Qed.
Lemma be_val_two a b : be_val [a; b] = a * 256 + b.
Proof. change [a; b] with ([a] ++ [b]). rewrite be_val_app, !be_val_one. reflexivity. Qed.
Definition trns_key (m : image) (t k : list Z) : list Z := if m_type m =? 3 then k else pairs t ++ skipn (length (pairs t)) k.
Definition trns_pal (m : image) (t : list Z) (p : list entry) : list entry := if m_type m =? 3 then set_alphas p t else p.
Lemma trns_ok s m t sum R : ahead s (t ++ sum ++ R) -> length sum = 4%nat -> hdr s = Some (info_of m) -> image_ok m -> m_trns m = Some t ->
  length (p_key s) = 4%nat -> (m_type m = 3 -> (0 < length (pal s))%nat /\ (length t <= length (pal s))%nat) ->
  parse_trns (length t) s = Ok (advance (with_trns (trns_pal m t (pal s)) (trns_key m t (p_key s)) s) (length t + 4)).
Proof.
  intros A Ls Hh (_ & _ & _ & _ & Ht) Mt Lk Hp. unfold parse_trns. rewrite Hh. unfold ahead in A. rewrite Mt in Ht. destruct Ht as [Bt Ht].
  cbn [i_color info_of]. unfold colour_of, trns_key, trns_pal. destruct (p_key s) as [|k0 [|k1 [|k2 [|k3 [|]]]]]; try discriminate Lk. clear Lk.
  destruct Ht as [[T L]|[[T L]|[T L]]]; rewrite T; cbn [color_of_int Z.eqb Pos.eqb].
  - destruct t as [|a [|b [|]]]; try discriminate L. cbn [app] in A. rewrite (get_zero_ok 2 _ [a; b] (sum ++ R)) by (auto; exact A).
    rewrite skip_fwd. cbn [bind]. rewrite fwd_fwd, be_val_two. rewrite <- Hh. reflexivity.
  - destruct t as [|a [|b [|c [|d [|e [|f [|]]]]]]]; try discriminate L. cbn [app] in A.
    rewrite (get_zero_ok 2 _ [a; b] (c :: d :: e :: f :: sum ++ R)) by (auto; exact A).
    pose proof (fwd_remaining (strm s) [a; b] (c :: d :: e :: f :: sum ++ R) 2 A eq_refl) as A1.
    rewrite (get_zero_ok 2 _ [c; d] (e :: f :: sum ++ R)) by (auto; exact A1).
    pose proof (fwd_remaining _ [c; d] (e :: f :: sum ++ R) 2 A1 eq_refl) as A2.
    rewrite (get_zero_ok 2 _ [e; f] (sum ++ R)) by (auto; exact A2).
    rewrite skip_fwd. cbn [bind]. rewrite !fwd_fwd, !be_val_two. rewrite <- Hh. reflexivity.
  - destruct (Hp T) as [P0 P1]. replace (length (pal s) =? 0)%nat with false by lia. replace (length (pal s) <? length t)%nat with false by lia.
    rewrite (read_alphas_ok t _ _ _ P1 A). rewrite skip_fwd. cbn [bind]. rewrite fwd_fwd. rewrite <- Hh. reflexivity.
Qed.
