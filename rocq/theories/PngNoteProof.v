From Verif Require Import Base BaseProof Loops Slices StreamModel StreamSpec StreamProof CrcModel CrcSpec PngFilterModel PngFilterSpec
  InflateModel PngRowModel PngModel PngSpec PngFileSpec PngRowProof PngChunkProof.

(** * Ancillary chunks *)
Lemma split0_inv l : forall a b, split0 l = Some (a, b) -> l = a ++ 0 :: b.
Proof.
  induction l as [|x l IH]; intros a b H; [discriminate|]. cbn [split0] in H. destruct (Z.eqb_spec x 0) as [->|N].
  - injection H as <- <-. reflexivity.
  - destruct (split0 l) as [[a' b']|]; [|discriminate]. injection H as <- <-. now rewrite (IH a' b' eq_refl).
Qed.
Lemma zero_at_split l : forall n, zero_at (firstn n l) = match split0 l with Some (a, _) => if (length a <? n)%nat then Some (length a) else None | None => None end.
Proof.
  induction l as [|x l IH]; intros n; [now rewrite firstn_nil|]. destruct n as [|n].
  - cbn [firstn zero_at]. destruct (split0 (x :: l)) as [[a b]|]; [|reflexivity]. reflexivity.
  - cbn [firstn zero_at split0]. destruct (x =? 0); [reflexivity|]. rewrite IH. destruct (split0 l) as [[a b]|]; [|reflexivity].
    cbn [option_map length]. change (S (length a) <? S n)%nat with (length a <? n)%nat. destruct (length a <? n)%nat; reflexivity.
Qed.
Lemma must_peek_ok s n a b : ahead s (a ++ b) -> length a = n -> Z.of_nat n <= peek_cap -> must_peek n s = Ok a.
Proof.
  intros A L C. unfold must_peek. rewrite peek_at_spec. unfold ahead in A. rewrite A, app_length. cbn [skipn]. replace (peek_cap <? Z.of_nat n) with false by lia.
  replace ((n <=? _)%nat && _) with true by (symmetry; apply andb_true_iff; split; lia). now rewrite firstn_app_exact.
Qed.
Definition small_word (d : list Z) : option (list Z * list Z) :=
  match split0 d with Some (w, t) => if (length w <? 79)%nat then Some (w, t) else None | None => None end.
Lemma small_word_inv d w t : small_word d = Some (w, t) -> d = w ++ 0 :: t /\ (length w < 79)%nat.
Proof.
  unfold small_word. destruct (split0 d) as [[w' t']|] eqn:E; [|discriminate]. destruct (Nat.ltb_spec (length w') 79); [|discriminate].
  intros H'. injection H' as <- <-. split; [now apply split0_inv|assumption].
Qed.
Lemma keyword_ok s d b : ahead s (d ++ b) -> keyword (length d) s = Ok (option_map fst (small_word d)).
Proof.
  intros A. unfold keyword. rewrite (must_peek_ok s _ (firstn 79 d) (skipn 79 d ++ b)).
  - cbn [bind]. rewrite zero_at_split. unfold small_word. destruct (split0 d) as [[w t]|] eqn:E; [|reflexivity].
    destruct (Nat.ltb_spec (length w) 79); [|reflexivity]. cbn [option_map fst]. do 2 f_equal. rewrite firstn_firstn, Nat.min_l by lia.
    rewrite (split0_inv d w t E). now apply firstn_app_exact.
  - rewrite app_assoc, firstn_skipn. exact A.
  - rewrite firstn_length. lia.
  - assert (Z.of_nat (Nat.min (length d) 79) <= 79) by lia. unfold peek_cap. lia.
Qed.

Section Notes.
Variable huff : Z -> dstate -> res dstate.
Definition unz (d : list Z) : res (list Z) := decode_zlib huff (default_inflate tt) d.
Definition terminates (d : list Z) : Prop := match unz d with Ok _ | Err _ => True | _ => False end.
(** Ancillary chunks the decoder reads properly *)
Definition note_ok (st : bool) (k : chunk) : Prop :=
  ancillary k /\
  (c_name k = gAMA -> length (c_data k) = 4%nat) /\
  (c_name k = tIME -> length (c_data k) = 7%nat) /\
  (In (c_name k) [eXIf; tEXt; iTXt; zTXt; iCCP] -> Z.of_nat (length (c_data k)) <= peek_cap) /\
  (c_name k = eXIf -> st = true -> tiff (c_data k) = true) /\
  (c_name k = iTXt -> forall w t, split0 (c_data k) = Some (w, t) -> (4 <= length t)%nat) /\
  (In (c_name k) [zTXt; iCCP] -> forall w t, split0 (c_data k) = Some (w, t) -> (1 <= length t)%nat /\ terminates (skipn 1 t)).
(** What becomes of the notes *)
Definition note (k : chunk) (m : meta) : meta :=
  let d := c_data k in
  let is n := if list_eq_dec Z.eq_dec (c_name k) n then true else false in
  if is gAMA then mkMeta (Some (be_val d)) (time m) (exif m) (icc m) (text m) (itxt m) (ztxt m)
  else if is tIME then
    mkMeta (gamma m) (Some [be_val (firstn 2 d); nth 2 d 0 mod 13; nth 3 d 0 mod 32; nth 4 d 0 mod 24; nth 5 d 0 mod 60; nth 6 d 0 mod 61])
      (exif m) (icc m) (text m) (itxt m) (ztxt m)
  else if is eXIf then if tiff d then mkMeta (gamma m) (time m) (Some d) (icc m) (text m) (itxt m) (ztxt m) else m
  else match small_word d with
  | None => m
  | Some (w, t) =>
    if is iCCP then match unz (skipn 1 t) with Ok v => mkMeta (gamma m) (time m) (exif m) (Some v) (text m) (itxt m) (ztxt m) | _ => m end
    else if is iTXt then mkMeta (gamma m) (time m) (exif m) (icc m) (text m) (itxt m ++ [(w, skipn 4 t)]) (ztxt m)
    else if is zTXt then match unz (skipn 1 t) with Ok v => mkMeta (gamma m) (time m) (exif m) (icc m) (text m) (itxt m) (ztxt m ++ [(w, v)]) | _ => m end
    else if is tEXt then mkMeta (gamma m) (time m) (exif m) (icc m) (text m ++ [(w, t)]) (itxt m) (ztxt m)
    else m
  end.

Ltac same_place := unfold advance, at_cursor, with_meta, fwd, at_pos; fields; cbn [cpos cdata]; rewrite <- ?Nat.add_assoc; reflexivity.
Lemma gama_ok s k sum R : ahead s (c_data k ++ sum ++ R) -> length sum = 4%nat -> c_name k = gAMA -> length (c_data k) = 4%nat ->
  parse_gama 4 s = Ok (advance (with_meta (note k (mdata s)) s) 8).
Proof.
  intros A Ls N L. unfold parse_gama. change (negb (4 =? 4)%nat) with false. rewrite andb_false_r. rewrite (get_zero_ok 4 _ _ _ A L).
  rewrite skip_to_ok. unfold note. rewrite N. cbn [list_eq_dec]. destruct (list_eq_dec _ _ _); [|congruence]. same_place.
Qed.
Lemma time_ok s k sum R : ahead s (c_data k ++ sum ++ R) -> length sum = 4%nat -> c_name k = tIME -> length (c_data k) = 7%nat ->
  parse_time 7 s = Ok (advance (with_meta (note k (mdata s)) s) 11).
Proof.
  intros A Ls N L. unfold parse_time. change (negb (7 =? 7)%nat) with false. cbv iota. unfold note. rewrite N. destruct (c_data k) as [|a [|b [|c [|d [|e [|f [|g [|]]]]]]]]; try discriminate L.
  cbn [app] in A. rewrite (get_zero_ok 2 _ [a; b] (c :: d :: e :: f :: g :: sum ++ R)) by (auto; exact A).
  pose proof (fwd_remaining (strm s) [a; b] (c :: d :: e :: f :: g :: sum ++ R) 2 A eq_refl) as A1.
  destruct (read_u8_ok _ _ _ A1) as [U1 A2]. destruct (read_u8_ok _ _ _ A2) as [U2 A3]. destruct (read_u8_ok _ _ _ A3) as [U3 A4].
  destruct (read_u8_ok _ _ _ A4) as [U4 A5]. destruct (read_u8_ok _ _ _ A5) as [U5 A6]. rewrite U1, U2, U3, U4, U5.
  rewrite skip_to_ok. cbn [firstn nth]. destruct (list_eq_dec Z.eq_dec tIME gAMA) as [E|_]; [discriminate E|]. destruct (list_eq_dec Z.eq_dec tIME tIME); [|congruence].
  same_place.
Qed.
Lemma starts_tiff d : starts_with [73; 73; 42; 0] d || starts_with [77; 77; 0; 42] d = tiff d.
Proof.
  unfold starts_with, tiff, zlist_eqb. change (length [73; 73; 42; 0]) with 4%nat. change (length [77; 77; 0; 42]) with 4%nat.
  destruct (list_eq_dec _ (firstn 4 d) [73; 73; 42; 0]); [reflexivity|]. destruct (list_eq_dec _ (firstn 4 d) [77; 77; 0; 42]); reflexivity.
Qed.
Lemma with_meta_same s : with_meta (mdata s) s = s.
Proof. destruct s. reflexivity. Qed.
Lemma exif_ok s k R : ahead s (c_data k ++ R) -> c_name k = eXIf -> Z.of_nat (length (c_data k)) <= peek_cap -> (strict (opts s) = true -> tiff (c_data k) = true) ->
  parse_exif (length (c_data k)) s = Ok (advance (with_meta (note k (mdata s)) s) (length (c_data k) + 4)).
Proof.
  intros A N C ST. unfold parse_exif. rewrite (must_peek_ok s _ _ _ A eq_refl C). cbn [bind]. rewrite starts_tiff. unfold note. rewrite N.
  destruct (list_eq_dec Z.eq_dec eXIf gAMA) as [E|_]; [discriminate E|]. destruct (list_eq_dec Z.eq_dec eXIf tIME) as [E|_]; [discriminate E|]. destruct (list_eq_dec Z.eq_dec eXIf eXIf) as [_|E]; [|congruence].
  destruct (tiff (c_data k)); cbn [negb].
  - rewrite skip_to_ok. reflexivity.
  - destruct (strict (opts s)); [now specialize (ST eq_refl)|]. rewrite skip_to_ok, with_meta_same. reflexivity.
Qed.
Ltac pick := repeat match goal with |- context [list_eq_dec Z.eq_dec ?a ?b] => destruct (list_eq_dec Z.eq_dec a b) as [HHE|HHE]; [try discriminate HHE|try (exfalso; apply HHE; reflexivity)]; clear HHE end.
Lemma text_ok s k R : ahead s (c_data k ++ R) -> c_name k = tEXt -> Z.of_nat (length (c_data k)) <= peek_cap ->
  parse_text (length (c_data k)) s = Ok (advance (with_meta (note k (mdata s)) s) (length (c_data k) + 4)).
Proof.
  intros A N C. unfold parse_text. rewrite (keyword_ok s _ _ A). cbn [bind]. unfold note. rewrite N. pick.
  destruct (small_word (c_data k)) as [[w t]|] eqn:E; cbn [option_map fst]; [|rewrite skip_to_ok, with_meta_same; reflexivity].
  apply small_word_inv in E. destruct E as [E L]. rewrite E in *. rewrite skip_to_ok. cbn [bind].
  assert (A1 : ahead (advance s (length w + 1)) (t ++ R)).
  { apply (ahead_advance_n s (w ++ [0])); [|rewrite app_length; reflexivity]. rewrite <- !app_assoc in *. exact A. }
  rewrite app_length in *. cbn [length] in *. rewrite (must_peek_ok _ (length w + S (length t) - length w - 1) t R A1 ltac:(lia) ltac:(lia)). cbn [bind].
  rewrite skip_to_ok. change (mdata (advance s (length w + 1))) with (mdata s).
  match goal with |- Ok (advance (with_meta ?q _) _) = _ => change (with_meta q (advance s (length w + 1))) with (advance (with_meta q s) (length w + 1)) end.
  rewrite advance_advance. do 2 f_equal. lia.
Qed.
Lemma itxt_ok s k R : ahead s (c_data k ++ R) -> c_name k = iTXt -> Z.of_nat (length (c_data k)) <= peek_cap ->
  (forall w t, split0 (c_data k) = Some (w, t) -> (4 <= length t)%nat) ->
  parse_itxt (length (c_data k)) s = Ok (advance (with_meta (note k (mdata s)) s) (length (c_data k) + 4)).
Proof.
  intros A N C F. unfold parse_itxt. rewrite (keyword_ok s _ _ A). cbn [bind]. unfold note. rewrite N. pick.
  destruct (small_word (c_data k)) as [[w t]|] eqn:E; cbn [option_map fst]; [|rewrite skip_to_ok, with_meta_same; reflexivity].
  assert (L4 : (4 <= length t)%nat).
  { unfold small_word in E. destruct (split0 (c_data k)) as [[w' t']|] eqn:E'; [|discriminate]. destruct (length w' <? 79)%nat; [|discriminate]. injection E as <- <-. now apply (F w'). }
  apply small_word_inv in E. destruct E as [E L]. rewrite E in *. rewrite skip_to_ok. cbn [bind].
  assert (A1 : ahead (advance s (length w + 5)) (skipn 4 t ++ R)).
  { apply (ahead_advance_n s (w ++ 0 :: firstn 4 t)); [|rewrite app_length; cbn [length]; rewrite firstn_length; lia].
    rewrite <- !app_assoc in *. cbn [app] in *. rewrite (app_assoc (firstn 4 t)), firstn_skipn. exact A. }
  rewrite app_length in *. cbn [length] in *. rewrite (must_peek_ok _ (length w + S (length t) - (length w + 5)) (skipn 4 t) R A1 ltac:(rewrite skipn_length; lia) ltac:(lia)). cbn [bind].
  rewrite skip_to_ok. change (mdata (advance s (length w + 5))) with (mdata s).
  match goal with |- Ok (advance (with_meta ?q _) _) = _ => change (with_meta q (advance s (length w + 5))) with (advance (with_meta q s) (length w + 5)) end.
  rewrite advance_advance. do 2 f_equal. lia.
Qed.
Lemma packed_word s d R w t : ahead s (d ++ R) -> Z.of_nat (length d) <= peek_cap -> small_word d = Some (w, t) -> (1 <= length t)%nat ->
  skip_to (length w + 1) s = Ok (advance s (length w + 1)) /\
  at_cursor (snd (read_u8 (strm (advance s (length w + 1))))) (advance s (length w + 1)) = advance s (length w + 2) /\
  must_peek (length d - length w - 1 - 1) (advance s (length w + 2)) = Ok (skipn 1 t) /\
  (length w + 2 + (length d - length w - 1 - 1 + 4) = length d + 4)%nat.
Proof.
  intros A C E L1. apply small_word_inv in E. destruct E as [E L]. rewrite E in *. split; [apply skip_to_ok|].
  destruct t as [|t0 t]; [cbn in L1; lia|]. rewrite <- app_assoc in A. cbn [app] in A.
  assert (A1 : ahead (advance s (length w + 1)) (t0 :: t ++ R)).
  { apply (ahead_advance_n s (w ++ [0])); [|rewrite app_length; reflexivity]. rewrite <- !app_assoc. exact A. }
  destruct (read_u8_ok _ _ _ A1) as [U A2]. split.
  - rewrite U. cbn [snd]. same_place.
  - rewrite app_length in *. cbn [length skipn] in *. split; [|lia].
    apply (must_peek_ok _ _ t R); [|lia|lia]. apply (ahead_advance_n s (w ++ [0; t0])); [|rewrite app_length; reflexivity]. rewrite <- !app_assoc. exact A.
Qed.
Lemma ztxt_ok s k R : ahead s (c_data k ++ R) -> c_name k = zTXt -> Z.of_nat (length (c_data k)) <= peek_cap ->
  (forall w t, split0 (c_data k) = Some (w, t) -> (1 <= length t)%nat /\ terminates (skipn 1 t)) ->
  parse_ztxt huff (length (c_data k)) s = Ok (advance (with_meta (note k (mdata s)) s) (length (c_data k) + 4)).
Proof.
  intros A N C F. unfold parse_ztxt. rewrite (keyword_ok s _ _ A). cbn [bind]. unfold note. rewrite N. pick.
  destruct (small_word (c_data k)) as [[w t]|] eqn:E; cbn [option_map fst]; [|rewrite skip_to_ok, with_meta_same; reflexivity].
  assert (T : (1 <= length t)%nat /\ terminates (skipn 1 t)).
  { unfold small_word in E. destruct (split0 (c_data k)) as [[w' t']|] eqn:E'; [|discriminate]. destruct (length w' <? 79)%nat; [|discriminate]. injection E as <- <-. now apply (F w'). }
  destruct T as [L1 T]. destruct (packed_word s _ R w t A C E L1) as (P1 & P2 & P3 & P4). rewrite P1. cbn [bind]. rewrite P2, P3. cbn [bind].
  change (decode_zlib huff (default_inflate tt) (skipn 1 t)) with (unz (skipn 1 t)). unfold terminates in T.
  destruct (unz (skipn 1 t)) as [v| | |]; try contradiction; rewrite skip_to_ok.
  - change (mdata (advance s (length w + 2))) with (mdata s).
    match goal with |- Ok (advance (with_meta ?q _) _) = _ => change (with_meta q (advance s (length w + 2))) with (advance (with_meta q s) (length w + 2)) end.
    rewrite advance_advance, P4. reflexivity.
  - rewrite advance_advance, P4, with_meta_same. reflexivity.
Qed.
Lemma iccp_ok s k R : ahead s (c_data k ++ R) -> c_name k = iCCP -> Z.of_nat (length (c_data k)) <= peek_cap ->
  (forall w t, split0 (c_data k) = Some (w, t) -> (1 <= length t)%nat /\ terminates (skipn 1 t)) ->
  parse_iccp huff (length (c_data k)) s = Ok (advance (with_meta (note k (mdata s)) s) (length (c_data k) + 4)).
Proof.
  intros A N C F. unfold parse_iccp. rewrite (keyword_ok s _ _ A). cbn [bind]. unfold note. rewrite N. pick.
  destruct (small_word (c_data k)) as [[w t]|] eqn:E; cbn [option_map fst]; [|rewrite skip_to_ok, with_meta_same; reflexivity].
  assert (T : (1 <= length t)%nat /\ terminates (skipn 1 t)).
  { unfold small_word in E. destruct (split0 (c_data k)) as [[w' t']|] eqn:E'; [|discriminate]. destruct (length w' <? 79)%nat; [|discriminate]. injection E as <- <-. now apply (F w'). }
  destruct T as [L1 T]. destruct (packed_word s _ R w t A C E L1) as (P1 & P2 & P3 & P4). rewrite P1. cbn [bind]. rewrite P2, P3. cbn [bind].
  change (decode_zlib huff (default_inflate tt) (skipn 1 t)) with (unz (skipn 1 t)). unfold terminates in T.
  destruct (unz (skipn 1 t)) as [v| | |]; try contradiction; rewrite skip_to_ok.
  - change (mdata (advance s (length w + 2))) with (mdata s).
    match goal with |- Ok (advance (with_meta ?q _) _) = _ => change (with_meta q (advance s (length w + 2))) with (advance (with_meta q s) (length w + 2)) end.
    rewrite advance_advance, P4. reflexivity.
  - rewrite advance_advance, P4, with_meta_same. reflexivity.
Qed.
Lemma lower_bit z : 97 <= z <= 122 -> (Z.land z 32 =? 0) = false.
Proof.
  intros H. assert (S : forallb (fun z => negb (Z.land z 32 =? 0)) (map (fun i => 97 + Z.of_nat i) (seq 0 26)) = true) by (vm_compute; reflexivity).
  rewrite forallb_forall in S. specialize (S z). apply negb_true_iff. apply S. apply in_map_iff. exists (Z.to_nat (z - 97)). split; [lia|]. apply in_seq. lia.
Qed.
Lemma zlist_neq a b : a <> b -> zlist_eqb a b = false.
Proof. intros H. unfold zlist_eqb. destruct (list_eq_dec _ _ _); [contradiction|reflexivity]. Qed.
Lemma lower_not z n : 97 <= nth 0 n 0 <= 122 -> nth 0 z 0 < 97 -> n <> z.
Proof. intros H H' ->. lia. Qed.

Variable anim : nat -> list Z -> png -> res png.
Ltac names := repeat match goal with |- context [zlist_eqb ?a ?b] => let v := eval vm_compute in (zlist_eqb a b) in change (zlist_eqb a b) with v end.
Lemma note_step s k R i : ahead s (c_data k ++ c_sum k ++ R) -> chunk_ok k -> note_ok (strict (opts s)) k -> hdr s = Some i ->
  parse_header huff anim (length (c_data k)) (c_name k) s = Ok (advance (with_meta (note k (mdata s)) s) (length (c_data k) + 4)).
Proof.
  intros A (Ln & Ls & _) (An & G & T & C & X & IT & Z) Hh. unfold parse_header.
  assert (HH : forall m n, hdr (advance (with_meta m s) n) = Some i) by (intros; exact Hh).
  destruct An as (Lo & Nt & Na & Nf).
  destruct (list_eq_dec Z.eq_dec (c_name k) gAMA) as [N|Ng].
  { rewrite N, (G N). names. cbv iota. change (false || false) with false. rewrite (gama_ok s k _ _ A Ls N (G N)). cbn [bind]. rewrite HH. reflexivity. }
  destruct (list_eq_dec Z.eq_dec (c_name k) tIME) as [N|Nti].
  { rewrite N, (T N). names. cbv iota. change (false || false) with false. cbv iota. rewrite (time_ok s k _ _ A Ls N (T N)). cbn [bind]. rewrite HH. reflexivity. }
  destruct (list_eq_dec Z.eq_dec (c_name k) eXIf) as [N|Ne].
  { rewrite N. names. cbv iota. change (false || false) with false. cbv iota. rewrite (exif_ok s k _ A N (C ltac:(rewrite N; cbn; tauto)) (X N)). cbn [bind]. rewrite HH. reflexivity. }
  destruct (list_eq_dec Z.eq_dec (c_name k) iCCP) as [N|Ni].
  { rewrite N. names. cbv iota. change (false || false) with false. cbv iota. rewrite (iccp_ok s k _ A N (C ltac:(rewrite N; cbn; tauto)) (Z ltac:(rewrite N; cbn; tauto))). cbn [bind]. rewrite HH. reflexivity. }
  destruct (list_eq_dec Z.eq_dec (c_name k) iTXt) as [N|Nit].
  { rewrite N. names. cbv iota. change (false || false) with false. cbv iota. rewrite (itxt_ok s k _ A N (C ltac:(rewrite N; cbn; tauto)) (IT N)). cbn [bind]. rewrite HH. reflexivity. }
  destruct (list_eq_dec Z.eq_dec (c_name k) zTXt) as [N|Nz].
  { rewrite N. names. cbv iota. change (false || false) with false. cbv iota. rewrite (ztxt_ok s k _ A N (C ltac:(rewrite N; cbn; tauto)) (Z ltac:(rewrite N; cbn; tauto))). cbn [bind]. rewrite HH. reflexivity. }
  destruct (list_eq_dec Z.eq_dec (c_name k) tEXt) as [N|Nte].
  { rewrite N. names. cbv iota. change (false || false) with false. cbv iota. rewrite (text_ok s k _ A N (C ltac:(rewrite N; cbn; tauto))). cbn [bind]. rewrite HH. reflexivity. }
  rewrite !zlist_neq; try assumption; try (apply lower_not; [exact Lo|vm_compute; reflexivity]).
  cbn [orb]. unfold parse_unknown, getz. rewrite lower_bit by exact Lo. rewrite skip_to_ok. cbn [bind].
  replace (note k (mdata s)) with (mdata s).
  - rewrite with_meta_same. change (hdr (advance s (length (c_data k) + 4))) with (hdr s). rewrite Hh. reflexivity.
  - unfold note. repeat (match goal with |- context [list_eq_dec Z.eq_dec (c_name k) ?b] => destruct (list_eq_dec Z.eq_dec (c_name k) b); [congruence|] end).
    destruct (small_word (c_data k)) as [[w t]|]; reflexivity.
Qed.
End Notes.
