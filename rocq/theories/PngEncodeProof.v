From Verif Require Import Base BaseProof Loops Slices BitReaderProof StreamModel CrcModel CrcSpec CrcProof PngFilterModel PngFilterSpec PngFilterProof PngFilterProps
  InflateModel InflateSpec StoredProof InflateProps PngRowModel PngModel PngSpec PngFileSpec PngRowProof PngLoopProof PngInterProof PngChunkProof PngNoteProof PngFileProof PngDecodeProof.

(** * The encoder writes a file laid out as the specification wants *)
Definition chunk_of (name data : list Z) : chunk := mkChunk name data (be_bytes 4 (crc32 (name ++ data))).
Lemma crc32_range data : bytes data -> 0 <= crc32 data < 2 ^ 32.
Proof. intros B. unfold crc32. rewrite <- compl32 by (apply crc_run_bound; auto; lia). pose proof (crc_run_bound data (2 ^ 32 - 1) ltac:(lia) B). lia. Qed.
Lemma chunk_of_ok name data : length name = 4%nat -> bytes name -> bytes data -> Z.of_nat (length data) < 2 ^ 31 -> chunk_ok (chunk_of name data) /\ sum_ok (chunk_of name data).
Proof.
  intros L Bn Bd Ld. unfold chunk_ok, sum_ok, chunk_of. cbn [c_name c_data c_sum]. rewrite be_bytes_length. split.
  - repeat split; auto. apply be_bytes_bytes.
  - apply be_val_be_bytes. change (256 ^ Z.of_nat 4) with (2 ^ 32). apply crc32_range. now apply bytes_app.
Qed.
Lemma write_header_ok name data : bytes name -> bytes data -> write_header name data = Ok (chunk_bytes (chunk_of name data)).
Proof. intros Bn Bd. unfold write_header. rewrite png_crc_is_crc32 by now apply bytes_app. reflexivity. Qed.
Lemma write_chunk_ok name data : bytes name -> bytes data -> write_chunk name data = Ok (chunk_bytes (chunk_of name data)).
Proof.
  intros Bn Bd. unfold write_chunk. destruct (png_crc_split name data (2 ^ 32 - 1) Bn Bd) as (s1 & s2 & E1 & E2 & _ & _ & E); [unfold is_u32; lia|].
  rewrite E1. cbn [bind]. rewrite E2. cbn [bind]. unfold chunk_bytes, chunk_of. cbn [c_name c_data c_sum]. do 5 f_equal.
  unfold crc32. rewrite E. apply compl32. apply crc_run_bound; [lia|now apply bytes_app].
Qed.
Lemma write_idats_ok cs : Forall bytes cs -> write_idats cs = Ok (concat (map chunk_bytes (map (chunk_of IDAT) cs))).
Proof.
  induction 1 as [|c cs B H IH]; [reflexivity|]. cbn [write_idats map concat]. change n_IDAT with IDAT. rewrite write_chunk_ok; [|lit_bytes|exact B]. cbn [bind]. rewrite IH. reflexivity.
Qed.

(** ** Splitting into pieces *)
Lemma chunks_aux_ok {A} n : (0 < n)%nat -> forall fuel (l : list A), (length l <= fuel)%nat ->
  concat (chunks_aux fuel n l) = l /\ Forall (fun c => (length c <= n)%nat) (chunks_aux fuel n l).
Proof.
  intros N. induction fuel as [|fuel IH]; intros l L; [destruct l; [split; [reflexivity|constructor]|cbn in L; lia]|].
  cbn [chunks_aux]. destruct l as [|x l]; [split; [reflexivity|constructor]|].
  destruct (IH (skipn n (x :: l))) as [C F]. { rewrite skipn_length. cbn [length] in *. lia. }
  cbn [concat]. rewrite C, firstn_skipn. split; [reflexivity|]. constructor; [rewrite firstn_length; lia|exact F].
Qed.
Lemma chunks_ok {A} n (l : list A) : (0 < n)%nat -> concat (chunks n l) = l /\ Forall (fun c => (length c <= n)%nat) (chunks n l).
Proof. intros N. unfold chunks. destruct n; [lia|]. apply chunks_aux_ok; lia. Qed.
Lemma concat_bytes_inv ls : bytes (concat ls) -> Forall bytes ls.
Proof. induction ls as [|l ls IH]; [constructor|]. cbn [concat]. intros H. apply bytes_app in H. constructor; tauto. Qed.

(** ** Filtering *)
Fixpoint up_rows (first : bool) (rs : list (list Z)) : list (filter * list Z) :=
  match rs with [] => [] | r :: rs' => (if first then FNone else FUp, r) :: up_rows false rs' end.
Lemma up_rows_snd rs : forall b, map snd (up_rows b rs) = rs.
Proof. induction rs as [|r rs IH]; intros b; [reflexivity|]. cbn [up_rows map snd]. now rewrite IH. Qed.
Lemma filter_none bpp prev row : bytes row -> filter_row FNone bpp prev row = row.
Proof.
  intros B. unfold filter_row. apply (list_eq_nth 0); [now rewrite map_length, seq_length|]. rewrite map_length, seq_length. intros i Hi.
  rewrite (map_nth_in _ _ _ 0%nat) by (rewrite seq_length; lia). rewrite seq_nth by lia. cbn [Nat.add predict]. rewrite Z.sub_0_r. apply Z.mod_small.
  unfold bytes in B. rewrite Forall_forall in B. apply B. now apply nth_In.
Qed.
Lemma row_slice (pre : list (list Z)) row post size : Forall (fun r => length r = size) pre -> length row = size ->
  get_slice (concat (pre ++ row :: post)) (length pre * size) size = Ok row.
Proof.
  intros F L. rewrite concat_app. cbn [concat]. pose proof (concat_length_const size pre F) as LP. rewrite get_slice_ok by (rewrite !app_length, LP; lia).
  f_equal. rewrite <- LP, <- L. apply slice_app_exact.
Qed.
Lemma filter_rows_ok size bpp : (0 < size)%nat -> forall post pre, Forall (fun r => length r = size) pre -> Forall (fun r => length r = size) post -> Forall bytes post ->
  filter_rows size (length post) (length pre) (concat (pre ++ post)) =
  Ok (concat (scanlines bpp (last pre []) (up_rows (length pre =? 0)%nat post))).
Proof.
  intros Sp. induction post as [|r post IH]; intros pre Fp Fq B; [reflexivity|]. inversion Fq as [|? ? Lr Fq']; subst. inversion B as [|? ? Br B']; subst.
  cbn [length filter_rows]. rewrite row_slice by auto. cbn [bind].
  assert (E : (do row <- (if (length pre =? 0)%nat then Ok (0 :: r) else
      do prev <- get_slice (concat (pre ++ r :: post)) ((length pre - 1) * length r) (length r) ;
      Ok (if (length prev =? 0)%nat then 0 :: r else 2 :: up_filter r prev (repeat 0 (length r)))) ; Ok row) =
     Ok (filter_code (if (length pre =? 0)%nat then FNone else FUp) :: filter_row (if (length pre =? 0)%nat then FNone else FUp) bpp (last pre []) r)).
  { destruct (Nat.eqb_spec (length pre) 0) as [Z0|NZ]; cbn [bind].
    - rewrite filter_none by exact Br. reflexivity.
    - destruct (exists_last (l := pre)) as (pre' & p & ->); [intros ->; now apply NZ|]. apply Forall_app in Fp. destruct Fp as [Fp' Fl]. inversion Fl as [|? ? Lp _]; subst.
      rewrite last_last, <- app_assoc. cbn [app]. rewrite app_length. cbn [length]. replace (length pre' + 1 - 1)%nat with (length pre') by lia.
      rewrite row_slice by (auto; congruence). cbn [bind]. rewrite Lp. replace (length r =? 0)%nat with false by lia. cbn [bind filter_code].
      rewrite (up_filter_ok bpp); [reflexivity|congruence|now rewrite repeat_length]. }
  destruct (if (length pre =? 0)%nat then _ else _) as [row| | |] in E |- *; cbn [bind] in E |- *; try discriminate. injection E as ->.
  specialize (IH (pre ++ [r])). rewrite app_length in IH. cbn [length] in IH. replace (length pre + 1)%nat with (S (length pre)) in IH by lia.
  rewrite <- app_assoc in IH. cbn [app] in IH. rewrite IH; auto.
  2:{ apply Forall_app. split; [exact Fp|]. constructor; [reflexivity|constructor]. }
  cbn [bind up_rows scanlines concat]. rewrite last_last. reflexivity.
Qed.
Lemma scanlines_length bpp n rows : forall prev, Forall (fun r => length (snd r) = n) rows -> length (concat (scanlines bpp prev rows)) = (length rows * (n + 1))%nat.
Proof.
  induction rows as [|[t r] rows IH]; intros prev F; [reflexivity|]. inversion F as [|? ? L F']; subst. cbn [snd] in *. cbn [scanlines concat length].
  rewrite app_length, (IH r F'). cbn [length]. unfold filter_row. rewrite map_length, seq_length. lia.
Qed.
Lemma scanlines_bytes bpp rows : forall prev, bytes (concat (scanlines bpp prev rows)).
Proof.
  induction rows as [|[t r] rows IH]; intros prev; [constructor|]. cbn [scanlines concat]. apply bytes_app. split; [|apply IH]. constructor.
  - destruct t; cbn; unfold is_byte; lia.
  - apply Forall_forall. intros z Hz. unfold filter_row in Hz. apply in_map_iff in Hz. destruct Hz as (i & <- & _). apply Z.mod_pos_bound. lia.
Qed.

Lemma ihdr_data_bytes m : image_ok m -> bytes (ihdr_data m).
Proof.
  intros (_ & _ & T & _). unfold ihdr_data. apply bytes_app. split; [apply be_bytes_bytes|]. apply bytes_app. split; [apply be_bytes_bytes|].
  apply type_cases in T. assert (is_byte (Z.of_nat (m_depth m)) /\ is_byte (m_type m)) as [X Y].
  { unfold is_byte. destruct T as [[-> T]|[[-> T]|[[-> T]|[[-> T]|[-> T]]]]]; cbn [In] in T; (split; [|lia]); repeat (destruct T as [<-|T]; [lia|]); destruct T. }
  repeat (apply Forall_cons; [first [assumption|unfold is_byte; lia|destruct (m_adam7 m); unfold is_byte; lia]|]). constructor.
Qed.

Section Encode.
Variables (e : eopts) (c : color) (data : list Z).
Hypothesis (Ec : e_color e = Some c) (Np : c <> CPalette) (Ek : e_comps e = color_comps c) (Eb : In (e_bytes e) [1; 2]%nat).
Hypothesis (Ew : 0 < Z.of_nat (e_w e) < 2 ^ 31) (Eh : 0 < Z.of_nat (e_h e) < 2 ^ 31).
Hypothesis (Bd : bytes data) (Ld : length data = (e_w e * e_h e * (e_comps e * e_bytes e))%nat) (Mem : Z.of_nat (length data) < 2 ^ 64).
Definition enc_image : image := mkImage (e_w e) (e_h e) (8 * e_bytes e) (color_int c) false None None.
Lemma enc_image_ok : image_ok enc_image.
Proof.
  unfold image_ok, enc_image. cbn [m_w m_h m_depth m_type m_pal m_trns].
  repeat split; try lia; try (destruct c; cbn; congruence).
  destruct Eb as [<-|[<-|[]]]; destruct c; cbn; tauto.
Qed.
Definition row_size : nat := (e_w e * e_bytes e * e_comps e)%nat.
Definition rows : list (list Z) := chunks_exact row_size data.
Lemma comps_pos : (0 < e_comps e)%nat. Proof. rewrite Ek. destruct c; cbn; lia. Qed.
Lemma bytes_pos : (0 < e_bytes e)%nat. Proof. destruct Eb as [<-|[<-|[]]]; lia. Qed.
Lemma row_size_pos : (0 < row_size)%nat.
Proof. pose proof comps_pos. pose proof bytes_pos. unfold row_size. apply Nat.mul_pos_pos; [apply Nat.mul_pos_pos|]; lia. Qed.
Lemma data_size : length data = (e_h e * row_size)%nat.
Proof. rewrite Ld. unfold row_size. lia. Qed.
Lemma rows_facts : concat rows = data /\ Forall (fun r => length r = row_size) rows /\ length rows = e_h e /\ Forall bytes rows.
Proof.
  pose proof row_size_pos as P. pose proof data_size as S. unfold rows.
  assert (C : concat (chunks_exact row_size data) = data) by (apply chunks_exact_concat; [exact P|rewrite S; apply Nat.mod_mul; lia]).
  repeat split.
  - exact C.
  - apply chunks_exact_lengths.
  - rewrite chunks_exact_length by exact P. rewrite S. apply Nat.div_mul. lia.
  - apply concat_bytes_inv. now rewrite C.
Qed.
Definition pix_at_enc (y x : nat) : list Z := samples (8 * e_bytes e) (e_comps e) (nth y rows []) x.
Definition scan : list Z := filtered (filter_step (8 * e_bytes e) (e_comps e)) (up_rows true rows).
Lemma row_bytes_enc : row_bytes (8 * e_bytes e) (e_comps e) (e_w e) = row_size.
Proof.
  unfold row_bytes, row_size. replace (e_w e * e_comps e * (8 * e_bytes e))%nat with ((e_w e * e_bytes e * e_comps e) * 8)%nat by lia.
  rewrite Nat.div_add_l by lia. change (7 / 8)%nat with 0%nat. lia.
Qed.
Lemma coded_enc : coded false (8 * e_bytes e) (e_comps e) (e_w e) (e_h e) pix_at_enc scan.
Proof.
  destruct rows_facts as (_ & F & L & B). exists (up_rows true rows), []. rewrite app_nil_r. split; [|reflexivity]. rewrite up_rows_snd.
  split; [exact L|]. split; [exact B|]. split; [|reflexivity]. rewrite row_bytes_enc. exact F.
Qed.
Lemma row_back row : length row = row_size -> bytes row ->
  concat (map (fun x => concat (map (full (8 * e_bytes e)) (samples (8 * e_bytes e) (e_comps e) row x))) (seq 0 (e_w e))) = row.
Proof.
  intros L B. pose proof comps_pos as CP. unfold row_size in L.
  destruct Eb as [E|[E|[]]]; rewrite <- E in *; change (8 * 1)%nat with 8%nat; change (8 * 2)%nat with 16%nat.
  - rewrite (concat_ext _ (fun i => slice row (i * e_comps e) (e_comps e))); [apply concat_slices; lia|]. intros i Hi. apply (pixel8 _ _ (e_w e)); auto; lia.
  - rewrite (concat_ext _ (fun i => slice row (i * (2 * e_comps e)) (2 * e_comps e))); [apply concat_slices; lia|]. intros i Hi. apply (pixel16 _ _ (e_w e)); auto; lia.
Qed.
Lemma picture_enc : picture (image_look false enc_image) (e_w e) (e_h e) pix_at_enc = data.
Proof.
  destruct rows_facts as (C & F & L & B). transitivity (concat rows); [|exact C]. unfold picture. f_equal.
  apply (list_eq_nth []); [rewrite map_length, seq_length; auto|]. rewrite map_length, seq_length. intros y Hy.
  rewrite (map_nth_in _ _ _ 0%nat) by (rewrite seq_length; lia). rewrite seq_nth by lia. cbn [Nat.add].
  assert (I : In (nth y rows []) rows) by (apply nth_In; lia). rewrite Forall_forall in F, B.
  transitivity (concat (map (fun x => concat (map (full (8 * e_bytes e)) (samples (8 * e_bytes e) (e_comps e) (nth y rows []) x))) (seq 0 (e_w e)))); [|apply row_back; auto]. apply concat_ext. intros x Hx. unfold show, image_look, enc_image, pix_at_enc. cbn [m_type m_depth m_pal m_trns l_pal l_key l_add l_depth option_map].
  destruct c; try congruence; cbn [color_int Z.eqb Pos.eqb andb]; rewrite ?app_nil_r; reflexivity.
Qed.

Variable exf : option (list Z).
Hypothesis (Xb : match exf with Some b => bytes b /\ Z.of_nat (length b) < 2 ^ 31 | None => True end).
Definition exif_chunks : list chunk := match exf with Some b => [chunk_of eXIf b] | None => [] end.
Definition file_chunks (z : list Z) : list chunk :=
  chunk_of IHDR (ihdr_data enc_image) :: exif_chunks ++ map (chunk_of IDAT) (chunks (Z.to_nat 8192) z) ++ [chunk_of IEND []].
Lemma ihdr_enc : ihdr_bytes e = Ok (ihdr_data enc_image).
Proof.
  unfold ihdr_bytes, ihdr_data. rewrite Ec. cbn [enc_image m_w m_h m_depth m_type m_adam7]. unfold u32.
  assert (2 ^ 31 < 2 ^ 32) by lia. rewrite !Z.mod_small by lia. destruct c; congruence.
Qed.
Lemma encode_ok : exists z, encode_zlib scan = Ok z /\ bytes z /\ encode e exf data = Ok (file_bytes (file_chunks z) []).
Proof.
  destruct rows_facts as (C & F & L & B).
  destruct (zlib_encoder_format scan) as (bs & Ez & St & _). set (z := [120; 1] ++ bs ++ be_bytes 4 (adler32 scan)) in *. exists z.
  assert (Bz : bytes z). { unfold z. apply bytes_app. split; [lit_bytes|]. apply bytes_app. split; [|apply be_bytes_bytes]. eapply stored_bytes; [exact St|]. apply scanlines_bytes. }
  split; [exact Ez|]. split; [exact Bz|]. unfold encode. replace (e_h e =? 0)%nat with false by lia.
  assert (P : Z.of_nat (e_w e) * Z.of_nat (e_h e) * Z.of_nat (e_bytes e) * Z.of_nat (e_comps e) = Z.of_nat (length data)) by (rewrite Ld; lia).
  rewrite P. replace (2 ^ 64 <=? Z.of_nat (length data)) with false by (symmetry; apply Z.leb_gt; exact Mem).
  replace (e_w e * e_h e * e_bytes e * e_comps e)%nat with (length data) by (rewrite Ld; lia). rewrite Nat.eqb_refl. cbn [negb].
  rewrite ihdr_enc. cbn [bind]. change n_IHDR with IHDR. rewrite write_header_ok by (first [lit_bytes|apply ihdr_data_bytes, enc_image_ok]). cbn [bind].
  assert (X : match exf with Some b => write_header n_eXIf b | None => Ok [] end = Ok (concat (map chunk_bytes exif_chunks))).
  { unfold exif_chunks. destruct exf as [b|]; [|reflexivity]. change n_eXIf with eXIf. rewrite write_header_ok by (first [lit_bytes|apply Xb]). cbn [map concat]. now rewrite app_nil_r. }
  rewrite X. cbn [bind]. fold row_size.
  pose proof (filter_rows_ok row_size (filter_step (8 * e_bytes e) (e_comps e)) row_size_pos rows [] (Forall_nil _) F B) as FR. cbn [length app last Nat.eqb] in FR. rewrite L, C in FR.
  rewrite FR. cbn [bind]. change (concat (scanlines (filter_step (8 * e_bytes e) (e_comps e)) [] (up_rows true rows))) with scan. rewrite Ez. cbn [bind].
  rewrite write_idats_ok. 2:{ apply concat_bytes_inv. rewrite (proj1 (chunks_ok (Z.to_nat 8192) z ltac:(lia))). exact Bz. }
  cbn [bind]. change n_IEND with IEND. rewrite write_header_ok by lit_bytes. cbn [bind]. f_equal. unfold file_bytes, file_chunks. cbn [map concat].
  rewrite !map_app, !concat_app. cbn [map concat]. rewrite !app_nil_r. reflexivity.
Qed.
Lemma file_chunks_fine z : bytes z -> Forall (fun k => chunk_ok k /\ sum_ok k) (file_chunks z).
Proof.
  intros Bz. unfold file_chunks. constructor.
  { apply chunk_of_ok; [reflexivity|lit_bytes|apply ihdr_data_bytes, enc_image_ok|]. unfold ihdr_data. rewrite !app_length, !be_bytes_length. cbn [length]. lia. }
  apply Forall_app. split. { unfold exif_chunks. destruct exf; [|constructor]. constructor; [|constructor]. apply chunk_of_ok; [reflexivity|lit_bytes|apply Xb..]. }
  destruct (chunks_ok (Z.to_nat 8192) z ltac:(lia)) as [Cz Fz]. rewrite <- Cz in Bz. apply concat_bytes_inv in Bz.
  apply Forall_app. split.
  - apply Forall_map. rewrite Forall_forall in *. intros k Hk. specialize (Fz k Hk). apply chunk_of_ok; [reflexivity|lit_bytes|auto|lia].
  - constructor; [|constructor]. apply chunk_of_ok; [reflexivity|lit_bytes|constructor|cbn [length]; lia].
Qed.
Lemma file_chunks_lay (ok : chunk -> Prop) z : bytes z -> Forall ok exif_chunks -> lays_out ok enc_image z exif_chunks (file_chunks z).
Proof.
  intros Bz Fo. exists (chunk_of IHDR (ihdr_data enc_image)), exif_chunks, [], [], [], [], (map (chunk_of IDAT) (chunks (Z.to_nat 8192) z)), [], (chunk_of IEND []).
  split; [reflexivity|]. split; [now rewrite !app_nil_r|]. split; [exact Fo|].
  split. { eapply Forall_impl; [|apply file_chunks_fine; exact Bz]. cbn. tauto. }
  split; [split; reflexivity|]. split; [reflexivity|]. split; [reflexivity|]. split; [apply Forall_map, Forall_forall; reflexivity|].
  split; [|split; reflexivity]. rewrite map_map. cbn [chunk_of c_data]. rewrite map_id. apply chunks_ok. lia.
Qed.
End Encode.
