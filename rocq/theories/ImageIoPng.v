(** The state of the PNG decoder after the headers of a file written by the encoder. *)
From Verif Require Import Base BaseProof Loops Slices StreamModel CrcModel CrcSpec PngFilterModel PngFilterSpec BitReaderProof
  InflateModel InflateSpec StoredProof InflateProps PngRowModel PngModel PngSpec PngFileSpec PngRowProof PngLoopProof PngInterProof PngChunkProof PngNoteProof PngFileProof
  PngDecodeProof PngHeaderProof PngEncodeProof PngProps.

Lemma decode_after_headers huff anim s0 s : decode_headers huff anim s0 = Ok s -> p_headers s0 = false -> p_headers s = true -> p_iend s = true ->
  decode huff anim s = decode huff anim s0.
Proof. intros E H0 H1 H2. unfold decode. rewrite H0, H1, H2. cbn [negb orb]. rewrite E. reflexivity. Qed.
Lemma png_saved huff anim e c data o : encodable e c data ->
  (e_w e <= o_max_w o)%nat -> (e_h e <= o_max_h o)%nat -> o_alpha o = false -> o_strip o = false ->
  exists r s s2, encode e None data = Ok ([137; 80; 78; 71; 13; 10; 26; 10] ++ r) /\ (2 <= length r)%nat /\
    decode_headers huff anim (new_png o ([137; 80; 78; 71; 13; 10; 26; 10] ++ r)) = Ok s /\
    hdr s = Some (mkInfo (e_w e) (e_h e) (8 * e_bytes e) c false) /\
    out_comps (pix_of (mkInfo (e_w e) (e_h e) (8 * e_bytes e) c false) s) = color_comps c /\
    decode huff anim s = Ok (if (e_bytes e =? 2)%nat then U16s (pairs data) else U8s data, s2).
Proof.
  intros Enc. pose proof Enc as Enc'. revert Enc.
  intros (Ec & Np & Ek & Eb & Ew & Eh & Bd & Ld & Mem) Lw Lh Al St. set (exf := @None (list Z)). assert (Hx : match exf with Some b => bytes b /\ Z.of_nat (length b) + 4 <= peek_cap /\ tiff b = true | None => True end) by exact I.
  assert (Cap : peek_cap < 2 ^ 31) by (unfold peek_cap; lia).
  assert (Xb : match exf with Some b => bytes b /\ Z.of_nat (length b) < 2 ^ 31 | None => True end) by (destruct exf as [b|]; [|exact I]; destruct Hx as (X & Y & _); split; [exact X|lia]).
  destruct (encode_ok e c data Ec Np Ek Eb Ew Eh Bd Ld Mem exf Xb) as (z & Ez & Bz & E).
  set (m := enc_image e c) in *.
  assert (Im : image_ok m) by (unfold m; eapply enc_image_ok; eauto).
  assert (D16 : (m_depth m =? 16)%nat = (e_bytes e =? 2)%nat) by (cbn [m enc_image m_depth]; clear -Eb; destruct Eb as [<-|[<-|[]]]; reflexivity).
  assert (Cc : e_comps e = type_comps (m_type m)) by (rewrite Ek; clear -Np; cbn [m enc_image m_type]; destruct c; try congruence; reflexivity).
  assert (Co : colour_of m = c) by (clear -Np; unfold colour_of; cbn [m enc_image m_type]; destruct c; try congruence; reflexivity).
  assert (Pl : plain (o_alpha o) m). { rewrite Al. split; [intros N; now contradiction N|reflexivity]. }
  assert (Notes : Forall (note_ok huff (strict o)) (exif_chunks exf)).
  { unfold exif_chunks. destruct exf as [b|]; [|constructor]. destruct Hx as (X & Y & Z0). constructor; [|constructor]. unfold note_ok, chunk_of. cbn [c_name c_data].
    split; [unfold ancillary; cbn; repeat split; try lia; discriminate|]. do 5 (split; [first [discriminate|intros _; lia|auto]|]). intros [N|[N|[]]]; discriminate N. }
  assert (Lay : lays_out (note_ok huff (strict o)) m z (exif_chunks exf) (file_chunks e c exf z)) by (unfold m; eapply file_chunks_lay; eauto).
  assert (Fine0 : Forall (fun k => chunk_ok k /\ sum_ok k) (file_chunks e c exf z)) by (eapply file_chunks_fine; eauto).
  assert (Size : Forall (fun k => Z.of_nat (length (c_data k)) + 4 <= peek_cap) (file_chunks e c exf z)).
  { assert (Small : forall k, (length (c_data k) <= Z.to_nat 8192)%nat -> Z.of_nat (length (c_data k)) + 4 <= peek_cap) by (intros k; unfold peek_cap; lia).
    unfold file_chunks. constructor.
    { apply Small. cbn [chunk_of c_data]. unfold ihdr_data. rewrite !app_length, !be_bytes_length. cbn [length]. lia. }
    apply Forall_app. split. { unfold exif_chunks. destruct exf; [|constructor]. constructor; [|constructor]. cbn [chunk_of c_data]. tauto. }
    apply Forall_app. split. { apply Forall_map. eapply Forall_impl; [|apply (chunks_ok (Z.to_nat 8192) z); lia]. cbn beta. intros k Hk. apply Small. exact Hk. }
    constructor; [|constructor]. apply Small. cbn [chunk_of c_data length]. lia. }
  assert (Fine : Forall (fine o) (file_chunks e c exf z)).
  { rewrite Forall_forall in *. intros k Hk. specialize (Fine0 k Hk). specialize (Size k Hk). unfold fine. tauto. }

  destruct (headers_ok huff anim m o Im Lw Lh z (exif_chunks exf) (file_chunks e c exf z) [] Lay Fine) as (s & Eh' & R & _ & _).
  destruct (png_round_trip huff anim e c data None o Enc' I Lw Lh Al St) as (file & s1 & s2 & E1 & _ & E2 & _).
  unfold exf in E. rewrite E in E1. injection E1 as <-.
  pose proof R as [Ro Rh Rm Rp Rpl Rt Rk Rd Rc Rhd Rie].
  assert (Sp : exists r, file_bytes (file_chunks e c None z) [] = [137; 80; 78; 71; 13; 10; 26; 10] ++ r /\ (2 <= length r)%nat).
  { unfold file_bytes. eexists. split; [reflexivity|]. rewrite app_nil_r. unfold file_chunks. cbn [map concat]. rewrite app_length. unfold chunk_bytes at 1. rewrite !app_length, !be_bytes_length. lia. }
  destruct Sp as (r & Er & Lr). exists r, s, s2. rewrite <- Er. fold exf in E |- *. split; [exact E|]. split; [exact Lr|]. split; [exact Eh'|].
  assert (Ih : info_of m = mkInfo (e_w e) (e_h e) (8 * e_bytes e) c false) by (unfold info_of; rewrite Co; reflexivity).
  rewrite <- Ih. split; [exact Rh|]. split.
  - unfold out_comps, pix_of. cbn [want_alpha seen_trns col]. rewrite Ro, Al, Rt. rewrite Ih. cbn [i_color]. clear -Np. cbn. destruct c; try reflexivity. now contradiction Np.
  - rewrite (decode_after_headers huff anim _ s Eh'); [exact E2|reflexivity|exact Rhd|exact Rie].
Qed.
