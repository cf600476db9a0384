(** Saving a picture and opening the file: C121 (the format is recognised), C122 (the picture comes back), C123 (what
    saving does to alpha). *)
From Verif Require Import Base BaseProof Loops StreamModel DecText F32 DepthModel DepthSpec ChannelModel DeintModel DeintSpec DeintProof DeintProps ColorModel ColorSpec ColorProof ColorProps
  ImageIoModel ImageIoProof ImageIoPng.
From Verif Require QoiModel QoiProof2 QoiProps PngRowModel PngModel PngFileSpec PngProps PpmModel PpmProof PpmProps.

(** ** What is to be saved *)
Definition format_of (f : saver) : format := match f with SQoi => QOI | SPng => PNG | SPpm => PPM | SFarbfeld => Farbfeld end.
(** The colours and the depth each format keeps. What a format has no room for becomes RGB, or RGBA for QOI if there is alpha. *)
Definition kept_space (f : saver) (c : colorspace) : colorspace :=
  match f, c with
  | SFarbfeld, _ => RGBA
  | (SPng | SPpm), Luma => Luma | (SPng | SPpm), LumaA => LumaA | (SPng | SPpm), RGBA => RGBA
  | SQoi, (RGBA | LumaA | BGRA | ARGB) => RGBA
  | _, _ => RGB
  end.
Definition kept_depth (f : saver) (d : depth) : depth :=
  match f, d with SFarbfeld, _ => D16 | (SPng | SPpm), (D16 | D32) => D16 | _, _ => D8 end.
(** A valid picture of a size the formats can express *)
Definition savable (x : picture) : Prop :=
  wf (content x) /\ convertible (cspace (content x)) /\ npx (content x) = (width x * height x)%nat /\
  0 < Z.of_nat (width x) < 2 ^ 31 /\ 0 < Z.of_nat (height x) < 2 ^ 31 /\ Z.of_nat (width x) * Z.of_nat (height x) * 8 < 2 ^ 63.
(** The first byte stored, and the bytes a PPM reader may take for part of the header: space, tab, line ends, '#' *)
Definition first_byte (f : list samples) : Z := match f with S8 (x :: _) :: _ => x | S16 (x :: _) :: _ => x / 256 | _ => 0 end.
Definition header_like (b : Z) : Prop := In b [32; 9; 10; 12; 13; 35].

Section Io.
Variables (p : cpu) (rgb_hsl hsl_rgb rgb_hsv hsv_rgb : triple).
Notation convert_to := (convert_color p rgb_hsl hsl_rgb rgb_hsv hsv_rgb).
Notation save := (write p rgb_hsl hsl_rgb rgb_hsv hsv_rgb).
(** Converting by hand to what the format keeps *)
Definition prepared (f : saver) (i j : image) : Prop :=
  exists i1, convert_to (kept_space f (cspace i)) i = Done i1 /\ to_depth (kept_depth f (idepth i)) i1 = Done j.

Lemma convert_impl_same rec i : convert_impl p rgb_hsl hsl_rgb rgb_hsv hsv_rgb rec (cspace i) i = Done i.
Proof. unfold convert_impl. rewrite (proj2 (colorspace_eqb_eq _ _) eq_refl). reflexivity. Qed.
Lemma convert_same i : wf i -> convertible (cspace i) -> convert_to (cspace i) i = Done i.
Proof. intros W C. exact (execute_ok _ i i C W (convert_impl_same (convert p rgb_hsl hsl_rgb rgb_hsv hsv_rgb 3) i) C W). Qed.
Lemma depth_same i : wf i -> convertible (cspace i) -> to_depth (idepth i) i = Done i.
Proof. intros W C. unfold to_depth. apply execute_ok; try easy. replace (depth_eqb _ _) with true by now destruct (idepth i). reflexivity. Qed.
Lemma confirm_fine i : wf i -> convertible (cspace i) -> confirm i = Ok tt.
Proof. intros W C. pose proof (confirm_wf i C W) as E. unfold checked in E. destruct (confirm i) as [[]| | |]; easy. Qed.
Lemma takes_kept f c : convertible c -> kept_space f c = if takes_space f c then c else default_space f c.
Proof. destruct f, c; easy. Qed.
Lemma takes_kept_depth f d : kept_depth f d = if takes_depth f d then d else default_depth f d.
Proof. destruct f, d; easy. Qed.
Lemma kept_writable f c : convertible c -> writable (kept_space f c) /\ convertible (kept_space f c).
Proof. destruct f, c; easy. Qed.

Lemma prepare f x : savable x -> exists j, prepared f (content x) j /\ wf j /\ cspace j = kept_space f (cspace (content x)) /\
  idepth j = kept_depth f (idepth (content x)) /\ npx j = (width x * height x)%nat /\ save f x = encode_inner f (width x) (height x) j.
Proof.
  intros (W & C & N & _). destruct (kept_writable f _ C) as [_ Ck].
  destruct (conversion_well_formed p rgb_hsl hsl_rgb rgb_hsv hsv_rgb (kept_space f (cspace (content x))) _ W C Ck) as (i1 & E1 & W1 & S1 & D1 & N1 & _).
  assert (C1 : convertible (cspace i1)) by now rewrite S1.
  destruct (to_depth_ok (kept_depth f (idepth (content x))) i1 C1 W1) as [E2 W2]. set (j := set_depth _ _) in *.
  exists j. split; [exists i1; easy|]. split; [exact W2|]. split; [exact S1|]. split; [reflexivity|]. split; [unfold j; cbn; congruence|].
  unfold write. cbv zeta. rewrite (confirm_fine _ W C). cbn [bind].
  assert (Cj : confirm j = Ok tt) by (apply confirm_fine; easy).
  clearbody j. rewrite (takes_kept f _ C) in E1. rewrite (takes_kept_depth f) in E2.
  destruct (takes_space f (cspace (content x))) eqn:Ts.
  - rewrite (convert_same _ W C) in E1. injection E1 as E1.
    destruct (takes_depth f (idepth (content x))) eqn:Td.
    + rewrite <- D1, (depth_same i1 W1 C1) in E2. injection E2 as E2. rewrite E1, E2. cbn [negb orb bind]. rewrite Cj. cbn [bind]. now destruct (premultiplied x).
    + cbn [negb orb bind]. rewrite <- E1 in E2. rewrite E2. cbn [to_res bind]. now rewrite Cj.
  - cbn [negb orb bind]. rewrite E1. cbn [to_res bind].
    destruct (takes_depth f (idepth (content x))) eqn:Td.
    + rewrite <- D1, (depth_same i1 W1 C1) in E2. injection E2 as E2. rewrite E2. cbn [negb orb bind]. now rewrite Cj.
    + cbn [negb orb bind]. rewrite E2. cbn [to_res bind]. now rewrite Cj.
Qed.

Variables (huff : Z -> InflateModel.dstate -> res InflateModel.dstate) (anim : nat -> list Z -> PngModel.png -> res PngModel.png).
Variables (float_ppm : Z -> Z -> PpmModel.cspace -> list Z -> mres (res picture)) (neg_f32 : list Z -> option bool).
Variable other : format -> list Z -> mres (res picture).
Notation open := (read p huff anim float_ppm neg_f32 other).

(** A picture ready for its format *)
Record ready (w h : nat) (j : image) : Prop := mkReady {
  r_wf : wf j; r_cs : writable (cspace j); r_n : npx j = (w * h)%nat; r_d : idepth j <> D32;
  r_w : 0 < Z.of_nat w < 2 ^ 31; r_h : 0 < Z.of_nat h < 2 ^ 31; r_mem : Z.of_nat w * Z.of_nat h * 8 < 2 ^ 63 }.
Definition data (big : bool) (j : image) : list Z := layout_bytes big (idepth j) (px_in (npx j) (hd [] (frames j))).
Lemma data_facts big w h j : ready w h j -> first_frame big j = Ok (data big j) /\ bytes (data big j) /\
  length (data big j) = (w * h * num_components (cspace j) * size_of (idepth j))%nat /\ Z.of_nat (length (data big j)) < 2 ^ 63 /\ (0 < w * h)%nat.
Proof.
  intros [W Cs N D Rw Rh Mem]. assert (P : (0 < npx j)%nat) by nia.
  destruct (frame_laid big (cspace j) (idepth j) (npx j) (hd [] (frames j)) Cs P D (hd_wf j W)) as (_ & L & B & _).
  assert (Ln : length (data big j) = (w * h * num_components (cspace j) * size_of (idepth j))%nat) by (unfold data; rewrite layout_length by exact D; rewrite L, N; lia).
  split; [now apply first_frame_ok|]. split. { unfold data. apply layout_ok; [intros E; now apply B|exact D]. }
  split; [exact Ln|]. split; [|lia]. rewrite Ln.
  assert (K : (num_components (cspace j) * size_of (idepth j) <= 8)%nat) by (clear -Cs D; destruct (cspace j); try easy; destruct (idepth j); cbn; easy || lia).
  rewrite <- Nat.mul_assoc. set (k := (num_components (cspace j) * size_of (idepth j))%nat) in *. clearbody k.
  rewrite !Nat2Z.inj_mul. assert (0 <= Z.of_nat w * Z.of_nat h) by lia. assert (Z.of_nat w * Z.of_nat h * Z.of_nat k <= Z.of_nat w * Z.of_nat h * 8) by (apply Z.mul_le_mono_nonneg_l; lia). lia.
Qed.
Lemma first_of w h j : ready w h j -> wf_frame (cspace j) (idepth j) (w * h) (hd [] (frames j)).
Proof. intros [W Cs N D Rw Rh Mem]. rewrite <- N. now apply hd_wf. Qed.

(** *** QOI *)
Lemma qoi_inner o w h j : ready w h j -> cspace j = RGB \/ cspace j = RGBA -> idepth j = D8 -> (w <= PngModel.o_max_w (d_png o))%nat -> (h <= PngModel.o_max_h (d_png o))%nat ->
  exists file, encode_inner SQoi w h j = Ok file /\ guess_format {| cdata := file; cpos := 0 |} = Some (QOI, {| cdata := file; cpos := 0 |}) /\
    (supported p (cspace j) -> read_qoi p o {| cdata := file; cpos := 0 |} = Val (Ok (Pic w h false (Img (cspace j) D8 (w * h) [hd [] (frames j)])))).
Proof.
  intros R Hc Hd Lw Lh. destruct (data_facts false w h j R) as (E & B & L & M & P). pose proof R as [W Cs N D Rw Rh Mem].
  assert (Qc : qoi_space (cspace j) = QoiModel.CsRGB \/ qoi_space (cspace j) = QoiModel.CsRGBA) by (destruct Hc as [-> | ->]; auto).
  assert (Qn : QoiModel.num_components (qoi_space (cspace j)) = num_components (cspace j)) by (destruct Hc as [-> | ->]; reflexivity).
  assert (Ln : Z.of_nat (length (data false j)) = Z.of_nat w * Z.of_nat h * Z.of_nat (QoiModel.num_components (qoi_space (cspace j)))) by (rewrite L, Qn, Hd; cbn [size_of]; lia).
  destruct (QoiProps.qoi_round_trip {| QoiModel.max_width := max_w o; QoiModel.max_height := max_h o; QoiModel.strict := d_strict o |}
    (Z.of_nat w) (Z.of_nat h) (qoi_space (cspace j)) (data false j) [] Qc ltac:(lia) ltac:(lia) ltac:(unfold max_w; cbn; lia) ltac:(unfold max_h; cbn; lia) B Ln M) as (file & Ee & Ed).
  exists file. unfold encode_inner. rewrite E. cbn [bind]. rewrite Ee. cbn [bind wsink].
  split; [reflexivity|]. split.
  - assert (Io : QoiProof2.image_ok (Z.of_nat w) (Z.of_nat h) (qoi_space (cspace j)) (data false j)) by (unfold QoiProof2.image_ok, QoiProof2.rgbx; repeat split; auto; lia).
    rewrite (QoiProof2.qoi_encode_vec _ _ _ _ Io) in Ee. injection Ee as _ Ee. rewrite <- Ee. unfold QoiProof2.file_bytes, QoiProof2.hdr_bytes, QoiModel.QOI_MAGIC. rewrite <- !app_assoc.
    apply guess_qoi. rewrite !app_length, be_bytes_length. lia.
  - intros Sp. unfold read_qoi. rewrite app_nil_r in Ed. rewrite Ed. cbn [QoiModel.qcspace QoiModel.qw QoiModel.qh]. rewrite !Nat2Z.id.
    pose proof (first_of w h j R) as Wf. rewrite Hd in Wf. pose proof (from_u8_ok p w h (cspace j) (hd [] (frames j)) Sp Cs P Wf Mem) as G.
    unfold data. rewrite Hd, N. cbn [layout_bytes]. destruct Hc as [X|X]; rewrite X in G |- *; cbn [qoi_space]; exact G.
Qed.
(** *** PNG *)
Lemma pairs_be l : Forall is_u16 l -> PngFileSpec.pairs (concat (map (be_bytes 2) l)) = l.
Proof.
  induction 1 as [|x l Hx _ IH]; [reflexivity|]. cbn [map concat]. unfold is_u16 in Hx. cbn [be_bytes le_bytes rev app PngFileSpec.pairs]. rewrite IH. f_equal. lia.
Qed.
Lemma png_inner o w h j : ready w h j -> (w <= PngModel.o_max_w (d_png o))%nat -> (h <= PngModel.o_max_h (d_png o))%nat ->
  PngModel.o_alpha (d_png o) = false -> PngModel.o_strip (d_png o) = false ->
  exists file, encode_inner SPng w h j = Ok file /\ guess_format {| cdata := file; cpos := 0 |} = Some (PNG, {| cdata := file; cpos := 0 |}) /\
    (idepth j = D16 \/ supported p (cspace j) -> read_png p huff anim o file = Val (Ok (Pic w h false (Img (cspace j) (idepth j) (w * h) [hd [] (frames j)])))).
Proof.
  intros R Lw Lh Al St. destruct (data_facts true w h j R) as (E & B & L & M & P). pose proof R as [W Cs N D Rw Rh Mem].
  assert (Cc : exists c, png_color (cspace j) = Some c /\ c <> PngRowModel.CPalette /\ num_components (cspace j) = PngRowModel.color_comps c /\ png_space (PngRowModel.color_comps c) = cspace j).
  { clear -Cs. destruct (cspace j); try easy; eexists; repeat split; discriminate. }
  destruct Cc as (c & C1 & C2 & C3 & C4).
  set (e := PngModel.mkEopts w h (size_of (idepth j)) (png_color (cspace j)) (num_components (cspace j))).
  assert (En : PngProps.encodable e c (data true j)).
  { unfold PngProps.encodable, e. cbn [PngModel.e_color PngModel.e_comps PngModel.e_bytes PngModel.e_w PngModel.e_h].
    split; [exact C1|]. split; [exact C2|]. split; [exact C3|]. split. { clear -D. destruct (idepth j); cbn; tauto. }
    split; [lia|]. split; [lia|]. split; [exact B|]. split; [rewrite L; lia|lia]. }
  destruct (png_saved huff anim e c (data true j) (d_png o) En Lw Lh Al St) as (r & s & s2 & Ee & Lr & Eh & Hh & Ho & Ed).
  exists ([137; 80; 78; 71; 13; 10; 26; 10] ++ r). unfold encode_inner. rewrite E. cbn [bind]. fold e. split; [exact Ee|]. split; [now apply guess_png|].
  intros Sp. unfold read_png. rewrite Eh, Hh, Ho, Ed, C4. cbn [e PngModel.e_bytes PngModel.e_w PngModel.e_h PngModel.i_w PngModel.i_h].
  pose proof (first_of w h j R) as Wf.
  assert (Dd : idepth j = D8 \/ idepth j = D16) by (clear -D; destruct (idepth j); auto; easy). unfold data. rewrite N. destruct Dd as [Dd|Dd]; rewrite Dd in Wf, Sp |- *; cbn [size_of Nat.eqb layout_bytes].
  - apply from_u8_ok; auto. destruct Sp as [Sp|Sp]; [discriminate|exact Sp].
  - destruct (frame_laid true (cspace j) D16 (w * h) (hd [] (frames j)) Cs P ltac:(discriminate) Wf) as (_ & _ & _ & [U _]); [reflexivity|].
    rewrite pairs_be by exact U. apply from_u16_ok; auto.
Qed.
(** *** PPM *)
Lemma u16s_le l : Forall is_u16 l -> PpmProof.u16s (concat (map (le_bytes 2) l)) = l.
Proof.
  unfold PpmProof.u16s. induction 1 as [|x l Hx _ IH]; [reflexivity|]. cbn [map concat]. rewrite chunks_exact_cons by (rewrite ?le_bytes_length; lia). cbn [map]. rewrite IH.
  f_equal. apply le_val_le_bytes. unfold is_u16 in Hx. change (256 ^ Z.of_nat 2) with 65536. lia.
Qed.
Lemma first_stored w h j : ready w h j -> nth (size_of (idepth j) - 1) (data false j) 0 = first_byte (hd [] (frames j)).
Proof.
  intros R. pose proof (first_of w h j R) as [L F]. destruct (data_facts false w h j R) as (_ & _ & _ & _ & P). pose proof R as [W Cs N D Rw Rh Mem]. unfold data. rewrite N.
  assert (Hc : (0 < num_components (cspace j))%nat) by (clear -Cs; destruct (cspace j); cbn; easy || lia).
  destruct (hd [] (frames j)) as [|c f]; [cbn [length] in L; lia|]. apply Forall_cons_iff in F as [[F1 F2] _].
  destruct (w * h)%nat as [|n]; [lia|]. unfold px_in, px_of. cbn [map seq concat column app nth].
  destruct (idepth j), c as [l|l|l]; cbn [of_depth count list_of] in *; try easy; (destruct l as [|x l]; [discriminate F2|]); cbn [size_of Nat.sub layout_bytes app nth first_byte map concat].
  - reflexivity.
  - apply Forall_cons_iff in F1 as [F1 _]. unfold is_u16 in F1. cbn [le_bytes app nth]. lia.
Qed.
Lemma ppm_inner o w h j : ready w h j -> (w <= PngModel.o_max_w (d_png o))%nat -> (h <= PngModel.o_max_h (d_png o))%nat ->
  exists file, encode_inner SPpm w h j = Ok file /\ guess_format {| cdata := file; cpos := 0 |} = Some (PPM, {| cdata := file; cpos := 0 |}) /\
    (idepth j = D16 \/ supported p (cspace j) -> ~ header_like (first_byte (hd [] (frames j))) ->
     read_ppm p float_ppm neg_f32 o file = Val (Ok (Pic w h false (Img (cspace j) (idepth j) (w * h) [hd [] (frames j)])))).
Proof.
  intros R Lw Lh. destruct (data_facts false w h j R) as (E & B & L & M & P). pose proof R as [W Cs N D Rw Rh Mem].
  assert (Pc : PpmProof.pnm_cs (ppm_space (cspace j)) /\ PpmModel.comps (ppm_space (cspace j)) = num_components (cspace j) /\ ppm_colorspace (ppm_space (cspace j)) = cspace j).
  { clear -Cs. unfold PpmProof.pnm_cs. destruct (cspace j); try easy; cbn; auto 6. }
  destruct Pc as (P1 & P2 & P3).
  assert (Dd : idepth j = D8 \/ idepth j = D16) by (clear -D; destruct (idepth j); auto; easy).
  assert (Ds : PpmModel.size_of (ppm_depth (idepth j)) = size_of (idepth j)) by (destruct Dd as [-> | ->]; reflexivity).
  unfold encode_inner. rewrite E. cbn [bind].
  assert (Ln : length (data false j) = (w * PpmModel.size_of (ppm_depth (idepth j)) * h * PpmModel.comps (ppm_space (cspace j)))%nat) by (rewrite P2, Ds, L; lia).
  assert (Hd : exists v r body, In v [53; 54; 55] /\ (6 <= length r)%nat /\ PpmModel.ppm_header (ppm_space (cspace j)) (ppm_depth (idepth j)) (Z.of_nat w) (Z.of_nat h) = Ok (80 :: v :: r) /\
    PpmModel.ppm_encode (ppm_space (cspace j)) (ppm_depth (idepth j)) w h (data false j) = Ok ((80 :: v :: r) ++ body)).
  { assert (X : exists v r, In v [53; 54; 55] /\ (6 <= length r)%nat /\ PpmModel.ppm_header (ppm_space (cspace j)) (ppm_depth (idepth j)) (Z.of_nat w) (Z.of_nat h) = Ok (80 :: v :: r)).
    { clear - P1 Dd. unfold PpmModel.ppm_header. assert (Mx : (3 <= length (dec (PpmModel.max_value (ppm_depth (idepth j)))))%nat) by (destruct Dd as [-> | ->]; vm_compute; lia).
      destruct P1 as [X|[X|[X|X]]]; rewrite X; cbv zeta; cbn [app]; do 2 eexists; (split; [|split; [|reflexivity]]); cbn [In]; try tauto;
        try (unfold PpmModel.txt_width; cbn [length app]; repeat (rewrite app_length; cbn [length]); lia). }
    destruct X as (v & r & Hv & Lr & Eh). exists v, r. unfold PpmModel.ppm_encode. rewrite Ln, Nat.eqb_refl. cbn [negb]. rewrite Eh. cbn [bind].
    destruct Dd as [-> | ->]; cbn [ppm_depth]; eexists; repeat split; auto. }
  destruct Hd as (v & r & body & Hv & Lr & Eh & Ee). exists ((80 :: v :: r) ++ body). split; [exact Ee|]. split.
  { cbn [app]. apply guess_ppm; [exact Hv|]. rewrite app_length. lia. }
  intros Sp Bl. pose proof (first_stored w h j R) as Fs.
  assert (Bk : PpmProof.blank (nth (PpmModel.size_of (ppm_depth (idepth j)) - 1) (data false j) 0) = false).
  { rewrite Ds, Fs. unfold header_like in Bl. clear -Bl. set (b := first_byte _) in *. clearbody b. cbn [In] in Bl. unfold PpmProof.blank, PpmModel.ws. lia. }
  destruct (PpmProps.ppm_round_trip_partial neg_f32 (max_w o) (max_h o) (ppm_space (cspace j)) (ppm_depth (idepth j)) w h (data false j) []) as (c & Ec & Ed);
    [exact P1|destruct Dd as [-> | ->]; auto|lia|lia|unfold max_w; lia|unfold max_h; lia|exact B|exact Ln|exact M|exact Bk|].
  rewrite Ee in Ec. injection Ec as <-. rewrite app_nil_r in Ed. cbn [app] in Ed |- *. unfold read_ppm. rewrite Ed.
  pose proof (first_of w h j R) as Wf. unfold data. rewrite N. destruct Dd as [Dd|Dd]; rewrite Dd in Wf, Sp |- *; cbn [ppm_depth PpmProps.given layout_bytes]; rewrite P3, !Nat2Z.id.
  - apply from_u8_ok; auto. destruct Sp as [Sp|Sp]; [discriminate|exact Sp].
  - destruct (frame_laid true (cspace j) D16 (w * h) (hd [] (frames j)) Cs P ltac:(discriminate) Wf) as (_ & _ & _ & [U _]); [reflexivity|].
    rewrite u16s_le by exact U. apply from_u16_ok; auto.
Qed.
(** *** Farbfeld *)
Lemma farbfeld_inner w h j : ready w h j -> cspace j = RGBA -> idepth j = D16 ->
  exists r, encode_inner SFarbfeld w h j = Ok (PpmModel.ff_magic ++ r) /\ bytes r.
Proof.
  intros R Hc Hd. destruct (data_facts false w h j R) as (E & B & L & M & P). pose proof R as [W Cs N D Rw Rh Mem].
  unfold encode_inner. rewrite Hd. cbn [depth_eqb negb]. rewrite E. cbn [bind]. unfold PpmModel.ff_encode.
  replace (Z.of_nat (length (data false j)) =? _) with true by (symmetry; apply Z.eqb_eq; rewrite L, Hc, Hd; cbn [num_components size_of]; lia). cbn [negb].
  replace (2 ^ 32 <=? Z.of_nat w) with false by lia. replace (2 ^ 32 <=? Z.of_nat h) with false by lia.
  eexists. split; [reflexivity|]. repeat (apply bytes_app; split; [apply be_bytes_bytes|]). unfold PpmModel.swap_pairs.
  apply Forall_concat, Forall_map, Forall_forall. intros x _. apply be_bytes_bytes.
Qed.
Lemma prepared_ready f x j : savable x -> wf j -> cspace j = kept_space f (cspace (content x)) -> idepth j = kept_depth f (idepth (content x)) ->
  npx j = (width x * height x)%nat -> ready (width x) (height x) j.
Proof.
  intros (W & C & N & Rw & Rh & Mem) Wj Cj Dj Nj. constructor; try assumption.
  - rewrite Cj. now apply kept_writable.
  - rewrite Dj. destruct f, (idepth (content x)); discriminate.
Qed.
Definition any_opts (x : picture) : dopts := Dopts (PngModel.mkPopts (width x) (height x) false false false false false false false false false false) false.

(** C121: saving any valid picture succeeds, and the file is recognised as of the format it was saved in; the source is
    handed on from its start. *)
Theorem saved_files_recognised f x : savable x ->
  exists file, save f x = Ok file /\ guess_format {| cdata := file; cpos := 0 |} = Some (format_of f, {| cdata := file; cpos := 0 |}).
Proof.
  intros S. destruct (prepare f x S) as (j & _ & Wj & Cj & Dj & Nj & ->). pose proof (prepared_ready f x j S Wj Cj Dj Nj) as R. clear Wj Nj.
  destruct S as (_ & C & _). destruct f; cbn [format_of].
  - destruct (qoi_inner (any_opts x) _ _ j R) as (file & E & G & _); [rewrite Cj; clear -C; destruct (cspace (content x)); cbn; auto|rewrite Dj; now destruct (idepth (content x))|cbn; lia|cbn; lia|eauto].
  - destruct (png_inner (any_opts x) _ _ j R) as (file & E & G & _); [cbn; lia|cbn; lia|reflexivity|reflexivity|eauto].
  - destruct (ppm_inner (any_opts x) _ _ j R) as (file & E & G & _); [cbn; lia|cbn; lia|eauto].
  - destruct (farbfeld_inner _ _ j R) as (r & E & _); [exact Cj|exact Dj|]. exists (PpmModel.ff_magic ++ r). split; [exact E|apply guess_farbfeld].
Qed.

(** C122. The full claim: opening a saved file gives the first frame of the picture, converted to what the format keeps.
    Proved for QOI and PNG, and for PPM unless the first byte stored looks like part of a header. Missing: PPM files where
    it does, and Farbfeld, which fail (below). Processors without the vector instructions the library takes for granted
    are excluded ([supported], C30); the decoder is asked for no alpha and no 8-bit samples. *)
Theorem saved_pictures_open_partial f x o : savable x -> f <> SFarbfeld ->
  (width x <= PngModel.o_max_w (d_png o))%nat -> (height x <= PngModel.o_max_h (d_png o))%nat ->
  PngModel.o_alpha (d_png o) = false -> PngModel.o_strip (d_png o) = false ->
  supported p (kept_space f (cspace (content x))) ->
  exists j first rest file, prepared f (content x) j /\ frames j = first :: rest /\ save f x = Ok file /\
    ((f = SPpm -> ~ header_like (first_byte first)) ->
     open o file = Val (Ok (Pic (width x) (height x) false
       (Img (kept_space f (cspace (content x))) (kept_depth f (idepth (content x))) (width x * height x) [first])))).
Proof.
  intros S Nf Lw Lh Al St Sp. destruct (prepare f x S) as (j & Pj & Wj & Cj & Dj & Nj & ->). pose proof (prepared_ready f x j S Wj Cj Dj Nj) as R.
  pose proof Wj as [Ne _]. destruct (frames j) as [|first rest] eqn:Fj; [easy|]. clear Ne. exists j, first, rest.
  destruct S as (_ & C & _). rewrite <- Cj in Sp |- *. rewrite <- Dj. destruct f; [| | |easy].
  - destruct (qoi_inner o _ _ j R) as (file & E & G & O); [rewrite Cj; clear -C; destruct (cspace (content x)); cbn; auto|rewrite Dj; now destruct (idepth (content x))|exact Lw|exact Lh|].
    exists file. split; [exact Pj|]. split; [exact Fj|]. split; [exact E|]. intros _. unfold read. rewrite G. rewrite (O Sp), Fj. cbn [hd]. rewrite Dj. now destruct (idepth (content x)).
  - destruct (png_inner o _ _ j R Lw Lh Al St) as (file & E & G & O).
    exists file. split; [exact Pj|]. split; [exact Fj|]. split; [exact E|]. intros _. unfold read. rewrite G. cbn [cdata]. rewrite (O (or_intror Sp)), Fj. reflexivity.
  - destruct (ppm_inner o _ _ j R Lw Lh) as (file & E & G & O).
    exists file. split; [exact Pj|]. split; [exact Fj|]. split; [exact E|]. intros Hb. unfold read. rewrite G. cbn [cdata]. rewrite Fj in O. cbn [hd] in O. rewrite (O (or_intror Sp)); [reflexivity|auto].
Qed.

(** Nothing saved as Farbfeld can be opened again. *)
Theorem farbfeld_files_never_open x o file : savable x -> save SFarbfeld x = Ok file -> forall y, open o file <> Val (Ok y).
Proof.
  intros S E y H. destruct (prepare SFarbfeld x S) as (j & _ & Wj & Cj & Dj & Nj & Es). pose proof (prepared_ready SFarbfeld x j S Wj Cj Dj Nj) as R.
  destruct (farbfeld_inner _ _ j R) as (r & Er & Br); [exact Cj|exact Dj|]. rewrite Es, Er in E. assert (Ef : file = PpmModel.ff_magic ++ r) by congruence. subst file. clear E.
  unfold read in H. rewrite guess_farbfeld in H. cbn [cdata] in H. unfold read_farbfeld in H.
  destruct (PpmModel.ff_decode _ _ _) as [[[w h] px]| | |] eqn:D; try discriminate H.
  assert (B : bytes (PpmModel.ff_magic ++ r)) by (apply bytes_app; split; [unfold PpmModel.ff_magic; repeat constructor; unfold is_byte; lia|exact Br]).
  destruct (PpmProps.farbfeld_decode_never _ _ _ _ _ _ B D) as [Z0|Z0]; unfold from_u16, from_samples in H.
  - rewrite Z0 in H. cbn [Z.to_nat Nat.mul] in H. destruct (2 ^ 64 <=? _); [discriminate H|]. destruct px; [|discriminate H]. discriminate H.
  - rewrite Z0 in H. cbn [Z.to_nat] in H. rewrite Nat.mul_0_r in H. cbn [Nat.mul] in H. destruct (2 ^ 64 <=? _); [discriminate H|]. destruct px; [|discriminate H]. discriminate H.
Qed.

(** C123. Whether a picture is marked as multiplied by alpha makes no difference to the file, though none of the formats
    means multiplied colours: such a picture comes back with its colours multiplied and the mark gone. *)
Theorem mark_is_lost f w h i : wf i -> convertible (cspace i) -> save f (Pic w h true i) = save f (Pic w h false i).
Proof.
  intros W C. unfold write. cbn [premultiplied content width height]. cbv zeta. rewrite (confirm_fine i W C). cbn [bind].
  rewrite orb_true_r, orb_false_r. destruct (takes_space f (cspace i)), (takes_depth f (idepth i)); try reflexivity. cbn [negb orb bind]. now rewrite (confirm_fine i W C).
Qed.
(** Pictures in an arrangement of red, green, blue (and alpha) come back as the same picture, with the same alpha or a new
    opaque one, if the format keeps their depth, and keeps alpha if there is one. Missing: [ARGB], which conversions spoil
    (C31), and arrangements with alpha for which PNG and PPM fall back to RGB (below). *)
Theorem saved_colours_survive_partial f x o : savable x -> f <> SFarbfeld -> layout (cspace (content x)) -> cspace (content x) <> ARGB ->
  (has_alpha (cspace (content x)) = true -> f = SQoi \/ cspace (content x) = RGBA) -> kept_depth f (idepth (content x)) = idepth (content x) ->
  (width x <= PngModel.o_max_w (d_png o))%nat -> (height x <= PngModel.o_max_h (d_png o))%nat ->
  PngModel.o_alpha (d_png o) = false -> PngModel.o_strip (d_png o) = false -> supported p RGB -> supported p RGBA ->
  exists first rest first' file, frames (content x) = first :: rest /\ save f x = Ok file /\
    let to := if has_alpha (cspace (content x)) then RGBA else RGB in
    same_picture (idepth (content x)) (npx (content x)) (cspace (content x)) to first first' /\
    alpha to first' = alpha (cspace (content x)) first /\
    ((f = SPpm -> ~ header_like (first_byte first')) ->
     open o file = Val (Ok (Pic (width x) (height x) false (Img to (idepth (content x)) (width x * height x) [first'])))).
Proof.
  intros S Nf Ly Na Ha Kd Lw Lh Al St S3 S4. cbv zeta. set (to := if has_alpha (cspace (content x)) then RGBA else RGB).
  assert (Ks : kept_space f (cspace (content x)) = to).
  { unfold to. clear -Ly Na Ha Nf. destruct (cspace (content x)); cbn [layout has_alpha] in *; try easy; destruct f; try easy; specialize (Ha eq_refl) as [X|X]; discriminate. }
  assert (Lt : layout to) by (unfold to; now destruct (has_alpha _)).
  destruct (saved_pictures_open_partial f x o S Nf Lw Lh Al St) as (j & first' & rest' & file & (i1 & E1 & E2) & Fj & Es & Op).
  { rewrite Ks. unfold to. now destruct (has_alpha _). }
  destruct S as (W & C & _). rewrite Ks in E1, Op. rewrite Kd in E2, Op.
  destruct (layout_conversion_partial p rgb_hsl hsl_rgb rgb_hsv hsv_rgb to (content x) W Ly Na Lt) as (i' & E & Ci & Fa). rewrite E in E1. injection E1 as <-.
  destruct (conversion_well_formed p rgb_hsl hsl_rgb rgb_hsv hsv_rgb to _ W C ltac:(unfold to; now destruct (has_alpha _))) as (i2 & X & W1 & _ & D1 & _). rewrite E in X. injection X as <-.
  rewrite <- D1, depth_same in E2; [|exact W1|rewrite Ci; unfold to; now destruct (has_alpha _)]. injection E2 as <-.
  rewrite Fj in Fa. destruct (frames (content x)) as [|first rest] eqn:Fx; inversion_clear Fa as [|? ? ? ? Sm _].
  exists first, rest, first', file. split; [reflexivity|]. split; [exact Es|]. split; [exact Sm|]. split; [|exact Op].
  destruct Sm as (Co & Nc & A). unfold to in *. destruct (has_alpha (cspace (content x))) eqn:Hh.
  - destruct (A eq_refl) as (a' & Ea & Eq). rewrite Ea. destruct (alpha (cspace (content x)) first) as [a|] eqn:Ao; [congruence|].
    exfalso. clear -Hh Nc Ao. destruct (cspace (content x)); cbn in Hh, Nc, Ao; try discriminate; repeat (destruct first as [|? first]; try discriminate; try (now apply Nc)).
  - clear -Hh Ly. destruct (cspace (content x)); cbn in Hh, Ly |- *; try discriminate; try contradiction; destruct first'; reflexivity.
Qed.
End Io.
Print Assumptions saved_files_recognised.
Print Assumptions saved_pictures_open_partial.
Print Assumptions farbfeld_files_never_open.
Print Assumptions mark_is_lost.
Print Assumptions saved_colours_survive_partial.

(** *** Cases *)
Definition dopts0 : dopts := Dopts PngProps.plain_popts false.
Definition no_png_anim : nat -> list Z -> PngModel.png -> res PngModel.png := fun _ _ _ => Err ECorrupt.
Definition no_float : Z -> Z -> PpmModel.cspace -> list Z -> mres (res picture) := fun _ _ _ _ => Abort.
Definition no_other : format -> list Z -> mres (res picture) := fun _ _ => Abort.
Definition no_blocks : Z -> InflateModel.dstate -> res InflateModel.dstate := fun _ _ => Err ECorrupt.
Definition open_now : list Z -> mres (res picture) := read modern no_blocks no_png_anim no_float (fun _ => None) no_other dopts0.
Definition save_now : saver -> picture -> res (list Z) := write modern keep keep keep keep.
Definition then_open (r : res (list Z)) : mres (res picture) := match r with Ok file => open_now file | _ => Abort end.
(** A picture of two by one pixels, blue, green, red and alpha, of two frames *)
Definition bgra : picture :=
  Pic 2 1 false (Img BGRA D8 2 [[S8 [1; 2]; S8 [3; 4]; S8 [50; 60]; S8 [255; 128]]; [S8 [0; 0]; S8 [0; 0]; S8 [0; 0]; S8 [0; 0]]]).
Lemma bgra_savable : savable bgra.
Proof.
  unfold savable, bgra. cbn [content cspace npx width height]. split. { split; [easy|]. repeat constructor; cbn; unfold is_byte; lia. } split; [exact I|]. lia.
Qed.
Example open_qoi : then_open (save_now SQoi bgra) = Val (Ok (Pic 2 1 false (Img RGBA D8 2 [[S8 [50; 60]; S8 [3; 4]; S8 [1; 2]; S8 [255; 128]]]))).
Proof. vm_compute. reflexivity. Qed.
Example open_png : then_open (save_now SPng (Pic 2 1 false (Img Luma D16 2 [[S16 [258; 65535]]]))) = Val (Ok (Pic 2 1 false (Img Luma D16 2 [[S16 [258; 65535]]]))).
Proof. vm_compute. reflexivity. Qed.
Example open_ppm : then_open (save_now SPpm (Pic 1 2 true (Img LumaA D16 2 [[S16 [258; 65535]; S16 [7; 8]]]))) = Val (Ok (Pic 1 2 false (Img LumaA D16 2 [[S16 [258; 65535]; S16 [7; 8]]]))).
Proof. vm_compute. reflexivity. Qed.
(** C122 fails for PPM: this gray picture of 10 and 200 does not come back, *)
Theorem saved_ppm_refuted : exists x, savable x /\ exists file, save_now SPpm x = Ok file /\ forall y, open_now file <> Val (Ok y).
Proof.
  exists (Pic 2 1 false (Img Luma D8 2 [[S8 [10; 200]]])). split.
  { unfold savable. cbn [content cspace npx width height]. split. { split; [easy|]. repeat constructor; cbn; unfold is_byte; lia. } split; [exact I|]. lia. }
  eexists. split; [vm_compute; reflexivity|]. intros y. vm_compute. discriminate.
Qed.
Print Assumptions saved_ppm_refuted.
(** and C123 for PNG: saving drops the alpha channel of a picture in BGRA, though PNG has one. *)
Theorem png_drops_alpha_refuted : savable bgra /\ then_open (save_now SPng bgra) = Val (Ok (Pic 2 1 false (Img RGB D8 2 [[S8 [50; 60]; S8 [3; 4]; S8 [1; 2]]]))).
Proof. split; [exact bgra_savable|]. vm_compute. reflexivity. Qed.
Print Assumptions png_drops_alpha_refuted.
(** A picture with multiplied colours: half transparent white, stored as 128, comes back half transparent gray. *)
Theorem premultiplied_refuted :
  let x m := Pic 1 1 m (Img RGBA D8 1 [[S8 [128]; S8 [128]; S8 [128]; S8 [128]]]) in
  savable (x true) /\ forall f, f <> SFarbfeld -> then_open (save_now f (x true)) = Val (Ok (x false)).
Proof.
  cbv zeta. split.
  - unfold savable. cbn [content cspace npx width height]. split. { split; [easy|]. repeat constructor; cbn; unfold is_byte; lia. } split; [exact I|]. lia.
  - intros [| | |] H; try (vm_compute; reflexivity). now contradiction H.
Qed.
Print Assumptions premultiplied_refuted.
