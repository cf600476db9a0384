(** PNG filters and CRC: the properties (C10, C11, C12, C13, C48). *)
From Verif Require Import Base BaseProof Loops PngFilterModel PngFilterSpec PngFilterProof.
From Verif Require Import CrcModel CrcSpec CrcProof.

(** ** C10 *)
Theorem png_paeth_is_spec a b c : is_byte a -> is_byte b -> is_byte c -> paeth a b c = spec_paeth a b c.
Proof. apply paeth_spec_eq. Qed.
Print Assumptions png_paeth_is_spec.
Example png_paeth_is_spec_ex : paeth 10 200 50 = 200 /\ paeth 10 20 15 = 15 /\ paeth 7 9 8 = 8.
Proof. vm_compute. auto. Qed.

(** ** C11. The scalar un-filter chosen by create_png_image_raw (decoder.rs:1027-1062) for each filter
    type: on the first row Up is a copy, Average and Paeth have special versions. *)
Definition unfilter_scalar (t : filter) (first : bool) (prev raw current : list Z) (comps : nat) : res (list Z) :=
  match t, first with
  | FNone, _ | FUp, true =>
      (* [current[0..width_stride].copy_from_slice(raw)] *)
      if (length raw <=? length current)%nat then Ok (raw ++ skipn (length raw) current) else Panic
  | FSub, _ => handle_sub raw current comps
  | FUp, false => Ok (handle_up prev raw current)
  | FAvg, true => handle_avg_first raw current comps
  | FAvg, false => handle_avg prev raw current comps
  | FPaeth, true => handle_paeth_first raw current comps
  | FPaeth, false => handle_paeth prev raw current comps
  end.

(** The row above as the specification sees it: empty (so all zero) for the first row. *)
Definition above (first : bool) (prev : list Z) : list Z := if first then [] else prev.

Lemma predict_up_nil bpp row i : predict FUp (left bpp row i) (nth i [] 0) (left bpp [] i) = 0.
Proof. cbn. now destruct i. Qed.

Lemma copy_recon t bpp prev raw : bytes raw ->
  (forall i row, predict t (left bpp row i) (nth i prev 0) (left bpp prev i) = 0) -> recon t bpp prev raw raw.
Proof.
  intros Hb H. split; [reflexivity|]. intros i Hi. rewrite H.
  pose proof (bytes_nth raw i Hb). unfold is_byte in *. lia.
Qed.

Lemma unfilter_scalar_ok t first prev raw current comps :
  (0 < comps <= 8)%nat -> (comps <= length raw <= length current)%nat ->
  (first = false -> (length raw <= length prev)%nat) -> bytes raw -> bytes prev ->
  exists out, unfilter_scalar t first prev raw current comps = Ok out /\
    unfiltered t comps (above first prev) raw current out.
Proof.
  intros Hc Hl Hp Hb Hbp. 
  assert (Hcopy : forall t', (forall i row, predict t' (left comps row i) (nth i (above first prev) 0) (left comps (above first prev) i) = 0) ->
    exists out, (if (length raw <=? length current)%nat then Ok (raw ++ skipn (length raw) current) else Panic) = Ok out /\
      unfiltered t' comps (above first prev) raw current out).
  { intros t' H. replace (length raw <=? length current)%nat with true by lia. eexists. split; [reflexivity|].
    exists raw. split; [now apply copy_recon|reflexivity]. }
  destruct t, first; cbn [unfilter_scalar above] in *.
  - apply Hcopy. reflexivity.
  - apply Hcopy. reflexivity.
  - apply handle_sub_ok; auto; lia.
  - apply handle_sub_ok; auto; lia.
  - apply Hcopy. intros. apply predict_up_nil.
  - eexists. split; [reflexivity|]. apply handle_up_ok; auto; lia.
  - apply handle_avg_first_ok; auto; lia.
  - apply handle_avg_ok; auto; lia.
  - apply handle_paeth_first_ok; auto; lia.
  - apply handle_paeth_ok; auto; lia.
Qed.

(** Un-filtering what the specification's filter produced gives back the row; the rest of a longer output row
    (the decoder's rows can be wider than the raw data) is untouched. [current] is arbitrary old contents. *)
Theorem png_unfilter_inverts_filter t first prev row current comps :
  (0 < comps <= 8)%nat -> (comps <= length row <= length current)%nat ->
  (first = false -> (length row <= length prev)%nat) -> bytes row -> bytes prev ->
  unfilter_scalar t first prev (filter_row t comps (above first prev) row) current comps
    = Ok (row ++ skipn (length row) current).
Proof.
  intros Hc Hl Hp Hb Hbp.
  assert (Hf : bytes (filter_row t comps (above first prev) row)).
  { unfold filter_row. apply Forall_forall. intros x Hx. apply in_map_iff in Hx as (i & <- & _). apply mod256_byte. }
  destruct (unfilter_scalar_ok t first prev (filter_row t comps (above first prev) row) current comps)
    as (out & E & r & R & ->); rewrite ?filter_row_length; auto.
  rewrite E, filter_row_length. f_equal. f_equal.
  apply (recon_unique t comps (above first prev) _ r row ltac:(lia) R). now apply recon_filter_row.
Qed.
Print Assumptions png_unfilter_inverts_filter.
Example png_unfilter_inverts_filter_ex :
  unfilter_scalar FPaeth false [10; 200; 30; 40; 50; 60] (filter_row FPaeth 3 [10; 200; 30; 40; 50; 60] [1; 255; 3; 4; 100; 6]) (repeat 9 8) 3
   = Ok [1; 255; 3; 4; 100; 6; 9; 9]
  /\ filter_row FPaeth 3 [10; 200; 30; 40; 50; 60] [1; 255; 3; 4; 100; 6] <> [1; 255; 3; 4; 100; 6].
Proof. vm_compute. split; [reflexivity|discriminate]. Qed.

(** Conversely, whatever bytes arrive, the un-filtered row is the only row that filters to them. *)
Theorem png_unfilter_is_unique t first prev raw current comps :
  (0 < comps <= 8)%nat -> (comps <= length raw <= length current)%nat ->
  (first = false -> (length raw <= length prev)%nat) -> bytes raw -> bytes prev ->
  exists row, unfilter_scalar t first prev raw current comps = Ok (row ++ skipn (length raw) current) /\
    length row = length raw /\ bytes row /\ filter_row t comps (above first prev) row = raw.
Proof.
  intros Hc Hl Hp Hb Hbp.
  destruct (unfilter_scalar_ok t first prev raw current comps) as (out & E & r & R & ->); auto.
  exists r. split; [exact E|]. split; [exact (proj1 R)|].
  split; [eapply recon_bytes; exact R|]. eapply filter_recon; [exact Hb|exact R].
Qed.
Print Assumptions png_unfilter_is_unique.
Example png_unfilter_is_unique_ex :
  unfilter_scalar FAvg true [] [200; 100; 77; 255] [0; 0; 0; 0] 2 = Ok [200; 100; 177; 49].
Proof. vm_compute. reflexivity. Qed.

(** The encoder's filters are the specification's. *)
Theorem png_encoder_filters_are_spec comps up input output :
  (0 < comps <= length input)%nat -> length up = length input -> length output = length input -> bytes input ->
  sub_filter input output comps = Ok (filter_row FSub comps up input) /\
  up_filter input up output = filter_row FUp comps up input.
Proof. intros. split; [now apply sub_filter_ok|now apply up_filter_ok]. Qed.
Print Assumptions png_encoder_filters_are_spec.
Example png_encoder_filters_are_spec_ex :
  sub_filter [1; 2; 3; 255] [9; 9; 9; 9] 2 = Ok [1; 2; 2; 253] /\ up_filter [1; 2; 3] [255; 2; 4] [0; 0; 0] = [2; 0; 255].
Proof. vm_compute. auto. Qed.

(** ** C12 *)
Theorem png_sse_equals_scalar size m prev raw current :
  In size [3; 4; 6; 8]%nat -> (0 < m)%nat -> length raw = (m * size)%nat ->
  (length raw <= length current)%nat -> (length raw <= length prev)%nat -> bytes raw -> bytes prev ->
  handle_sub raw current size = Ok (de_filter_sub_sse size raw current) /\
  handle_avg prev raw current size = Ok (de_filter_avg_sse size prev raw current) /\
  handle_paeth prev raw current size = Ok (de_filter_paeth_sse size prev raw current).
Proof.
  intros Hs Hm L Lc Lp Hb Hbp.
  assert (S : (0 < size <= 8)%nat) by (cbn in Hs; lia).
  assert (Q : (size <= m * size)%nat) by (destruct m; [lia|]; cbn; lia).
  assert (U : forall t o1 o2, unfiltered t size prev raw current o1 -> unfiltered t size prev raw current o2 -> o1 = o2).
  { intros t o1 o2 (r1 & R1 & ->) (r2 & R2 & ->). f_equal. eapply recon_unique; [|exact R1|exact R2]. lia. }
  repeat split.
  - destruct (handle_sub_ok prev raw current size) as (o & E & K); auto; try lia.
    rewrite E. f_equal. apply (U FSub); [exact K|]. apply (sse_sub_ok size m); auto; lia.
  - destruct (handle_avg_ok prev raw current size) as (o & E & K); auto; try lia.
    rewrite E. f_equal. apply (U FAvg); [exact K|]. apply (sse_avg_ok size m); auto; lia.
  - destruct (handle_paeth_ok prev raw current size) as (o & E & K); auto; try lia.
    rewrite E. f_equal. apply (U FPaeth); [exact K|]. apply (sse_paeth_ok size m); auto; lia.
Qed.
Print Assumptions png_sse_equals_scalar.
Example png_sse_equals_scalar_ex :
  de_filter_paeth_sse 3 [10; 200; 30; 40; 50; 60] [250; 3; 99; 200; 201; 202] (repeat 7 7)
    = [4; 203; 129; 240; 251; 75; 7] /\
  handle_paeth [10; 200; 30; 40; 50; 60] [250; 3; 99; 200; 201; 202] (repeat 7 7) 3
    = Ok [4; 203; 129; 240; 251; 75; 7].
Proof. vm_compute. auto. Qed.

(** ** C13 *)
Theorem png_crc_is_crc32 data : bytes data -> calc_crc data = Ok (crc32 data).
Proof.
  intros Hb. unfold calc_crc, crc32. rewrite crc32_slice8_ok by (auto; lia). cbn [bind]. f_equal.
  apply compl32, crc_run_bound; auto; lia.
Qed.
Print Assumptions png_crc_is_crc32.
(** "123456789" has CRC-32 0xCBF43926; "IEND" 0xAE426082. *)
Example png_crc_is_crc32_ex :
  calc_crc [49; 50; 51; 52; 53; 54; 55; 56; 57] = Ok 3421780262 /\ calc_crc [73; 69; 78; 68] = Ok 2923585666.
Proof. vm_compute. auto. Qed.

(** From any state; any split of the data into two calls gives the same register; the one-byte loop agrees. *)
Theorem png_crc_split a b s : bytes a -> bytes b -> is_u32 s ->
  exists s1 s2, calc_crc_with_bytes a s = Ok s1 /\ calc_crc_with_bytes b s1 = Ok s2 /\
    calc_crc_with_bytes (a ++ b) s = Ok s2 /\ crc32_slice1 (a ++ b) s = Ok s2 /\ s2 = crc_run (a ++ b) s.
Proof.
  intros Ha Hb Hs. unfold is_u32 in Hs. unfold calc_crc_with_bytes.
  exists (crc_run a s), (crc_run (a ++ b) s).
  pose proof (crc_run_bound a s Hs Ha).
  repeat split; try (apply crc32_slice8_ok; auto; now apply bytes_app).
  - rewrite crc32_slice8_ok by auto. f_equal. unfold crc_run. now rewrite fold_left_app.
  - apply slice1_run; auto. now apply bytes_app.
Qed.
Print Assumptions png_crc_split.
Example png_crc_split_ex :
  calc_crc_with_bytes [1; 2; 3; 4; 5; 6; 7; 8; 9; 10; 11] 77 = 
   (do s <- calc_crc_with_bytes [1; 2; 3] 77 ; calc_crc_with_bytes [4; 5; 6; 7; 8; 9; 10; 11] s).
Proof. vm_compute. reflexivity. Qed.

(** ** C48: two chunk contents that differ only within four consecutive bytes have different checksums. *)
Theorem png_crc_detects_bursts a l1 l2 b :
  bytes a -> bytes l1 -> bytes l2 -> bytes b -> length l1 = length l2 -> (length l1 <= 4)%nat -> l1 <> l2 ->
  calc_crc (a ++ l1 ++ b) <> calc_crc (a ++ l2 ++ b).
Proof.
  intros Ha H1 H2 Hb L L4 Hne E. apply Hne.
  rewrite !png_crc_is_crc32 in E by (rewrite !bytes_app; auto). injection E as E. unfold crc32 in E.
  apply (crc_run_burst a l1 l2 b (2 ^ 32 - 1)); auto; [lia|].
  rewrite !(Z.lxor_comm _ (2 ^ 32 - 1)) in E. now apply lxor_inj_l in E.
Qed.
Print Assumptions png_crc_detects_bursts.
Example png_crc_detects_bursts_ex :
  calc_crc [73; 68; 65; 84; 0; 0; 0; 1; 9] = Ok 743165996 /\ calc_crc [73; 68; 65; 84; 255; 1; 0; 7; 9] = Ok 147445571.
Proof. vm_compute. auto. Qed.
