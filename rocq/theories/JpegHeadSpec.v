(** The headers of JPEG files (ITU-T T.81, Annex B), written without the decoder's definitions. *)
From Verif Require Import Base JpegHuffSpec.

Definition be16 (n : Z) : list Z := [n / 256; n mod 256].
(** B.1.1.4: a segment is its length, which counts itself, and data. *)
Definition segment (data : list Z) : list Z := be16 (2 + Z.of_nat (length data)) ++ data.
Definition fits16 (data : list Z) : Prop := Z.of_nat (length data) <= 65533.

(** Metadata in application segments, each kind with its identifier (Exif, XMP, Photoshop, ICC and multi-picture format). ICC profiles
    come in numbered chunks. *)
Record notes : Set := Notes { n_exif : option (list Z); n_xmp : option (list Z); n_iptc : option (list Z); n_mpf : option (list Z); n_icc : list (Z * Z * list Z) }.
Definition exif_id : list Z := [69; 120; 105; 102; 0; 0].
Definition xmp_id : list Z := [104; 116; 116; 112; 58; 47; 47; 110; 115; 46; 97; 100; 111; 98; 101; 46; 99; 111; 109; 47; 120; 97; 112; 47; 49; 46; 48; 47; 0].
Definition photoshop_id : list Z := [80; 104; 111; 116; 111; 115; 104; 111; 112; 32; 51; 46; 48; 0].
Definition icc_id : list Z := [73; 67; 67; 95; 80; 82; 79; 70; 73; 76; 69; 0].
Definition mpf_id : list Z := [77; 80; 70; 0].
Fixpoint strip (pre l : list Z) : option (list Z) :=
  match pre, l with [], _ => Some l | p :: pre', x :: l' => if p =? x then strip pre' l' else None | _ :: _, [] => None end.
Definition note (m : Z) (data : list Z) (n : notes) : notes :=
  if m =? 225 then
    match strip exif_id data, strip xmp_id data with
    | Some (x :: r), _ => Notes (Some (x :: r)) (n_xmp n) (n_iptc n) (n_mpf n) (n_icc n)
    | _, Some (x :: r) => Notes (n_exif n) (Some (x :: r)) (n_iptc n) (n_mpf n) (n_icc n)
    | _, _ => n
    end
  else if m =? 226 then
    match strip icc_id data, strip mpf_id data with
    | Some (i :: k :: x :: r), _ => Notes (n_exif n) (n_xmp n) (n_iptc n) (n_mpf n) (n_icc n ++ [(i, k, x :: r)])
    | _, Some (x :: r) => Notes (n_exif n) (n_xmp n) (n_iptc n) (Some (x :: r)) (n_icc n)
    | _, _ => n
    end
  else if m =? 237 then
    match strip photoshop_id data with
    | Some (x :: r) => Notes (n_exif n) (n_xmp n) (Some (x :: r)) (n_mpf n) (n_icc n)
    | _ => n
    end
  else n.
(** The profile of the chunks: there are [k] chunks, they say so, and each number 1 .. [k] comes once. *)
Definition icc_whole (chunks : list (Z * Z * list Z)) (profile : list Z) : Prop :=
  (0 < length chunks)%nat /\ Forall (fun '(_, k, _) => k = Z.of_nat (length chunks)) chunks /\
  exists parts, length parts = length chunks /\ profile = concat parts /\ forall i, (i < length parts)%nat -> In (Z.of_nat i + 1, Z.of_nat (length chunks), nth i parts []) chunks.

(** What tables are installed: quantisation tables in zigzag order, the counts and symbols of Huffman tables, the restart interval, the transform of an Adobe segment, metadata *)
Record told : Type := Told { t_q : nat -> option (list Z); t_dc : nat -> option (list Z * list Z); t_ac : nat -> option (list Z * list Z); t_dri : Z; t_adobe : option Z; t_notes : notes }.
Definition put_at {A} (f : nat -> option A) (i : nat) (x : A) : nat -> option A := fun j => if (j =? i)%nat then Some x else f j.

(** B.2.4.1: a quantisation table with 8 or 16 bits *)
Inductive qt_coded (i : nat) (q : list Z) : list Z -> Prop :=
| qt_8 : (i < 4)%nat -> length q = 64%nat -> Forall (fun x => 0 <= x < 256) q -> qt_coded i q (Z.of_nat i :: q)
| qt_16 : (i < 4)%nat -> length q = 64%nat -> Forall (fun x => 0 <= x < 65536) q -> qt_coded i q (16 + Z.of_nat i :: flat_map be16 q).
Inductive qts_coded : told -> list Z -> told -> Prop :=
| qts_none t : qts_coded t [] t
| qts_more t i q l t' l' : qt_coded i q l -> qts_coded (Told (put_at (t_q t) i q) (t_dc t) (t_ac t) (t_dri t) (t_adobe t) (t_notes t)) l' t' -> qts_coded t (l ++ l') t'.
(** B.2.4.2: a Huffman table. All codes fit and none has all bits set; symbols of DC tables are at most 15. *)
Definition pad (syms : list Z) : list Z := syms ++ repeat 0 (256 - length syms).
Definition ht_ok (dc : bool) (counts syms : list Z) : Prop :=
  length counts = 16%nat /\ bytes counts /\ fold_right Z.add 0 counts = Z.of_nat (length syms) /\ (length syms <= 256)%nat /\ bytes syms /\ legal counts /\
  (dc = true -> Forall (fun v => v <= 15) syms).
Inductive hts_coded : told -> list Z -> told -> Prop :=
| hts_none t : hts_coded t [] t
| hts_dc t i counts syms t' l : (i < 4)%nat -> ht_ok true counts syms -> hts_coded (Told (t_q t) (put_at (t_dc t) i (counts, syms)) (t_ac t) (t_dri t) (t_adobe t) (t_notes t)) l t' ->
    hts_coded t (Z.of_nat i :: counts ++ syms ++ l) t'
| hts_ac t i counts syms t' l : (i < 4)%nat -> ht_ok false counts syms -> hts_coded (Told (t_q t) (t_dc t) (put_at (t_ac t) i (counts, syms)) (t_dri t) (t_adobe t) (t_notes t)) l t' ->
    hts_coded t (16 + Z.of_nat i :: counts ++ syms ++ l) t'.
(** B.2.4: tables and other segments, and what is installed before and after. The data of application segments and comments is free, but APP0 segments
    with four bytes of data and APP14 segments that are not Adobe's are left out: they are not read right (see JpegHeadProps.v). *)
Definition app_markers : list Z := [224; 225; 226; 227; 228; 229; 230; 231; 232; 233; 234; 235; 236; 237; 239; 254].
Definition adobe_id : list Z := [65; 100; 111; 98; 101].
Inductive misc (t : told) : Z -> list Z -> told -> Prop :=
| misc_dqt data t' : qts_coded t data t' -> fits16 data -> misc t 219 (segment data) t'
| misc_dht data t' : hts_coded t data t' -> fits16 data -> misc t 196 (segment data) t'
| misc_dri n : 0 <= n < 65536 -> misc t 221 (segment (be16 n)) (Told (t_q t) (t_dc t) (t_ac t) n (t_adobe t) (t_notes t))
| misc_app m data : In m app_markers -> bytes data -> fits16 data -> (m = 224 -> length data <> 4%nat) -> misc t m (segment data)
    (Told (t_q t) (t_dc t) (t_ac t) (t_dri t) (t_adobe t) (note m data (t_notes t)))
| misc_adobe info tr more : length info = 6%nat -> bytes (info ++ tr :: more) -> 0 <= tr <= 2 -> fits16 (adobe_id ++ info ++ tr :: more) -> misc t 238 (segment (adobe_id ++ info ++ tr :: more))
    (Told (t_q t) (t_dc t) (t_ac t) (t_dri t) (Some tr) (t_notes t)).

(** B.2.2: the frame. A component: identifier, sampling factors, quantisation table *)
Record fpart : Set := FPart { i_id : Z; i_hs : nat; i_vs : nat; i_tq : nat }.
Record fhead : Set := FHead { h_prog : bool; h_x : Z; h_y : Z; h_parts : list fpart }.
Definition fpart_ok (p : fpart) : Prop := 0 <= i_id p < 256 /\ In (i_hs p) [1; 2; 4]%nat /\ (1 <= i_vs p <= 4)%nat /\ (i_tq p < 4)%nat.
Definition fpart_bytes (p : fpart) : list Z := [i_id p; 16 * Z.of_nat (i_hs p) + Z.of_nat (i_vs p); Z.of_nat (i_tq p)].
Definition fhead_ok (h : fhead) : Prop :=
  1 <= h_x h < 65536 /\ 1 <= h_y h < 65536 /\ (1 <= length (h_parts h) <= 4)%nat /\ NoDup (map i_id (h_parts h)) /\ Forall fpart_ok (h_parts h).
Definition sof_bytes (h : fhead) : list Z := segment (8 :: be16 (h_y h) ++ be16 (h_x h) ++ Z.of_nat (length (h_parts h)) :: flat_map fpart_bytes (h_parts h)).
Definition sof_marker (h : fhead) (m : Z) : Prop := if h_prog h then m = 194 else m = 192 \/ m = 193.

(** B.2.3: the scan. Its components with the tables they use; spectral selection and approximation *)
Record shead : Set := SHead { e_order : list (nat * nat * nat); e_ss : nat; e_se : nat; e_ah : nat; e_al : nat }.
Definition shead_ok (h : fhead) (e : shead) : Prop :=
  (1 <= length (e_order e) <= 4)%nat /\ NoDup (map (fun x => fst (fst x)) (e_order e)) /\
  Forall (fun '(k, td, ta) => k < length (h_parts h) /\ td < 4 /\ ta < 4)%nat (e_order e) /\ (e_ss e <= 63)%nat /\ (e_se e <= 63)%nat /\ (e_ah e <= 13)%nat /\ (e_al e <= 13)%nat.
Definition id_of (h : fhead) (k : nat) : Z := i_id (nth k (h_parts h) (FPart 0 1 1 0)).
Definition sos_bytes (h : fhead) (e : shead) : list Z :=
  segment (Z.of_nat (length (e_order e)) :: flat_map (fun '(k, td, ta) => [id_of h k; 16 * Z.of_nat td + Z.of_nat ta]) (e_order e) ++
    [Z.of_nat (e_ss e); Z.of_nat (e_se e); 16 * Z.of_nat (e_ah e) + Z.of_nat (e_al e)]).

(** Segments, each after its marker and fill bytes (B.1.1.2), up to the start of scan (marker 218). [early]: Adobe segments come
    before the frame header, as Adobe's note on JPEG files wants. *)
Inductive to_scan (early : bool) (h : fhead) (e : shead) : told -> list Z -> list Z -> told -> Prop :=
| to_sos t n rest : shead_ok h e -> to_scan early h e t (repeat 255 (S n) ++ 218 :: sos_bytes h e ++ rest) rest t
| to_misc t t1 t' n m l l' rest : misc t m l t1 -> (early = true -> m <> 238) -> to_scan early h e t1 l' rest t' -> to_scan early h e t (repeat 255 (S n) ++ m :: l ++ l') rest t'.
(** A file up to its first scan: SOI, segments, the frame header, segments, the scan header *)
Inductive to_frame (early : bool) (h : fhead) (e : shead) : told -> list Z -> list Z -> told -> Prop :=
| to_sof t n m l rest t' : sof_marker h m -> fhead_ok h -> to_scan early h e t l rest t' -> to_frame early h e t (repeat 255 (S n) ++ m :: sof_bytes h ++ l) rest t'
| to_frame_misc t t1 t' n m l l' rest : misc t m l t1 -> to_frame early h e t1 l' rest t' -> to_frame early h e t (repeat 255 (S n) ++ m :: l ++ l') rest t'.
Definition no_tables : told := Told (fun _ => None) (fun _ => None) (fun _ => None) 0 None (Notes None None None None []).
Definition file_start (early : bool) (h : fhead) (e : shead) (file rest : list Z) (t : told) : Prop := exists l, file = [255; 216] ++ l /\ to_frame early h e no_tables l rest t.
(** The tables before another scan: after the marker [m], which has been read *)
Definition to_next (h : fhead) (e : shead) (t : told) (m : Z) (l rest : list Z) (t' : told) : Prop :=
  m = 218 /\ (exists r, l = sos_bytes h e ++ r /\ rest = r) /\ shead_ok h e /\ t' = t \/
  exists t1 l1 l2, misc t m l1 t1 /\ l = l1 ++ l2 /\ to_scan true h e t1 l2 rest t'.

(** The colours of the samples: from the number of components, Adobe's transform (0: none, 1: YCbCr, 2: YCCK), and the component
    names R, G, B *)
Inductive colours : Set := Gray | Ycc | Rgb | Cmyk | Ycck.
Definition colours_of (h : fhead) (adobe : option Z) : option colours :=
  match length (h_parts h), adobe with
  | 1%nat, _ => Some Gray
  | 3%nat, Some 0 => Some Rgb
  | 3%nat, _ => Some (if list_eq_dec Z.eq_dec (map i_id (h_parts h)) [82; 71; 66] then Rgb else Ycc)
  | 4%nat, None | 4%nat, Some 0 => Some Cmyk
  | 4%nat, Some 2 => Some Ycck
  | _, _ => None
  end.
