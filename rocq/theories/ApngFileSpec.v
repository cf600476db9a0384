(** What an animated PNG file is (https://wiki.mozilla.org/APNG_Specification), on top of PngFileSpec.v: the chunks acTL, fcTL and
    fdAT, their order, and the frames they stand for. Only the description of a frame ([frame]) is shared with the model. *)
From Verif Require Import Base PngFileSpec ApngModel ApngSpec.

Definition fdAT : list Z := [102; 100; 65; 84].
Definition dispose_code (d : dispose) : Z := match d with DNone => 0 | DBackground => 1 | DPrevious => 2 end.
Definition blend_code (b : blending) : Z := match b with BSource => 0 | BOver => 1 end.
(** Frame control: sequence number, size, position, delay, dispose and blend operations *)
Definition fctl_data (f : frame) : list Z :=
  be_bytes 4 (f_seq f) ++ be_bytes 4 (Z.of_nat (f_w f)) ++ be_bytes 4 (Z.of_nat (f_h f)) ++
  be_bytes 4 (Z.of_nat (f_x f)) ++ be_bytes 4 (Z.of_nat (f_y f)) ++ be_bytes 2 (f_num f) ++ be_bytes 2 (f_den f) ++
  [dispose_code (f_dispose f); blend_code (f_blend f)].
Definition frame_ok (m : image) (f : frame) : Prop :=
  0 <= f_seq f < 2 ^ 31 /\ 0 <= f_num f < 65536 /\ 0 <= f_den f < 65536 /\ f_in_seq f = true /\ within (m_w m) (m_h m) f.
(** The image of the IDAT chunks when it is not a frame of the animation *)
Definition default_frame (m : image) : frame := mkFrame (-1) (m_w m) (m_h m) 0 0 0 0 DNone BSource false.

(** A frame in the file: its control chunk, at least one data chunk, each beginning with a sequence number of four bytes, and
    ancillary chunks *)
Definition frame_chunks (ok : chunk -> Prop) (f : frame) (z : list Z) (ks : list chunk) : Prop :=
  exists k fds ns, ks = k :: fds ++ ns /\ is_chunk k fcTL (fctl_data f) /\ fds <> [] /\
    Forall (fun d => c_name d = fdAT /\ (4 <= length (c_data d))%nat) fds /\ concat (map (fun d => skipn 4 (c_data d)) fds) = z /\
    Forall ok ns.
(** Animation control: eight bytes *)
Definition is_actl (k : chunk) : Prop := c_name k = acTL /\ length (c_data k) = 8%nat.

(** The file. [first]: the description of the first frame if the image of the IDAT chunks is the first frame; [idat]: its data;
    [later]: the other frames with their data. The animation control chunk stands somewhere before the image. *)
Definition animates (ok : chunk -> Prop) (m : image) (first : option frame) (idat : list Z) (later : list (frame * list Z))
  (cs : list chunk) : Prop :=
  exists hd a1 pl a2 tr a3 fc a4 ids a5 groups en,
    cs = hd :: a1 ++ pl ++ a2 ++ tr ++ a3 ++ fc ++ a4 ++ ids ++ a5 ++ concat groups ++ [en] /\ Forall chunk_ok cs /\
    is_chunk hd IHDR (ihdr_data m) /\ opt_chunk pl PLTE (option_map plte_data (m_pal m)) /\ opt_chunk tr tRNS (m_trns m) /\
    Forall (fun k => ok k \/ is_actl k) (a1 ++ a2 ++ a3) /\ Exists is_actl (a1 ++ a2 ++ a3) /\ Forall ok (a4 ++ a5) /\
    opt_chunk fc fcTL (option_map fctl_data first) /\
    Forall (fun k => c_name k = IDAT) ids /\ ids <> [] /\ concat (map c_data ids) = idat /\
    Forall2 (fun fz g => frame_chunks ok (fst fz) (snd fz) g) later groups /\
    (first <> None \/ later <> []) /\ is_chunk en IEND [].
(** The frames of the file, the image of the IDAT chunks first *)
Definition all_frames (m : image) (first : option frame) (idat : list Z) (later : list (frame * list Z)) : list (frame * list Z) :=
  (match first with Some f => f | None => default_frame m end, idat) :: later.
(** The picture of one frame: the image's colour type with the frame's size *)
Definition sized (m : image) (f : frame) : image :=
  mkImage (f_w f) (f_h f) (m_depth m) (m_type m) (m_adam7 m) (m_pal m) (m_trns m).
