(** What a PNG file is (W3C PNG, sections 5, 11), written independently of the decoder: chunks, their order, and the picture and notes
    they stand for. *)
From Verif Require Import Base CrcSpec PngFilterSpec PngSpec.

(** ** Chunks (5.3): length, name, data, checksum *)
Record chunk := mkChunk { c_name : list Z; c_data : list Z; c_sum : list Z }.
Definition chunk_bytes (k : chunk) : list Z := be_bytes 4 (Z.of_nat (length (c_data k))) ++ c_name k ++ c_data k ++ c_sum k.
Definition chunk_ok (k : chunk) : Prop :=
  length (c_name k) = 4%nat /\ length (c_sum k) = 4%nat /\ bytes (c_name k) /\ bytes (c_data k) /\ bytes (c_sum k) /\
  Z.of_nat (length (c_data k)) < 2 ^ 31.
Definition sum_ok (k : chunk) : Prop := be_val (c_sum k) = crc32 (c_name k ++ c_data k).
Definition magic : list Z := [137; 80; 78; 71; 13; 10; 26; 10].
(** A file, possibly followed by something else *)
Definition file_bytes (cs : list chunk) (tail : list Z) : list Z := magic ++ concat (map chunk_bytes cs) ++ tail.

Definition IHDR := [73; 72; 68; 82]. Definition PLTE := [80; 76; 84; 69]. Definition IDAT := [73; 68; 65; 84].
Definition IEND := [73; 69; 78; 68]. Definition tRNS := [116; 82; 78; 83].
Definition gAMA := [103; 65; 77; 65]. Definition tIME := [116; 73; 77; 69]. Definition eXIf := [101; 88; 73; 102].
Definition iCCP := [105; 67; 67; 80]. Definition iTXt := [105; 84; 88; 116]. Definition zTXt := [122; 84; 88; 116].
Definition tEXt := [116; 69; 88; 116].
(** Animation (APNG): not covered here *)
Definition acTL := [97; 99; 84; 76]. Definition fcTL := [102; 99; 84; 76].

(** ** The image described (11.2.2, 11.2.3, 11.3.2.1) *)
Record image := mkImage {
  m_w : nat; m_h : nat; m_depth : nat; m_type : Z; m_adam7 : bool;
  m_pal : option (list (Z * Z * Z)); m_trns : option (list Z)
}.
Definition type_comps (t : Z) : nat := if t =? 2 then 3 else if t =? 4 then 2 else if t =? 6 then 4 else 1.
Definition type_depths (t : Z) : list nat :=
  if t =? 0 then [1; 2; 4; 8; 16]%nat else if t =? 3 then [1; 2; 4; 8]%nat
  else if (t =? 2) || (t =? 4) || (t =? 6) then [8; 16]%nat else [].
Definition ihdr_data (m : image) : list Z :=
  be_bytes 4 (Z.of_nat (m_w m)) ++ be_bytes 4 (Z.of_nat (m_h m)) ++
  [Z.of_nat (m_depth m); m_type m; 0; 0; if m_adam7 m then 1 else 0].
Definition plte_data (p : list (Z * Z * Z)) : list Z := concat (map (fun c => let '(r, g, b) := c in [r; g; b]) p).
Definition image_ok (m : image) : Prop :=
  0 < Z.of_nat (m_w m) < 2 ^ 31 /\ 0 < Z.of_nat (m_h m) < 2 ^ 31 /\ In (m_depth m) (type_depths (m_type m)) /\
  match m_pal m with
  | Some p => (1 <= length p <= 256)%nat /\ bytes (plte_data p) /\ m_type m <> 0 /\ m_type m <> 4
  | None => m_type m <> 3
  end /\
  match m_trns m with
  | Some t => bytes t /\ ((m_type m = 0 /\ length t = 2%nat) \/ (m_type m = 2 /\ length t = 6%nat) \/
              (m_type m = 3 /\ match m_pal m with Some p => (length t <= length p)%nat | None => False end))
  | None => True
  end.
(** The palette with its alphas; entries without one are opaque *)
Fixpoint with_alphas (p : list (Z * Z * Z)) (a : list Z) : list colour_entry :=
  match p with
  | [] => []
  | (r, g, b) :: p' => match a with [] => (r, g, b, 255) :: with_alphas p' [] | x :: a' => (r, g, b, x) :: with_alphas p' a' end
  end.
(** The transparent colour: sixteen-bit numbers of which only the image's depth counts *)
Fixpoint pairs (l : list Z) : list Z := match l with a :: b :: l' => (a * 256 + b) :: pairs l' | _ => [] end.
Definition key_colour (m : image) (t : list Z) : list Z := map (fun v => v mod 2 ^ Z.of_nat (m_depth m)) (pairs t).
(** How the picture is to be shown, [add]: with an opaque alpha for images having none *)
Definition image_look (add : bool) (m : image) : look :=
  mkLook (m_depth m) (type_comps (m_type m))
    (if m_type m =? 3 then match m_pal m with Some p => Some (with_alphas p (match m_trns m with Some a => a | None => [] end)) | None => None end else None)
    (if m_type m =? 3 then None else option_map (key_colour m) (m_trns m))
    ((match m_trns m with Some _ => true | None => false end) || add)
    (add && ((m_type m =? 0) || (m_type m =? 2) || (m_type m =? 3))).

(** ** Order of the chunks (5.6). [ok]: which ancillary chunks may stand in between *)
Definition is_chunk (k : chunk) (name data : list Z) : Prop := c_name k = name /\ c_data k = data.
Definition opt_chunk (ks : list chunk) (name : list Z) (data : option (list Z)) : Prop :=
  match data with None => ks = [] | Some d => exists k, ks = [k] /\ is_chunk k name d end.
Definition lays_out (ok : chunk -> Prop) (m : image) (idat : list Z) (notes : list chunk) (cs : list chunk) : Prop :=
  exists hd a1 pl a2 tr a3 ids a4 en,
    cs = hd :: a1 ++ pl ++ a2 ++ tr ++ a3 ++ ids ++ a4 ++ [en] /\
    notes = a1 ++ a2 ++ a3 ++ a4 /\ Forall ok notes /\ Forall chunk_ok cs /\
    is_chunk hd IHDR (ihdr_data m) /\ opt_chunk pl PLTE (option_map plte_data (m_pal m)) /\ opt_chunk tr tRNS (m_trns m) /\
    Forall (fun k => c_name k = IDAT) ids /\ concat (map c_data ids) = idat /\
    is_chunk en IEND [].
(** An ancillary chunk (5.4): the first letter of the name is lower case. tRNS and the animation chunks are not meant. *)
Definition ancillary (k : chunk) : Prop :=
  97 <= nth 0 (c_name k) 0 <= 122 /\ c_name k <> tRNS /\ c_name k <> acTL /\ c_name k <> fcTL.

(** ** Notes: what a reader is told besides the pixels *)
(** Text up to the first zero, and after it *)
Fixpoint split0 (l : list Z) : option (list Z * list Z) :=
  match l with
  | [] => None
  | x :: l' => if x =? 0 then Some ([], l') else option_map (fun '(a, b) => (x :: a, b)) (split0 l')
  end.
(** Text chunks (11.3.4.3): keyword and text. A keyword has at most [most] bytes (79 in PNG). *)
Definition texts (most : nat) (notes : list chunk) : list (list Z * list Z) :=
  flat_map (fun k => if list_eq_dec Z.eq_dec (c_name k) tEXt then
      match split0 (c_data k) with Some (w, t) => if (length w <=? most)%nat then [(w, t)] else [] | None => [] end else []) notes.
(** The chunks named [n], last first *)
Definition named (n : list Z) (notes : list chunk) : list (list Z) :=
  map c_data (rev (List.filter (fun k => if list_eq_dec Z.eq_dec (c_name k) n then true else false) notes)).
(** The gamma number: the last gAMA chunk counts *)
Definition gamma_of (notes : list chunk) : option Z := match named gAMA notes with d :: _ => Some (be_val d) | [] => None end.
(** The time of last change: year, month, day, hour, minute, second *)
Definition time_of (notes : list chunk) : option (list Z) :=
  match named tIME notes with d :: _ => Some (be_val (firstn 2 d) :: skipn 2 d) | [] => None end.
(** Exif data begins with a TIFF byte order mark *)
Definition tiff (d : list Z) : bool :=
  if list_eq_dec Z.eq_dec (firstn 4 d) [73; 73; 42; 0] then true else if list_eq_dec Z.eq_dec (firstn 4 d) [77; 77; 0; 42] then true else false.
Definition exif_of (notes : list chunk) : option (list Z) :=
  match List.filter tiff (named eXIf notes) with d :: _ => Some d | [] => None end.
