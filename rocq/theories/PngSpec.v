(** What a PNG image means (W3C PNG, sections 7, 8, 9, 11, 13), written independently of the decoder. *)
From Verif Require Import Base PngFilterSpec.

(** ** Packed rows
    A row is one string of bits, the leftmost sample in the highest bits: sample [k] of depth [d]. *)
Definition sample (d : nat) (row : list Z) (k : nat) : Z :=
  be_val row / 2 ^ (8 * Z.of_nat (length row) - Z.of_nat d * (Z.of_nat k + 1)) mod 2 ^ Z.of_nat d.
(** The [n] samples of pixel [i] *)
Definition samples (d n : nat) (row : list Z) (i : nat) : list Z := map (fun c => sample d row (i * n + c)) (seq 0 n).
(** Bytes of a row of [w] pixels *)
Definition row_bytes (d n w : nat) : nat := ((w * n * d + 7) / 8)%nat.

(** ** What is shown for a pixel
    A sample as output bytes: sixteen bits as two bytes, most significant first; fewer as one byte, full range. *)
Definition full (d : nat) (s : Z) : list Z :=
  if (d =? 16)%nat then be_bytes 2 s else [s * 255 / (2 ^ Z.of_nat d - 1)].
Definition opaque (d : nat) : list Z := if (d =? 16)%nat then [255; 255] else [255].
Definition clear (d : nat) : list Z := if (d =? 16)%nat then [0; 0] else [0].
Definition colour_entry : Set := (Z * Z * Z * Z)%type.
(** How the pixels are to be read: depth, samples per pixel, palette (r, g, b, alpha), the transparent colour, whether the
    palette's alpha is wanted, whether an opaque alpha is added. *)
Record look := mkLook {
  l_depth : nat; l_comps : nat;
  l_pal : option (list colour_entry);
  l_key : option (list Z);
  l_pal_alpha : bool; l_add : bool
}.
Definition show (l : look) (s : list Z) : list Z :=
  match l_pal l with
  | Some pal =>
      let '(r, g, b, a) := nth (Z.to_nat (nth 0 s 0)) pal (0, 0, 0, 255) in if l_pal_alpha l then [r; g; b; a] else [r; g; b]
  | None =>
      concat (map (full (l_depth l)) s) ++
      match l_key l with
      | Some k => if list_eq_dec Z.eq_dec s k then clear (l_depth l) else opaque (l_depth l)
      | None => if l_add l then opaque (l_depth l) else []
      end
  end.
Definition shown (l : look) (w : nat) (row : list Z) : list Z :=
  concat (map (fun i => show l (samples (l_depth l) (l_comps l) row i)) (seq 0 w)).

(** ** Filtered data: every row preceded by its filter type *)
Definition filter_code (t : filter) : Z := match t with FNone => 0 | FSub => 1 | FUp => 2 | FAvg => 3 | FPaeth => 4 end.
Definition filter_step (d n : nat) : nat := Nat.max 1 (n * d / 8).
Fixpoint scanlines (bpp : nat) (prev : list Z) (rows : list (filter * list Z)) : list (list Z) :=
  match rows with
  | [] => []
  | (t, row) :: rows' => (filter_code t :: filter_row t bpp prev row) :: scanlines bpp row rows'
  end.
Definition filtered (bpp : nat) (rows : list (filter * list Z)) : list Z := concat (scanlines bpp [] rows).

(** A list of packed rows holds the pixels [px y x] *)
Definition holds (d n w h : nat) (px : nat -> nat -> list Z) (rows : list (list Z)) : Prop :=
  length rows = h /\ Forall bytes rows /\ Forall (fun r => length r = row_bytes d n w) rows /\
  forall y x, (y < h)%nat -> (x < w)%nat -> samples d n (nth y rows []) x = px y x.

(** ** Interlacing (section 8.2)
    The eight by eight pattern of pass numbers; pass [p] holds the pixels of the image lying on [p]. *)
Definition adam7 : list (list nat) :=
  [[1; 6; 4; 6; 2; 6; 4; 6];
   [7; 7; 7; 7; 7; 7; 7; 7];
   [5; 6; 5; 6; 5; 6; 5; 6];
   [7; 7; 7; 7; 7; 7; 7; 7];
   [3; 6; 4; 6; 3; 6; 4; 6];
   [7; 7; 7; 7; 7; 7; 7; 7];
   [5; 6; 5; 6; 5; 6; 5; 6];
   [7; 7; 7; 7; 7; 7; 7; 7]]%nat.
Definition pass_at (y x : nat) : nat := nth (x mod 8) (nth (y mod 8) adam7 []) 0%nat.
(** Rows and columns of an image of [w] by [h] met by pass [p], in order *)
Definition pass_cols (p w h : nat) : list nat :=
  List.filter (fun x => existsb (fun y => (pass_at y x =? p)%nat) (seq 0 h)) (seq 0 w).
Definition pass_rows (p w h : nat) : list nat :=
  List.filter (fun y => existsb (fun x => (pass_at y x =? p)%nat) (seq 0 w)) (seq 0 h).
(** Seven reduced images, one per pass, hold the pixels [px] of a [w] by [h] image *)
Definition holds_interlaced (d n w h : nat) (px : nat -> nat -> list Z) (ps : list (list (filter * list Z))) : Prop :=
  length ps = 7%nat /\
  forall p, (1 <= p <= 7)%nat ->
    holds d n (length (pass_cols p w h)) (length (pass_rows p w h))
      (fun j i => px (nth j (pass_rows p w h) 0%nat) (nth i (pass_cols p w h) 0%nat)) (map snd (nth (p - 1) ps [])).
Definition filtered_interlaced (bpp : nat) (ps : list (list (filter * list Z))) : list Z := concat (map (filtered bpp) ps).

(** The whole image, row by row *)
Definition picture (l : look) (w h : nat) (px : nat -> nat -> list Z) : list Z :=
  concat (map (fun y => concat (map (fun x => show l (px y x)) (seq 0 w))) (seq 0 h)).

(** Sixteen-bit samples in the other byte order *)
Fixpoint swapped (l : list Z) : list Z := match l with a :: b :: l' => b :: a :: swapped l' | _ => l end.
(** Data holding the pixels [px] of an image of [w] by [h] pixels, [n] samples of [d] bits each: filtered rows, interlaced or not,
    and anything after them *)
Definition coded (interlace : bool) (d n w h : nat) (px : nat -> nat -> list Z) (data : list Z) : Prop :=
  if interlace then exists ps rest, holds_interlaced d n w h px ps /\ data = filtered_interlaced (filter_step d n) ps ++ rest
  else exists rows rest, holds d n w h px (map snd rows) /\ data = filtered (filter_step d n) rows ++ rest.
