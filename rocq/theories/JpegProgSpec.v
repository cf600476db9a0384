(** What the scans of a progressive JPEG file mean (ITU-T T.81 Annex G). Written without the decoder's definitions. *)
From Verif Require Import Base JpegIdctSpec JpegHuffSpec.

(** * Point transform (A.4, G.1.2.1): what is known of a coefficient after a scan that ends at bit [al] *)
Definition known_dc (al : nat) (c : Z) : Z := c / 2 ^ Z.of_nat al * 2 ^ Z.of_nat al.
Definition known_ac (al : nat) (c : Z) : Z := Z.quot c (2 ^ Z.of_nat al) * 2 ^ Z.of_nat al.
(** Coefficient [i] of a block, of which no scan ([None]) or scans down to bit [al] have been seen *)
Definition known (i : nat) (p : option nat) (c : Z) : Z :=
  match p with None => 0 | Some al => if (i =? 0)%nat then known_dc al c else known_ac al c end.

(** * Bands of coefficients in zigzag order *)
Section Codes.
  Variables counts values : list Z.
  (** G.1.2.2: a run of [n] blocks (or rests of blocks) without coefficients *)
  Definition eob_coded (run : nat) (bs : list bool) : Prop :=
    exists e code, (e <= 14)%nat /\ 2 ^ Z.of_nat e <= Z.of_nat run < 2 ^ (Z.of_nat e + 1) /\ code_of counts values (16 * Z.of_nat e) code /\
      bs = code ++ msb e (Z.of_nat run - 2 ^ Z.of_nat e).
  (** First scan: values after runs of zeros, up to the last value *)
  Inductive run_coded : list Z -> list bool -> Prop :=
  | run_nil : run_coded [] []
  | run_zrl cs code bs : code_of counts values 240 code -> run_coded cs bs -> run_coded (repeat 0 16 ++ cs) (code ++ bs)
  | run_value r s v cs code bs : (r <= 15)%nat -> 1 <= s <= 15 -> category s v -> code_of counts values (16 * Z.of_nat r + s) code ->
      run_coded cs bs -> run_coded (repeat 0 r ++ [v] ++ cs) (code ++ extra_bits s v ++ bs).
  (** [bands_first e bl bs]: the bands of a list of blocks, of which the first [e] belong to a run *)
  Inductive bands_first : nat -> list (list Z) -> list bool -> Prop :=
  | first_nil : bands_first 0 [] []
  | first_skip e n bl bs : bands_first e bl bs -> bands_first (S e) (repeat 0 n :: bl) bs
  | first_full b bl b1 bs : run_coded b b1 -> bands_first 0 bl bs -> bands_first 0 (b :: bl) (b1 ++ bs)
  | first_end b n run bl b1 b2 bs : (0 < n)%nat -> run_coded b b1 -> eob_coded (S run) b2 -> bands_first run bl bs ->
      bands_first 0 ((b ++ repeat 0 n) :: bl) (b1 ++ b2 ++ bs).

  (** G.1.2.3, refinement down to bit [al]. A coefficient was not zero before, becomes not zero, or stays zero. *)
  Variable al : nat.
  Definition was (c : Z) : bool := 2 ^ (Z.of_nat al + 1) <=? Z.abs c.
  Definition new (c : Z) : bool := (2 ^ Z.of_nat al <=? Z.abs c) && (Z.abs c <? 2 ^ (Z.of_nat al + 1)).
  (** The next bits of those that were not zero *)
  Definition corrections (cs : list Z) : list bool := map (fun c => Z.testbit (Z.abs c) (Z.of_nat al)) (filter was cs).
  (** Coefficients of which none is new, and how many zeros are among them *)
  Definition no_new (cs : list Z) : Prop := Forall (fun c => new c = false) cs.
  Definition zeros (cs : list Z) : nat := length (filter (fun c => negb (was c)) cs).
  Inductive fine_coded : list Z -> list bool -> Prop :=
  | fine_nil : fine_coded [] []
  | fine_zrl sk z cs code bs : no_new (sk ++ [z]) -> zeros sk = 15%nat -> was z = false -> code_of counts values 240 code -> fine_coded cs bs ->
      fine_coded (sk ++ [z] ++ cs) (code ++ corrections sk ++ bs)
  | fine_value sk c cs code bs : no_new sk -> (zeros sk <= 15)%nat -> new c = true -> code_of counts values (16 * Z.of_nat (zeros sk) + 1) code -> fine_coded cs bs ->
      fine_coded (sk ++ [c] ++ cs) (code ++ [0 <? c] ++ corrections sk ++ bs).
  Inductive bands_fine : nat -> list (list Z) -> list bool -> Prop :=
  | bf_nil : bands_fine 0 [] []
  | bf_skip e b bl bs : no_new b -> bands_fine e bl bs -> bands_fine (S e) (b :: bl) (corrections b ++ bs)
  | bf_full b bl b1 bs : fine_coded b b1 -> bands_fine 0 bl bs -> bands_fine 0 (b :: bl) (b1 ++ bs)
  | bf_end b tl run bl b1 b2 bs : tl <> [] -> fine_coded b b1 -> no_new tl -> eob_coded (S run) b2 -> bands_fine run bl bs ->
      bands_fine 0 ((b ++ tl) :: bl) (b1 ++ b2 ++ corrections tl ++ bs).
End Codes.

(** * Scans *)

(** A scan: the components, the band [ss] .. [se], bits [ah] and [al], and the Huffman tables of the components *)
Record pscan : Set := PScan { s_order : list nat; s_ss : nat; s_se : nat; s_ah : nat; s_al : nat;
  s_dcn : nat -> list Z; s_dcv : nat -> list Z; s_acn : nat -> list Z; s_acv : nat -> list Z }.
(** G.1.1.1.1: DC coefficients only, or a band of AC coefficients of one component; one more bit at a time after the first scan *)
Definition scan_legal (s : pscan) : Prop :=
  s_order s <> [] /\ (s_al s <= 13)%nat /\ (s_ah s = 0 \/ s_ah s = s_al s + 1)%nat /\
  (s_ss s = 0 /\ s_se s = 0 \/ 1 <= s_ss s <= s_se s /\ s_se s <= 63 /\ exists k, s_order s = [k])%nat.

(** The coefficients of block [b] of component [k], in zigzag order *)
Section Scan.
  Variable coef : nat -> nat -> list Z.
  Variable s : pscan.
  Definition dc (x : nat * nat) : Z := nth 0 (coef (fst x) (snd x)) 0.
  Definition band (x : nat * nat) : list Z := map (fun i => nth i (coef (fst x) (snd x)) 0) (seq (s_ss s) (s_se s + 1 - s_ss s)).
  (** Differences from the last block of the component *)
  Fixpoint dc_first_coded (last : nat -> Z) (bl : list (nat * nat)) (bs : list bool) : Prop :=
    match bl with
    | [] => bs = []
    | x :: bl' => exists b1 b2, bs = b1 ++ b2 /\
        dc_coded (s_dcn s (fst x)) (s_dcv s (fst x)) (dc x / 2 ^ Z.of_nat (s_al s) - last (fst x)) b1 /\
        dc_first_coded (fun i => if Nat.eqb i (fst x) then dc x / 2 ^ Z.of_nat (s_al s) else last i) bl' b2
    end.
  (** The bits of a list of blocks, between restart markers *)
  Definition blocks_bits (bl : list (nat * nat)) (bs : list bool) : Prop :=
    if (s_ss s =? 0)%nat then
      if (s_ah s =? 0)%nat then dc_first_coded (fun _ => 0) bl bs
      else bs = map (fun x => Z.testbit (dc x) (Z.of_nat (s_al s))) bl
    else
      let k := hd 0%nat (s_order s) in
      if (s_ah s =? 0)%nat then bands_first (s_acn s k) (s_acv s k) 0 (map (fun x => map (fun c => Z.quot c (2 ^ Z.of_nat (s_al s))) (band x)) bl) bs
      else bands_fine (s_acn s k) (s_acv s k) (s_al s) 0 (map band bl) bs.
  Definition segment_bytes (bl : list (nat * nat)) (data : list Z) : Prop :=
    exists bs pad, bytes data /\ data_bits data = bs ++ pad /\ (length pad < 8)%nat /\ blocks_bits bl bs.
  (** The bytes of a scan with MCUs [us] and what follows: a marker [m] and the rest of the file *)
  Inductive scan_bytes (interval : nat) : nat -> list (list (nat * nat)) -> list Z -> Z -> list Z -> Prop :=
  | scan_last i us data fill m rest : (interval = 0 \/ length us <= interval)%nat -> segment_bytes (concat us) data -> In m markers -> ~ 208 <= m <= 215 ->
      scan_bytes interval i us (stuff data ++ repeat 255 (S fill) ++ m :: rest) m rest
  | scan_next i us us' data fill file m rest : length us = interval -> (0 < interval)%nat -> us' <> [] -> segment_bytes (concat us) data ->
      scan_bytes interval (i + 1) us' file m rest ->
      scan_bytes interval i (us ++ us') (stuff data ++ repeat 255 (S fill) ++ (208 + Z.of_nat i mod 8) :: file) m rest.
End Scan.

(** * Frames *)

(** Width, height and the sampling factors of the components *)
Record pframe : Set := PFrame { f_x : nat; f_y : nat; f_samp : list (nat * nat) }.
Definition ceil_div (a b : nat) : nat := ((a + b - 1) / b)%nat.
Section Frame.
  Variable f : pframe.
  Definition hmax : nat := fold_right Nat.max 1%nat (map fst (f_samp f)).
  Definition vmax : nat := fold_right Nat.max 1%nat (map snd (f_samp f)).
  Definition hs_of (k : nat) : nat := fst (nth k (f_samp f) (1, 1)%nat).
  Definition vs_of (k : nat) : nat := snd (nth k (f_samp f) (1, 1)%nat).
  Definition mcus_x : nat := ceil_div (f_x f) (8 * hmax).
  Definition mcus_y : nat := ceil_div (f_y f) (8 * vmax).
  (** Blocks of a component in a row, with those that fill up the last MCU; blocks are numbered row by row. *)
  Definition across (k : nat) : nat := (mcus_x * hs_of k)%nat.
  Definition down (k : nat) : nat := (mcus_y * vs_of k)%nat.
  (** A.2.2: the blocks of the component that have samples of the image; A.1.1 *)
  Definition real_x (k : nat) : nat := ceil_div (ceil_div (f_x f * hs_of k) hmax) 8.
  Definition real_y (k : nat) : nat := ceil_div (ceil_div (f_y f * vs_of k) vmax) 8.
  (** The MCUs of a scan (A.2.2, A.2.3) *)
  Definition scan_units (order : list nat) : list (list (nat * nat)) :=
    match order with
    | [k] => flat_map (fun i => map (fun j => [(k, (i * across k + j)%nat)]) (seq 0 (real_x k))) (seq 0 (real_y k))
    | _ => flat_map (fun i => map (fun j =>
        flat_map (fun k => flat_map (fun v => map (fun h => (k, ((i * vs_of k + v) * across k + (j * hs_of k + h))%nat))
          (seq 0 (hs_of k))) (seq 0 (vs_of k))) order) (seq 0 mcus_x)) (seq 0 mcus_y)
    end.
  (** What is known after a scan *)
  Definition knowledge : Type := nat -> nat -> nat -> option nat.
  Definition in_scan (s : pscan) (k b i : nat) : Prop := In (k, b) (concat (scan_units (s_order s))) /\ (s_ss s <= i <= s_se s)%nat.
  Definition learns (s : pscan) (p p' : knowledge) : Prop :=
    forall k b i, (in_scan s k b i -> p' k b i = Some (s_al s)) /\ (~ in_scan s k b i -> p' k b i = p k b i).
  (** A scan comes when it may: first scans for coefficients that have not been seen, others one bit below, and the DC
      coefficients of a block before its others (G.1.1.1.1) *)
  Definition in_turn (s : pscan) (p : knowledge) : Prop :=
    scan_legal s /\ NoDup (s_order s) /\ Forall (fun k => k < length (f_samp f))%nat (s_order s) /\
    (forall k b i, in_scan s k b i -> p k b i = if (s_ah s =? 0)%nat then None else Some (s_ah s)) /\
    (s_ss s <> 0%nat -> forall k b, In (k, b) (concat (scan_units (s_order s))) -> p k b 0%nat <> None).
End Frame.
