(** What the bytes of a baseline scan mean (ITU-T T.81): the order of the blocks (A.2), DC prediction (F.1.1.5.1) and restart
    intervals (E.1.4, E.2.4). Written without the decoder's definitions. *)
From Verif Require Import Base JpegIdctSpec JpegHuffSpec.

(** A component in the frame and scan headers: sampling factors, Huffman tables and quantiser (in the order of rows) *)
Record part : Set := Part { p_hs : nat; p_vs : nat; p_dcn : list Z; p_dcv : list Z; p_acn : list Z; p_acv : list Z; p_qt : list Z }.
(** A block: the number of its component, the DC value and the 63 others in zigzag order *)
Definition block : Set := (nat * (Z * list Z))%type.

(** The picture: MCU [n], component [k], row [v] and column [h] within the MCU *)
Section Scan.
  Variable parts : nat -> part.
  Variable order : list nat.  (* the components of the scan *)
  Variable blk : nat -> nat -> nat -> nat -> Z * list Z.
  (** A.2.3: the blocks of an MCU *)
  Definition mcu_blocks (n : nat) : list block :=
    flat_map (fun k => flat_map (fun v => map (fun h => (k, blk n k v h)) (seq 0 (p_hs (parts k)))) (seq 0 (p_vs (parts k)))) order.
  (** F.1.1.5.1: the difference from the DC value of the last block of the same component is coded. *)
  Fixpoint coded (last : nat -> Z) (bl : list block) (bs : list bool) : Prop :=
    match bl with
    | [] => bs = []
    | (k, (dc, cs)) :: bl' => exists b1 b2, bs = b1 ++ b2 /\
        block_coded (p_dcn (parts k)) (p_dcv (parts k)) (p_acn (parts k)) (p_acv (parts k)) (dc - last k) cs b1 /\
        coded (fun i => if Nat.eqb i k then dc else last i) bl' b2
    end.
  (** The bytes of MCUs [n], .., [n + c - 1] and the padding to whole bytes *)
  Definition segment (n c : nat) (data : list Z) : Prop :=
    exists bs pad, bytes data /\ data_bits data = bs ++ pad /\ (length pad < 8)%nat /\ coded (fun _ => 0) (flat_map mcu_blocks (seq n c)) bs.
  (** [scan_bytes interval i n c file]: the file holds MCUs [n], .., [n + c - 1], with restart markers every [interval] MCUs (none if it
      is zero), and then EOI; [i] counts the markers. *)
  Inductive scan_bytes (interval : nat) : nat -> nat -> nat -> list Z -> Prop :=
  | last_segment i n c data fill rest : (interval = 0 \/ c <= interval)%nat -> segment n c data ->
      scan_bytes interval i n c (stuff data ++ repeat 255 (S fill) ++ 217 :: rest)
  | next_segment i n c data fill file : (0 < interval)%nat -> (0 < c)%nat -> segment n interval data ->
      scan_bytes interval (i + 1) (n + interval) c file ->
      scan_bytes interval i n (interval + c) (stuff data ++ repeat 255 (S fill) ++ (208 + Z.of_nat i mod 8) :: file).
End Scan.
(** The samples of a component with [vs] rows of blocks in an MCU row, as one list of rows of [stride] samples: the 8x8 square at
    block row [v] and block column [x] *)
Definition square (stride : nat) (v x : nat) (l sq : list Z) : Prop :=
  forall a b, (a < 8)%nat -> (b < 8)%nat -> nth ((8 * v + a) * stride + 8 * x + b) l 0 = nth (8 * a + b) sq 0.
