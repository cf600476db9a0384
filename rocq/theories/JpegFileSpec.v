(** Whole JPEG files (ITU-T T.81 Annex B, F, G): headers, scans and the blocks of coefficients they hold. Written without the decoder's
    definitions. *)
From Verif Require Import Base JpegIdctSpec JpegHuffSpec JpegScanSpec JpegProgSpec JpegHeadSpec.

(** The frame. A.2.2: a single component is not interleaved, whatever its sampling factors. *)
Definition frame_of (h : fhead) : pframe :=
  PFrame (Z.to_nat (h_x h)) (Z.to_nat (h_y h)) (match h_parts h with [_] => [(1, 1)%nat] | ps => map (fun p => (i_hs p, i_vs p)) ps end).
(** A quantisation table of the file, which is in zigzag order, and the same by rows *)
Definition by_rows (q n : list Z) : Prop := length n = 64%nat /\ forall k, (k < 64)%nat -> nth (nth k zigzag 0%nat) n 0 = nth k q 0.
Definition quantisers_of (h : fhead) (t : told) (qs : nat -> list Z) : Prop :=
  forall k p, nth_error (h_parts h) k = Some p -> exists q, t_q t (i_tq p) = Some q /\ by_rows q (qs k).

(** * Progressive files *)

(** A scan with its header and the tables it uses. Symbols are padded to 256; the padding has no codes. Refinements of DC coefficients need no table (G.1.2.1). *)
Definition scan_as (t : told) (e : shead) (s : pscan) : Prop :=
  s_order s = map (fun x => fst (fst x)) (e_order e) /\ s_ss s = e_ss e /\ s_se s = e_se e /\ s_ah s = e_ah e /\ s_al s = e_al e /\
  forall k td ta, In (k, td, ta) (e_order e) ->
    if (e_ss e =? 0)%nat then e_ah e = 0%nat -> exists syms, t_dc t td = Some (s_dcn s k, syms) /\ s_dcv s k = pad syms
    else exists syms, t_ac t ta = Some (s_acn s k, syms) /\ s_acv s k = pad syms.
Definition unseen : knowledge := fun _ _ _ => None.
Section Progressive.
  (** [first], [each]: limits of what is claimed, on the first scan and all scans (tables, header, scan, the marker behind it). The standard has none. *)
  Variables first each : told -> shead -> pscan -> Z -> Prop.
  Variable h : fhead.
  Variable coef : nat -> nat -> list Z.
  Let f := frame_of h.
  (** One scan, from the entropy-coded bytes [data] to the marker [m]: what is known of the coefficients before and after *)
  Definition one_scan (t : told) (e : shead) (p : knowledge) (data : list Z) (s : pscan) (m : Z) (rest : list Z) (p' : knowledge) : Prop :=
    scan_as t e s /\ in_turn f s p /\ learns f s p p' /\ scan_bytes coef s (Z.to_nat (t_dri t)) 0 (scan_units f (s_order s)) data m rest /\ each t e s m.
  (** The scans after the first, up to EOI *)
  Inductive later_scans : nat -> told -> knowledge -> Z -> list Z -> knowledge -> Prop :=
  | end_of_image t p rest : later_scans 0 t p 217 rest p
  | later c t t1 p p1 p2 m l e data s m' rest : to_next h e t m l data t1 -> one_scan t1 e p data s m' rest p1 -> later_scans c t1 p1 m' rest p2 -> later_scans (S c) t p m l p2.
  (** A file with [c] scans after the first; [t]: the tables at the first scan; [p]: what is known in the end *)
  Definition progressive_file (c : nat) (file : list Z) (t : told) (p : knowledge) : Prop :=
    h_prog h = true /\ exists e s data m rest p1, file_start true h e file data t /\ one_scan t e unseen data s m rest p1 /\ first t e s m /\ later_scans c t p1 m rest p.
End Progressive.
(** The block that is known *)
Definition known_block (coef : nat -> nat -> list Z) (p : knowledge) (k b : nat) : list Z := map (fun i => known i (p k b i) (nth i (coef k b) 0)) (seq 0 64).
(** All scans have been sent. *)
Definition complete (h : fhead) (p : knowledge) : Prop :=
  forall k b i, (k < length (h_parts h))%nat -> (b < across (frame_of h) k * down (frame_of h) k)%nat -> (i < 64)%nat -> p k b i = Some 0%nat.

(** * Baseline files with one scan *)

(** Block [b] of component [k] by MCU and place within the MCU (A.2.3) *)
Definition mcu_block (f : pframe) (coef : nat -> nat -> list Z) (n k v h : nat) : Z * list Z :=
  let b := ((n / mcus_x f * vs_of f k + v) * across f k + (n mod mcus_x f * hs_of f k + h))%nat in (nth 0 (coef k b) 0, skipn 1 (coef k b)).
Definition baseline_file (h : fhead) (qs : nat -> list Z) (coef : nat -> nat -> list Z) (file : list Z) (t : told) : Prop :=
  h_prog h = false /\ exists e data parts, file_start true h e file data t /\ map (fun x => fst (fst x)) (e_order e) = seq 0 (length (h_parts h)) /\
    (forall k td ta, In (k, td, ta) (e_order e) ->
      p_hs (parts k) = hs_of (frame_of h) k /\ p_vs (parts k) = vs_of (frame_of h) k /\ p_qt (parts k) = qs k /\
      (exists syms, t_dc t td = Some (p_dcn (parts k), syms) /\ p_dcv (parts k) = pad syms) /\
      exists syms, t_ac t ta = Some (p_acn (parts k), syms) /\ p_acv (parts k) = pad syms) /\
    JpegScanSpec.scan_bytes parts (seq 0 (length (h_parts h))) (mcu_block (frame_of h) coef) (Z.to_nat (t_dri t)) 0 0 (mcus_x (frame_of h) * mcus_y (frame_of h)) data.
