(** Two files with the same picture for JpegFileProps.v: a progressive one with six scans, and a baseline one *)
From Verif Require Import Base BaseProof JpegIdctSpec JpegHuffSpec JpegScanSpec JpegProgSpec JpegHeadSpec JpegFileSpec.

(** * Deciding the conditions on scans *)
Definition here (f : pframe) (s : pscan) (k b i : nat) : bool :=
  existsb (fun x => (fst x =? k) && (snd x =? b))%nat (concat (scan_units f (s_order s))) && (s_ss s <=? i)%nat && (i <=? s_se s)%nat.
Lemma here_ok f s k b i : here f s k b i = true <-> in_scan f s k b i.
Proof.
  unfold here, in_scan. rewrite !andb_true_iff, existsb_exists, !Nat.leb_le. split.
  - intros ((((k', b') & I & E) & A) & B). cbn [fst snd] in E. apply andb_prop in E. destruct E as (E1 & E2). apply Nat.eqb_eq in E1, E2. subst. split; [exact I|]. now split.
  - intros (I & A & B). split; [|exact B]. split; [|exact A]. exists (k, b). split; [exact I|]. cbn [fst snd]. now rewrite !Nat.eqb_refl.
Qed.
Definition after (f : pframe) (s : pscan) (p : knowledge) : knowledge := fun k b i => if here f s k b i then Some (s_al s) else p k b i.
Lemma after_learns f s p : learns f s p (after f s p).
Proof. intros k b i. unfold after. rewrite <- here_ok. destruct (here f s k b i); split; intros H; congruence. Qed.
Definition same_bit (a b : option nat) : bool := match a, b with Some x, Some y => (x =? y)%nat | None, None => true | _, _ => false end.
Lemma same_bit_ok a b : same_bit a b = true -> a = b.
Proof. destruct a, b; try discriminate; [|reflexivity]. intros E. apply Nat.eqb_eq in E. now subst. Qed.
Definition turn (f : pframe) (s : pscan) (p : knowledge) : bool :=
  forallb (fun x => forallb (fun i => same_bit (p (fst x) (snd x) i) (if (s_ah s =? 0)%nat then None else Some (s_ah s))) (seq (s_ss s) (s_se s + 1 - s_ss s)) &&
    ((s_ss s =? 0)%nat || negb (same_bit (p (fst x) (snd x) 0%nat) None))) (concat (scan_units f (s_order s))).
Lemma turn_ok f s p : scan_legal s -> NoDup (s_order s) -> Forall (fun k => k < length (f_samp f))%nat (s_order s) -> turn f s p = true -> in_turn f s p.
Proof.
  intros L N F T. unfold turn in T. rewrite forallb_forall in T. split; [exact L|]. split; [exact N|]. split; [exact F|]. split.
  - intros k b i (I & A). specialize (T _ I). apply andb_prop in T. destruct T as (T & _). rewrite forallb_forall in T. apply same_bit_ok. apply (T i). apply in_seq. lia.
  - intros Z k b I. specialize (T _ I). apply andb_prop in T. destruct T as (_ & T). apply orb_prop in T. destruct T as [T|T]; [apply Nat.eqb_eq in T; congruence|]. intros C. cbn [fst snd] in T. rewrite C in T. discriminate T.
Qed.

(** * The files: 12 x 10 pixels, 4:2:0, so one MCU; one quantiser; one Huffman table with the codes 00, 01 and 10 of 0, 1 and 2 *)
Definition cnt : list Z := [0; 3] ++ repeat 0 14.
Definition sym : list Z := [0; 1; 2].
Definition quant : list Z := map (fun i => Z.of_nat (40 + 3 * i)) (seq 0 64).
Definition three_parts : list fpart := [FPart 1 2 2 0; FPart 2 1 1 0; FPart 3 1 1 0].
Definition head (prog : bool) : fhead := FHead prog 12 10 three_parts.
Definition all_three : list (nat * nat * nat) := [(0, 0, 0); (1, 0, 0); (2, 0, 0)]%nat.
Definition start (dri : list Z) (prog : bool) (e : shead) : list Z :=
  [255; 216] ++ (repeat 255 1 ++ 219 :: segment (0 :: quant) ++ (repeat 255 1 ++ (if prog then 194 else 192) :: sof_bytes (head prog) ++
    (repeat 255 2 ++ 196 :: segment (0 :: cnt ++ sym ++ 16 :: cnt ++ sym ++ []) ++ (dri ++ repeat 255 1 ++ 218 :: sos_bytes (head prog) e)))).
(** The coefficients in zigzag order *)
Definition block (dc : Z) (ac : list Z) : list Z := dc :: ac ++ repeat 0 (63 - length ac).
Definition coef (k b : nat) : list Z :=
  match k, b with
  | 0%nat, 0%nat => block 3 [-3] | 0%nat, 1%nat => block 2 [2; 1] | 0%nat, 2%nat => block 0 [] | 0%nat, 3%nat => block (-2) []
  | 1%nat, 0%nat => block 1 [] | 2%nat, 0%nat => block (-1) [1] | _, _ => block 0 []
  end.
Definition told_here (dri : Z) : told := Told (put_at (fun _ => None) 0 quant) (put_at (fun _ => None) 0%nat (cnt, sym)) (put_at (fun _ => None) 0%nat (cnt, sym)) dri None (Notes None None None None []).
(** The six scans: components, band, bits, the coded bits and the padding *)
Definition c0 : list bool := [false; false].
Definition c1 : list bool := [false; true].
Definition c2 : list bool := [true; false].
(** [r]: the number of the Huffman table in the header of the last scan, which needs none *)
Definition sh (r i : nat) : shead :=
  match i with
  | 0 => SHead all_three 0 0 0 1 | 1 => SHead [(0, 0, 0)] 1 63 0 1 | 2 => SHead [(1, 0, 0)] 1 63 0 0 | 3 => SHead [(2, 0, 0)] 1 63 0 0 | 4 => SHead [(0, 0, 0)] 1 63 1 0
  | _ => SHead [(0, r, 0); (1, r, 0); (2, r, 0)] 0 0 1 0
  end%nat.
Definition sc (i : nat) : pscan := PScan (map (fun x => fst (fst x)) (e_order (sh 0 i))) (e_ss (sh 0 i)) (e_se (sh 0 i)) (e_ah (sh 0 i)) (e_al (sh 0 i)) (fun _ => cnt) (fun _ => pad sym) (fun _ => cnt) (fun _ => pad sym).
Definition data (i : nat) : list Z := nth i [[98; 66]; [67; 3]; [63]; [103]; [44; 7]; [143]] [].
Fixpoint later_data (r : nat) (l : list nat) : list Z := match l with [] => [255; 217] | i :: l' => 255 :: 218 :: sos_bytes (head true) (sh r i) ++ data i ++ later_data r l' end.
Definition prog_bytes (dri : list Z) (r : nat) : list Z := start dri true (sh r 0) ++ data 0 ++ later_data r [1; 2; 3; 4; 5]%nat.
Definition base_data : list Z := [184; 21; 50; 73; 24; 153].
Definition base_head : shead := SHead all_three 0 63 0 0.
Definition base_bytes : list Z := start [] false base_head ++ base_data ++ [255; 217].

(** * The headers *)
Lemma ht_here dc : ht_ok dc cnt sym.
Proof.
  split; [reflexivity|]. split; [apply Forall_forall; intros x H; cbn in H; unfold is_byte; repeat (destruct H as [<-|H]; [lia|]); destruct H|]. split; [reflexivity|]. split; [cbn; lia|].
  split; [apply Forall_forall; intros x H; cbn in H; unfold is_byte; repeat (destruct H as [<-|H]; [lia|]); destruct H|]. split.
  - repeat constructor.
  - intros _. repeat constructor; discriminate.
Qed.
Lemma all_ok prog ss se ah al : (ss <= 63)%nat -> (se <= 63)%nat -> (ah <= 13)%nat -> (al <= 13)%nat -> shead_ok (head prog) (SHead all_three ss se ah al).
Proof.
  intros. split; [cbn; lia|]. split; [repeat constructor; cbn; lia|]. split; [repeat constructor|]. now repeat split.
Qed.
Lemma one_ok prog k ss se ah al : (k < 3)%nat -> (ss <= 63)%nat -> (se <= 63)%nat -> (ah <= 13)%nat -> (al <= 13)%nat -> shead_ok (head prog) (SHead [(k, 0, 0)%nat] ss se ah al).
Proof.
  intros. split; [cbn; lia|]. split; [repeat constructor; cbn; lia|]. split; [constructor; [cbn; lia|constructor]|]. now repeat split.
Qed.
Lemma sh_ok r i : (r < 4)%nat -> shead_ok (head true) (sh r i).
Proof.
  intros Hr. do 5 (destruct i as [|i]; [cbn [sh]; (apply all_ok || apply one_ok); lia|]). cbn [sh]. split; [cbn; lia|]. split; [repeat constructor; cbn; lia|]. split; [|cbn; lia]. repeat (apply Forall_cons; [cbn; lia|]). constructor.
Qed.
Lemma started prog e rest n dri : shead_ok (head prog) e -> (n = 0 /\ dri = [] \/ 0 <= n < 65536 /\ dri = repeat 255 1 ++ 221 :: segment (be16 n)) ->
  file_start true (head prog) e (start dri prog e ++ rest) rest (told_here n).
Proof.
  intros So Dr. unfold start. eexists. split; [rewrite <- app_assoc; reflexivity|]. repeat (rewrite <- app_assoc || rewrite <- app_comm_cons). eapply to_frame_misc.
  { apply misc_dqt; [|cbv; discriminate]. rewrite <- (app_nil_r (0 :: quant)). eapply (qts_more _ 0 quant); [|constructor]. apply (qt_8 0 quant); [lia|reflexivity|]. apply Forall_forall. intros x H. unfold quant in H. apply in_map_iff in H. destruct H as (m & <- & H). apply in_seq in H. lia. }
  apply to_sof; [destruct prog; [reflexivity|now left]| |].
  { split; [cbn; lia|]. split; [cbn; lia|]. split; [cbn; lia|]. split; [repeat constructor; cbn; lia|]. unfold head, three_parts, fpart_ok. cbn [h_parts]. repeat (apply Forall_cons; [cbn [i_id i_hs i_vs i_tq]; split; [lia|split; [cbn; tauto|lia]]|]). constructor. }
  eapply to_misc; [|discriminate|].
  { apply misc_dht; [|cbv; discriminate]. eapply (hts_dc _ 0 cnt sym); [lia|apply ht_here|]. eapply (hts_ac _ 0 cnt sym); [lia|apply ht_here|constructor]. }
  destruct Dr as [(-> & ->)|(Hn & ->)].
  - apply (to_sos _ _ _ _ 0). exact So.
  - repeat (rewrite <- app_assoc || rewrite <- app_comm_cons). eapply to_misc; [apply misc_dri; exact Hn|discriminate|]. apply (to_sos _ _ _ _ 0). exact So.
Qed.

(** * The scans *)
Lemma code0 : code_of cnt (pad sym) 0 c0. Proof. exists 0%nat, 2, 0. now repeat split. Qed.
Lemma code1 : code_of cnt (pad sym) 1 c1. Proof. exists 1%nat, 2, 1. now repeat split. Qed.
Lemma code2 : code_of cnt (pad sym) 2 c2. Proof. exists 2%nat, 2, 2. now repeat split. Qed.
Lemma dc0 : dc_coded cnt (pad sym) 0 c0. Proof. exists 0, c0. split; [lia|]. split; [reflexivity|]. split; [exact code0|reflexivity]. Qed.
Lemma dc1 v : Z.abs v = 1 -> dc_coded cnt (pad sym) v (c1 ++ extra_bits 1 v). Proof. intros H. exists 1, c1. split; [lia|]. split; [cbn; lia|]. split; [exact code1|reflexivity]. Qed.
Lemma dc2 v : 2 <= Z.abs v <= 3 -> dc_coded cnt (pad sym) v (c2 ++ extra_bits 2 v). Proof. intros H. exists 2, c2. split; [lia|]. split; [cbn; lia|]. split; [exact code2|reflexivity]. Qed.
Lemma eob1 : eob_coded cnt (pad sym) 1 c0.
Proof. exists 0%nat, c0. split; [lia|]. split; [cbn; lia|]. split; [exact code0|reflexivity]. Qed.
Lemma one_value v b : Z.abs v = 1 -> b = (0 <? v) -> run_coded cnt (pad sym) [v] (c1 ++ [b]).
Proof.
  intros H ->. change [v] with (repeat 0 0 ++ [v] ++ []). replace [0 <? v] with (extra_bits 1 v ++ []). 2: { assert (v = 1 \/ v = -1) as [-> | ->] by lia; reflexivity. }
  apply run_value; [lia|lia|cbn; lia|exact code1|constructor].
Qed.
Lemma base_scan parts : (forall k, (k < 3)%nat -> p_hs (parts k) = hs_of (frame_of (head false)) k /\ p_vs (parts k) = vs_of (frame_of (head false)) k /\ p_dcn (parts k) = cnt /\ p_dcv (parts k) = pad sym /\ p_acn (parts k) = cnt /\ p_acv (parts k) = pad sym) ->
  JpegScanSpec.scan_bytes parts (seq 0 3) (mcu_block (frame_of (head false)) coef) 0 0 0 1 (base_data ++ [255; 217]).
Proof.
  intros P. apply (last_segment parts _ _ 0 0 0 1 base_data 0 []); [now left|].
  exists ((c2 ++ extra_bits 2 3) ++ ((c2 ++ extra_bits 2 (-3)) ++ c0) ++ (c1 ++ extra_bits 1 (-1)) ++ ((c2 ++ extra_bits 2 2) ++ (c1 ++ extra_bits 1 1) ++ c0) ++ (c2 ++ extra_bits 2 (-2)) ++ c0 ++ (c2 ++ extra_bits 2 (-2)) ++ c0 ++
    (c1 ++ extra_bits 1 1) ++ c0 ++ (c1 ++ extra_bits 1 (-1)) ++ ((c1 ++ extra_bits 1 1) ++ c0) ++ []), [true].
  split; [repeat constructor; lia|]. split; [reflexivity|]. split; [cbn; lia|].
  assert (End : forall n, (0 < n)%nat -> ac_coded cnt (pad sym) n (repeat 0 n) c0) by (intros n Hn; apply ac_end; [exact Hn|exact code0]).
  assert (V1 : forall n cs v bs, Z.abs v = 1 -> ac_coded cnt (pad sym) n cs bs -> ac_coded cnt (pad sym) (S n) (v :: cs) ((c1 ++ extra_bits 1 v) ++ bs)).
  { intros n cs v bs Hv A. rewrite <- app_assoc. apply (ac_value cnt (pad sym) n cs 0 1 v); [lia|lia|cbn; lia|exact code1|exact A]. }
  assert (V2 : forall n cs v bs, 2 <= Z.abs v <= 3 -> ac_coded cnt (pad sym) n cs bs -> ac_coded cnt (pad sym) (S n) (v :: cs) ((c2 ++ extra_bits 2 v) ++ bs)).
  { intros n cs v bs Hv A. rewrite <- app_assoc. apply (ac_value cnt (pad sym) n cs 0 2 v); [lia|lia|cbn; lia|exact code2|exact A]. }
  destruct (P 0%nat ltac:(lia)) as (A1 & A2 & A3 & A4 & A5 & A6). destruct (P 1%nat ltac:(lia)) as (B1 & B2 & B3 & B4 & B5 & B6). destruct (P 2%nat ltac:(lia)) as (C1 & C2 & C3 & C4 & C5 & C6).
  unfold mcu_blocks. cbn [seq flat_map]. rewrite A1, A2, B1, B2, C1, C2.
  change (hs_of (frame_of (head false)) 0) with 2%nat. change (vs_of (frame_of (head false)) 0) with 2%nat. change (hs_of (frame_of (head false)) 1) with 1%nat. change (vs_of (frame_of (head false)) 1) with 1%nat. change (hs_of (frame_of (head false)) 2) with 1%nat. change (vs_of (frame_of (head false)) 2) with 1%nat.
  cbn [seq flat_map map app].
  assert (G : forall k dc v last bl b1 b2 cs bs, (k < 3)%nat -> dc_coded cnt (pad sym) (dc - last k) b1 -> ac_coded cnt (pad sym) 63 cs b2 -> v = (dc, cs) -> coded parts (fun i => if Nat.eqb i k then dc else last i) bl bs -> coded parts last ((k, v) :: bl) (b1 ++ b2 ++ bs)).
  { intros k dc v last bl b1 b2 cs bs Hk D A -> C. exists (b1 ++ b2), bs. split; [now rewrite app_assoc|]. destruct (P k Hk) as (_ & _ & -> & -> & -> & ->). split; [|exact C]. exists b1, b2. now repeat split. }
  apply (G 0%nat 3 _ _ _ _ _ (-3 :: repeat 0 62)); [lia|apply (dc2 3); lia|apply (V2 62%nat); [lia|apply End; lia]|reflexivity|].
  apply (G 0%nat 2 _ _ _ _ _ (2 :: 1 :: repeat 0 61)); [lia|apply (dc1 (-1)); lia|apply (V2 62%nat); [lia|apply (V1 61%nat); [lia|apply End; lia]]|reflexivity|].
  apply (G 0%nat 0 _ _ _ _ _ (repeat 0 63)); [lia|apply (dc2 (-2)); lia|apply End; lia|reflexivity|].
  apply (G 0%nat (-2) _ _ _ _ _ (repeat 0 63)); [lia|apply (dc2 (-2)); lia|apply End; lia|reflexivity|].
  apply (G 1%nat 1 _ _ _ _ _ (repeat 0 63)); [lia|apply (dc1 1); lia|apply End; lia|reflexivity|].
  apply (G 2%nat (-1) _ _ _ _ _ (1 :: repeat 0 62)); [lia|apply (dc1 (-1)); lia|apply (V1 62%nat); [lia|apply End; lia]|reflexivity|reflexivity].
Qed.

(** The quantiser by rows *)
Definition quant_rows : list Z := map (fun i => nth (match find (fun k => nth k zigzag 0 =? i)%nat (seq 0 64) with Some k => k | None => 0%nat end) quant 0) (seq 0 64).
Lemma quant_by_rows : by_rows quant quant_rows.
Proof.
  split; [reflexivity|]. assert (A : forallb (fun k => nth (nth k zigzag 0%nat) quant_rows 0 =? nth k quant 0) (seq 0 64) = true) by (vm_compute; reflexivity).
  rewrite forallb_forall in A. intros k Hk. apply Z.eqb_eq. apply A. apply in_seq. lia.
Qed.
Example quantisers_demo prog n : quantisers_of (head prog) (told_here n) (fun _ => quant_rows).
Proof. intros k p E. exists quant. split; [|exact quant_by_rows]. do 3 (destruct k as [|k]; [injection E as <-; reflexivity|]). destruct k; discriminate E. Qed.
Example base_demo : baseline_file (head false) (fun _ => quant_rows) coef base_bytes (told_here 0).
Proof.
  split; [reflexivity|]. exists base_head, (base_data ++ [255; 217]), (fun k => Part (hs_of (frame_of (head false)) k) (vs_of (frame_of (head false)) k) cnt (pad sym) cnt (pad sym) quant_rows).
  split; [apply started; [apply all_ok; lia|now left]|]. split; [reflexivity|]. split.
  - intros k td ta I. cbn [p_hs p_vs p_qt p_dcn p_dcv p_acn p_acv]. do 3 (split; [reflexivity|]). assert (td = 0%nat /\ ta = 0%nat) as (-> & ->) by (destruct I as [I|[I|[I|[]]]]; injection I as <- <- <-; now split).
    split; exists sym; now split.
  - apply (base_scan (fun k => Part (hs_of (frame_of (head false)) k) (vs_of (frame_of (head false)) k) cnt (pad sym) cnt (pad sym) quant_rows)). intros k _. now repeat split.
Qed.

(** The progressive file *)
Lemma scan_bits R i m rest : (R = 0 \/ 4 <= R)%nat -> (i < 6)%nat -> In m [217; 218] -> scan_bytes coef (sc i) R 0 (scan_units (frame_of (head true)) (s_order (sc i))) (data i ++ 255 :: m :: rest) m rest.
Proof.
  intros HR Hi Hm. assert (St : stuff (data i) = data i) by (do 6 (destruct i as [|i]; [reflexivity|]); lia). rewrite <- St at 1. apply (scan_last coef (sc i) R 0 _ (data i) 0 m rest); [destruct HR as [HR|HR]; [now left|right; refine (Nat.le_trans _ _ _ _ HR); do 6 (destruct i as [|i]; [apply Nat.leb_le; vm_compute; reflexivity|]); lia]| |destruct Hm as [<-|[<-|[]]]; cbn; tauto|destruct Hm as [<-|[<-|[]]]; lia].
  assert (Sh : forall v n, (v :: repeat 0 n) = [v] ++ repeat 0 n) by reflexivity.
  destruct i as [|[|[|[|[|[|i]]]]]]; [| | | | | |lia].
  - exists ((c1 ++ [true]) ++ c0 ++ (c1 ++ [false]) ++ (c1 ++ [false]) ++ c0 ++ (c1 ++ [false])), []. split; [repeat constructor; lia|]. split; [reflexivity|]. split; [cbn; lia|].
    assert (G : forall x v last bl b1 bs, dc coef x / 2 = v -> dc_coded cnt (pad sym) (v - last (fst x)) b1 -> dc_first_coded coef (sc 0) (fun i => if Nat.eqb i (fst x) then v else last i) bl bs -> dc_first_coded coef (sc 0) last (x :: bl) (b1 ++ bs)).
    { intros x v last bl b1 bs E D C. exists b1, bs. split; [reflexivity|]. change (2 ^ Z.of_nat (s_al (sc 0))) with 2. rewrite E. now split. }
    change (blocks_bits ?c ?s ?l) with (dc_first_coded c s (fun _ => 0) l). change (concat (scan_units (frame_of (head true)) (s_order (sc 0)))) with [(0, 0); (0, 1); (0, 2); (0, 3); (1, 0); (2, 0)]%nat.
    apply (G _ 1); [reflexivity|apply (dc1 1); lia|]. apply (G _ 1); [reflexivity|exact dc0|]. apply (G _ 0); [reflexivity|apply (dc1 (-1)); lia|]. apply (G _ (-1)); [reflexivity|apply (dc1 (-1)); lia|]. apply (G _ 0); [reflexivity|exact dc0|].
    rewrite <- (app_nil_r (c1 ++ [false])). apply (G _ (-1)); [reflexivity|apply (dc1 (-1)); lia|reflexivity].
  - exists ((c1 ++ [false]) ++ c0 ++ (c1 ++ [true]) ++ c0 ++ [] ++ c0 ++ [] ++ c0 ++ []), [true; true]. split; [repeat constructor; lia|]. split; [reflexivity|]. split; [cbn; lia|].
    change (blocks_bits ?c ?s ?l) with (bands_first cnt (pad sym) 0 [[-1] ++ repeat 0 62; [1] ++ repeat 0 62; [] ++ repeat 0 63; [] ++ repeat 0 63]).
    apply (first_end _ _ _ _ 0); [lia|now apply one_value|exact eob1|]. apply (first_end _ _ _ _ 0); [lia|now apply one_value|exact eob1|]. apply (first_end _ _ _ _ 0); [lia|constructor|exact eob1|]. apply (first_end _ _ _ _ 0); [lia|constructor|exact eob1|constructor].
  - exists ([] ++ c0 ++ []), (repeat true 6). split; [repeat constructor; lia|]. split; [reflexivity|]. split; [cbn; lia|].
    change (blocks_bits ?c ?s ?l) with (bands_first cnt (pad sym) 0 [[] ++ repeat 0 63]). apply (first_end _ _ _ _ 0); [lia|constructor|exact eob1|constructor].
  - exists ((c1 ++ [true]) ++ c0 ++ []), (repeat true 3). split; [repeat constructor; lia|]. split; [reflexivity|]. split; [cbn; lia|].
    change (blocks_bits ?c ?s ?l) with (bands_first cnt (pad sym) 0 [[1] ++ repeat 0 62]). apply (first_end _ _ _ _ 0); [lia|now apply one_value|exact eob1|constructor].
  - exists ([] ++ c0 ++ [true] ++ (c1 ++ [true] ++ [false] ++ []) ++ c0 ++ [] ++ [] ++ c0 ++ [] ++ [] ++ c0 ++ [] ++ []), (repeat true 3). split; [repeat constructor; lia|]. split; [reflexivity|]. split; [cbn; lia|].
    change (blocks_bits ?c ?s ?l) with (bands_fine cnt (pad sym) 0 0 [[] ++ (-3 :: repeat 0 62); ([2] ++ [1] ++ []) ++ repeat 0 61; [] ++ repeat 0 63; [] ++ repeat 0 63]).
    assert (N0 : forall n, no_new 0 (repeat 0 n)) by (intros n; apply Forall_forall; intros x Hx; apply repeat_spec in Hx; now subst x).
    apply (bf_end cnt (pad sym) 0 [] (-3 :: repeat 0 62) 0 _ [] c0); [discriminate|constructor|constructor; [reflexivity|apply N0]|exact eob1|].
    apply (bf_end cnt (pad sym) 0 ([2] ++ [1] ++ []) (repeat 0 61) 0 _ (c1 ++ [true] ++ [false] ++ []) c0); [discriminate| |apply N0|exact eob1|].
    { apply (fine_value cnt (pad sym) 0 [2] 1 [] c1 []); [repeat constructor|cbn; lia|reflexivity|exact code1|constructor]. }
    apply (bf_end cnt (pad sym) 0 [] (repeat 0 63) 0 _ [] c0); [discriminate|constructor|apply N0|exact eob1|]. apply (bf_end cnt (pad sym) 0 [] (repeat 0 63) 0 _ [] c0); [discriminate|constructor|apply N0|exact eob1|constructor].
  - exists [true; false; false; false; true; true], [true; true]. split; [repeat constructor; lia|]. split; [reflexivity|]. split; [cbn; lia|]. reflexivity.
Qed.
Lemma legal_here i : scan_legal (sc i) /\ NoDup (s_order (sc i)) /\ Forall (fun k => k < length (f_samp (frame_of (head true))))%nat (s_order (sc i)).
Proof.
  do 5 (destruct i as [|i]; [split; [split; [discriminate|split; [cbn; lia|split; [cbn; lia|]]]; cbn; first [now left|right; split; [lia|split; [lia|eexists; reflexivity]]]|split; [repeat constructor; cbn; lia|repeat constructor]]|]).
  split; [split; [discriminate|split; [cbn; lia|split; [cbn; lia|]]]; cbn; now left|split; [repeat constructor; cbn; lia|repeat constructor]].
Qed.
Fixpoint knows (n : nat) : knowledge := match n with O => unseen | S n' => after (frame_of (head true)) (sc n') (knows n') end.
Lemma in_turns i : (i < 6)%nat -> in_turn (frame_of (head true)) (sc i) (knows i).
Proof. intros Hi. destruct (legal_here i) as (A & B & C). apply turn_ok; try assumption. do 6 (destruct i as [|i]; [vm_compute; reflexivity|]). lia. Qed.
Lemma told_scan n r i : (i < 6)%nat -> scan_as (told_here n) (sh r i) (sc i).
Proof.
  intros Hi. split; [do 6 (destruct i as [|i]; [reflexivity|]); lia|]. do 4 (split; [do 6 (destruct i as [|i]; [reflexivity|]); lia|]). intros k td ta I. destruct (Nat.eq_dec i 5) as [->|N5].
  - cbn [sh e_ss e_ah Nat.eqb]. discriminate.
  - assert (td = 0%nat /\ ta = 0%nat) as (-> & ->).
    { do 5 (destruct i as [|i]; [cbn in I; repeat (destruct I as [I|I]; [injection I as <- <- <-; now split|]); destruct I|]). lia. }
    destruct (e_ss (sh r i) =? 0)%nat; [intros _|]; exists sym; now split.
Qed.
Section Limits.
  Variables first each : told -> shead -> pscan -> Z -> Prop.
  Variables (n : Z) (dri : list Z) (r : nat).
  Hypothesis dri_here : n = 0 /\ dri = [] \/ 4 <= n < 65536 /\ dri = repeat 255 1 ++ 221 :: segment (be16 n).
  Hypothesis r_here : (r < 4)%nat.
  Hypothesis first_here : first (told_here n) (sh r 0) (sc 0) 218.
  Hypothesis each_here : forall i m, (i < 6)%nat -> each (told_here n) (sh r i) (sc i) m.
  Lemma one_here i m rest : (i < 6)%nat -> In m [217; 218] -> one_scan each (head true) coef (told_here n) (sh r i) (knows i) (data i ++ 255 :: m :: rest) (sc i) m rest (knows (S i)).
  Proof.
    intros Hi Hm. split; [now apply told_scan|]. split; [now apply in_turns|]. split; [apply after_learns|]. split; [|now apply each_here]. apply scan_bits; [|exact Hi|exact Hm]. cbn [told_here t_dri]. destruct dri_here as [(-> & _)|(Hn & _)]; [now left|right; lia].
  Qed.
  Lemma next_here i rest : to_next (head true) (sh r i) (told_here n) 218 (sos_bytes (head true) (sh r i) ++ rest) rest (told_here n).
  Proof. left. split; [reflexivity|]. split; [exists rest; now split|]. split; [now apply sh_ok|reflexivity]. Qed.
  Example prog_demo : progressive_file first each (head true) coef 5 (prog_bytes dri r) (told_here n) (knows 6).
  Proof.
    split; [reflexivity|]. exists (sh r 0), (sc 0), (data 0 ++ later_data r [1; 2; 3; 4; 5]%nat), 218, (sos_bytes (head true) (sh r 1) ++ data 1 ++ later_data r [2; 3; 4; 5]%nat), (knows 1).
    assert (I18 : In 218 [217; 218]) by (right; now left). assert (I17 : In 217 [217; 218]) by now left.
    split; [apply (started true (sh r 0) (data 0 ++ later_data r [1; 2; 3; 4; 5]%nat) n dri (sh_ok r 0 r_here)); destruct dri_here as [D|(D & E)]; [now left|right; split; [lia|exact E]]|].
    split; [exact (one_here 0 218 _ ltac:(lia) I18)|]. split; [exact first_here|].
    apply (later each (head true) coef 4 _ (told_here n) _ (knows 2) _ 218 _ (sh r 1) _ (sc 1) 218 (sos_bytes (head true) (sh r 2) ++ data 2 ++ later_data r [3; 4; 5]%nat) (next_here 1 _) (one_here 1 218 _ ltac:(lia) I18)).
    apply (later each (head true) coef 3 _ (told_here n) _ (knows 3) _ 218 _ (sh r 2) _ (sc 2) 218 (sos_bytes (head true) (sh r 3) ++ data 3 ++ later_data r [4; 5]%nat) (next_here 2 _) (one_here 2 218 _ ltac:(lia) I18)).
    apply (later each (head true) coef 2 _ (told_here n) _ (knows 4) _ 218 _ (sh r 3) _ (sc 3) 218 (sos_bytes (head true) (sh r 4) ++ data 4 ++ later_data r [5]%nat) (next_here 3 _) (one_here 3 218 _ ltac:(lia) I18)).
    apply (later each (head true) coef 1 _ (told_here n) _ (knows 5) _ 218 _ (sh r 4) _ (sc 4) 218 (sos_bytes (head true) (sh r 5) ++ data 5 ++ later_data r []) (next_here 4 _) (one_here 4 218 _ ltac:(lia) I18)).
    apply (later each (head true) coef 0 _ (told_here n) _ (knows 6) _ 218 _ (sh r 5) _ (sc 5) 217 [] (next_here 5 _) (one_here 5 217 _ ltac:(lia) I17)). constructor.
  Qed.
End Limits.
Example complete_demo : complete (head true) (knows 6).
Proof.
  intros k b i Hk Hb Hi. assert (A : forallb (fun k => forallb (fun b => forallb (fun i => same_bit (knows 6 k b i) (Some 0%nat)) (seq 0 64)) (seq 0 (across (frame_of (head true)) k * down (frame_of (head true)) k))) (seq 0 3) = true) by (vm_compute; reflexivity).
  rewrite forallb_forall in A. specialize (A k ltac:(apply in_seq; cbn in Hk; lia)). rewrite forallb_forall in A. specialize (A b ltac:(apply in_seq; lia)). rewrite forallb_forall in A. apply same_bit_ok. apply A. apply in_seq. lia.
Qed.

(** * A first scan that ends with a long symbol: 8 x 8 pixels, 4:4:4, only DC coefficients: 0, 0 and 512, with codes of 16 bits; 512 has 10 more bits. *)
Definition cnt_long : list Z := repeat 0 15 ++ [2].
Definition sym_long : list Z := [0; 10].
Definition head_long : fhead := FHead true 8 8 [FPart 1 1 1 0; FPart 2 1 1 0; FPart 3 1 1 0].
Definition sh_long : shead := SHead all_three 0 0 0 0.
Definition sc_long : pscan := PScan [0; 1; 2]%nat 0 0 0 0 (fun _ => cnt_long) (fun _ => pad sym_long) (fun _ => []) (fun _ => []).
Definition coef_long (k b : nat) : list Z := if (k =? 2)%nat then block 512 [] else block 0 [].
Definition told_long : told := Told (put_at (fun _ => None) 0 quant) (put_at (fun _ => None) 0%nat (cnt_long, sym_long)) (fun _ => None) 0 None (Notes None None None None []).
Definition long_data : list Z := [0; 0; 0; 0; 0; 1; 128; 63].
Definition long_bytes : list Z :=
  [255; 216] ++ (repeat 255 1 ++ 219 :: segment (0 :: quant) ++ (repeat 255 1 ++ 194 :: sof_bytes head_long ++
    (repeat 255 1 ++ 196 :: segment (0 :: cnt_long ++ sym_long ++ []) ++ (repeat 255 1 ++ 218 :: sos_bytes head_long sh_long ++ long_data ++ [255; 217])))).
Lemma ht_long : ht_ok true cnt_long sym_long.
Proof.
  split; [reflexivity|]. split; [apply Forall_forall; intros x H; cbn in H; unfold is_byte; repeat (destruct H as [<-|H]; [lia|]); destruct H|]. split; [reflexivity|]. split; [cbn; lia|].
  split; [apply Forall_forall; intros x H; cbn in H; unfold is_byte; repeat (destruct H as [<-|H]; [lia|]); destruct H|]. split.
  - repeat constructor.
  - intros _. repeat constructor; discriminate.
Qed.
Example long_demo (first each : told -> shead -> pscan -> Z -> Prop) : first told_long sh_long sc_long 217 -> each told_long sh_long sc_long 217 ->
  progressive_file first each head_long coef_long 0 long_bytes told_long (after (frame_of head_long) sc_long unseen).
Proof.
  intros F E. split; [reflexivity|]. exists sh_long, sc_long, (long_data ++ [255; 217]), 217, [], (after (frame_of head_long) sc_long unseen). split; [|split; [|split; [exact F|constructor]]].
  - eexists. split; [reflexivity|]. eapply to_frame_misc.
    { apply misc_dqt; [|cbv; discriminate]. rewrite <- (app_nil_r (0 :: quant)). eapply (qts_more _ 0 quant); [|constructor]. apply (qt_8 0 quant); [lia|reflexivity|]. apply Forall_forall. intros x H. unfold quant in H. apply in_map_iff in H. destruct H as (m & <- & H). apply in_seq in H. lia. }
    apply to_sof; [reflexivity| |].
    { split; [cbn; lia|]. split; [cbn; lia|]. split; [cbn; lia|]. split; [repeat constructor; cbn; lia|]. unfold head_long, fpart_ok. cbn [h_parts]. repeat (apply Forall_cons; [cbn [i_id i_hs i_vs i_tq]; split; [lia|split; [cbn; tauto|lia]]|]). constructor. }
    eapply to_misc; [|discriminate|].
    { apply misc_dht; [|cbv; discriminate]. eapply (hts_dc _ 0 cnt_long sym_long); [lia|apply ht_long|constructor]. }
    apply (to_sos _ _ _ _ 0). split; [cbn; lia|]. split; [repeat constructor; cbn; lia|]. split; [repeat constructor|]. cbn. lia.
  - split; [|split; [|split; [apply after_learns|split; [|exact E]]]].
    + do 5 (split; [reflexivity|]). intros k td ta I. cbn [e_ss sh_long Nat.eqb]. intros _. exists sym_long. assert (td = 0%nat) as -> by (destruct I as [I|[I|[I|[]]]]; now injection I). now split.
    + apply turn_ok; [|repeat constructor; cbn; lia|repeat constructor|vm_compute; reflexivity]. split; [discriminate|]. split; [cbn; lia|]. split; [now left|now left].
    + apply (scan_last coef_long sc_long 0 0 _ long_data 0 217 []); [now left| |cbn; tauto|lia].
      set (z := repeat false 16). set (l := repeat false 15 ++ [true]). exists (z ++ z ++ (l ++ extra_bits 10 512)), (repeat true 6). split; [repeat constructor; lia|]. split; [reflexivity|]. split; [cbn; lia|].
      assert (D0 : dc_coded cnt_long (pad sym_long) 0 z). { exists 0, z. split; [lia|]. split; [reflexivity|]. split; [exists 0%nat, 16, 0; now repeat split|reflexivity]. }
      exists z, (z ++ (l ++ extra_bits 10 512)). split; [reflexivity|]. split; [exact D0|]. exists z, (l ++ extra_bits 10 512). split; [reflexivity|]. split; [exact D0|].
      exists (l ++ extra_bits 10 512), []. split; [now rewrite app_nil_r|]. split; [|reflexivity].
      exists 10, l. split; [lia|]. split; [vm_compute; now repeat split|]. split; [exists 1%nat, 16, 1; now repeat split|reflexivity].
Qed.

(** * A wide picture without sampling, whose blocks are all zero: 16 d MCUs *)
Definition head_wide (w : Z) : fhead := FHead false w 8 [FPart 1 1 1 0; FPart 2 1 1 0; FPart 3 1 1 0].
Definition wide_start (w : Z) (rest : list Z) : list Z :=
  [255; 216] ++ (repeat 255 1 ++ 219 :: segment (0 :: quant) ++ (repeat 255 1 ++ 192 :: sof_bytes (head_wide w) ++
    (repeat 255 1 ++ 196 :: segment (0 :: cnt ++ sym ++ 16 :: cnt ++ sym ++ []) ++ (repeat 255 1 ++ 218 :: sos_bytes (head_wide w) base_head ++ rest)))).
Lemma wide_started w rest : 1 <= w < 65536 -> file_start true (head_wide w) base_head (wide_start w rest) rest (told_here 0).
Proof.
  intros Hw. eexists. split; [reflexivity|]. eapply to_frame_misc.
  { apply misc_dqt; [|cbv; discriminate]. rewrite <- (app_nil_r (0 :: quant)). eapply (qts_more _ 0 quant); [|constructor]. apply (qt_8 0 quant); [lia|reflexivity|]. apply Forall_forall. intros x H. unfold quant in H. apply in_map_iff in H. destruct H as (m & <- & H). apply in_seq in H. lia. }
  apply to_sof; [now left| |].
  { split; [exact Hw|]. split; [cbn; lia|]. split; [cbn; lia|]. split; [repeat constructor; cbn; lia|]. unfold head_wide, fpart_ok. cbn [h_parts]. repeat (apply Forall_cons; [cbn [i_id i_hs i_vs i_tq]; split; [lia|split; [cbn; tauto|lia]]|]). constructor. }
  eapply to_misc; [|discriminate|].
  { apply misc_dht; [|cbv; discriminate]. eapply (hts_dc _ 0 cnt sym); [lia|apply ht_here|]. eapply (hts_ac _ 0 cnt sym); [lia|apply ht_here|constructor]. }
  apply (to_sos _ _ _ _ 0). split; [cbn; lia|]. split; [repeat constructor; cbn; lia|]. split; [repeat constructor|]. cbn. lia.
Qed.
Definition zeros_coef (k b : nat) : list Z := block 0 [].
Definition wide_parts (k : nat) : part := Part 1 1 cnt (pad sym) cnt (pad sym) quant_rows.
Definition wide_data (d : nat) : list Z := repeat 0 (3 * d)%nat.
Lemma zero_bits n : data_bits (repeat 0 n) = repeat false (8 * n)%nat.
Proof. induction n as [|n IH]; [reflexivity|]. replace (8 * S n)%nat with (8 + 8 * n)%nat by lia. rewrite repeat_app, <- IH. reflexivity. Qed.
Lemma zero_stuff n : stuff (repeat 0 n) = repeat 0 n.
Proof. induction n as [|n IH]; [reflexivity|]. cbn [repeat]. unfold stuff in *. cbn [map concat]. rewrite IH. reflexivity. Qed.
Lemma wide_scan f d : JpegScanSpec.scan_bytes wide_parts (seq 0 3) (mcu_block f zeros_coef) 0 0 0 (2 * d) (wide_data d ++ [255; 217]).
Proof.
  unfold wide_data. rewrite <- (zero_stuff (3 * d)) at 1. apply (last_segment wide_parts _ _ 0 0 0 (2 * d) (repeat 0 (3 * d)%nat) 0 []); [now left|].
  exists (repeat false (12 * (2 * d))%nat), []. split; [apply Forall_forall; intros x Hx; apply repeat_spec in Hx; subst x; unfold is_byte; lia|]. split; [rewrite zero_bits, app_nil_r; f_equal; lia|]. split; [cbn; lia|].
  change (seq 0 3) with [0; 1; 2]%nat. cut (forall n m, coded wide_parts (fun _ => 0) (flat_map (mcu_blocks wide_parts [0; 1; 2]%nat (mcu_block f zeros_coef)) (seq m n)) (repeat false (12 * n))); [intros C; apply C|].
  assert (B0 : block_coded cnt (pad sym) cnt (pad sym) 0 (repeat 0 63) (repeat false 4)).
  { exists c0, c0. split; [exact dc0|]. split; [apply (ac_end cnt (pad sym) 63); [lia|exact code0]|reflexivity]. }
  induction n as [|n IH]; intros m; [reflexivity|]. change (flat_map ?g (seq m (S n))) with (g m ++ flat_map g (seq (S m) n)). replace (12 * S n)%nat with (4 + (4 + (4 + 12 * n)))%nat by lia. rewrite !repeat_app.
  assert (G : forall last k bl bs, (forall i, last i = 0) -> (forall last, (forall i, last i = 0) -> coded wide_parts last bl bs) -> coded wide_parts last ((k, (0, repeat 0 63)) :: bl) (repeat false 4 ++ bs)).
  { intros last k bl bs L C. exists (repeat false 4), bs. split; [reflexivity|]. split; [rewrite L; exact B0|]. apply C. intros i. destruct (Nat.eqb i k); [reflexivity|apply L]. }
  assert (IH' : forall last, (forall i, last i = 0) -> coded wide_parts last (flat_map (mcu_blocks wide_parts [0; 1; 2]%nat (mcu_block f zeros_coef)) (seq (S m) n)) (repeat false (12 * n))).
  { specialize (IH (S m)). clear - IH. revert IH. generalize (flat_map (mcu_blocks wide_parts [0; 1; 2]%nat (mcu_block f zeros_coef)) (seq (S m) n)), (repeat false (12 * n)). intros bl bs C last L.
    assert (X : forall bl l1 l2 bs, (forall i, l1 i = l2 i) -> coded wide_parts l1 bl bs -> coded wide_parts l2 bl bs).
    { clear. induction bl as [|(k, (dc, cs)) bl IH]; intros l1 l2 bs E; [now intros H|]. intros (b1 & b2 & H1 & H2 & H3). exists b1, b2. split; [exact H1|]. rewrite <- E. split; [exact H2|]. apply (IH (fun i => if Nat.eqb i k then dc else l1 i)); [|exact H3]. intros i. now destruct (Nat.eqb i k). }
    apply (X _ (fun _ => 0)); [intros i; now rewrite L|exact C]. }
  apply G; [reflexivity|]. intros last1 L1. apply G; [exact L1|]. intros last2 L2. apply G; [exact L2|]. exact IH'.
Qed.
Lemma wide_demo w d : 1 <= w < 65536 -> (mcus_x (frame_of (head_wide w)) * mcus_y (frame_of (head_wide w)) = 2 * d)%nat ->
  baseline_file (head_wide w) (fun _ => quant_rows) zeros_coef (wide_start w (wide_data d ++ [255; 217])) (told_here 0).
Proof.
  intros Hw Hd. split; [reflexivity|]. exists base_head, (wide_data d ++ [255; 217]), wide_parts. split; [now apply wide_started|]. split; [reflexivity|]. split.
  - intros k td ta I. assert (td = 0%nat /\ ta = 0%nat /\ (k < 3)%nat) as (-> & -> & Hk) by (destruct I as [I|[I|[I|[]]]]; injection I as <- <- <-; repeat split; lia).
    split; [|split; [|split; [reflexivity|split; exists sym; now split]]]; destruct k as [|[|[|k]]]; reflexivity || lia.
  - rewrite Hd. apply (wide_scan (frame_of (head_wide w)) d).
Qed.
