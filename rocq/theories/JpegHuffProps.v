(** Entropy-coded JPEG data: property theorems about Huffman tables and blocks. *)
From Verif Require Import Base BaseProof Loops Slices Bits JpegIdctModel JpegIdctSpec JpegIdctProps
  JpegHuffModel JpegHuffSpec JpegHuffTable JpegHuffBits JpegHuffBlock JpegHuffRun.

Lemma nth_error_firstn' {A} (l : list A) n p : (p < n)%nat -> nth_error (firstn n l) p = nth_error l p.
Proof. revert n p. induction l as [|x l IH]; intros [|n] [|p] H; cbn; try reflexivity; try lia. apply IH. lia. Qed.

(** ** Tables *)

(** A table is accepted exactly when no code has all bits set (and no code is too long for its length), and the symbols of
    a table for DC values are at most 15. Otherwise the file is refused; there is no panic. *)
Definition dc_symbols (counts values : list Z) : Prop :=
  forall p sc sym, nth_error (codes counts) p = Some sc -> nth_error values p = Some sym -> sym <= 15.
Lemma dc_ok_iff counts values : table_ok counts values -> dc_ok counts values <-> dc_symbols counts values.
Proof.
  intros TO. pose proof (codes_len _ _ TO) as CL. pose proof TO as (_ & _ & L & Lv & _). unfold dc_ok, dc_symbols. split.
  - intros F p sc sym E1 E2. rewrite Forall_forall in F. apply F. assert (Hp : (p < length (sizes_from 1 counts))%nat).
    { rewrite <- CL. apply nth_error_Some. congruence. }
    apply (nth_error_In _ p). rewrite nth_error_firstn' by exact Hp. exact E2.
  - intros F. apply Forall_forall. intros sym Hs. apply In_nth_error in Hs. destruct Hs as (p & E).
    assert (Hp : (p < length (sizes_from 1 counts))%nat).
    { assert (X : nth_error (firstn (length (sizes_from 1 counts)) values) p <> None) by congruence. apply nth_error_Some in X. rewrite firstn_length in X. lia. }
    rewrite nth_error_firstn' in E by exact Hp. rewrite <- CL in Hp. apply nth_error_Some in Hp.
    destruct (nth_error (codes counts) p) as [sc|] eqn:E1; [|congruence]. exact (F p sc sym E1 E).
Qed.
Lemma table_facts is_dc counts values : table_ok counts values ->
  (start (sizes_from 1 counts) (length (sizes_from 1 counts)) < 2 ^ 16 -> (is_dc = true -> dc_ok counts values) -> exists t, new_table is_dc counts values = Ok t /\ facts counts values t /\
        if is_dc then ac_lookup t = None else exists a, ac_lookup t = Some a /\ fast_facts counts values a) /\
  (2 ^ 16 <= start (sizes_from 1 counts) (length (sizes_from 1 counts)) \/ is_dc = true /\ ~ dc_ok counts values -> new_table is_dc counts values = Err EOther).
Proof.
  intros TO. pose proof (codes_len _ _ TO) as CL. pose proof TO as (L1 & L2 & L3 & L4 & _). rewrite CL in L3. now apply new_table_facts.
Qed.
Theorem tables_accepted is_dc counts values : table_ok counts values ->
  (legal counts /\ (is_dc = true -> dc_symbols counts values) -> exists t, new_table is_dc counts values = Ok t) /\
  (~ (legal counts /\ (is_dc = true -> dc_symbols counts values)) -> new_table is_dc counts values = Err EOther).
Proof.
  intros TO. destruct (table_facts is_dc counts values TO) as (A & B). pose proof (legal_sum _ _ TO) as LS. pose proof (dc_ok_iff _ _ TO) as DI.
  split.
  - intros (L & D). destruct A as (t & E & _); [tauto|intros X; apply DI; auto|]. now exists t.
  - intros N. apply B. destruct (Z.lt_ge_cases (start (sizes_from 1 counts) (length (sizes_from 1 counts))) (2 ^ 16)) as [C|C]; [right|left; exact C].
    destruct is_dc; [|exfalso; apply N; split; [tauto|discriminate]]. split; [reflexivity|]. intros X. apply N. tauto.
Qed.
Print Assumptions tables_accepted.

Lemma dc_made counts values t : table_ok counts values -> new_table true counts values = Ok t -> dc_table counts values t.
Proof.
  intros TO E. destruct (table_facts true counts values TO) as (A & B). pose proof (legal_sum _ _ TO) as LS.
  destruct (Z.lt_ge_cases (start (sizes_from 1 counts) (length (sizes_from 1 counts))) (2 ^ 16)) as [C|C]; [|rewrite B in E by (left; exact C); discriminate E].
  assert (D : Forall (fun v => v <= 15) (firstn (length (sizes_from 1 counts)) values) \/ ~ dc_ok counts values).
  { destruct (Forall_dec (fun v => v <= 15) (fun v => Z_le_dec v 15) (firstn (length (sizes_from 1 counts)) values)) as [D|D]; [now left|now right]. }
  destruct D as [D|D]; [|rewrite B in E by (right; now split); discriminate E].
  destruct (A C (fun _ => D)) as (t' & E' & F & _). assert (t' = t) as -> by congruence. split; [exact TO|]. split; [tauto|exact F].
Qed.
Lemma ac_made counts values t : table_ok counts values -> new_table false counts values = Ok t -> exists a, ac_table counts values t a.
Proof.
  intros TO E. destruct (table_facts false counts values TO) as (A & B). pose proof (legal_sum _ _ TO) as LS.
  destruct (Z.lt_ge_cases (start (sizes_from 1 counts) (length (sizes_from 1 counts))) (2 ^ 16)) as [C|C]; [|rewrite B in E by (left; exact C); discriminate E].
  destruct (A C ltac:(discriminate)) as (t' & E' & F & a & Ea & Fa). assert (t' = t) as -> by congruence.
  exists a. split; [split; [exact TO|split; [tauto|exact F]]|]. now split.
Qed.

(** ** Blocks *)

(** Blocks of one component after one another *)
Fixpoint blocks_coded (dcn dcv acn acv : list Z) (last : Z) (l : list (Z * list Z)) (bs : list bool) : Prop :=
  match l with
  | [] => bs = []
  | (dc, cs) :: l' => exists b1 b2, bs = b1 ++ b2 /\ block_coded dcn dcv acn acv (dc - last) cs b1 /\ blocks_coded dcn dcv acn acv dc l' b2
  end.
Fixpoint decode_blocks (debug : bool) (dc ac : table) (qt : list Z) (n : nat) (pred : Z) (s : bits) : res (list (list Z) * bits) :=
  match n with
  | O => Ok ([], s)
  | S n' =>
      do (pred, len, b, s) <- decode_block debug dc ac qt (repeat 0 64) pred s ;
      do (bs, s) <- decode_blocks debug dc ac qt n' pred s ; Ok (b :: bs, s)
  end.
Fixpoint discard_blocks (dc ac : table) (n : nat) (s : bits) : res bits :=
  match n with O => Ok s | S n' => do (len, s) <- discard_block dc ac s ; discard_blocks dc ac n' s end.
Definition opened (file : list Z) : bits := Bits 0 0 0 None 0 false file.

(** The blocks of the file come out, whatever follows them; skipping a component reads exactly as far as decoding it. *)
Theorem blocks_decoded_partial debug dcn dcv acn acv dct act qt l bs file :
  table_ok dcn dcv -> table_ok acn acv -> new_table true dcn dcv = Ok dct -> new_table false acn acv = Ok act -> quantiser qt ->
  Forall (fun b => - 2 ^ 15 <= fst b < 2 ^ 15) l -> blocks_coded dcn dcv acn acv 0 l bs -> holds file bs ->
  exists blocks s, decode_blocks debug dct act qt (length l) 0 (opened file) = Ok (blocks, s) /\
    discard_blocks dct act (length l) (opened file) = Ok s /\
    Forall2 (fun b block => dequantised qt (fst b) (snd b) block) l blocks.
Proof.
  intros TD TA Ed Ea Q F C Hd. apply dc_made in Ed; [|exact TD]. apply ac_made in Ea; [|exact TA]. destruct Ea as (a & Ea).
  assert (St : exists rest fin, ready (opened file) (bs ++ rest) fin).
  { destruct Hd as (data & tail & Bd & Bf & E & T & (r & Pr)). exists r. destruct T as [T|(n & m & re & T & Hm)].
    - exists None. rewrite <- Pr. apply (ready_start _ data tail); try assumption; lia.
    - exists (Some (m, re)). rewrite <- Pr. apply (ready_start _ data tail); try assumption; try lia. exists n. now split. }
  destruct St as (rest & fin & R). clear Hd. revert R C F. generalize 0 as last. generalize (opened file) as st.
  revert bs. induction l as [|[dc cs] l IH]; intros bs st last R C F; cbn [length decode_blocks discard_blocks].
  - exists [], st. repeat split. constructor.
  - destruct C as (b1 & b2 & -> & B & C). inversion F as [|x y F1 F2]; subst x y. cbn [fst] in F1.
    rewrite <- app_assoc in R.
    destruct (block_ok debug _ _ dct _ _ act a qt _ _ _ _ _ _ last Ed Ea Q B ltac:(lia) R) as (len & blk & st' & E1 & E2 & R' & D & _).
    rewrite E1, E2. cbn [bind]. replace (last + (dc - last)) with dc in * by lia.
    destruct (IH b2 st' dc R' C F2) as (blocks & s & E3 & E4 & F3). rewrite E3, E4. cbn [bind].
    exists (blk :: blocks), s. split; [reflexivity|]. split; [reflexivity|]. constructor; [exact D|exact F3].
Qed.
Print Assumptions blocks_decoded_partial.

(** *** Concrete tables: three codes of two bits each *)
Definition demo_counts : list Z := 0 :: 3 :: repeat 0 14.
Definition demo_dcv : list Z := [0; 3; 15] ++ repeat 0 253.
Definition demo_acv : list Z := [0; 2; 240] ++ repeat 0 253.
Lemma demo_ok v0 v1 v2 : 0 <= v0 < 256 -> 0 <= v1 < 256 -> 0 <= v2 < 256 -> table_ok demo_counts ([v0; v1; v2] ++ repeat 0 253).
Proof.
  intros A B C. split; [reflexivity|]. split; [unfold demo_counts; repeat constructor; discriminate|]. split; [apply Nat.leb_le; vm_compute; reflexivity|]. split; [reflexivity|].
  apply Forall_app. split; [repeat constructor; lia|]. apply Forall_forall. intros x Hx. apply repeat_spec in Hx. subst x. split; lia.
Qed.
Definition made (r : res table) : table := match r with Ok t => t | _ => Table [] [] [] None [] end.
Definition demo_dct : table := made (new_table true demo_counts demo_dcv).
Definition demo_act : table := made (new_table false demo_counts demo_acv).
Definition demo_qt : list Z := map (fun i => Z.of_nat (i + 2)) (seq 0 64).
(** Two blocks: DC 5, then 3, 16 zeros, -2; DC -2 and nothing else. Bits 01 101, 01 11, 10, 01 01, 00; 01 000, 00 *)
Definition demo_l : list (Z * list Z) := [(5, [3] ++ repeat 0 16 ++ [-2] ++ repeat 0 45); (-2, repeat 0 63)].
Definition demo_bs : list bool :=
  [false; true; true; false; true; false; true; true; true; true; false; false; true; false; true; false; false;
   false; true; false; false; false; false; false].
Definition demo_file : list Z := [107; 202; 32; 255; 217].
Lemma demo_code v0 v1 v2 c sym : nth_error [v0; v1; v2] (Z.to_nat c) = Some sym -> 0 <= c < 3 -> code_of demo_counts ([v0; v1; v2] ++ repeat 0 253) sym (msb 2 c).
Proof.
  intros E H. exists (Z.to_nat c), 2, c. assert (c = 0 \/ c = 1 \/ c = 2) as [->|[->| ->]] by lia; cbn in E |- *; now rewrite <- E.
Qed.
Example blocks_demo : table_ok demo_counts demo_dcv /\ table_ok demo_counts demo_acv /\ legal demo_counts /\
  new_table true demo_counts demo_dcv = Ok demo_dct /\ new_table false demo_counts demo_acv = Ok demo_act /\ quantiser demo_qt /\
  blocks_coded demo_counts demo_dcv demo_counts demo_acv 0 demo_l demo_bs /\ holds demo_file demo_bs /\
  match decode_blocks true demo_dct demo_act demo_qt 2 0 (opened demo_file) with
  | Ok ([b1; b2], _) => firstn 18 b1 = [10; 9; 0; 0; 0; 0; 0; 0; 0; 0; 0; 0; 0; 0; 0; 0; 0; 0] /\ nth 26 b1 0 = -56 /\ b2 = -4 :: repeat 0 63
  | _ => False
  end.
Proof.
  split; [apply demo_ok; lia|]. split; [apply demo_ok; lia|]. split; [repeat constructor|].
  split; [vm_compute; reflexivity|]. split; [vm_compute; reflexivity|].
  split; [split; [reflexivity|apply Forall_forall; intros x Hx; apply in_map_iff in Hx; destruct Hx as (i & <- & Hi); apply in_seq in Hi; lia]|].
  split; [|split].
  - exists (firstn 17 demo_bs), (skipn 17 demo_bs). split; [reflexivity|]. split.
    + exists (msb 2 1 ++ [true; false; true]), (msb 2 1 ++ [true; true] ++ msb 2 2 ++ msb 2 1 ++ [false; true] ++ msb 2 0).
      split; [|split; [|reflexivity]].
      * exists 3, (msb 2 1). split; [lia|]. split; [split; [lia|cbn; lia]|]. split; [now apply demo_code|reflexivity].
      * apply (ac_value _ _ 62 (repeat 0 16 ++ [-2] ++ repeat 0 45) 0 2 3 (msb 2 1) (msb 2 2 ++ msb 2 1 ++ [false; true] ++ msb 2 0)); try lia.
        { split; [lia|cbn; lia]. } { now apply demo_code. }
        apply (ac_zrl _ _ 46 ([-2] ++ repeat 0 45) (msb 2 2)); [now apply demo_code|].
        apply (ac_value _ _ 45 (repeat 0 45) 0 2 (-2) (msb 2 1) (msb 2 0)); try lia.
        { split; [lia|cbn; lia]. } { now apply demo_code. }
        apply (ac_end _ _ 45); [lia|now apply demo_code].
    + exists (skipn 17 demo_bs), []. split; [reflexivity|]. split; [|reflexivity].
      exists (msb 2 1 ++ [false; false; false]), (msb 2 0). split; [|split; [|reflexivity]].
      * exists 3, (msb 2 1). split; [lia|]. split; [split; [lia|cbn; lia]|]. split; [now apply demo_code|reflexivity].
      * apply (ac_end _ _ 63); [lia|now apply demo_code].
  - exists [107; 202; 32], [255; 217]. split; [repeat constructor; lia|]. split; [repeat constructor; lia|]. split; [reflexivity|]. split.
    + right. exists 0%nat, 217, []. split; [reflexivity|cbn; tauto].
    + exists []. reflexivity.
  - vm_compute. repeat split; reflexivity.
Qed.
(** A table with a code of all ones is refused, and so is a DC symbol above 15. *)
Example refused_demo : ~ legal (2 :: repeat 0 15) /\ new_table false (2 :: repeat 0 15) demo_acv = Err EOther /\
  new_table true demo_counts demo_acv = Err EOther.
Proof.
  split; [|split; vm_compute; reflexivity]. intros L. inversion L as [|x l _ L2]; subst. inversion L2 as [|x l L3 _]; subst. cbn in L3. lia.
Qed.

(** In debug builds the product of the DC prediction and the quantiser can overflow: two differences of 32767 and a quantiser
    of 65535 (bitstream.rs:366). Release builds wrap. *)
Theorem dc_product_refuted : exists dct act qt file, new_table true demo_counts demo_dcv = Ok dct /\ new_table false demo_counts demo_acv = Ok act /\
  quantiser qt /\ bytes file /\ decode_blocks true dct act qt 2 0 (opened file) = Panic /\
  exists bs s, decode_blocks false dct act qt 2 0 (opened file) = Ok (bs, s).
Proof.
  exists demo_dct, demo_act, (repeat 65535 64), [191; 255; 0; 151; 255; 0; 243; 255; 217].
  split; [vm_compute; reflexivity|]. split; [vm_compute; reflexivity|].
  split; [split; [reflexivity|apply Forall_forall; intros x Hx; apply repeat_spec in Hx; lia]|]. split; [repeat constructor; lia|].
  split; [vm_compute; reflexivity|]. eexists. eexists. vm_compute. reflexivity.
Qed.
Print Assumptions dc_product_refuted.
