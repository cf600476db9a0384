(** Proofs about the PNG filters. *)
From Verif Require Import Base BaseProof Bits Loops PngFilterModel PngFilterSpec.

Lemma bytes_nth l i : bytes l -> is_byte (nth i l 0).
Proof.
  intros H. destruct (Nat.lt_ge_cases i (length l)) as [Hi|Hi].
  - exact (proj1 (Forall_forall _ _) H _ (nth_In _ _ Hi)).
  - rewrite nth_overflow by exact Hi. unfold is_byte; lia.
Qed.

Lemma paeth_spec_eq a b c : is_byte a -> is_byte b -> is_byte c -> paeth a b c = spec_paeth a b c.
Proof.
  unfold is_byte, paeth, spec_paeth, u8. intros.
  destruct (Z.ltb_spec a b);
    repeat match goal with |- context [if ?x then _ else _] => destruct x eqn:? end; lia.
Qed.
Lemma spec_paeth_byte a b c : is_byte a -> is_byte b -> is_byte c -> is_byte (spec_paeth a b c).
Proof.
  unfold is_byte, spec_paeth. intros.
  repeat match goal with |- context [if ?x then _ else _] => destruct x end; lia.
Qed.

(** Truncating average by bit tricks. *)
Lemma nocarry a b c : Z.land a b = 0 -> (forall i, Z.testbit c i = xorb (Z.testbit a i) (Z.testbit b i)) -> a + b = c.
Proof.
  intros H E. rewrite Z.add_nocarry_lxor by exact H. apply Z.bits_inj'. intros i _. now rewrite Z.lxor_spec, E.
Qed.
Lemma add_lxor_land a b : a + b = Z.lxor a b + 2 * Z.land a b.
Proof.
  assert (Ea : Z.ldiff a b + Z.land a b = a).
  { apply nocarry; [apply Z.bits_inj'|]; intros i; intros; rewrite ?Z.land_spec, ?Z.ldiff_spec, ?Z.land_spec, ?Z.testbit_0_l;
      now destruct (Z.testbit a i), (Z.testbit b i). }
  assert (Eb : Z.ldiff b a + Z.land a b = b).
  { apply nocarry; [apply Z.bits_inj'|]; intros i; intros; rewrite ?Z.land_spec, ?Z.ldiff_spec, ?Z.land_spec, ?Z.testbit_0_l;
      now destruct (Z.testbit a i), (Z.testbit b i). }
  assert (Ex : Z.ldiff a b + Z.ldiff b a = Z.lxor a b).
  { apply nocarry; [apply Z.bits_inj'|]; intros i; intros; rewrite ?Z.land_spec, ?Z.lxor_spec, ?Z.ldiff_spec, ?Z.testbit_0_l;
      now destruct (Z.testbit a i), (Z.testbit b i). }
  lia.
Qed.
Lemma avg_bits a b : Z.land a b + Z.shiftr (Z.lxor a b) 1 = (a + b) / 2.
Proof. rewrite (add_lxor_land a b), Z.shiftr_div_pow2 by lia. change (2 ^ 1) with 2. lia. Qed.

(** * Scalar handlers *)
Section two_stage.
  Variables (n comps : nat) (current : list Z) (G : nat -> Z -> Z).
  Variables (b1 b2 : nat -> list Z -> res (list Z)).
  Hypothesis Hc : (0 < comps <= n)%nat.
  Hypothesis Hn : (n <= length current)%nat.
  Hypothesis H1 : forall i s, (i < comps)%nat -> length s = length current -> b1 i s = Ok (upd s i (G i 0)).
  Hypothesis H2 : forall i s, (comps <= i < n)%nat -> length s = length current ->
     b2 i s = Ok (upd s i (G i (nth (i - comps) s 0))).

  Lemma stage1 : exists c1, for_range 0 comps b1 current = Ok c1 /\ length c1 = length current /\
      (forall i, (i < comps)%nat -> nth i c1 0 = G i 0) /\
      (forall i, (comps <= i)%nat -> nth i c1 0 = nth i current 0).
  Proof.
    destruct (for_upd 0 (fun i _ => G i 0) 0 comps b1 current) as (c1 & E & L & A & B).
    - lia.
    - intros; apply H1; lia.
    - reflexivity.
    - exists c1. split; [exact E|]. split; [exact L|]. split; intros; [apply A|apply B]; lia.
  Qed.

  Lemma two_stage_ok : exists c1 c2, for_range 0 comps b1 current = Ok c1 /\ length c1 = length current /\
      for_range comps n b2 c1 = Ok c2 /\ length c2 = length current /\
      (forall i, (i < n)%nat -> nth i c2 0 = G i (left comps c2 i)) /\
      (forall i, (n <= i)%nat -> nth i c2 0 = nth i current 0).
  Proof.
    destruct stage1 as (c1 & E1 & L1 & A1 & B1).
    destruct (for_upd 0 (fun i s => G i (nth (i - comps) s 0)) comps n b2 c1) as (c2 & E2 & L2 & A2 & B2).
    - lia.
    - intros; apply H2; lia.
    - intros i s s' Hi Hs. rewrite Hs by lia. reflexivity.
    - exists c1, c2. split; [exact E1|]. split; [exact L1|]. split; [exact E2|]. split; [lia|]. unfold left. split.
      + intros i Hi. destruct (Nat.ltb_spec i comps) as [Hl|Hl].
        * rewrite B2 by lia. auto.
        * apply A2. lia.
      + intros i Hi. rewrite B2 by lia. apply B1. lia.
  Qed.
End two_stage.

Definition unfiltered (t : filter) (bpp : nat) (prev raw current out : list Z) : Prop :=
  exists row, recon t bpp prev raw row /\ out = row ++ skipn (length raw) current.

Lemma unfiltered_intro t bpp prev raw current out :
  (length raw <= length current)%nat -> length out = length current ->
  (forall i, (i < length raw)%nat ->
    nth i out 0 = (nth i raw 0 + predict t (left bpp out i) (nth i prev 0) (left bpp prev i)) mod 256) ->
  (forall i, (length raw <= i)%nat -> nth i out 0 = nth i current 0) ->
  unfiltered t bpp prev raw current out.
Proof.
  intros Hl L A B. exists (firstn (length raw) out). split.
  - split; [rewrite firstn_length; lia|]. intros i Hi. rewrite nth_firstn by lia. rewrite A by exact Hi.
    do 3 f_equal. unfold left. destruct (Nat.ltb_spec i bpp); [reflexivity|]. now rewrite nth_firstn by lia.
  - rewrite <- (firstn_skipn (length raw) out) at 1. f_equal. apply (list_eq_nth 0).
    + rewrite !skipn_length. lia.
    + intros i Hi. rewrite !nth_skipn. apply B. lia.
Qed.

Ltac lens := match goal with |- context [if ?b || ?c then _ else _] => 
   replace b with false by lia; replace c with false by lia; cbn [orb] end.
Ltac gets := repeat match goal with
   | |- context [get_at ?l ?i] => rewrite (get_at_ok l i 0) by lia; cbn [bind]
   | |- context [set_at ?l ?i ?x] => rewrite (set_at_ok l i x) by lia end.

Lemma handle_sub_ok prev raw current comps :
  (0 < comps <= length raw)%nat -> (length raw <= length current)%nat -> bytes raw ->
  exists out, handle_sub raw current comps = Ok out /\ unfiltered FSub comps prev raw current out.
Proof.
  intros Hc Hl Hb. unfold handle_sub. lens.
  destruct (two_stage_ok (length raw) comps current (fun i a => u8 (nth i raw 0 + a))
     (fun i cur => do r <- get_at raw i ; set_at cur i r)
     (fun i cur => do a <- get_at cur (i - comps) ; do r <- get_at raw i ; set_at cur i (u8 (r + a))))
   as (c1 & c2 & E1 & L1 & E2 & L2 & A & B); auto.
  - intros i s Hi Ls. gets. do 2 f_equal. pose proof (bytes_nth raw i Hb). unfold is_byte, u8 in *. lia.
  - intros i s Hi Ls. gets. reflexivity.
  - rewrite E1. cbn [bind]. rewrite L1, Nat.min_r by lia. cbv zeta in E2. rewrite E2. exists c2. split; [reflexivity|].
    apply unfiltered_intro; auto.
Qed.

Lemma handle_avg_first_ok raw current comps :
  (0 < comps <= length raw)%nat -> (length raw <= length current)%nat -> bytes raw ->
  exists out, handle_avg_first raw current comps = Ok out /\ unfiltered FAvg comps [] raw current out.
Proof.
  intros Hc Hl Hb. unfold handle_avg_first. lens.
  destruct (two_stage_ok (length raw) comps current (fun i a => u8 (nth i raw 0 + Z.shiftr a 1))
     (fun i cur => do r <- get_at raw i ; set_at cur i r)
     (fun i cur => do a <- get_at cur (i - comps) ; do r <- get_at raw i ; set_at cur i (u8 (r + Z.shiftr a 1))))
   as (c1 & c2 & E1 & L1 & E2 & L2 & A & B); auto.
  - intros i s Hi Ls. gets. do 2 f_equal. pose proof (bytes_nth raw i Hb). unfold is_byte, u8 in *.
    change (Z.shiftr 0 1) with 0. lia.
  - intros i s Hi Ls. gets. reflexivity.
  - rewrite E1. cbn [bind]. rewrite L1, Nat.min_r by lia. cbv zeta in E2. rewrite E2. exists c2. split; [reflexivity|].
    apply unfiltered_intro; auto. intros i Hi. rewrite A by exact Hi. unfold u8. cbn [predict].
    replace (nth i [] 0) with 0 by now destruct i. rewrite Z.shiftr_div_pow2 by lia. f_equal. f_equal. f_equal. lia.
Qed.

Lemma mod256_byte x : is_byte (x mod 256).
Proof. unfold is_byte. lia. Qed.

Lemma handle_paeth_first_ok raw current comps :
  (0 < comps <= length raw)%nat -> (length raw <= length current)%nat -> bytes raw ->
  exists out, handle_paeth_first raw current comps = Ok out /\ unfiltered FPaeth comps [] raw current out.
Proof.
  intros Hc Hl Hb. unfold handle_paeth_first. lens.
  destruct (two_stage_ok (length raw) comps current (fun i a => u8 (nth i raw 0 + paeth a 0 0))
     (fun i cur => do r <- get_at raw i ; set_at cur i r)
     (fun i cur => do a <- get_at cur (i - comps) ; do r <- get_at raw i ; set_at cur i (u8 (r + paeth a 0 0))))
   as (c1 & c2 & E1 & L1 & E2 & L2 & A & B); auto.
  - intros i s Hi Ls. gets. do 2 f_equal. pose proof (bytes_nth raw i Hb). unfold is_byte, u8 in *.
    change (paeth 0 0 0) with 0. lia.
  - intros i s Hi Ls. gets. reflexivity.
  - rewrite E1. cbn [bind]. rewrite L1, Nat.min_r by lia. cbv zeta in E2. rewrite E2. exists c2. split; [reflexivity|].
    apply unfiltered_intro; auto. intros i Hi. rewrite A by exact Hi. unfold u8. cbn [predict].
    replace (nth i [] 0) with 0 by now destruct i.
    assert (Lz : left comps [] i = 0) by (unfold left; destruct (i <? comps)%nat; [|destruct (i - comps)%nat]; reflexivity).
    rewrite Lz, paeth_spec_eq; [reflexivity| |unfold is_byte; lia..].
    unfold left. destruct (Nat.ltb_spec i comps); [unfold is_byte; lia|]. rewrite A by lia. apply mod256_byte.
Qed.

Lemma handle_avg_ok prev raw current comps :
  (0 < comps <= length raw)%nat -> (comps <= 8)%nat ->
  (length raw <= length current)%nat -> (length raw <= length prev)%nat -> bytes raw -> bytes prev ->
  exists out, handle_avg prev raw current comps = Ok out /\ unfiltered FAvg comps prev raw current out.
Proof.
  intros Hc H8 Hl Hp Hb Hbp. unfold handle_avg. lens.
  destruct (two_stage_ok (length raw) comps current (fun i a => u8 (nth i raw 0 + (a + nth i prev 0) / 2))
     (fun i cur => do r <- get_at raw i ; do p <- get_at prev i ; set_at cur i (u8 (r + Z.shiftr p 1)))
     (fun i cur => do a <- get_at cur (i - comps) ; do b <- get_at prev i ; do r <- get_at raw i ;
        let c := Z.land a b + Z.shiftr (Z.lxor a b) 1 in set_at cur i (u8 (r + c))))
   as (c1 & c2 & E1 & L1 & E2 & L2 & A & B); auto.
  - intros i s Hi Ls. gets. rewrite Z.shiftr_div_pow2 by lia. reflexivity.
  - intros i s Hi Ls. gets. cbn zeta. gets. rewrite avg_bits. reflexivity.
  - rewrite E1. cbn [bind]. rewrite L1. cbv zeta.
    replace (Nat.min (Nat.min (length current) (length raw)) (length prev)) with (length raw) by lia.
    replace (8 <? comps)%nat with false by lia. cbv zeta in E2. rewrite E2. exists c2. split; [reflexivity|].
    apply unfiltered_intro; auto.
Qed.

Lemma handle_paeth_ok prev raw current comps :
  (0 < comps <= length raw)%nat -> (comps <= 8)%nat ->
  (length raw <= length current)%nat -> (length raw <= length prev)%nat -> bytes raw -> bytes prev ->
  exists out, handle_paeth prev raw current comps = Ok out /\ unfiltered FPaeth comps prev raw current out.
Proof.
  intros Hc H8 Hl Hp Hb Hbp. unfold handle_paeth. lens.
  destruct (two_stage_ok (length raw) comps current
     (fun i a => u8 (nth i raw 0 + paeth a (nth i prev 0) (left comps prev i)))
     (fun i cur => do r <- get_at raw i ; do p <- get_at prev i ; set_at cur i (u8 (r + paeth 0 p 0)))
     (fun i cur => do a <- get_at cur (i - comps) ; do b <- get_at prev i ; do c <- get_at prev (i - comps) ;
        do r <- get_at raw i ; set_at cur i (u8 (r + paeth a b c))))
   as (c1 & c2 & E1 & L1 & E2 & L2 & A & B); auto.
  - intros i s Hi Ls. gets. unfold left. now replace (i <? comps)%nat with true by lia.
  - intros i s Hi Ls. gets. unfold left. now replace (i <? comps)%nat with false by lia.
  - rewrite E1. cbn [bind]. rewrite L1. cbv zeta.
    replace (Nat.min (Nat.min (length current) (length raw)) (length prev)) with (length raw) by lia.
    replace (8 <? comps)%nat with false by lia. cbv zeta in E2. rewrite E2. exists c2. split; [reflexivity|].
    apply unfiltered_intro; auto. intros i Hi. rewrite A by exact Hi. unfold u8. cbn [predict].
    rewrite paeth_spec_eq; [reflexivity| |now apply bytes_nth|].
    + unfold left. destruct (Nat.ltb_spec i comps); [unfold is_byte; lia|]. rewrite A by lia. apply mod256_byte.
    + unfold left. destruct (Nat.ltb_spec i comps); [unfold is_byte; lia|]. now apply bytes_nth.
Qed.

Lemma handle_up_ok bpp prev raw current :
  (length raw <= length current)%nat -> (length raw <= length prev)%nat ->
  unfiltered FUp bpp prev raw current (handle_up prev raw current).
Proof.
  intros Hl Hp.
  assert (K : length (handle_up prev raw current) = length current /\
     (forall i, (i < length raw)%nat -> nth i (handle_up prev raw current) 0 = (nth i raw 0 + nth i prev 0) mod 256) /\
     (forall i, (length raw <= i)%nat -> nth i (handle_up prev raw current) 0 = nth i current 0)).
  { revert current prev Hl Hp. induction raw as [|x raw IH]; intros current prev Hl Hp.
    - replace (handle_up prev [] current) with current by (destruct prev, current; reflexivity).
      split; [reflexivity|]. split; [intros i Hi; cbn in Hi; lia|reflexivity].
    - destruct current as [|y cur]; [cbn in Hl; lia|]. destruct prev as [|p prev]; [cbn in Hp; lia|].
      cbn [length handle_up] in *. destruct (IH cur prev) as (L & A & B); [lia..|].
      split; [lia|]. split; intros [|i] Hi; cbn [nth]; try reflexivity; try lia; [apply A|apply B]; lia. }
  destruct K as (L & A & B). apply unfiltered_intro; auto.
Qed.

(** * Reconstruction is determined and inverts filtering *)
Lemma recon_unique t bpp prev raw r1 r2 : (0 < bpp)%nat ->
  recon t bpp prev raw r1 -> recon t bpp prev raw r2 -> r1 = r2.
Proof.
  intros Hb [L1 A1] [L2 A2]. apply (list_eq_nth 0); [lia|].
  intros i. induction i as [i IH] using lt_wf_ind. intros Hi.
  rewrite A1, A2 by lia. unfold left at 1 3.
  destruct (Nat.ltb_spec i bpp); [reflexivity|]. rewrite IH by lia. reflexivity.
Qed.

Lemma filter_row_length t bpp prev row : length (filter_row t bpp prev row) = length row.
Proof. unfold filter_row. now rewrite map_length, seq_length. Qed.

Lemma filter_row_nth t bpp prev row i : (i < length row)%nat ->
  nth i (filter_row t bpp prev row) 0 =
    (nth i row 0 - predict t (left bpp row i) (nth i prev 0) (left bpp prev i)) mod 256.
Proof.
  intros Hi. unfold filter_row. rewrite (map_nth_in _ _ _ 0%nat) by (rewrite seq_length; lia).
  now rewrite seq_nth by lia.
Qed.

Lemma recon_filter_row t bpp prev row : bytes row -> recon t bpp prev (filter_row t bpp prev row) row.
Proof.
  intros Hb. split; [now rewrite filter_row_length|]. rewrite filter_row_length. intros i Hi.
  rewrite filter_row_nth by exact Hi. pose proof (bytes_nth row i Hb). unfold is_byte in *.
  rewrite Zplus_mod_idemp_l. rewrite Z.sub_add. lia.
Qed.

Lemma filter_recon t bpp prev raw row : bytes raw -> recon t bpp prev raw row -> filter_row t bpp prev row = raw.
Proof.
  intros Hb [L A]. apply (list_eq_nth 0); [rewrite filter_row_length; lia|].
  intros i Hi. rewrite filter_row_length in Hi. rewrite filter_row_nth by exact Hi. rewrite A at 1 by lia.
  rewrite Zminus_mod_idemp_l, Z.add_simpl_r. pose proof (bytes_nth raw i Hb). unfold is_byte in *. lia.
Qed.

Lemma recon_bytes t bpp prev raw row : recon t bpp prev raw row -> bytes row.
Proof.
  intros [L A]. apply Forall_forall. intros x Hx. apply (In_nth _ _ 0) in Hx as (i & Hi & <-).
  rewrite A by lia. apply mod256_byte.
Qed.

(** * Encoder filters *)
Lemma sub_filter_ok prev input output comps :
  (0 < comps <= length input)%nat -> length output = length input -> bytes input ->
  sub_filter input output comps = Ok (filter_row FSub comps prev input).
Proof.
  intros Hc Hl Hb. unfold sub_filter. lens.
  assert (Lo : length (firstn comps input ++ skipn comps output) = length input).
  { rewrite app_length, firstn_length, skipn_length. lia. }
  destruct (for_upd 0 (fun i _ => u8 (nth i input 0 - nth (i - comps) input 0)) comps (length input)
     (fun i out => do a <- get_at input (i - comps) ; do x <- get_at input i ; set_at out i (u8 (x - a)))
     (firstn comps input ++ skipn comps output)) as (c & E & L & A & B).
  - lia.
  - intros i s Hi Ls. gets. reflexivity.
  - reflexivity.
  - rewrite Hl, Nat.min_id, E. f_equal. apply (list_eq_nth 0); [rewrite filter_row_length; lia|].
    intros i Hi. rewrite filter_row_nth by lia. cbn [predict]. unfold left.
    destruct (Nat.ltb_spec i comps).
    + rewrite B by lia. rewrite app_nth1 by (rewrite firstn_length; lia). rewrite nth_firstn by lia.
      pose proof (bytes_nth input i Hb). unfold is_byte in *. lia.
    + rewrite A by lia. reflexivity.
Qed.

Lemma up_filter_ok bpp input up output :
  length up = length input -> length output = length input ->
  up_filter input up output = filter_row FUp bpp up input.
Proof.
  intros L1 L2.
  assert (K : length (up_filter input up output) = length input /\
     forall i, (i < length input)%nat -> nth i (up_filter input up output) 0 = (nth i input 0 - nth i up 0) mod 256).
  { revert up output L1 L2. induction input as [|x l IH]; intros [|y up] [|z out] L1 L2; cbn [length up_filter] in *; try lia.
    - split; [reflexivity|intros; lia].
    - destruct (IH up out) as (L & A); [lia..|]. split; [lia|].
      intros [|i] Hi; cbn [nth]; [reflexivity|]. apply A. lia. }
  destruct K as (L & A). apply (list_eq_nth 0); [rewrite filter_row_length; lia|].
  intros i Hi. rewrite A, filter_row_nth by lia. reflexivity.
Qed.

(** * SSE variants *)
Lemma map2_length {A B C} (f : A -> B -> C) l1 l2 : length (map2 f l1 l2) = Nat.min (length l1) (length l2).
Proof. revert l2; induction l1; intros [|]; cbn; auto. Qed.
Lemma map2_nth {A B C} (f : A -> B -> C) l1 l2 i d1 d2 d :
  (i < length l1)%nat -> (i < length l2)%nat -> nth i (map2 f l1 l2) d = f (nth i l1 d1) (nth i l2 d2).
Proof.
  revert l2 i; induction l1; intros [|] [|i] H1 H2; cbn in *; try lia; auto. apply IHl1; lia.
Qed.
Lemma load_low_length buf x : (length x <= length buf)%nat -> length (load_low buf x) = length buf.
Proof. intros. unfold load_low. rewrite app_length, skipn_length. lia. Qed.
Lemma load_low_nth buf x j : (j < length x)%nat -> nth j (load_low buf x) 0 = nth j x 0.
Proof. intros. unfold load_low. now apply app_nth1. Qed.

Section chunk_loop.
  Context {st : Type}.
  Variable size : nat.
  Variable F : list (list Z) -> list (list Z) -> list (list Z) -> st -> list (list Z).
  Variable out : list Z -> list Z -> st -> list Z.
  Variable next : list Z -> list Z -> st -> st.
  Variable A C : st -> nat -> Z.
  Variable Inv : st -> Prop.
  Variable G : Z -> Z -> Z -> Z -> Z.
  Hypothesis Hs : (0 < size)%nat.
  Hypothesis F_cons : forall p ps r rs c cs s, F (p :: ps) (r :: rs) (c :: cs) s = out p r s :: F ps rs cs (next p r s).
  Hypothesis F_nil : forall ps cs s, F ps [] cs s = cs.
  Hypothesis step : forall p r s, length p = size -> length r = size -> bytes p -> bytes r -> Inv s ->
    length (out p r s) = size /\ Inv (next p r s) /\
    forall j, (j < size)%nat ->
      nth j (out p r s) 0 = G (nth j r 0) (A s j) (nth j p 0) (C s j) /\
      A (next p r s) j = nth j (out p r s) 0 /\ C (next p r s) j = nth j p 0.

  Lemma chunk_loop_ok rs : forall ps cs s, (length rs <= length ps)%nat -> (length rs <= length cs)%nat ->
    Forall (fun x => length x = size) rs -> Forall (fun x => length x = size) ps ->
    Forall bytes rs -> Forall bytes ps -> Inv s ->
    exists outs, F ps rs cs s = outs ++ skipn (length rs) cs /\
      length (concat outs) = (length rs * size)%nat /\
      forall i, (i < length rs * size)%nat ->
        nth i (concat outs) 0 = G (nth i (concat rs) 0)
           (if (i <? size)%nat then A s i else nth (i - size) (concat outs) 0)
           (nth i (concat ps) 0)
           (if (i <? size)%nat then C s i else nth (i - size) (concat ps) 0).
  Proof.
    induction rs as [|r rs IH]; intros ps cs s L1 L2 F1 F2 B1 B2 HI.
    - exists []. rewrite F_nil. cbn [length skipn app concat]. split; [reflexivity|]. split; [reflexivity|intros; lia].
    - destruct ps as [|p ps]; [cbn in L1; lia|]. destruct cs as [|c cs]; [cbn in L2; lia|].
      cbn [length] in *. apply Forall_cons_iff in F1 as [Lr F1], F2 as [Lp F2], B1 as [Br B1], B2 as [Bp B2].
      destruct (step p r s) as (Lo & HI' & Hj); auto.
      destruct (IH ps cs (next p r s)) as (outs & E & L & K); auto; try lia.
      exists (out p r s :: outs). rewrite F_cons, E. split; [reflexivity|].
      cbn [concat skipn length]. rewrite app_length, L, Lo. split; [lia|].
      intros i Hi. destruct (Nat.ltb_spec i size) as [Hlt|Hge].
      + rewrite (app_nth1 (out p r s)), (app_nth1 r), (app_nth1 p) by lia. apply Hj. lia.
      + rewrite (app_nth2 (out p r s) _ _ (n := i)), (app_nth2 r), (app_nth2 p _ _ (n := i)) by lia.
        rewrite Lo, Lr, Lp.
        rewrite K by lia. destruct (Nat.ltb_spec (i - size) size) as [H'|H'].
        * destruct (Hj (i - size)%nat H') as (_ & Ea & Ec). rewrite Ea, Ec.
          rewrite (app_nth1 (out p r s)), (app_nth1 p) by lia. reflexivity.
        * rewrite (app_nth2 (out p r s)), (app_nth2 p) by lia. rewrite Lo, Lp. reflexivity.
  Qed.
End chunk_loop.

Lemma Forall_chunks_bytes n l : bytes l -> Forall bytes (chunks_exact n l).
Proof.
  intros H. destruct n; [constructor|]. revert H. pattern l; apply (chunk_ind (S n)); clear l; [lia| |].
  - intros l Hl H. rewrite chunks_exact_short by lia. constructor.
  - intros x l Hx IH H. apply bytes_app in H as [H1 H2]. rewrite chunks_exact_cons by lia. constructor; auto.
Qed.

Lemma concat_chunks_firstn {A} n (l : list A) : (0 < n)%nat ->
  concat (chunks_exact n l) = firstn (length l / n * n) l.
Proof.
  intros Hn. pattern l; apply (chunk_ind n); clear l; [lia| |].
  - intros l Hl. rewrite chunks_exact_short by lia. rewrite Nat.div_small by lia. reflexivity.
  - intros x l Hx IH. rewrite chunks_exact_cons by lia. cbn [concat]. rewrite IH, app_length, Hx.
    replace (n + length l)%nat with (length l + 1 * n)%nat by lia. rewrite Nat.div_add by lia.
    generalize (length l / n)%nat as q. intros q.
    replace ((q + 1) * n)%nat with (n + q * n)%nat by lia.
    rewrite firstn_app, Hx. rewrite (firstn_all2 x) by lia. f_equal. f_equal. lia.
Qed.

Lemma skipn_chunks {A} n m (l : list A) : (0 < n)%nat -> skipn m (chunks_exact n l) = chunks_exact n (skipn (m * n) l).
Proof.
  intros Hn. revert l. induction m as [|m IH]; intros l; [reflexivity|].
  destruct (Nat.lt_ge_cases (length l) n) as [H|H].
  - rewrite chunks_exact_short by lia. rewrite skipn_nil. rewrite chunks_exact_short; [reflexivity|]. rewrite skipn_length; lia.
  - rewrite <- (firstn_skipn n l). rewrite chunks_exact_cons by (rewrite ?firstn_length; lia).
    cbn [skipn]. rewrite IH. rewrite firstn_skipn. rewrite skipn_skipn'. reflexivity.
Qed.

Lemma chunks_tail n m (l : list Z) : (0 < n)%nat -> (m * n <= length l)%nat ->
  concat (skipn m (chunks_exact n l)) ++ tail_of n l = skipn (m * n) l.
Proof.
  intros Hn Hm. rewrite skipn_chunks, concat_chunks_firstn by lia. rewrite skipn_length. unfold tail_of.
  assert (E : (length l / n * n = m * n + (length l - m * n) / n * n)%nat).
  { replace (length l) with ((length l - m * n) + m * n)%nat at 1 by lia. rewrite Nat.div_add by lia. generalize ((length l - m * n) / n)%nat. lia. }
  rewrite E. rewrite <- skipn_skipn'. apply firstn_skipn.
Qed.

Lemma sse_finish {st} t size m (F : list (list Z) -> list (list Z) -> list (list Z) -> st -> list (list Z))
   prev raw current s0 result outs :
  (0 < size)%nat -> length raw = (m * size)%nat -> (length raw <= length current)%nat -> (length raw <= length prev)%nat ->
  F (chunks_exact size prev) (chunks_exact size raw) (chunks_exact size current) s0 =
     outs ++ skipn (length (chunks_exact size raw)) (chunks_exact size current) ->
  length (concat outs) = (length (chunks_exact size raw) * size)%nat ->
  (forall i, (i < length (chunks_exact size raw) * size)%nat ->
    nth i (concat outs) 0 = (nth i (concat (chunks_exact size raw)) 0 +
      predict t (if (i <? size)%nat then 0 else nth (i - size) (concat outs) 0)
        (nth i (concat (chunks_exact size prev)) 0)
        (if (i <? size)%nat then 0 else nth (i - size) (concat (chunks_exact size prev)) 0)) mod 256) ->
  result = concat (F (chunks_exact size prev) (chunks_exact size raw) (chunks_exact size current) s0)
     ++ tail_of size current ->
  unfiltered t size prev raw current result.
Proof.
  intros Hs Hm Hc Hp E L K ->. 
  assert (Ln : length (chunks_exact size raw) = m).
  { rewrite chunks_exact_length by lia. rewrite Hm. apply Nat.div_mul. lia. }
  rewrite Ln in *. rewrite E, concat_app, <- app_assoc, chunks_tail by lia.
  exists (concat outs). rewrite Hm. split; [|reflexivity].
  split; [lia|]. intros i Hi. rewrite K by lia. rewrite !concat_chunks_firstn by lia.
  assert (Hd : (m * size <= length prev / size * size)%nat).
  { apply Nat.mul_le_mono_r. apply Nat.div_le_lower_bound; lia. }
  rewrite (nth_firstn _ i raw) by (rewrite Hm, Nat.div_mul by lia; lia).
  rewrite (nth_firstn _ i prev) by lia. rewrite (nth_firstn _ (i - size) prev) by lia. reflexivity.
Qed.

Lemma firstn_nth_len n (l : list Z) : (n <= length l)%nat -> length (firstn n l) = n.
Proof. intros. rewrite firstn_length. lia. Qed.

Lemma nth_repeat_0 n j : nth j (repeat 0 n) 0 = 0.
Proof. revert j; induction n; intros [|j]; cbn; auto. Qed.

Ltac rnth := rewrite ?(map2_nth _ _ _ _ 0 0) by (rewrite ?map2_length; lia).

Lemma sse_sub_ok size m prev raw current :
  (0 < size <= 16)%nat -> length raw = (m * size)%nat -> (length raw <= length current)%nat ->
  (length raw <= length prev)%nat -> bytes raw -> bytes prev ->
  unfiltered FSub size prev raw current (de_filter_sub_sse size raw current).
Proof.
  intros Hs Hm Hc Hp Hb Hbp.
  (* the ghost third component remembers the previous chunk of the row above *)
  set (F := fun (_ rs cs : list (list Z)) (s : list Z * list Z * list Z) => sub_sse_loop size rs cs (fst (fst s)) (snd (fst s))).
  destruct (chunk_loop_ok size F
      (fun _ r s => firstn size (mm_add_epi8 (load_low (fst (fst s)) r) (snd (fst s))))
      (fun p r s => let d1 := mm_add_epi8 (load_low (fst (fst s)) r) (snd (fst s)) in (d1, d1, p))
      (fun s j => nth j (snd (fst s)) 0) (fun s j => nth j (snd s) 0)
      (fun s => length (fst (fst s)) = 16%nat /\ length (snd (fst s)) = 16%nat)
      (fun r a b c => (r + a) mod 256)) with (rs := chunks_exact size raw) (ps := chunks_exact size prev)
      (cs := chunks_exact size current) (s := (repeat 0 16, repeat 0 16, repeat 0 size)) as (outs & E & L & K).
  - lia.
  - reflexivity.
  - intros ps [|c cs] s; reflexivity.
  - intros p r s Lp Lr Bp Br (I1 & I2). cbn [fst snd].
    assert (Lm : length (mm_add_epi8 (load_low (fst (fst s)) r) (snd (fst s))) = 16%nat).
    { unfold mm_add_epi8. rewrite map2_length, load_low_length; lia. }
    split; [rewrite firstn_length; lia|]. split; [split; exact Lm|].
    intros j Hj. rewrite nth_firstn by lia. split; [|split; reflexivity].
    unfold mm_add_epi8. rewrite (map2_nth _ _ _ _ 0 0) by (rewrite ?load_low_length; lia).
    rewrite load_low_nth by lia. reflexivity.
  - rewrite !chunks_exact_length by lia. apply Nat.div_le_mono; lia.
  - rewrite !chunks_exact_length by lia. apply Nat.div_le_mono; lia.
  - apply chunks_exact_lengths.
  - apply chunks_exact_lengths.
  - now apply Forall_chunks_bytes.
  - now apply Forall_chunks_bytes.
  - cbn [fst snd]. rewrite !repeat_length. auto.
  - eapply (sse_finish FSub size m F); [lia|exact Hm|lia|lia|exact E|exact L| |reflexivity].
    intros i Hi. rewrite K by exact Hi. cbn [fst snd predict]. rewrite !nth_repeat_0. reflexivity.
Qed.

Lemma avg_lane r a b : is_byte a -> is_byte b ->
  u8 (r + u8 (Z.shiftr (a + b + 1) 1 - Z.land (Z.lxor a b) 1)) = (r + (a + b) / 2) mod 256.
Proof.
  intros Ha Hb. unfold is_byte, u8 in *. rewrite Z.shiftr_div_pow2 by lia. change (2 ^ 1) with 2.
  assert (Hx : Z.land (Z.lxor a b) 1 = (a + b) mod 2).
  { change 1 with (2 ^ 1 - 1) at 1. rewrite land_low by lia. change (2 ^ 1) with 2.
    rewrite (add_lxor_land a b). lia. }
  rewrite Hx. lia.
Qed.

Lemma sse_avg_ok size m prev raw current :
  (0 < size <= 16)%nat -> length raw = (m * size)%nat -> (length raw <= length current)%nat ->
  (length raw <= length prev)%nat -> bytes raw -> bytes prev ->
  unfiltered FAvg size prev raw current (de_filter_avg_sse size prev raw current).
Proof.
  intros Hs Hm Hc Hp Hb Hbp.
  set (F := fun (ps rs cs : list (list Z)) (s : list Z * list Z * list Z * list Z) =>
     let '(x, y, d, _) := s in avg_sse_loop size ps rs cs x y d).
  set (D := fun (p r : list Z) (s : list Z * list Z * list Z * list Z) =>
     let '(x, y, d, _) := s in
     mm_add_epi8 (load_low x r) (mm_sub_epi8 (mm_avg_epu8 d (load_low y p)) (mm_and (mm_xor d (load_low y p)) (repeat 1 16)))).
  destruct (chunk_loop_ok size F
      (fun p r s => firstn size (D p r s))
      (fun p r s => let '(x, y, d, _) := s in (D p r s, load_low y p, D p r s, p))
      (fun s j => nth j (let '(_, _, d, _) := s in d) 0) (fun s j => nth j (snd s) 0)
      (fun s => let '(x, y, d, _) := s in length x = 16%nat /\ length y = 16%nat /\ length d = 16%nat /\
          forall j, (j < size)%nat -> is_byte (nth j d 0))
      (fun r a b c => (r + (a + b) / 2) mod 256)) with (rs := chunks_exact size raw) (ps := chunks_exact size prev)
      (cs := chunks_exact size current) (s := (repeat 0 16, repeat 0 16, repeat 0 16, repeat 0 size)) as (outs & E & L & K).
  - lia.
  - intros p ps r rs c cs [[[x y] d] q]. reflexivity.
  - intros [|p ps] [|c cs] [[[x y] d] q]; reflexivity.
  - intros p r [[[x y] d] q] Lp Lr Bp Br (I1 & I2 & I3 & I4).
    assert (Lx : length (load_low x r) = 16%nat) by (rewrite load_low_length; lia).
    assert (Ly : length (load_low y p) = 16%nat) by (rewrite load_low_length; lia).
    assert (Lm : length (D p r (x, y, d, q)) = 16%nat).
    { unfold D, mm_add_epi8, mm_sub_epi8, mm_avg_epu8, mm_and, mm_xor.
      rewrite !map2_length, Lx, Ly, repeat_length, I3. reflexivity. }
    assert (V : forall j, (j < size)%nat -> nth j (D p r (x, y, d, q)) 0 = (nth j r 0 + (nth j d 0 + nth j p 0) / 2) mod 256).
    { intros j Hj. unfold D, mm_add_epi8, mm_sub_epi8, mm_avg_epu8, mm_and, mm_xor.
      repeat (rewrite (map2_nth _ _ _ _ 0 0) by (rewrite ?map2_length, ?Lx, ?Ly, ?repeat_length, ?I3; lia)).
      rewrite !load_low_nth by lia.
      replace (nth j (repeat 1 16) 0) with 1.
      2: { symmetry. assert (Hr : forall n k, (k < n)%nat -> nth k (repeat 1 n) 0 = 1).
           { induction n; intros [|k] Hk; cbn; try lia; auto. apply IHn; lia. } apply Hr. lia. }
      apply avg_lane; [now apply I4|now apply bytes_nth]. }
    split; [rewrite firstn_length; lia|]. split.
    + repeat split; auto; apply (fun H => V _ H) in H; rewrite H; lia.
    + intros j Hj. rewrite nth_firstn by lia. split; [now apply V|split; reflexivity].
  - rewrite !chunks_exact_length by lia. apply Nat.div_le_mono; lia.
  - rewrite !chunks_exact_length by lia. apply Nat.div_le_mono; lia.
  - apply chunks_exact_lengths.
  - apply chunks_exact_lengths.
  - now apply Forall_chunks_bytes.
  - now apply Forall_chunks_bytes.
  - cbv beta iota. rewrite !repeat_length. split; [reflexivity|]. split; [reflexivity|]. split; [reflexivity|].
    intros j Hj. rewrite nth_repeat_0. unfold is_byte; lia.
  - eapply (sse_finish FAvg size m F); [lia|exact Hm|lia|lia|exact E|exact L| |reflexivity].
    intros i Hi. rewrite K by exact Hi. cbn [fst snd predict]. rewrite !nth_repeat_0. reflexivity.
Qed.

(** One 16-bit lane of the Paeth code. *)
Definition paeth_lane (d a b c : Z) : Z :=
  let pa := u16 (b - c) in let pb := u16 (a - c) in let pc := u16 (pa + pb) in
  let pa := u16 (Z.abs (signed16 pa)) in let pb := u16 (Z.abs (signed16 pb)) in let pc := u16 (Z.abs (signed16 pc)) in
  let mn x y := if signed16 x <=? signed16 y then x else y in
  let smallest := mn pc (mn pa pb) in
  word_add_epi8 d (word_blendv (word_blendv c b (if smallest =? pb then 65535 else 0)) a (if smallest =? pa then 65535 else 0)).

Lemma abs16 x : -512 <= x <= 512 -> u16 (Z.abs (signed16 (u16 x))) = Z.abs x.
Proof. intros H. unfold signed16, u16. destruct (Z.ltb_spec (x mod 65536) 32768); lia. Qed.
Lemma signed16_small x : 0 <= x <= 600 -> signed16 x = x.
Proof. intros H. unfold signed16. destruct (Z.ltb_spec x 32768); lia. Qed.
Lemma word_blendv_sel e t (q : bool) : is_byte e -> is_byte t -> word_blendv e t (if q then 65535 else 0) = if q then t else e.
Proof.
  intros He Ht. unfold word_blendv, is_byte in *. destruct q.
  - change (Z.testbit 65535 7) with true. change (Z.testbit 65535 15) with true. cbv iota. lia.
  - change (Z.testbit 0 7) with false. change (Z.testbit 0 15) with false. cbv iota. lia.
Qed.

Lemma paeth_lane_ok d a b c : is_byte d -> is_byte a -> is_byte b -> is_byte c ->
  paeth_lane d a b c = (d + spec_paeth a b c) mod 256.
Proof.
  intros Hd Ha Hb Hc. unfold paeth_lane. cbv zeta.
  replace (u16 (u16 (b - c) + u16 (a - c))) with (u16 (b - c + (a - c))).
  2:{ unfold u16. rewrite <- Zplus_mod. reflexivity. }
  rewrite !abs16 by (unfold is_byte in *; lia).
  set (pa := Z.abs (b - c)). set (pb := Z.abs (a - c)). set (pc := Z.abs (b - c + (a - c))).
  assert (Ba : 0 <= pa <= 600) by (unfold pa, is_byte in *; lia).
  assert (Bb : 0 <= pb <= 600) by (unfold pb, is_byte in *; lia).
  assert (Bc : 0 <= pc <= 600) by (unfold pc, is_byte in *; lia).
  assert (Em : (if signed16 pa <=? signed16 pb then pa else pb) = Z.min pa pb).
  { rewrite !signed16_small by assumption. destruct (Z.leb_spec pa pb); lia. }
  rewrite Em. rewrite (signed16_small pc), (signed16_small (Z.min pa pb)) by lia.
  replace (if pc <=? Z.min pa pb then pc else Z.min pa pb) with (Z.min pc (Z.min pa pb)) by (destruct (Z.leb_spec pc (Z.min pa pb)); lia).
  rewrite (word_blendv_sel c b) by assumption.
  rewrite word_blendv_sel; [| |assumption].
  2:{ destruct (_ =? pb); assumption. }
  assert (En : (if Z.min pc (Z.min pa pb) =? pa then a else if Z.min pc (Z.min pa pb) =? pb then b else c) = spec_paeth a b c).
  { unfold spec_paeth. cbv zeta.
    replace (Z.abs (a + b - c - a)) with pa by (unfold pa; lia).
    replace (Z.abs (a + b - c - b)) with pb by (unfold pb; lia).
    replace (Z.abs (a + b - c - c)) with pc by (unfold pc; lia).
    clearbody pa pb pc. 
    destruct (Z.leb_spec pa pb), (Z.leb_spec pa pc), (Z.leb_spec pb pc); cbn [andb];
      destruct (Z.eqb_spec (Z.min pc (Z.min pa pb)) pa), (Z.eqb_spec (Z.min pc (Z.min pa pb)) pb); try lia; reflexivity. }
  rewrite En. pose proof (spec_paeth_byte a b c Ha Hb Hc) as Hn. unfold word_add_epi8, u8, is_byte in *. lia.
Qed.

Lemma mm_ite_length c t e : length (mm_if_then_else c t e) = Nat.min (length c) (Nat.min (length t) (length e)).
Proof. revert t e; induction c; intros [|] [|]; cbn; auto; lia. Qed.
Lemma mm_ite_nth c t e i : (i < length c)%nat -> (i < length t)%nat -> (i < length e)%nat ->
  nth i (mm_if_then_else c t e) 0 = word_blendv (nth i e 0) (nth i t 0) (nth i c 0).
Proof.
  revert t e i; induction c; intros [|] [|] [|i] H1 H2 H3; cbn in *; try lia; auto. apply IHc; lia.
Qed.

Lemma sse_paeth_ok size m prev raw current :
  (0 < size <= 8)%nat -> length raw = (m * size)%nat -> (length raw <= length current)%nat ->
  (length raw <= length prev)%nat -> bytes raw -> bytes prev ->
  unfiltered FPaeth size prev raw current (de_filter_paeth_sse size prev raw current).
Proof.
  intros Hs Hm Hc Hp Hb Hbp.
  set (F := fun (ps rs cs : list (list Z)) (s : list Z * list Z * list Z * list Z) =>
     let '(f, g, b, d) := s in paeth_sse_loop size ps rs cs f g b d).
  set (D := fun (p r : list Z) (s : list Z * list Z * list Z * list Z) =>
     let '(f, g, b, d) := s in
      let c := b in
      let b1 := unpacklo_zero (load_low f p) in
      let a := d in
      let d1 := unpacklo_zero (load_low g r) in
      let pa := mm_sub_epi16 b1 c in
      let pb := mm_sub_epi16 a c in
      let pc := mm_add_epi16 pa pb in
      let pa := mm_abs_epi16 pa in
      let pb := mm_abs_epi16 pb in
      let pc := mm_abs_epi16 pc in
      let smallest := mm_min_epi16 pc (mm_min_epi16 pa pb) in
      let nearest := mm_if_then_else (mm_cmpeq_epi16 smallest pa) a
                       (mm_if_then_else (mm_cmpeq_epi16 smallest pb) b1 c) in
      mm_add_epi8_w d1 nearest).
  destruct (chunk_loop_ok size F
      (fun p r s => firstn size (packus_dup (D p r s)))
      (fun p r s => let '(f, g, b, d) := s in (packus_dup (D p r s), load_low g r, unpacklo_zero (load_low f p), D p r s))
      (fun s j => nth j (snd s) 0) (fun s j => nth j (snd (fst s)) 0)
      (fun s => let '(f, g, b, d) := s in length f = 16%nat /\ length g = 16%nat /\ length b = 8%nat /\ length d = 8%nat /\
          forall j, (j < size)%nat -> is_byte (nth j d 0) /\ is_byte (nth j b 0))
      (fun r a b c => (r + spec_paeth a b c) mod 256)) with (rs := chunks_exact size raw) (ps := chunks_exact size prev)
      (cs := chunks_exact size current) (s := (repeat 0 16, repeat 0 16, repeat 0 8, repeat 0 8)) as (outs & E & L & K).
  - lia.
  - intros p ps r rs c cs [[[f g] b] d]. reflexivity.
  - intros [|p ps] [|c cs] [[[f g] b] d]; reflexivity.
  - intros p r [[[f g] b] d] Lp Lr Bp Br (I1 & I2 & I3 & I4 & I5).
    assert (Lb1 : length (unpacklo_zero (load_low f p)) = 8%nat).
    { unfold unpacklo_zero. rewrite firstn_length, load_low_length; lia. }
    assert (Ld1 : length (unpacklo_zero (load_low g r)) = 8%nat).
    { unfold unpacklo_zero. rewrite firstn_length, load_low_length; lia. }
    assert (Lm : length (D p r (f, g, b, d)) = 8%nat).
    { unfold D, mm_sub_epi16, mm_add_epi16, mm_abs_epi16, mm_min_epi16, mm_cmpeq_epi16, mm_add_epi8_w. cbv zeta.
      repeat rewrite ?map2_length, ?mm_ite_length, ?map_length. rewrite Lb1, Ld1, I3, I4. reflexivity. }
    assert (V : forall j, (j < size)%nat -> nth j (D p r (f, g, b, d)) 0 = (nth j r 0 + spec_paeth (nth j d 0) (nth j p 0) (nth j b 0)) mod 256).
    { intros j Hj. rewrite <- paeth_lane_ok; try (now apply bytes_nth); try (now apply I5).
      assert (Nb : nth j (unpacklo_zero (load_low f p)) 0 = nth j p 0).
      { unfold unpacklo_zero. rewrite nth_firstn, load_low_nth by lia. reflexivity. }
      assert (Nd : nth j (unpacklo_zero (load_low g r)) 0 = nth j r 0).
      { unfold unpacklo_zero. rewrite nth_firstn, load_low_nth by lia. reflexivity. }
      unfold D. cbv zeta. revert Lb1 Ld1 Nb Nd. generalize (unpacklo_zero (load_low f p)) as b1.
      generalize (unpacklo_zero (load_low g r)) as d1. intros d1 b1 Lb1 Ld1 Nb Nd.
      unfold mm_sub_epi16, mm_add_epi16, mm_abs_epi16, mm_min_epi16, mm_cmpeq_epi16, mm_add_epi8_w, paeth_lane. cbv zeta.
      repeat first
        [ rewrite (map2_nth _ _ _ j 0 0) by (repeat rewrite ?map2_length, ?mm_ite_length, ?map_length; lia)
        | rewrite mm_ite_nth by (repeat rewrite ?map2_length, ?mm_ite_length, ?map_length; lia)
        | rewrite (map_nth_in _ _ j 0) by (repeat rewrite ?map2_length, ?mm_ite_length, ?map_length; lia) ].
      rewrite Nb, Nd. reflexivity. }
    assert (Vb : forall j, (j < size)%nat -> is_byte (nth j (D p r (f, g, b, d)) 0)).
    { intros j Hj. rewrite V by exact Hj. apply mod256_byte. }
    assert (Lk : length (packus_dup (D p r (f, g, b, d))) = 16%nat).
    { unfold packus_dup. rewrite app_length, !map_length, Lm. reflexivity. }
    split; [rewrite firstn_length; lia|]. split.
    + split; [exact Lk|]. split; [rewrite load_low_length; lia|]. split; [exact Lb1|]. split; [exact Lm|].
      intros j Hj. split; [now apply Vb|]. unfold unpacklo_zero. rewrite nth_firstn, load_low_nth by lia. now apply bytes_nth.
    + intros j Hj. rewrite nth_firstn by lia.
      assert (P : nth j (packus_dup (D p r (f, g, b, d))) 0 = nth j (D p r (f, g, b, d)) 0).
      { unfold packus_dup. rewrite app_nth1 by (rewrite map_length; lia). rewrite (map_nth_in _ _ j 0) by lia.
        pose proof (Vb j Hj) as B. unfold is_byte in B. unfold sat_u8. rewrite signed16_small by lia.
        destruct (Z.ltb_spec (nth j (D p r (f, g, b, d)) 0) 0); [lia|].
        destruct (Z.ltb_spec 255 (nth j (D p r (f, g, b, d)) 0)); [lia|]. reflexivity. }
      rewrite P. split; [exact (V j Hj)|]. split; [reflexivity|].
      cbn [fst snd]. unfold unpacklo_zero. rewrite nth_firstn, load_low_nth by lia. reflexivity.
  - rewrite !chunks_exact_length by lia. apply Nat.div_le_mono; lia.
  - rewrite !chunks_exact_length by lia. apply Nat.div_le_mono; lia.
  - apply chunks_exact_lengths.
  - apply chunks_exact_lengths.
  - now apply Forall_chunks_bytes.
  - now apply Forall_chunks_bytes.
  - cbv beta iota. rewrite !repeat_length. split; [reflexivity|]. split; [reflexivity|]. split; [reflexivity|]. split; [reflexivity|].
    intros j Hj. rewrite nth_repeat_0. unfold is_byte; lia.
  - eapply (sse_finish FPaeth size m F); [lia|exact Hm|lia|lia|exact E|exact L| |reflexivity].
    intros i Hi. rewrite K by exact Hi. cbn [fst snd predict]. rewrite !nth_repeat_0. reflexivity.
Qed.
