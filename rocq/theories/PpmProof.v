(** Proofs about the PNM and farbfeld codecs. *)
From Verif Require Import Base BaseProof Loops Slices DecText PpmModel.

(** ** Text *)

Definition blank (c : Z) : bool := ws c || (c =? 35).
(** The stream does not start with a white space or a comment. *)
Definition solid (l : list Z) : Prop := match l with [] => True | c :: _ => blank c = false end.

Lemma skip_solid l : solid l -> skip_spaces l = l.
Proof.
  destruct l as [|c l]; [reflexivity|]. cbn [solid]. unfold blank, skip_spaces. cbn [skip_spaces_in]. intros H.
  apply orb_false_iff in H. destruct H as [A B]. now rewrite A, B.
Qed.
Lemma skip_nl l : skip_spaces (10 :: l) = skip_spaces l.
Proof. reflexivity. Qed.

Lemma digit_not_blank c : is_digit c = true -> blank c = false.
Proof. unfold is_digit, blank, ws. lia. Qed.
Lemma dec_solid n rest : 0 <= n < 2 ^ 64 -> solid (dec n ++ rest).
Proof.
  intros H. destruct (dec_ok n H) as (_ & B & N). destruct (dec n) as [|c l]; [congruence|]. cbn [app solid].
  cbn [forallb] in B. apply andb_true_iff in B. now apply digit_not_blank.
Qed.

Lemma fold_dec_ge l : forall v, forallb is_digit l = true -> 0 <= v -> v <= fold_left (fun a c => a * 10 + (c - 48)) l v.
Proof.
  induction l as [|c l IH]; intros v H Hv; cbn [fold_left forallb] in *; [lia|].
  apply andb_true_iff in H. destruct H as [Hc Hl]. unfold is_digit in Hc. specialize (IH (v * 10 + (c - 48)) Hl). lia.
Qed.
Lemma get_integer_digits l : forall v rest, forallb is_digit l = true -> 0 <= v ->
  fold_left (fun a c => a * 10 + (c - 48)) l v < 2 ^ 64 -> match rest with [] => True | c :: _ => is_digit c = false end ->
  get_integer v (l ++ rest) = (fold_left (fun a c => a * 10 + (c - 48)) l v, rest).
Proof.
  induction l as [|c l IH]; intros v rest H Hv Hlt Hr; cbn [app].
  - cbn [fold_left]. destruct rest as [|c rest]; cbn [get_integer]; [reflexivity|]. now rewrite Hr.
  - cbn [fold_left forallb get_integer] in *. apply andb_true_iff in H. destruct H as [Hc Hl]. rewrite Hc. unfold is_digit in Hc.
    pose proof (fold_dec_ge l (v * 10 + (c - 48)) Hl ltac:(lia)) as G.
    replace (u64 (u64 (v * 10) + (c - 48))) with (v * 10 + (c - 48)) by (unfold u64; lia).
    apply IH; try assumption. lia.
Qed.
Lemma get_integer_dec n c rest : 0 <= n < 2 ^ 64 -> is_digit c = false -> get_integer 0 (dec n ++ c :: rest) = (n, c :: rest).
Proof.
  intros H Hc. destruct (dec_ok n H) as (A & B & _). unfold dec_val in A.
  rewrite get_integer_digits; [now rewrite A|exact B|lia|lia|exact Hc].
Qed.

Lemma get_integer_range l : forall v, 0 <= v < 2 ^ 64 -> let '(n, rest) := get_integer v l in
  0 <= n < 2 ^ 64 /\ (length rest <= length l)%nat.
Proof.
  induction l as [|c l IH]; intros v Hv; cbn [get_integer]; [split; [lia|reflexivity]|].
  destruct (is_digit c); [|split; [lia|reflexivity]].
  specialize (IH (u64 (u64 (v * 10) + (c - 48)))). destruct (get_integer _ l). cbn [length].
  destruct IH; [unfold u64; lia|]. split; lia.
Qed.

(** ** Headers *)

Lemma p56_ok mw mh cs w h d body : 0 <= w < 2 ^ 64 -> 0 <= h < 2 ^ 64 -> w <= mw -> h <= mh -> d = D8 \/ d = D16 -> solid body ->
  p56_header mw mh cs (10 :: dec w ++ [10] ++ dec h ++ [10] ++ dec (max_value d) ++ [10] ++ body) = Ok (mkInfo w h cs d false, body).
Proof.
  intros Hw Hh Hmw Hmh Hd Hs. unfold p56_header. cbn [app].
  rewrite skip_nl, skip_solid by now apply dec_solid. rewrite get_integer_dec by (try assumption; reflexivity).
  replace (mw <? w) with false by lia.
  rewrite skip_nl, skip_solid by now apply dec_solid. rewrite get_integer_dec by (try assumption; reflexivity).
  replace (mh <? h) with false by lia.
  rewrite skip_nl. destruct Hd as [-> | ->]; cbn [max_value];
  (rewrite skip_solid by (apply dec_solid; lia); rewrite get_integer_dec by (try reflexivity; lia));
  rewrite skip_nl, skip_solid by exact Hs; reflexivity.
Qed.

Lemma p7_width f mw mh s n rest : 0 <= n < 2 ^ 64 -> n <= mw ->
  p7_loop (S f) mw mh s (10 :: txt_width ++ dec n ++ 10 :: rest) =
  p7_loop f mw mh (mkP7 (Some n) (s_h s) (s_depth_seen s) (s_max s) (s_cs s)) (10 :: rest).
Proof.
  intros Hn Hm. cbn [p7_loop]. rewrite skip_nl.
  assert (E : get_word (skip_spaces (txt_width ++ dec n ++ 10 :: rest)) = (txt_width, dec n ++ 10 :: rest)).
  { rewrite skip_solid by reflexivity. unfold get_word. cbn [txt_width app until_ws ws Z.eqb Pos.eqb orb].
    now rewrite skip_solid by now apply dec_solid. }
  rewrite E. change (zeqb_list txt_width txt_width) with true. cbv iota.
  rewrite get_integer_dec by (try assumption; reflexivity). now replace (mw <? n) with false by lia.
Qed.
Lemma p7_height f mw mh s n rest : 0 <= n < 2 ^ 64 -> n <= mh ->
  p7_loop (S f) mw mh s (10 :: txt_height ++ dec n ++ 10 :: rest) =
  p7_loop f mw mh (mkP7 (s_w s) (Some n) (s_depth_seen s) (s_max s) (s_cs s)) (10 :: rest).
Proof.
  intros Hn Hm. cbn [p7_loop]. rewrite skip_nl.
  assert (E : get_word (skip_spaces (txt_height ++ dec n ++ 10 :: rest)) = (txt_height, dec n ++ 10 :: rest)).
  { rewrite skip_solid by reflexivity. unfold get_word. cbn [txt_height app until_ws ws Z.eqb Pos.eqb orb].
    now rewrite skip_solid by now apply dec_solid. }
  rewrite E. change (zeqb_list txt_height txt_width) with false. change (zeqb_list txt_height txt_height) with true. cbv iota.
  rewrite get_integer_dec by (try assumption; reflexivity). now replace (mh <? n) with false by lia.
Qed.
Lemma p7_depth f mw mh s n rest : 0 <= n <= 4 ->
  p7_loop (S f) mw mh s (10 :: txt_depth ++ dec n ++ 10 :: rest) =
  p7_loop f mw mh (mkP7 (s_w s) (s_h s) true (s_max s) (s_cs s)) (10 :: rest).
Proof.
  intros Hn. cbn [p7_loop]. rewrite skip_nl.
  assert (E : get_word (skip_spaces (txt_depth ++ dec n ++ 10 :: rest)) = (txt_depth, dec n ++ 10 :: rest)).
  { rewrite skip_solid by reflexivity. unfold get_word. cbn [txt_depth app until_ws ws Z.eqb Pos.eqb orb].
    now rewrite skip_solid by (apply dec_solid; lia). }
  rewrite E. change (zeqb_list txt_depth txt_width) with false. change (zeqb_list txt_depth txt_height) with false.
  change (zeqb_list txt_depth txt_depth) with true. cbv iota.
  rewrite get_integer_dec by (try reflexivity; lia). now replace (4 <? n) with false by lia.
Qed.
Lemma p7_maxval f mw mh s d rest : d = D8 \/ d = D16 ->
  p7_loop (S f) mw mh s (10 :: txt_maxval ++ dec (max_value d) ++ 10 :: rest) =
  p7_loop f mw mh (mkP7 (s_w s) (s_h s) (s_depth_seen s) (Some d) (s_cs s)) (10 :: rest).
Proof.
  intros Hd. assert (Hn : 0 <= max_value d < 2 ^ 64) by (destruct Hd as [-> | ->]; cbn [max_value]; lia).
  cbn [p7_loop]. rewrite skip_nl.
  assert (E : get_word (skip_spaces (txt_maxval ++ dec (max_value d) ++ 10 :: rest)) = (txt_maxval, dec (max_value d) ++ 10 :: rest)).
  { rewrite skip_solid by reflexivity. unfold get_word. cbn [txt_maxval app until_ws ws Z.eqb Pos.eqb orb].
    now rewrite skip_solid by now apply dec_solid. }
  rewrite E. change (zeqb_list txt_maxval txt_width) with false. change (zeqb_list txt_maxval txt_height) with false.
  change (zeqb_list txt_maxval txt_depth) with false. change (zeqb_list txt_maxval txt_maxval) with true. cbv iota.
  rewrite get_integer_dec by (try reflexivity; lia). destruct Hd as [-> | ->]; reflexivity.
Qed.
Lemma p7_end f mw mh s cs t body : (cs = CRGBA /\ t = txt_rgb ++ txt_alpha) \/ (cs = CLumaA /\ t = txt_gray ++ txt_alpha) -> solid body ->
  p7_loop (S (S f)) mw mh s (10 :: txt_tupltype ++ t ++ [10; 32] ++ txt_endhdr ++ 10 :: body) =
  Ok (mkP7 (s_w s) (s_h s) (s_depth_seen s) (s_max s) (Some cs), body).
Proof.
  intros H Hs. assert (E1 : get_word (txt_endhdr ++ 10 :: body) = (txt_endhdr ++ [10], body)).
  { unfold get_word, txt_endhdr. cbn [app until_ws ws Z.eqb Pos.eqb orb]. now rewrite skip_solid by exact Hs. }
  destruct H as [[-> ->]|[-> ->]].
  - cbn [p7_loop]. rewrite skip_nl.
    assert (E : get_word (skip_spaces (txt_tupltype ++ (txt_rgb ++ txt_alpha) ++ [10; 32] ++ txt_endhdr ++ 10 :: body)) =
       (txt_tupltype, (txt_rgb ++ txt_alpha) ++ [10; 32] ++ txt_endhdr ++ 10 :: body)).
    { rewrite skip_solid by reflexivity. unfold get_word. cbn [txt_tupltype txt_rgb txt_alpha app until_ws ws Z.eqb Pos.eqb orb]. reflexivity. }
    rewrite E. change (zeqb_list txt_tupltype txt_width) with false. change (zeqb_list txt_tupltype txt_height) with false.
    change (zeqb_list txt_tupltype txt_depth) with false. change (zeqb_list txt_tupltype txt_maxval) with false.
    change (zeqb_list txt_tupltype txt_tupltype) with true. cbv iota.
    assert (E2 : get_word ((txt_rgb ++ txt_alpha) ++ [10; 32] ++ txt_endhdr ++ 10 :: body) = (txt_rgb ++ txt_alpha ++ [10], txt_endhdr ++ 10 :: body)) by reflexivity.
    rewrite E2. change (tuple_type (txt_rgb ++ txt_alpha ++ [10])) with (Some CRGBA). cbv iota.
    cbn [txt_endhdr app] in E1 |- *.
    change (skip_spaces (69 :: 78 :: 68 :: 72 :: 68 :: 82 :: 10 :: body)) with (69 :: 78 :: 68 :: 72 :: 68 :: 82 :: 10 :: body).
    rewrite E1. reflexivity.
  - cbn [p7_loop]. rewrite skip_nl.
    assert (E : get_word (skip_spaces (txt_tupltype ++ (txt_gray ++ txt_alpha) ++ [10; 32] ++ txt_endhdr ++ 10 :: body)) =
       (txt_tupltype, (txt_gray ++ txt_alpha) ++ [10; 32] ++ txt_endhdr ++ 10 :: body)) by reflexivity.
    rewrite E. change (zeqb_list txt_tupltype txt_width) with false. change (zeqb_list txt_tupltype txt_height) with false.
    change (zeqb_list txt_tupltype txt_depth) with false. change (zeqb_list txt_tupltype txt_maxval) with false.
    change (zeqb_list txt_tupltype txt_tupltype) with true. cbv iota.
    assert (E2 : get_word ((txt_gray ++ txt_alpha) ++ [10; 32] ++ txt_endhdr ++ 10 :: body) = (txt_gray ++ txt_alpha ++ [10], txt_endhdr ++ 10 :: body)) by reflexivity.
    rewrite E2. change (tuple_type (txt_gray ++ txt_alpha ++ [10])) with (Some CLumaA). cbv iota.
    cbn [txt_endhdr app] in E1 |- *.
    change (skip_spaces (69 :: 78 :: 68 :: 72 :: 68 :: 82 :: 10 :: body)) with (69 :: 78 :: 68 :: 72 :: 68 :: 82 :: 10 :: body).
    rewrite E1. reflexivity.
Qed.

Lemma p7_ok mw mh cs t w h d body : 0 <= w < 2 ^ 64 -> 0 <= h < 2 ^ 64 -> w <= mw -> h <= mh -> d = D8 \/ d = D16 -> solid body ->
  (cs = CRGBA /\ t = txt_rgb ++ txt_alpha) \/ (cs = CLumaA /\ t = txt_gray ++ txt_alpha) ->
  p7_header mw mh (10 :: txt_width ++ dec w ++ [10] ++ txt_height ++ dec h ++ [10] ++
      txt_depth ++ dec (Z.of_nat (comps cs)) ++ [10] ++ txt_maxval ++ dec (max_value d) ++ [10] ++
      txt_tupltype ++ t ++ [10; 32] ++ txt_endhdr ++ [10] ++ body) = Ok (mkInfo w h cs d false, body).
Proof.
  intros Hw Hh Hmw Hmh Hd Hs Ht. unfold p7_header.
  match goal with |- context [p7_loop (S (length ?l)) _ _ _ ?l] =>
    assert (L : (5 <= length l)%nat) by (unfold txt_width; cbn [length app]; lia); set (n := (length l - 5)%nat);
    replace (S (length l)) with (S (S (S (S (S (S n)))))) by lia end.
  clearbody n. clear L. cbn [app].
  rewrite p7_width by assumption. rewrite p7_height by assumption.
  rewrite p7_depth by (destruct Ht as [[-> _]|[-> _]]; cbn [comps]; lia).
  rewrite p7_maxval by exact Hd. change (10 :: 32 :: txt_endhdr ++ 10 :: body) with ([10; 32] ++ txt_endhdr ++ 10 :: body).
  rewrite (p7_end n mw mh _ cs t body Ht Hs). reflexivity.
Qed.

Definition pnm_cs (cs : cspace) : Prop := cs = CLuma \/ cs = CRGB \/ cs = CLumaA \/ cs = CRGBA.

Lemma ppm_headers_ok nf mw mh cs d w h body : 0 <= w < 2 ^ 64 -> 0 <= h < 2 ^ 64 -> w <= mw -> h <= mh -> d = D8 \/ d = D16 ->
  pnm_cs cs -> solid body ->
  exists hd, ppm_header cs d w h = Ok hd /\ ppm_headers nf mw mh (hd ++ body) = Ok (mkInfo w h cs d false, body).
Proof.
  intros Hw Hh Hmw Hmh Hd Hc Hs. unfold ppm_header. destruct Hc as [->|[->|[->| ->]]]; eexists; (split; [reflexivity|]);
  rewrite <- !app_assoc; cbn [app ppm_headers Z.eqb Pos.eqb negb].
  - apply p56_ok; assumption.
  - apply p56_ok; assumption.
  - apply (p7_ok mw mh CLumaA (txt_gray ++ txt_alpha)); auto.
  - apply (p7_ok mw mh CRGBA (txt_rgb ++ txt_alpha)); auto.
Qed.

(** ** Samples *)

Lemma be_bytes2_len v : length (be_bytes 2 v) = 2%nat.
Proof. apply be_bytes_length. Qed.

Lemma read_swapped vs : Forall is_u16 vs -> forall rest,
  read_items be_val 2 (length vs) (concat (map (be_bytes 2) vs) ++ rest) = Ok (vs, rest).
Proof.
  induction vs as [|v vs IH]; intros H rest; [reflexivity|]. apply Forall_cons_iff in H. destruct H as [Hv H].
  cbn [length read_items map concat]. rewrite <- app_assoc.
  replace (length (be_bytes 2 v ++ concat (map (be_bytes 2) vs) ++ rest) <? 2)%nat with false
    by (rewrite app_length, be_bytes_length; lia).
  rewrite skipn_app_exact, firstn_app_exact by apply be_bytes_length. rewrite IH by exact H. cbn [bind].
  rewrite be_val_be_bytes; [reflexivity|]. unfold is_u16 in Hv. change (256 ^ Z.of_nat 2) with 65536. lia.
Qed.

Definition u16s (data : list Z) : list Z := map le_val (chunks_exact 2 data).
Lemma u16s_range data : bytes data -> Forall is_u16 (u16s data).
Proof.
  intros H. unfold u16s. revert H. pattern data. apply (chunk_ind 2); clear data; [lia|intros l Hl Hb|intros x l Hx IH Hb].
  - rewrite chunks_exact_short by lia. constructor.
  - rewrite chunks_exact_cons by lia. apply bytes_app in Hb. destruct Hb as [Hbx Hbl]. cbn [map]. constructor; [|now apply IH].
    pose proof (le_val_bound x Hbx) as B. rewrite Hx in B. unfold is_u16. change (256 ^ Z.of_nat 2) with 65536 in B. lia.
Qed.
Lemma swap_pairs_u16s data : swap_pairs data = concat (map (be_bytes 2) (u16s data)).
Proof. unfold swap_pairs, u16s. now rewrite map_map. Qed.
Lemma u16s_length data : length (u16s data) = (length data / 2)%nat.
Proof. unfold u16s. rewrite map_length. apply chunks_exact_length. lia. Qed.

(** ** Row reversal of PFM *)

Lemma concat_len s (rows : list (list Z)) : Forall (fun r => length r = s) rows -> length (concat rows) = (length rows * s)%nat.
Proof. apply concat_length_const. Qed.

Lemma Forall_firstn' {A} (P : A -> Prop) n l : Forall P l -> Forall P (firstn n l).
Proof. rewrite !Forall_forall. intros H x Hx. apply H. rewrite <- (firstn_skipn n l). apply in_app_iff. auto. Qed.
Lemma Forall_skipn' {A} (P : A -> Prop) n l : Forall P l -> Forall P (skipn n l).
Proof. rewrite !Forall_forall. intros H x Hx. apply H. rewrite <- (firstn_skipn n l). apply in_app_iff. auto. Qed.

Lemma firstn_snoc {A} (l : list A) n d : (n < length l)%nat -> firstn (S n) l = firstn n l ++ [nth n l d].
Proof.
  revert n. induction l as [|x l IH]; intros n H; cbn [length] in H; [lia|]. destruct n as [|n]; [reflexivity|].
  change (firstn (S (S n)) (x :: l)) with (x :: firstn (S n) l). change (firstn (S n) (x :: l)) with (x :: firstn n l).
  cbn [nth app]. f_equal. apply IH. lia.
Qed.
Lemma skipn_cons {A} (l : list A) n d : (n < length l)%nat -> skipn n l = nth n l d :: skipn (S n) l.
Proof.
  revert n. induction l as [|x l IH]; intros n H; cbn [length] in H; [lia|]. destruct n as [|n]; [reflexivity|].
  change (skipn (S n) (x :: l)) with (skipn n l). change (skipn (S (S n)) (x :: l)) with (skipn (S n) l). cbn [nth].
  apply IH. lia.
Qed.

Lemma get_slice_mid {A} (a b c : list A) n m : length a = n -> length b = m -> get_slice (a ++ b ++ c) n m = Ok b.
Proof. intros <- <-. rewrite get_slice_ok by (rewrite !app_length; lia). now rewrite slice_app_exact. Qed.
Lemma put_slice_mid {A} (a b c xs : list A) n : length a = n -> length b = length xs -> put_slice (a ++ b ++ c) n xs = Ok (a ++ xs ++ c).
Proof. intros <- H. rewrite put_slice_ok by (rewrite !app_length; lia). f_equal. now apply put_at. Qed.

Lemma pfm_flip_even s (T B : list (list Z)) : (0 < s)%nat -> length T = length B ->
  Forall (fun r => length r = s) T -> Forall (fun r => length r = s) B ->
  pfm_flip s (concat (T ++ B)) = Ok (concat (rev (T ++ B))).
Proof.
  intros Hs HTB FT FB. set (k := length T) in *.
  assert (L : length (concat (T ++ B)) = (2 * (k * s))%nat).
  { rewrite (concat_len s) by (now apply Forall_app). rewrite app_length. fold k. rewrite <- HTB. lia. }
  unfold pfm_flip. rewrite L. rewrite Nat.mul_comm, Nat.div_mul by lia.
  replace (k * s * 2 - k * s)%nat with (k * s)%nat by lia. rewrite Nat.div_mul by lia. rewrite Nat.min_id.
  replace (s =? 0)%nat with false by lia.
  destruct (for_range_inv (fun i img => img = concat (firstn (k - i) T) ++ concat (rev (firstn i B)) ++ concat (rev (skipn (k - i) T)) ++ concat (skipn i B))
     0 k (fun i img =>
       let a := ((k - 1 - i) * s)%nat in
       let b := (k * s + i * s)%nat in
       do x <- get_slice img a s ;
       do y <- get_slice img b s ;
       do img <- put_slice img a y ;
       put_slice img b x) (concat (T ++ B))) as (img & E & P).
  - lia.
  - rewrite Nat.sub_0_r. change (skipn 0 B) with B. rewrite (firstn_all2 T), (skipn_all2 T) by (unfold k; lia).
    change (firstn 0 B) with (@nil (list Z)). cbn [rev concat app]. now rewrite concat_app.
  - intros i img Hi ->. cbv zeta.
    assert (HlT : (k - S i < length T)%nat) by (fold k; lia). assert (HlB : (i < length B)%nat) by lia.
    replace (k - i)%nat with (S (k - S i)) by lia. rewrite (firstn_snoc T (k - S i) []) by exact HlT.
    set (t := nth (k - S i) T []). rewrite (skipn_cons B i []) by exact HlB. set (b := nth i B []).
    rewrite concat_app. cbn [concat]. rewrite app_nil_r.
    assert (Lt : length t = s) by (rewrite Forall_forall in FT; apply FT; apply nth_In; exact HlT).
    assert (Lb : length b = s) by (rewrite Forall_forall in FB; apply FB; apply nth_In; exact HlB).
    set (P := concat (firstn (k - S i) T)). set (R1 := concat (rev (firstn i B))). set (R2 := concat (rev (skipn (S (k - S i)) T))).
    assert (LP : length P = ((k - 1 - i) * s)%nat).
    { unfold P. rewrite (concat_len s) by (now apply Forall_firstn'). rewrite firstn_length. fold k. f_equal. lia. }
    assert (LR1 : length R1 = (i * s)%nat).
    { unfold R1. rewrite (concat_len s) by (apply Forall_rev; now apply Forall_firstn'). rewrite rev_length, firstn_length. f_equal. lia. }
    assert (LR2 : length R2 = (i * s)%nat).
    { unfold R2. rewrite (concat_len s) by (apply Forall_rev; now apply Forall_skipn'). rewrite rev_length, skipn_length. fold k. f_equal. lia. }
    set (Q := concat (skipn (S i) B)).
    exists (P ++ b ++ R1 ++ R2 ++ t ++ Q). rewrite <- !app_assoc. split.
    + rewrite (get_slice_mid P t) by assumption. cbn [bind].
      replace (P ++ t ++ R1 ++ R2 ++ b ++ Q) with ((P ++ t ++ R1 ++ R2) ++ b ++ Q) by (now rewrite <- !app_assoc).
      assert (LB : length (P ++ t ++ R1 ++ R2) = (k * s + i * s)%nat).
      { rewrite !app_length, LP, Lt, LR1, LR2. replace (k * s)%nat with ((k - 1 - i) * s + s + i * s)%nat; [lia|].
        replace k with ((k - 1 - i) + 1 + i)%nat at 2 by lia. lia. }
      rewrite (get_slice_mid _ b) by assumption. cbn [bind].
      replace ((P ++ t ++ R1 ++ R2) ++ b ++ Q) with (P ++ t ++ (R1 ++ R2 ++ b ++ Q)) by (now rewrite <- !app_assoc).
      rewrite (put_slice_mid P t) by congruence. cbn [bind].
      replace (P ++ b ++ R1 ++ R2 ++ b ++ Q) with ((P ++ b ++ R1 ++ R2) ++ b ++ Q) by (now rewrite <- !app_assoc).
      rewrite (put_slice_mid (P ++ b ++ R1 ++ R2) b Q t) by (rewrite ?app_length in *; congruence).
      now rewrite <- !app_assoc.
    + unfold P. f_equal. rewrite (firstn_snoc B i []) by exact HlB. fold b. rewrite rev_app_distr. cbn [rev app concat]. rewrite <- !app_assoc.
      f_equal. fold R1. f_equal. rewrite (skipn_cons T (k - S i) []) by exact HlT. fold t. cbn [rev]. rewrite concat_app. cbn [concat].
      rewrite app_nil_r. fold R2. rewrite <- app_assoc. reflexivity.
  - unfold for_range in E |- *. rewrite E. f_equal. rewrite P. rewrite Nat.sub_diag.
    change (firstn 0 T) with (@nil (list Z)). change (skipn 0 T) with T. rewrite (firstn_all2 B), (skipn_all2 B) by lia.
    cbn [concat app]. rewrite app_nil_r, rev_app_distr, concat_app. reflexivity.
Qed.

Lemma pfm_flip_total s img : (0 < s)%nat -> exists img', pfm_flip s img = Ok img' /\ length img' = length img.
Proof.
  intros Hs. unfold pfm_flip. replace (s =? 0)%nat with false by lia. cbv zeta.
  set (half := (length img / 2)%nat). set (top := (half / s)%nat). set (bot := ((length img - half) / s)%nat).
  assert (H1 : (half <= length img)%nat) by (unfold half; apply Nat.div_le_upper_bound; lia).
  assert (H2 : (s * top <= half)%nat) by (unfold top; apply Nat.mul_div_le; lia).
  assert (H3 : (s * bot <= length img - half)%nat) by (unfold bot; apply Nat.mul_div_le; lia).
  clearbody half top bot.
  apply for_range_inv with (P := fun _ (x : list Z) => length x = length img); [lia|reflexivity|].
  intros i x Hi Hx. assert (Ha : ((top - 1 - i) * s + s <= half)%nat) by nia.
  assert (Hb : (half + i * s + s <= length img)%nat) by nia.
  rewrite (get_slice_ok x) by lia. cbn [bind]. rewrite (get_slice_ok x) by lia. cbn [bind].
  rewrite put_slice_ok by (rewrite slice_length; lia). cbn [bind].
  assert (Lp : length (put x ((top - 1 - i) * s) (slice x (half + i * s) s)) = length x) by (apply put_length; rewrite slice_length; lia).
  rewrite put_slice_ok by (rewrite slice_length, Lp; lia). eexists. split; [reflexivity|].
  rewrite put_length; [congruence|]. rewrite slice_length, Lp by lia. lia.
Qed.

(** ** No panics *)

Lemma read_items_total val k n : forall input, match read_items val k n input with
  | Ok (xs, _) => length xs = n | Err _ => True | _ => False end.
Proof.
  induction n as [|n IH]; intros input; cbn [read_items]; [reflexivity|].
  destruct (length input <? k)%nat; [exact I|]. specialize (IH (skipn k input)).
  destruct (read_items val k n (skipn k input)) as [[xs rest]| | |]; cbn [bind]; try assumption. cbn [length]. lia.
Qed.

Lemma skip_in_length l : forall c, (length (skip_spaces_in c l) <= length l)%nat.
Proof.
  induction l as [|b l IH]; intros c; cbn [skip_spaces_in]; [lia|]. destruct c; [specialize (IH (negb (b =? 10))); cbn [length]; lia|].
  destruct (b =? 35); [specialize (IH true); cbn [length]; lia|]. destruct (ws b); [specialize (IH false); cbn [length]; lia|reflexivity].
Qed.
Lemma until_ws_length l : match until_ws l with Some (v, rest) => (length rest < length l)%nat | None => True end.
Proof.
  induction l as [|b l IH]; cbn [until_ws]; [exact I|]. destruct (ws b).
  - pose proof (skip_in_length l false). unfold skip_spaces. cbn [length]. lia.
  - destruct (until_ws l) as [[v rest]|]; [|exact I]. cbn [length]. lia.
Qed.
Lemma get_word_length l : let '(v, rest) := get_word l in (length rest <= length l)%nat /\ (v <> [] -> length rest < length l)%nat.
Proof.
  unfold get_word. pose proof (until_ws_length l). destruct (until_ws l) as [[v rest]|]; [lia|]. cbn [length]. split; [lia|congruence].
Qed.

Definition p7_inv (mw mh : Z) (s : p7st) : Prop :=
  match s_w s with Some w => 0 <= w <= mw | None => True end /\
  match s_h s with Some h => 0 <= h <= mh | None => True end /\
  match s_cs s with Some cs => pnm_cs cs | None => True end /\
  match s_max s with Some d => d = D8 \/ d = D16 | None => True end.

Lemma tuple_type_pnm t cs : tuple_type t = Some cs -> pnm_cs cs.
Proof.
  unfold tuple_type, pnm_cs. repeat match goal with |- context [if ?c then _ else _] => destruct c end;
  intros E; try discriminate E; injection E as <-; auto.
Qed.

Lemma p7_loop_total fuel : forall mw mh s input, (length input <= fuel)%nat -> p7_inv mw mh s ->
  match p7_loop fuel mw mh s input with
  | Ok (s', _) => p7_inv mw mh s' | Err _ => True | _ => False end.
Proof.
  induction fuel as [|f IH]; intros mw mh s input Hf Hi.
  - destruct input; [exact I|cbn [length] in Hf; lia].
  - cbn [p7_loop]. destruct input as [|c0 input0]; [exact I|]. set (inp := c0 :: input0) in *.
    pose proof (skip_in_length inp false) as S1. fold (skip_spaces inp) in S1.
    pose proof (get_word_length (skip_spaces inp)) as G. destruct (get_word (skip_spaces inp)) as [v rest]. destruct G as [G1 G2].
    assert (K : v <> [] -> (length rest <= f)%nat) by (intros Hv; specialize (G2 Hv); lia).
    destruct Hi as (I1 & I2 & I3 & I4).
    destruct (zeqb_list v txt_width) eqn:E1.
    { pose proof (get_integer_range rest 0 ltac:(lia)) as R. destruct (get_integer 0 rest) as [n rest2]. destruct R as [R1 R2].
      destruct (Z.ltb_spec mw n); [exact I|]. apply IH; [assert (v <> []) by (intros ->; discriminate E1); lia|].
      split; [cbn [s_w]; lia|]. auto. }
    destruct (zeqb_list v txt_height) eqn:E2.
    { pose proof (get_integer_range rest 0 ltac:(lia)) as R. destruct (get_integer 0 rest) as [n rest2]. destruct R as [R1 R2].
      destruct (Z.ltb_spec mh n); [exact I|]. apply IH; [assert (v <> []) by (intros ->; discriminate E2); lia|].
      split; [exact I1|]. split; [cbn [s_h]; lia|]. auto. }
    destruct (zeqb_list v txt_depth) eqn:E3.
    { pose proof (get_integer_range rest 0 ltac:(lia)) as R. destruct (get_integer 0 rest) as [n rest2]. destruct R as [R1 R2].
      destruct (Z.ltb_spec 4 n); [exact I|]. apply IH; [assert (v <> []) by (intros ->; discriminate E3); lia|].
      split; [exact I1|]. split; [exact I2|]. auto. }
    destruct (zeqb_list v txt_maxval) eqn:E4.
    { pose proof (get_integer_range rest 0 ltac:(lia)) as R. destruct (get_integer 0 rest) as [n rest2]. destruct R as [R1 R2].
      destruct (Z.ltb_spec 65535 n); [exact I|]. apply IH; [assert (v <> []) by (intros ->; discriminate E4); lia|].
      split; [exact I1|]. split; [exact I2|]. split; [exact I3|]. cbn [s_max]. destruct (255 <? n); auto. }
    destruct (zeqb_list v txt_tupltype) eqn:E5.
    { pose proof (get_word_length rest) as G'. destruct (get_word rest) as [t rest2]. destruct G' as [G3 _].
      destruct (tuple_type t) as [cs|] eqn:Et; [|exact I]. apply IH; [assert (v <> []) by (intros ->; discriminate E5); lia|].
      split; [exact I1|]. split; [exact I2|]. split; [cbn [s_cs]; now apply tuple_type_pnm in Et|exact I4]. }
    destruct (starts_with v txt_endhdr); [|exact I]. repeat split; assumption.
Qed.

Definition info_ok (mw mh : Z) (i : ppm_info) : Prop := 0 <= i_w i <= mw /\ 0 <= i_h i <= mh /\ pnm_cs (i_cs i).

Lemma ppm_headers_total nf mw mh input : match ppm_headers nf mw mh input with
  | Ok (i, _) => info_ok mw mh i | Err _ => True | _ => False end.
Proof.
  unfold ppm_headers. destruct input as [|p [|v input]]; try exact I. destruct (negb (p =? 80)); [exact I|].
  assert (H56 : forall cs, pnm_cs cs -> match p56_header mw mh cs input with Ok (i, _) => info_ok mw mh i | Err _ => True | _ => False end).
  { intros cs Hc. unfold p56_header.
    pose proof (get_integer_range (skip_spaces input) 0 ltac:(lia)) as R. destruct (get_integer 0 (skip_spaces input)) as [w r1]. destruct R as [R1 _].
    destruct (Z.ltb_spec mw w); [exact I|].
    pose proof (get_integer_range (skip_spaces r1) 0 ltac:(lia)) as R. destruct (get_integer 0 (skip_spaces r1)) as [h r2]. destruct R as [R2 _].
    destruct (Z.ltb_spec mh h); [exact I|]. destruct (get_integer 0 (skip_spaces r2)) as [m r3].
    destruct (65535 <? m); [exact I|]. split; [cbn [i_w]; lia|]. split; [cbn [i_h]; lia|exact Hc]. }
  assert (Hpf : forall cs, pnm_cs cs -> match pf_header nf mw mh cs input with Ok (i, _) => info_ok mw mh i | Err _ => True | _ => False end).
  { intros cs Hc. unfold pf_header.
    pose proof (get_integer_range (skip_spaces input) 0 ltac:(lia)) as R. destruct (get_integer 0 (skip_spaces input)) as [w r1]. destruct R as [R1 _].
    destruct (Z.ltb_spec mw w); [exact I|].
    pose proof (get_integer_range (skip_spaces r1) 0 ltac:(lia)) as R. destruct (get_integer 0 (skip_spaces r1)) as [h r2]. destruct R as [R2 _].
    destruct (Z.ltb_spec mh h); [exact I|]. destruct (get_word (skip_spaces r2)) as [m r3].
    destruct (nf m); [|exact I]. split; [cbn [i_w]; lia|]. split; [cbn [i_h]; lia|exact Hc]. }
  unfold pnm_cs in *.
  destruct (v =? 53); [apply H56; auto|]. destruct (v =? 54); [apply H56; auto|]. destruct (v =? 55).
  - unfold p7_header. pose proof (p7_loop_total (S (length input)) mw mh (mkP7 None None false None None) input ltac:(lia)) as T.
    specialize (T (conj I (conj I (conj I I)))).
    destruct (p7_loop (S (length input)) mw mh (mkP7 None None false None None) input) as [[s rest]| | |]; cbn [bind]; try assumption.
    destruct T as (T1 & T2 & T3 & _). destruct (s_w s), (s_h s), (s_depth_seen s), (s_max s), (s_cs s); try exact I.
    split; [exact T1|]. split; [exact T2|exact T3].
  - destruct (v =? 102); [apply Hpf; auto|]. destruct (v =? 70); [apply Hpf; auto|exact I].
Qed.
