(** Properties of the headers of JPEG files: tables, frames and scans are what the file says; metadata is not altered. *)
From Coq Require FinFun.
From Verif Require Import Base BaseProof Loops JpegIdctSpec JpegHuffSpec JpegHuffModel JpegScanModel JpegHuffRun JpegHuffTable JpegHuffProps JpegProgModel JpegHeadModel JpegHeadSpec JpegHeadProof.

(** * The first scan and the scans after it *)

(** Whatever legal segments there are, in whatever order, with fill bytes or without, the decoder ends up with the tables, restart
    interval and metadata that hold at the scan, and with the frame and scan header. Left out: APP0 with four bytes of data and
    APP14 that is not Adobe's (see below). *)
Theorem headers_decoded_partial o early h e file rest t : file_start early h e file rest t -> h_x h <= max_w o -> h_y h <= max_h o ->
  exists d, decode_headers o file = Ok (d, rest) /\ as_told d t /\ as_frame d h /\ as_scan d e.
Proof. intros S W H. destruct (start_ok o early h e file rest t S W H) as (d & E1 & E2 & E3 & E4 & _). exists d. split; [exact E1|]. split; [exact E2|]. split; [exact E3|exact E4]. Qed.
Theorem next_scan_decoded_partial o h e t m l rest t' d : fhead_ok h -> to_next h e t m l rest t' -> as_told d t -> as_frame d h ->
  exists d', next_scan (S (length l)) o d m l = Ok (Some (d', rest)) /\ as_told d' t' /\ as_frame d' h /\ as_scan d' e.
Proof. intros F N A B. exact (proj2 (next_ok o h e t m l rest t' d F N A B)). Qed.

(** * Colours *)
Definition color_is (c : colours) : incolor := match c with Gray => CLuma | Ycc => CYCbCr | Rgb => CRGB | Cmyk => CCMYK | Ycck => CYCCK end.
(** after the frame header: as before, or as a late Adobe segment says *)
Lemma to_scan_color o early h e : fhead_ok h -> forall t l rest t', to_scan early h e t l rest t' -> forall fuel last d, (length l < fuel)%nat -> last <> 255 -> as_told d t -> as_frame d h ->
  exists d', head_loop fuel o last 1 d l = Ok (d', rest) /\ (d_color d' = d_color d /\ t_adobe t' = t_adobe t \/ early = false /\ t_adobe t' <> None /\ d_color d' = color_by (t_adobe t') CYCbCr).
Proof.
  intros Ho t l rest t' T. induction T as [t n rest Sh|t t1 t' n m l l' rest M Ea T IH]; intros fuel last d Fu Nl A F; rewrite app_length in Fu; cbn [length] in Fu; rewrite repeat_length in Fu.
  - destruct fuel as [|[|fuel]]; [lia|lia|]. rewrite head_step by (try lia; exact Nl). destruct (sos_ok o d t h e rest A F Ho Sh) as (d' & E1 & _ & E2 & E3 & E4 & E5). rewrite E1. cbn [bind]. change (218 =? 218) with true. cbv iota.
    exists d'. split; [reflexivity|]. left. now split.
  - destruct (misc_ok o d t m l t1 l' M A) as (d1 & E1 & E2 & E3 & E4 & E5 & E6). destruct (not_special m E5) as (N0 & N1 & N2 & N3). destruct fuel as [|[|fuel]]; [lia|lia|].
    rewrite head_step by (try lia; assumption). rewrite E1. cbn [bind]. rewrite (proj2 (Z.eqb_neq m 218) N2). rewrite app_length in Fu.
    destruct (IH fuel m d1 ltac:(lia) N3 E2 (keeps_frame _ _ _ E3 F)) as (d' & X1 & X2). exists d'. split; [exact X1|]. destruct X2 as [(-> & ->)|X2]; [|now right].
    destruct E4 as [(_ & -> & ->)|(C & Nn & ->)]; [left; now split|]. right. split; [destruct early; [destruct (Ea eq_refl C)|reflexivity]|]. split; [exact Nn|]. destruct (t_adobe t1); [reflexivity|now destruct Nn].
Qed.
Lemma to_frame_color o early h e : h_x h <= max_w o -> h_y h <= max_h o -> forall t l rest t', to_frame early h e t l rest t' -> forall fuel last before d, (length l < fuel)%nat -> last <> 255 -> before <= 2 -> as_told d t -> d_sof d = false -> d_prog d = false ->
  d_color d = color_by (t_adobe t) CYCbCr ->
  exists d', head_loop fuel o last before d l = Ok (d', rest) /\ (d_color d' = sof_color h (color_by (t_adobe t') CYCbCr) \/ early = false /\ t_adobe t' <> None /\ d_color d' = color_by (t_adobe t') CYCbCr).
Proof.
  intros Mw Mh t l rest t' T. induction T as [t n m l rest t' Sm Ho T|t t1 t' n m l l' rest M T IH]; intros fuel last before d Fu Nl Bf A S P Co; rewrite app_length in Fu; cbn [length] in Fu; rewrite repeat_length, app_length in Fu.
  - destruct fuel as [|[|fuel]]; [lia|lia|]. destruct (sof_ok o d t h m l A Sm Ho S P Mw Mh) as (d1 & E1 & E2 & E3 & E4 & E5). destruct (not_special m E4) as (N0 & N1 & N2 & N3).
    rewrite head_step by (try lia; assumption). rewrite E1. cbn [bind]. rewrite (proj2 (Z.eqb_neq m 218) N2).
    destruct (to_scan_color o early h e Ho t l rest t' T fuel m d1 ltac:(lia) N3 E2 E3) as (d' & X1 & X2). exists d'. split; [exact X1|]. destruct X2 as [(-> & ->)|X2]; [left; rewrite E5, Co; reflexivity|now right].
  - destruct (misc_ok o d t m l t1 l' M A) as (d1 & E1 & E2 & (K1 & K2 & K3) & E4 & E5 & E6). destruct (not_special m E5) as (N0 & N1 & N2 & N3). destruct fuel as [|[|fuel]]; [lia|lia|].
    rewrite head_step by (try lia; assumption). rewrite E1. cbn [bind]. rewrite (proj2 (Z.eqb_neq m 218) N2).
    apply IH; [lia|exact N3|lia|exact E2|congruence|congruence|].
    destruct E4 as [(_ & -> & ->)|(_ & Nn & ->)]; [exact Co|]. destruct (t_adobe t1); [reflexivity|now destruct Nn].
Qed.
(** Left out: grayscale files with an Adobe segment between the frame header and the scan ([colours_refuted]). *)
Theorem colours_decoded_partial o early h e file rest t c : file_start early h e file rest t -> h_x h <= max_w o -> h_y h <= max_h o ->
  early = true \/ length (h_parts h) <> 1%nat -> colours_of h (t_adobe t) = Some c ->
  exists d, decode_headers o file = Ok (d, rest) /\ setup_color o d = Ok (Some (color_is c)).
Proof.
  intros S W H Q C. destruct (start_ok o early h e file rest t S W H) as (d & E1 & _ & (_ & _ & _ & _ & E3) & _ & _). exists d. split; [exact E1|].
  assert (L : length (d_comps d) = length (h_parts h)) by (rewrite <- E3; now rewrite map_length).
  assert (E5 : exists c0, d_color d = (if list_eqb (map i_id (h_parts h)) [82; 71; 66] then CRGB else c0) /\
    (c0 = sof_color h (color_by (t_adobe t) CYCbCr) \/ length (h_parts h) <> 1%nat /\ t_adobe t <> None /\ c0 = color_by (t_adobe t) CYCbCr)).
  { destruct S as (l & -> & T). unfold decode_headers in E1. cbn [app rd_u16 bind] in E1. change (negb (255 * 256 + 216 =? 65496)) with false in E1. cbv iota in E1.
    destruct (to_frame_color o early h e W H _ _ _ _ T (Datatypes.S (length l)) 0 0 start_dec ltac:(lia) ltac:(lia) ltac:(lia) start_told eq_refl eq_refl eq_refl) as (d0 & X1 & X2).
    rewrite X1 in E1. cbn [bind] in E1. injection E1 as <-. exists (d_color d0). split.
    - assert (Ids : map c_id (d_comps d0) = map i_id (h_parts h)) by (replace (d_comps d0) with (d_comps (rgb_ids d0)) by (unfold rgb_ids; now destruct (list_eqb _ _)); rewrite <- E3, map_map; reflexivity).
      unfold rgb_ids. rewrite Ids. now destruct (list_eqb _ _).
    - destruct X2 as [X2|(X2 & X3 & X4)]; [now left|]. right. split; [|now split]. destruct Q as [Q|Q]; [congruence|exact Q]. }
  destruct E5 as (c0 & E5 & E6). unfold setup_color. rewrite L, E5. unfold colours_of in C. unfold sof_color in E6. unfold list_eqb. assert (Lm : length (map i_id (h_parts h)) = length (h_parts h)) by apply map_length.
  destruct (list_eq_dec Z.eq_dec (map i_id (h_parts h)) [82; 71; 66]) as [R|R].
  - rewrite R in Lm. cbn [length] in Lm. rewrite <- Lm in *. cbn [Nat.eqb Nat.ltb Nat.leb needs]. destruct (t_adobe t) as [[|p|p]|]; injection C as <-; reflexivity.
  - destruct (length (h_parts h)) as [|[|[|[|[|n]]]]]; cbn [Nat.eqb andb] in *; try discriminate C.
    + destruct E6 as [->|(E6 & _)]; [|now destruct E6]. injection C as <-. reflexivity.
    + assert (c0 = color_by (t_adobe t) CYCbCr) as -> by (destruct E6 as [->|(_ & _ & ->)]; reflexivity). destruct (t_adobe t) as [[|[p|p|]|p]|]; injection C as <-; reflexivity.
    + destruct E6 as [->|(_ & Nn & ->)]; destruct (t_adobe t) as [[|[p|[p|p|]|]|p]|]; try discriminate C; try (now destruct Nn); injection C as <-; reflexivity.
Qed.

(** * ICC profiles *)
Section Icc.
  Variable chunks : list (Z * Z * list Z).
  Let n := length chunks.
  Let step := fun (acc : option (list (option (list Z)))) (c : Z * Z * list Z) => match acc with
    | None => None
    | Some slots =>
        let '(seq, num, data) := c in
        if negb (num =? Z.of_nat n) then None else
        if seq =? 0 then None else
        match nth_error slots (Z.to_nat seq) with
        | Some (Some _) => None
        | _ => Some (upd slots (Z.to_nat seq) (Some data))
        end
    end.
  Let nums (l : list (Z * Z * list Z)) : list Z := map (fun c => fst (fst c)) l.
  Lemma icc_none : forall l, fold_left step l None = None.
  Proof. induction l as [|c l IH]; [reflexivity|exact IH]. Qed.
  Lemma icc_sound : forall l slots out, Forall (fun c => 0 <= fst (fst c) < 256) l -> length slots = 256%nat -> fold_left step l (Some slots) = Some out ->
    length out = 256%nat /\ Forall (fun '(_, k, _) => k = Z.of_nat n) l /\ (forall j x, nth j out None = Some x -> nth j slots None = Some x \/ In (Z.of_nat j, Z.of_nat n, x) l).
  Proof.
    induction l as [|[[i k] x] l IH]; intros slots out F L E.
    - cbn [fold_left] in E. injection E as <-. split; [exact L|]. split; [constructor|]. intros j x H. now left.
    - inversion F as [|? ? F1 F2]. subst. cbn [fst] in F1. cbn [fold_left] in E. unfold step in E at 2. destruct (negb (k =? Z.of_nat n)) eqn:C1; [rewrite icc_none in E; discriminate E|].
      destruct (i =? 0) eqn:C2; [rewrite icc_none in E; discriminate E|]. apply negb_false_iff, Z.eqb_eq in C1. apply Z.eqb_neq in C2.
      assert (E' : fold_left step l (Some (upd slots (Z.to_nat i) (Some x))) = Some out) by (destruct (nth_error slots (Z.to_nat i)) as [[?|]|]; [rewrite icc_none in E; discriminate E|exact E|exact E]).
      destruct (IH _ _ F2 (eq_trans (upd_length _ _ _) L) E') as (G1 & G2 & G3). split; [exact G1|]. split; [now constructor|]. intros j y H. destruct (G3 j y H) as [G|G]; [|right; now right].
      rewrite nth_upd in G by (rewrite L; lia). destruct (j =? Z.to_nat i)%nat eqn:Ej; [|now left]. right. left. apply Nat.eqb_eq in Ej. injection G as <-. rewrite C1. f_equal. f_equal. lia.
  Qed.
  Lemma icc_complete : forall l slots, Forall (fun '(i, k, _) => 1 <= i < 256 /\ k = Z.of_nat n) l -> length slots = 256%nat -> NoDup (nums l) -> (forall i, In i (nums l) -> nth (Z.to_nat i) slots None = None) ->
    exists out, fold_left step l (Some slots) = Some out /\ (forall i k x, In (i, k, x) l -> nth (Z.to_nat i) out None = Some x) /\ (forall j, ~ In (Z.of_nat j) (nums l) -> nth j out None = nth j slots None).
  Proof.
    induction l as [|[[i k] x] l IH]; intros slots F L Nd Em.
    - exists slots. split; [reflexivity|]. split; [intros ? ? ? []|reflexivity].
    - inversion F as [|? ? F1 F2]. subst. cbv beta iota in F1. destruct F1 as (F1 & Fk). inversion Nd as [|? ? N1 N2]. subst. cbn [fold_left]. unfold step at 2. rewrite Z.eqb_refl. cbn [negb].
      replace (i =? 0) with false by (symmetry; apply Z.eqb_neq; lia).
      assert (E0 : nth (Z.to_nat i) slots None = None) by (apply Em; now left). rewrite (nth_error_nth' slots None) by (rewrite L; lia). rewrite E0.
      destruct (IH (upd slots (Z.to_nat i) (Some x)) F2 (eq_trans (upd_length _ _ _) L) N2) as (out & G1 & G2 & G3).
      { intros i' I. rewrite nth_upd by (rewrite L; lia). replace (Z.to_nat i' =? Z.to_nat i)%nat with false; [apply Em; now right|]. symmetry. apply Nat.eqb_neq. intros C. apply N1. replace i with i'; [exact I|].
        unfold nums in I. apply in_map_iff in I. destruct I as ([[a b] c] & <- & I). rewrite Forall_forall in F2. pose proof (F2 _ I) as (R & _). cbn [fst] in *. lia. }
      exists out. split; [exact G1|]. split.
      + intros i' k' x' [E|I]; [|now apply (G2 i' k')]. injection E as <- <- <-. rewrite G3, nth_upd by (try (rewrite L; lia); rewrite ?Z2Nat.id by lia; exact N1). now rewrite Nat.eqb_refl.
      + intros j Nj. rewrite G3 by (intros C; apply Nj; now right). rewrite nth_upd by (rewrite L; lia). replace (j =? Z.to_nat i)%nat with false; [reflexivity|]. symmetry. apply Nat.eqb_neq. intros ->. apply Nj. left. cbn [fst]. lia.
  Qed.
  Lemma gather_some : forall l p, gather l = Some p <-> exists parts, l = map Some parts /\ p = concat parts.
  Proof.
    induction l as [|[x|] l IH]; intros p.
    - split; [intros E; injection E as <-; exists []; now split|]. intros ([|? ?] & E & ->); [reflexivity|discriminate E].
    - cbn [gather]. split.
      + destruct (gather l) as [r|]; [|discriminate]. intros E. injection E as <-. destruct (proj1 (IH r) eq_refl) as (parts & -> & ->). exists (x :: parts). now split.
      + intros ([|y parts] & E & ->); [discriminate E|]. cbn [map] in E. injection E as <- E. rewrite (proj2 (IH (concat parts))); [reflexivity|]. exists parts. now split.
    - split; [discriminate|]. intros ([|? ?] & E & _); discriminate E.
  Qed.
  Lemma slots_nth (slots : list (option (list Z))) i : (i < n)%nat -> (n < 256)%nat -> length slots = 256%nat -> nth i (firstn n (skipn 1 slots)) None = nth (S i) slots None.
  Proof. intros H L Ls. rewrite nth_firstn by exact H. rewrite nth_skipn. reflexivity. Qed.

  (** With up to 254 chunks, in any order: the profile is the data of the chunks in order of their numbers if all are there, each
      once, and there is no profile otherwise. *)
  Theorem icc_profile_partial profile : (n < 255)%nat -> Forall (fun c => 0 <= fst (fst c) < 256) chunks -> icc_profile chunks = Some profile <-> icc_whole chunks profile.
  Proof.
    intros Hn F. unfold icc_profile, icc_whole, at_most_once. fold n. fold step. split.
    - destruct (n =? 0)%nat eqn:C0; [discriminate|]. apply Nat.eqb_neq in C0. replace (255 <=? n)%nat with false by (symmetry; apply Nat.leb_gt; lia). cbn [orb].
      destruct (fold_left step chunks _) as [out|] eqn:E; [|discriminate]. intros G. destruct (icc_sound chunks (repeat None 256) out F (repeat_length _ _) E) as (G1 & G2 & G3). split; [lia|]. split; [exact G2|].
      apply gather_some in G. destruct G as (parts & G & ->). exists parts.
      assert (Lp : length parts = n). { apply (f_equal (@length _)) in G. rewrite firstn_length, skipn_length, map_length, G1 in G. lia. }
      split; [exact Lp|]. split; [reflexivity|]. intros i Hi. rewrite Lp in Hi.
      assert (X : nth (S i) out None = Some (nth i parts [])) by (rewrite <- slots_nth by (try exact G1; lia); rewrite G; rewrite (map_nth_in _ _ _ []) by lia; reflexivity).
      destruct (G3 _ _ X) as [C|C]; [rewrite nth_repeat in C; discriminate C|]. replace (Z.of_nat i + 1) with (Z.of_nat (S i)) by lia. exact C.
    - intros (H0 & Hk & parts & Lp & -> & Hp). replace (n =? 0)%nat with false by (symmetry; apply Nat.eqb_neq; unfold n; lia). replace (255 <=? n)%nat with false by (symmetry; apply Nat.leb_gt; lia). cbn [orb].
      assert (Lp' : length parts = n) by exact Lp. pose (want := map (fun i => Z.of_nat i + 1) (seq 0 n)).
      assert (Wd : NoDup want). { unfold want. apply Coq.Logic.FinFun.Injective_map_NoDup; [intros a b E; lia|apply seq_NoDup]. }
      assert (Wi : incl want (nums chunks)). { intros w Iw. unfold want in Iw. apply in_map_iff in Iw. destruct Iw as (i & <- & Ii). apply in_seq in Ii. unfold nums. apply in_map_iff. eexists. split; [|apply (Hp i); lia]. reflexivity. }
      assert (Wl : (length (nums chunks) <= length want)%nat) by (unfold want, nums; rewrite !map_length, seq_length; fold n; lia).
      assert (Nn : NoDup (nums chunks)) by (apply (@NoDup_incl_NoDup _ want); assumption).
      assert (Ni : incl (nums chunks) want) by (apply NoDup_length_incl; assumption).
      destruct (icc_complete chunks (repeat None 256)) as (out & E & G1 & G2).
      { apply Forall_forall. intros [[i k] x] I. rewrite Forall_forall in Hk. pose proof (Hk _ I) as K. cbv beta iota in K. split; [|exact K]. assert (Iw : In i want). { apply Ni. unfold nums. apply in_map_iff. now exists (i, k, x). }
        unfold want in Iw. apply in_map_iff in Iw. destruct Iw as (j & <- & Ij). apply in_seq in Ij. lia. }
      { apply repeat_length. }
      { exact Nn. }
      { intros i _. apply nth_repeat. }
      rewrite E. apply gather_some. exists parts. split; [|reflexivity].
      assert (Lo : length out = 256%nat). { destruct (icc_sound chunks (repeat None 256) out F (repeat_length _ _) E) as (G & _). exact G. }
      apply (list_eq_nth None); [rewrite firstn_length, skipn_length, map_length; lia|]. intros i Hi. rewrite firstn_length, skipn_length in Hi. rewrite slots_nth by (try exact Lo; lia). rewrite (map_nth_in _ _ _ []) by lia.
      rewrite <- (G1 (Z.of_nat i + 1) (Z.of_nat (length chunks)) (nth i parts [])) by (apply Hp; lia). f_equal. lia.
  Qed.
End Icc.
Example icc_demo : icc_profile [(2, 2, [30; 40]); (1, 2, [10; 20])] = Some [10; 20; 30; 40] /\ icc_profile [(1, 2, [10]); (1, 2, [20])] = None /\ icc_profile [(1, 2, [10])] = None.
Proof. now repeat split. Qed.
(** A profile in 255 chunks, as many as there can be, is dropped. *)
Definition icc_255 : list (Z * Z * list Z) := map (fun i => (Z.of_nat i + 1, 255, [7])) (seq 0 255).
Theorem icc_profile_refuted : exists chunks profile, Forall (fun c => 0 <= fst (fst c) < 256) chunks /\ icc_whole chunks profile /\ icc_profile chunks = None.
Proof.
  exists icc_255, (repeat 7 255). split; [|split; [|reflexivity]].
  - apply Forall_forall. intros c H. unfold icc_255 in H. apply in_map_iff in H. destruct H as (i & <- & H). apply in_seq in H. cbn [fst]. lia.
  - split; [cbn; lia|]. split.
    + apply Forall_forall. intros [[i k] x] H. unfold icc_255 in H. apply in_map_iff in H. destruct H as (j & E & _). now injection E as <- <- <-.
    + exists (repeat [7] 255). split; [reflexivity|]. split; [reflexivity|]. intros i Hi. rewrite repeat_length in Hi. unfold icc_255. apply in_map_iff. exists i. split; [now rewrite (nth_indep _ [] [7]), nth_repeat by (rewrite repeat_length; exact Hi)|apply in_seq; lia].
Qed.

(** * Any bytes *)
Definition suf (l l0 : list Z) : Prop := exists k, l = skipn k l0.
Definition reads {A} (r : res (A * list Z)) (l0 : list Z) : Prop := match r with Ok (_, l) => suf l l0 | Err _ => True | _ => False end.
Definition total {A} (r : res A) : Prop := match r with Ok _ | Err _ => True | _ => False end.
Lemma suf_refl l : suf l l. Proof. now exists 0%nat. Qed.
Lemma suf_skip k l l0 : suf l l0 -> suf (skipn k l) l0. Proof. intros (j & ->). exists (j + k)%nat. apply skipn_skipn'. Qed.
Lemma suf_tail b l l0 : suf (b :: l) l0 -> suf l l0. Proof. intros H. exact (suf_skip 1 _ _ H). Qed.
Lemma suf_length l l0 : suf l l0 -> (length l <= length l0)%nat. Proof. intros (k & ->). rewrite skipn_length. lia. Qed.
Lemma suf_bytes l l0 : suf l l0 -> bytes l0 -> bytes l.
Proof. intros (k & ->) B. apply Forall_forall. intros x Hx. unfold bytes in B. rewrite Forall_forall in B. apply B. rewrite <- (firstn_skipn k l0). apply in_or_app. now right. Qed.
Lemma suf_trans a b c : suf a b -> suf b c -> suf a c. Proof. intros (k & ->) H. now apply suf_skip. Qed.
Section Reads.
  Context {A : Type}.
  Variable l0 : list Z.
  Lemma r_u8 l (f : Z * list Z -> res (A * list Z)) : suf l l0 -> (forall b l', suf l' l0 -> (bytes l0 -> 0 <= b < 256) -> reads (f (b, l')) l0) -> reads (bind (rd_u8 l) f) l0.
  Proof. intros S H. destruct l as [|b l]; [exact I|]. cbn [rd_u8 bind]. apply H; [now apply suf_tail in S|]. intros B. pose proof (suf_bytes _ _ S B) as X. now inversion X. Qed.
  Lemma r_u16 l (f : Z * list Z -> res (A * list Z)) : suf l l0 -> (forall b l', suf l' l0 -> reads (f (b, l')) l0) -> reads (bind (rd_u16 l) f) l0.
  Proof. intros S H. destruct l as [|b [|c l]]; [exact I|exact I|]. cbn [rd_u16 bind]. apply H. now apply suf_tail, suf_tail in S. Qed.
  Lemma r_n n l (f : list Z * list Z -> res (A * list Z)) : suf l l0 -> (forall a l', suf l' l0 -> length a = n -> (bytes l0 -> bytes a) -> reads (f (a, l')) l0) -> reads (bind (rd_n n l) f) l0.
  Proof.
    intros S H. unfold rd_n. destruct (length l <? n)%nat eqn:E; [exact I|]. apply Nat.ltb_ge in E. cbn [bind]. apply H; [now apply suf_skip|rewrite firstn_length; lia|].
    intros B. pose proof (suf_bytes _ _ S B) as Bl. apply Forall_forall. intros x Hx. unfold bytes in Bl. rewrite Forall_forall in Bl. apply Bl. rewrite <- (firstn_skipn n l). apply in_or_app. now left.
  Qed.
  Lemma r_peek n l (f : list Z -> res (A * list Z)) : (forall a, reads (f a) l0) -> reads (bind (JpegHeadModel.peek n l) f) l0.
  Proof. intros H. unfold JpegHeadModel.peek. destruct (length l <? n)%nat; [exact I|]. apply H. Qed.
  Lemma r_starts n pre min l (f : bool -> res (A * list Z)) : (forall b, reads (f b) l0) -> reads (bind (starts n pre min l) f) l0.
  Proof. intros H. unfold starts. destruct (min <? n)%nat; [|apply H]. unfold JpegHeadModel.peek. destruct (length l <? length pre)%nat; [exact I|]. apply H. Qed.
  Lemma r_total {B} (r : res B) (f : B -> res (A * list Z)) : total r -> (forall b, reads (f b) l0) -> reads (bind r f) l0.
  Proof. intros T H. destruct r; [apply H|exact I|destruct T|destruct T]. Qed.
  Lemma r_bind {B} (r : res (B * list Z)) (f : B * list Z -> res (A * list Z)) : reads r l0 -> (forall b l, suf l l0 -> reads (f (b, l)) l0) -> reads (bind r f) l0.
  Proof. intros T H. destruct r as [[b l]| | |]; [now apply H|exact I|destruct T|destruct T]. Qed.
End Reads.
Lemma u8_0_suf l l0 b l' : suf l l0 -> rd_u8_0 l = (b, l') -> suf l' l0.
Proof. intros S E. destruct l as [|x l]; injection E as <- <-; [exact S|now apply suf_tail in S]. Qed.
Lemma u16_0_suf l l0 b l' : suf l l0 -> rd_u16_0 l = (b, l') -> suf l' l0.
Proof. intros S E. destruct l as [|x [|y l]]; injection E as <- <-; [exact S|exact S|now apply suf_tail, suf_tail in S]. Qed.
Lemma new_table_total dc counts values : length counts = 16%nat -> bytes counts -> fold_right Z.add 0 counts <= 256 -> length values = 256%nat -> bytes values -> total (new_table dc counts values).
Proof.
  intros L B S Lv Bv. assert (F : Forall (fun n => 0 <= n) counts) by (eapply Forall_impl; [|exact B]; unfold is_byte; intros; lia).
  assert (TO : table_ok counts values). { split; [exact L|]. split; [exact F|]. split; [unfold codes; rewrite assign_length; pose proof (sizes_length counts 1 F); lia|]. now split. }
  destruct (table_facts dc counts values TO) as (T1 & T2). destruct (Z.lt_ge_cases (start (sizes_from 1 counts) (length (sizes_from 1 counts))) (2 ^ 16)) as [C|C]; [|now rewrite T2 by now left].
  destruct dc; [|destruct T1 as (t & -> & _); [exact C|discriminate|exact I]].
  assert (D : dc_ok counts values \/ ~ dc_ok counts values) by (unfold dc_ok; destruct (Forall_dec (fun v => v <= 15) (fun v => Z_le_dec v 15) (firstn (length (sizes_from 1 counts)) values)); tauto).
  destruct D as [D|D]; [destruct T1 as (t & -> & _); [exact C|now intros _|exact I]|rewrite T2; [exact I|right; now split]].
Qed.
Lemma sum_nonneg counts : bytes counts -> 0 <= fold_right Z.add 0 counts.
Proof. intros B. induction B as [|x l Hx B IH]; [cbn; lia|]. unfold is_byte in Hx. cbn [fold_right]. lia. Qed.
Lemma dht_reads l0 : bytes l0 -> forall fuel left d l, 0 <= left < Z.of_nat fuel -> suf l l0 -> reads (dht_loop fuel left d l) l0.
Proof.
  intros B0. induction fuel as [|fuel IH]; intros left d l Lf S; [lia|]. cbn [dht_loop]. destruct (16 <? left) eqn:E; [|destruct (0 <? left); [exact I|exact S]]. apply Z.ltb_lt in E.
  apply r_u8; [exact S|]. intros info l1 S1 Bi. cbv zeta. destruct (4 <=? _)%nat; [exact I|]. destruct (1 <? _); [exact I|]. apply r_n; [exact S1|]. intros counts l2 S2 Lc Bc. specialize (Bc B0).
  destruct (256 <? _) eqn:E1; [exact I|]. apply Z.ltb_ge in E1. destruct (left - 17 <? _) eqn:E2; [exact I|]. apply Z.ltb_ge in E2. pose proof (sum_nonneg _ Bc) as Sn. apply r_n; [exact S2|]. intros syms l3 S3 Ls Bs. specialize (Bs B0).
  assert (T : forall dc, total (new_table dc counts (syms ++ repeat 0 (256 - Z.to_nat (fold_right Z.add 0 counts))))).
  { intros dc. apply new_table_total; [exact Lc|exact Bc|exact E1|rewrite app_length, repeat_length; lia|]. apply Forall_app. split; [exact Bs|]. apply Forall_forall. intros x Hx. apply repeat_spec in Hx. subst. unfold is_byte. lia. }
  destruct (_ =? 0); (apply r_total; [apply T|]; intros t; apply IH; [lia|exact S3]).
Qed.
Lemma dqt_reads l0 : bytes l0 -> forall fuel left d l, 0 <= left < Z.of_nat fuel -> suf l l0 -> reads (dqt_loop fuel left d l) l0.
Proof.
  intros B0. induction fuel as [|fuel IH]; intros left d l Lf S; [lia|]. cbn [dqt_loop]. destruct (0 <? left) eqn:E; [|exact S]. apply Z.ltb_lt in E.
  apply r_u8; [exact S|]. intros info l1 S1 Bi. specialize (Bi B0). cbv zeta. assert (P : 0 <= Z.shiftr info 4) by (apply Z.shiftr_nonneg; lia). destruct (left <? _) eqn:E1; [exact I|]. apply Z.ltb_ge in E1. destruct (1 <? _); [exact I|].
  apply (r_bind l0 (if Z.shiftr info 4 =? 0 then rd_n 64 l1 else do (q, l) <- rd_n 128 l1 ; Ok (pairs q, l))).
  - destruct (_ =? 0); [|apply r_n; [exact S1|]; intros q l2 S2 _ _; exact S2]. unfold rd_n. destruct (_ <? _)%nat; [exact I|]. now apply suf_skip.
  - intros q l2 S2. destruct (4 <=? _)%nat; [exact I|]. apply IH; [lia|exact S2].
Qed.
Lemma sof_comps_reads l0 : forall n pos l, suf l l0 -> reads (sof_comps n pos l) l0.
Proof.
  induction n as [|n IH]; intros pos l S; cbn [sof_comps]; [exact S|]. apply r_n; [exact S|]. intros t l1 S1 _ _. apply r_total; [unfold new_fcomp; cbv zeta; repeat (destruct (_ : bool); [exact I|]); exact I|].
  intros c. apply (r_bind l0); [now apply IH|]. intros cs l2 S2. exact S2.
Qed.
Lemma sos_comps_reads l0 : forall n seen cs order l, suf l l0 -> reads (sos_comps n seen cs order l) l0.
Proof.
  induction n as [|n IH]; intros seen cs order l S; cbn [sos_comps]; [exact S|]. apply r_u8; [exact S|]. intros id l1 S1 _. destruct (existsb _ _); [exact I|]. apply r_u8; [exact S1|]. intros y l2 S2 _.
  destruct (find_comp _ _ _); [|exact I]. now apply IH.
Qed.
Lemma sos_reads l0 d l : suf l l0 -> reads (parse_sos d l) l0.
Proof.
  intros S. unfold parse_sos. apply r_u16; [exact S|]. intros ls l1 S1. apply r_u8; [exact S1|]. intros ns l2 S2 _. do 3 (destruct (_ : bool); [exact I|]). apply (r_bind l0); [now apply sos_comps_reads|].
  intros [cs order] l3 S3. apply r_u8; [exact S3|]. intros ss l4 S4 _. apply r_u8; [exact S4|]. intros se l5 S5 _. apply r_u8; [exact S5|]. intros a l6 S6 _. cbv zeta. repeat (destruct (_ : bool); [exact I|]). exact S6.
Qed.
Ltac u0 := match goal with
  | |- reads (let (_, _) := rd_u16_0 ?l in _) _ => let E := fresh in destruct (rd_u16_0 l) eqn:E; apply (u16_0_suf l _ _ _ ltac:(eassumption || (apply suf_skip; eassumption))) in E
  | |- reads (let (_, _) := rd_u8_0 ?l in _) _ => let E := fresh in destruct (rd_u8_0 l) eqn:E; apply (u8_0_suf l _ _ _ ltac:(eassumption || (apply suf_skip; eassumption))) in E
  end.
Lemma marker_reads l0 o d m l : bytes l0 -> suf l l0 -> reads (parse_marker o d m l) l0.
Proof.
  intros B0 S. unfold parse_marker.
  assert (Sof : forall prog, reads (parse_sof o prog d l) l0).
  { intros prog. unfold parse_sof. destruct (d_sof d); [exact I|]. apply r_u16; [exact S|]. intros len l1 S1. apply r_u8; [exact S1|]. intros prec l2 S2 _. destruct (negb _); [exact I|]. apply r_u16; [exact S2|]. intros h l3 S3. apply r_u16; [exact S3|].
    intros w l4 S4. do 3 (destruct (_ : bool); [exact I|]). apply r_u8; [exact S4|]. intros n l5 S5 _. do 2 (destruct (_ : bool); [exact I|]). cbv zeta. apply (r_bind l0); [now apply sof_comps_reads|]. intros cs l6 S6. exact S6. }
  destruct (_ || _); [apply Sof|]. destruct (m =? 194); [apply Sof|].
  destruct (m =? 224).
  { apply r_u16; [exact S|]. intros len l1 S1. destruct (_ <? 2); [exact I|]. destruct (5 <? len); [|now apply suf_skip]. apply r_n; [exact S1|]. intros p l2 S2 _ _. now apply suf_skip. }
  destruct (m =? 225).
  { unfold parse_app1. u0. destruct (_ <? 2); [exact I|]. cbv zeta. apply r_starts. intros [|]; [apply r_peek; intros x; now do 2 apply suf_skip|]. apply r_starts. intros [|]; [apply r_peek; intros x; now do 2 apply suf_skip|]. now apply suf_skip. }
  destruct (m =? 226).
  { unfold parse_app2. u0. destruct (_ <? 2); [exact I|]. cbv zeta. apply r_starts. intros [|]; [u0; u0; apply r_peek; intros x; now apply suf_skip|]. apply r_starts. intros [|].
    - destruct (_ =? 4)%nat; [u0; u0; assumption|]. destruct (4 <? _)%nat; [apply r_peek; intros x; now do 2 apply suf_skip|]. now do 2 apply suf_skip.
    - apply r_starts. intros [|]; [apply r_peek; intros x; now do 2 apply suf_skip|]. now apply suf_skip. }
  destruct (m =? 219).
  { unfold parse_dqt. apply r_u16; [exact S|]. intros len l1 S1. destruct (len <? 2) eqn:E; [exact I|]. apply Z.ltb_ge in E. apply dqt_reads; [exact B0|lia|exact S1]. }
  destruct (m =? 196).
  { unfold parse_dht. apply r_u16; [exact S|]. intros len l1 S1. destruct (len <? 2) eqn:E; [exact I|]. apply Z.ltb_ge in E. apply dht_reads; [exact B0|lia|exact S1]. }
  destruct (m =? 218); [now apply sos_reads|]. destruct (m =? 217); [exact I|]. destruct (_ || _); [exact I|].
  destruct (m =? 221).
  { apply r_u16; [exact S|]. intros len l1 S1. destruct (negb _); [exact I|]. apply r_u16; [exact S1|]. intros x l2 S2. exact S2. }
  destruct (m =? 238).
  { unfold parse_app14. u0. destruct (_ <? 2); [exact I|]. apply r_peek. intros p. destruct (list_eqb _ _); [|now apply suf_skip]. destruct (_ <? 14); [exact I|]. u0. cbv zeta. repeat (destruct (_ : bool); [now apply suf_skip|]). exact I. }
  destruct (m =? 237).
  { unfold parse_app13. u0. destruct (_ <? 2); [exact I|]. cbv zeta. apply r_starts. intros [|]; [apply r_peek; intros x; now do 2 apply suf_skip|]. now apply suf_skip. }
  unfold skip_segment. apply r_u16; [exact S|]. intros len l1 S1. destruct (_ <? 2); [exact I|]. now apply suf_skip.
Qed.
Lemma fill_reads l0 : forall l last m, suf l l0 -> match skip_fill last m l with Ok (_, _, l') => suf l' l0 /\ (length l' <= length l)%nat | Err _ => True | _ => False end.
Proof.
  induction l as [|b l IH]; intros last m S; cbn [skip_fill]; (destruct (_ || _); [|split; [exact S|lia]]); [exact I|]. specialize (IH m b (suf_tail _ _ _ S)). destruct (skip_fill m b l) as [[[a c] l']| | |]; try exact IH.
  destruct IH as (X & Y). split; [exact X|]. cbn [length]. lia.
Qed.
Lemma loop_reads o : forall fuel last before d l0 l, bytes l0 -> suf l l0 -> (length l < fuel)%nat -> reads (head_loop fuel o last before d l) l0.
Proof.
  induction fuel as [|fuel IH]; intros last before d l0 l B S Fu; [lia|]. cbn [head_loop]. destruct l as [|m l]; [exact I|]. cbn [rd_u8 bind length] in *. apply suf_tail in S.
  set (x := if _ && _ then skip_fill last m l else Ok (last, m, l)).
  assert (X : match x with Ok (_, _, l') => suf l' l0 /\ (length l' <= length l)%nat | Err _ => True | _ => False end).
  { unfold x. destruct (_ && _); [now apply fill_reads|]. split; [exact S|lia]. }
  destruct x as [[[last1 m1] l1]| | |]; [|exact I|destruct X|destruct X]. destruct X as (S1 & L1). cbn [bind].
  destruct (last1 =? 255); [|apply IH; [exact B|exact S1|lia]]. destruct (_ && _); [exact I|].
  pose proof (marker_reads l1 o d m1 l1 (suf_bytes _ _ S1 B) (suf_refl _)) as M. destruct (parse_marker o d m1 l1) as [[d2 l2]| | |]; [|exact I|destruct M|destruct M]. cbn [reads] in M. pose proof (suf_trans _ _ _ M S1) as S2. apply suf_length in M.
  cbn [bind]. destruct (m1 =? 218); [exact S2|]. apply IH; [exact B|exact S2|lia].
Qed.
(** Header parsing of any bytes ends with a result or an error: no panic (index out of range, overflow), no endless loop. *)
Theorem headers_total o file : bytes file -> total (decode_headers o file).
Proof.
  intros B. unfold decode_headers. destruct file as [|a [|b l]]; [exact I|exact I|]. cbn [rd_u16 bind]. destruct (negb _); [exact I|]. inversion B as [|? ? _ B1]. inversion B1 as [|? ? _ B2]. subst.
  pose proof (loop_reads o (S (length l)) 0 0 start_dec l l B2 (suf_refl _) ltac:(lia)) as R. destruct (head_loop _ _ _ _ _ _) as [[d r]| | |]; exact I || exact R.
Qed.
Lemma marker_shorter : forall fuel l m l', get_marker fuel l = (Some m, l') -> suf l' l /\ (length l' < length l)%nat.
Proof.
  assert (Sf : forall l r l', skip_ff l = Some (r, l') -> suf l' l /\ (length l' < length l)%nat).
  { induction l as [|b l IH]; intros r l' E; cbn [skip_ff] in E; [discriminate E|]. destruct (b =? 255).
    - destruct (IH _ _ E) as (X & Y). split; [eapply suf_trans; [exact X|now exists 1%nat]|cbn [length]; lia].
    - injection E as <- <-. split; [now exists 1%nat|cbn [length]; lia]. }
  induction fuel as [|fuel IH]; intros l m l' E; cbn [get_marker] in E; [discriminate E|]. destruct l as [|b l]; [discriminate E|]. destruct (b =? 255).
  - destruct (skip_ff l) as [[r l1]|] eqn:E1; [|discriminate E]. destruct (Sf _ _ _ E1) as (X & Y). assert (Z1 : suf l1 (b :: l)) by (eapply suf_trans; [exact X|now exists 1%nat]). destruct (r =? 0).
    + destruct (IH _ _ _ E) as (X2 & Y2). split; [eapply suf_trans; [exact X2|exact Z1]|cbn [length]; lia].
    + injection E as <- <-. split; [exact Z1|cbn [length]; lia].
  - destruct (IH _ _ _ E) as (X2 & Y2). split; [eapply suf_trans; [exact X2|now exists 1%nat]|cbn [length]; lia].
Qed.
Lemma next_reads o : forall fuel d m l0 l, bytes l0 -> suf l l0 -> (length l < fuel)%nat -> match next_scan fuel o d m l with Ok (Some (_, l')) => suf l' l0 | Ok None | Err _ => True | _ => False end.
Proof.
  induction fuel as [|fuel IH]; intros d m l0 l B Sl Fu; [lia|]. cbn [next_scan]. destruct (m =? 217); [exact I|]. destruct (m =? 218).
  { pose proof (sos_reads l0 d l Sl) as R. destruct (parse_sos d l) as [[d1 l1]| | |]; exact R. }
  assert (R : reads (if is_rst m then Ok (d, l) else parse_marker o d m l) l) by (destruct (is_rst m); [apply suf_refl|apply marker_reads; [exact (suf_bytes _ _ Sl B)|apply suf_refl]]).
  destruct (if is_rst m then _ else _) as [[d1 l1]| | |]; [|exact I|exact R|exact R]. cbn [reads bind] in *. destruct (get_marker (S (length l1)) l1) as [[m2|] l2] eqn:E; [|destruct (h_strict o); exact I].
  destruct (marker_shorter _ _ _ _ E) as (S2 & L2). pose proof (suf_length _ _ R) as L1. apply IH; [exact B|exact (suf_trans _ _ _ (suf_trans _ _ _ S2 R) Sl)|lia].
Qed.
Theorem next_scan_total o d m l : bytes l -> total (next_scan (S (length l)) o d m l).
Proof. intros B. pose proof (next_reads o (S (length l)) d m l l B (suf_refl _) ltac:(lia)) as R. destruct (next_scan _ _ _ _ _) as [[[d' l']|]| | |]; exact I || exact R. Qed.

(** * What is not read right *)

(** A small file: a quantisation table, a progressive frame of 8 by 8 samples, a Huffman table, the first scan *)
Definition demo_q : list Z := map Z.of_nat (seq 1 64).
Definition demo_frame : fhead := FHead true 8 8 [FPart 1 1 1 0].
Definition demo_scan : shead := SHead [(0, 0, 0)%nat] 0 0 0 1.
Definition demo_counts3 : list Z := [0; 3] ++ repeat 0 14.
Definition demo_syms : list Z := [0; 1; 2].
Definition dqt_seg : list Z := segment (0 :: demo_q).
Definition dht_seg : list Z := segment (0 :: demo_counts3 ++ demo_syms).
Definition demo_tail (rest : list Z) : list Z :=
  repeat 255 1 ++ 219 :: dqt_seg ++ repeat 255 3 ++ 194 :: sof_bytes demo_frame ++ repeat 255 1 ++ 196 :: dht_seg ++ repeat 255 1 ++ 218 :: sos_bytes demo_frame demo_scan ++ rest.
Definition demo_exif : list Z := exif_id ++ [1; 2; 3].
Definition demo_file (rest : list Z) : list Z := [255; 216] ++ repeat 255 1 ++ 225 :: segment demo_exif ++ demo_tail rest.
Definition demo_told : told := Told (put_at (fun _ => None) 0 demo_q) (put_at (fun _ => None) 0%nat (demo_counts3, demo_syms)) (fun _ => None) 0 None (Notes (Some [1; 2; 3]) None None None []).
Lemma demo_ht : ht_ok true demo_counts3 demo_syms.
Proof.
  split; [reflexivity|]. split; [apply Forall_forall; intros x H; cbn in H; unfold is_byte; repeat (destruct H as [<-|H]; [lia|]); destruct H|]. split; [reflexivity|]. split; [cbn; lia|].
  split; [apply Forall_forall; intros x H; cbn in H; unfold is_byte; repeat (destruct H as [<-|H]; [lia|]); destruct H|]. split.
  - repeat constructor.
  - intros _. repeat constructor; discriminate.
Qed.
Example demo_start rest : file_start true demo_frame demo_scan (demo_file rest) rest demo_told.
Proof.
  eexists. split; [reflexivity|]. eapply to_frame_misc.
  { apply misc_app; [right; now left| |cbv; discriminate|discriminate]. apply Forall_forall. intros x H. cbn in H. unfold is_byte. repeat (destruct H as [<-|H]; [lia|]). destruct H. }
  eapply to_frame_misc.
  { apply misc_dqt; [|cbv; discriminate]. rewrite <- (app_nil_r (0 :: demo_q)). eapply (qts_more _ 0 demo_q); [|constructor]. apply (qt_8 0 demo_q); [lia|reflexivity|]. apply Forall_forall. intros x H. unfold demo_q in H. apply in_map_iff in H. destruct H as (n & <- & H). apply in_seq in H. lia. }
  eapply to_sof; [reflexivity| |].
  { split; [cbn; lia|]. split; [cbn; lia|]. split; [cbn; lia|]. split; [repeat constructor; intros []|]. repeat constructor; cbn; lia. }
  eapply to_misc; [|discriminate|].
  { apply misc_dht; [|cbv; discriminate]. rewrite <- (app_nil_r demo_syms). eapply (hts_dc _ 0 demo_counts3 demo_syms); [lia|exact demo_ht|constructor]. }
  apply to_sos. split; [cbn; lia|]. split; [repeat constructor; intros []|]. split; [repeat constructor; lia|]. cbn. lia.
Qed.
Definition any_size (strict : bool) : hopts := HOpts 65535 65535 strict.
Definition table_found (r : res (dec * list Z)) : bool := match r with Ok (d, _) => match nth 0 (d_qt d) None with Some _ => true | None => false end | _ => false end.
(** An application segment that is not Adobe's but has marker APP14 swallows two bytes after it: with it, headers that are read
    fine without it are refused or a table is lost. *)
Theorem app14_refuted : exists data, bytes data /\ fits16 data /\ forall strict, table_found (decode_headers (any_size strict) ([255; 216] ++ demo_tail [7])) = true /\
  table_found (decode_headers (any_size strict) ([255; 216] ++ (255 :: 238 :: segment data) ++ demo_tail [7])) = false.
Proof.
  exists [1; 2; 3; 4; 5; 6; 7]. split; [repeat constructor; unfold is_byte; lia|]. split; [cbv; discriminate|]. intros [|]; (split; vm_compute; reflexivity).
Qed.
(** So does an APP0 segment with four bytes of data, by one byte. *)
Theorem app0_refuted : exists data, bytes data /\ fits16 data /\ forall strict, table_found (decode_headers (any_size strict) ([255; 216] ++ demo_tail [7])) = true /\
  table_found (decode_headers (any_size strict) ([255; 216] ++ (255 :: 224 :: segment data) ++ demo_tail [7])) = false.
Proof.
  exists [1; 2; 3; 4]. split; [repeat constructor; unfold is_byte; lia|]. split; [cbv; discriminate|]. intros [|]; (split; vm_compute; reflexivity).
Qed.
(** A grayscale file with an Adobe segment after its frame header: refused in strict mode, otherwise the samples have no meaning. *)
Definition late_adobe : list Z := segment (adobe_id ++ [0; 100; 0; 0; 0; 0] ++ [0]).
Definition late_file (rest : list Z) : list Z :=
  [255; 216] ++ repeat 255 1 ++ 219 :: dqt_seg ++ repeat 255 1 ++ 194 :: sof_bytes demo_frame ++ repeat 255 1 ++ 238 :: late_adobe ++ repeat 255 1 ++ 196 :: dht_seg ++ repeat 255 1 ++ 218 :: sos_bytes demo_frame demo_scan ++ rest.
Definition late_told : told := Told (put_at (fun _ => None) 0 demo_q) (put_at (fun _ => None) 0%nat (demo_counts3, demo_syms)) (fun _ => None) 0 (Some 0) (Notes None None None None []).
Lemma late_start rest : file_start false demo_frame demo_scan (late_file rest) rest late_told.
Proof.
  eexists. split; [reflexivity|].
  eapply to_frame_misc.
  { apply misc_dqt; [|cbv; discriminate]. rewrite <- (app_nil_r (0 :: demo_q)). eapply (qts_more _ 0 demo_q); [|constructor]. apply (qt_8 0 demo_q); [lia|reflexivity|]. apply Forall_forall. intros x H. unfold demo_q in H. apply in_map_iff in H. destruct H as (n & <- & H). apply in_seq in H. lia. }
  eapply to_sof; [reflexivity| |].
  { split; [cbn; lia|]. split; [cbn; lia|]. split; [cbn; lia|]. split; [repeat constructor; intros []|]. repeat constructor; cbn; lia. }
  eapply to_misc; [|discriminate|].
  { apply (misc_adobe _ [0; 100; 0; 0; 0; 0] 0 []); [reflexivity| |lia|cbv; discriminate]. apply Forall_forall. intros x H. cbn in H. unfold is_byte. repeat (destruct H as [<-|H]; [lia|]). destruct H. }
  eapply to_misc; [|discriminate|].
  { apply misc_dht; [|cbv; discriminate]. rewrite <- (app_nil_r demo_syms). eapply (hts_dc _ 0 demo_counts3 demo_syms); [lia|exact demo_ht|constructor]. }
  apply to_sos. split; [cbn; lia|]. split; [repeat constructor; intros []|]. split; [repeat constructor; lia|]. cbn. lia.
Qed.
Theorem colours_refuted : exists h e file rest t, file_start false h e file rest t /\ colours_of h (t_adobe t) = Some Gray /\
  forall strict, exists d, decode_headers (any_size strict) file = Ok (d, rest) /\ setup_color (any_size strict) d = if strict then Err EOther else Ok None.
Proof.
  exists demo_frame, demo_scan, (late_file [7]), [7], late_told. split; [apply late_start|]. split; [reflexivity|]. intros [|]; eexists; (split; [vm_compute; reflexivity|reflexivity]).
Qed.
Example demo_decoded : exists d, decode_headers (any_size true) (demo_file [7]) = Ok (d, [7]) /\ m_exif (d_meta d) = Some [1; 2; 3] /\ d_w d = 8 /\ setup_color (any_size true) d = Ok (Some CLuma).
Proof.
  destruct (headers_decoded_partial (any_size true) true demo_frame demo_scan (demo_file [7]) [7] demo_told (demo_start [7]) ltac:(cbn; lia) ltac:(cbn; lia)) as (d & E & (_ & _ & _ & _ & _ & _ & A & _) & (_ & _ & B & _) & _).
  destruct (colours_decoded_partial (any_size true) true demo_frame demo_scan (demo_file [7]) [7] demo_told Gray (demo_start [7]) ltac:(cbn; lia) ltac:(cbn; lia) (or_introl eq_refl) eq_refl) as (d' & E' & C).
  exists d. split; [exact E|]. split; [exact A|]. split; [exact B|]. assert (d' = d) as -> by congruence. exact C.
Qed.
Print Assumptions headers_decoded_partial.
Print Assumptions next_scan_decoded_partial.
Print Assumptions colours_decoded_partial.
Print Assumptions colours_refuted.
Print Assumptions icc_profile_partial.
Print Assumptions icc_profile_refuted.
Print Assumptions headers_total.
Print Assumptions next_scan_total.
Print Assumptions app14_refuted.
Print Assumptions app0_refuted.
