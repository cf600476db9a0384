(** Whole progressive files: headers and scans together *)
From Verif Require Import Base BaseProof Loops Slices Bits JpegIdctSpec JpegIdctModel JpegIdctProof JpegHuffModel JpegHuffSpec JpegHuffTable JpegHuffBlock JpegHuffRun JpegScanModel JpegScanSpec JpegScanProof JpegScanProps
  JpegProgModel JpegProgSpec JpegProgBits JpegProgBlock JpegProgScan JpegProgFile JpegProgPicture JpegHeadModel JpegHeadSpec JpegHeadProof JpegFileModel JpegFileSpec.

(** * Parts of files made of bytes are made of bytes *)
Lemma bytes_app_r a b : bytes (a ++ b) -> bytes b.
Proof. intros H. now apply Forall_app in H. Qed.
Lemma bytes_cons x l : bytes (x :: l) -> bytes l.
Proof. intros H. now inversion H. Qed.
Lemma scan_rest coef s interval : forall i us l m rest, scan_bytes coef s interval i us l m rest -> bytes l -> bytes rest.
Proof.
  induction 1 as [i us data fill m rest|i us us' data fill file m rest E P N Sg Sb IH]; intros B.
  - apply bytes_app_r, bytes_app_r, bytes_cons in B. exact B.
  - apply bytes_app_r, bytes_app_r, bytes_cons in B. now apply IH.
Qed.
Lemma to_scan_rest early h e : forall t l rest t', to_scan early h e t l rest t' -> bytes l -> bytes rest /\ shead_ok h e.
Proof.
  induction 1 as [t n rest Ok|t t1 t' n m l l' rest Mi Ea Ts IH]; intros B.
  - apply bytes_app_r, bytes_cons, bytes_app_r in B. now split.
  - apply bytes_app_r, bytes_cons, bytes_app_r in B. now apply IH.
Qed.
Lemma to_frame_rest early h e : forall t l rest t', to_frame early h e t l rest t' -> bytes l -> bytes rest /\ shead_ok h e /\ fhead_ok h.
Proof.
  induction 1 as [t n m l rest t' Sm Fo Ts|t t1 t' n m l l' rest Mi Ts IH]; intros B.
  - apply bytes_app_r, bytes_cons, bytes_app_r in B. destruct (to_scan_rest _ _ _ _ _ _ _ Ts B) as (X & Y). now repeat split; try exact X; try apply Y; apply Fo.
  - apply bytes_app_r, bytes_cons, bytes_app_r in B. now apply IH.
Qed.
Lemma start_rest early h e file rest t : file_start early h e file rest t -> bytes file -> bytes rest /\ shead_ok h e /\ fhead_ok h.
Proof. intros (l & -> & T) B. apply bytes_app_r in B. now apply (to_frame_rest _ _ _ _ _ _ _ T). Qed.
Lemma next_rest h e t m l rest t' : to_next h e t m l rest t' -> bytes l -> bytes rest /\ shead_ok h e.
Proof.
  intros [(_ & (r & -> & ->) & Ok & _)|(t1 & l1 & l2 & _ & -> & Ts)] B; [|apply bytes_app_r in B; now apply (to_scan_rest _ _ _ _ _ _ _ Ts)].
  apply bytes_app_r in B. now split.
Qed.

(** * The limits of the decoder: a DC table even for refinements; a restart interval that ends with a scan only if it is the last scan *)
Definition each_limit (h : fhead) (t : told) (e : shead) (s : pscan) (m : Z) : Prop :=
  (e_ss e = 0%nat -> forall k td ta, In (k, td, ta) (e_order e) -> t_dc t td <> None) /\ restarts_fine (frame_of h) s (Z.to_nat (t_dri t)) m.
(** and the first scan has no symbol that takes more than 24 bits with its additional bits *)
Definition first_limit (t : told) (e : shead) (s : pscan) (m : Z) : Prop := short s.

Lemma head_ok h d t e s : as_told d t -> as_scan d e -> shead_ok h e -> scan_as t e s -> (e_ss e = 0%nat -> forall k td ta, In (k, td, ta) (e_order e) -> t_dc t td <> None) ->
  head_for s (Z.to_nat (t_dri t)) (head_of d).
Proof.
  intros (_ & _ & _ & Tb & Dr & Db & _) (Es & Fs) (_ & _ & Fe & _) (S1 & S2 & S3 & S4 & S5 & St) Td. unfold head_of. rewrite Es. cbn [o_order o_ss o_se o_ah o_al].
  split; [cbn [order]; congruence|]. split; [cbn [ss]; rewrite Nat2Z.id; congruence|]. split; [cbn [se]; rewrite Nat2Z.id; congruence|]. split; [cbn [ah]; congruence|]. split; [cbn [al]; congruence|].
  split; [cbn [dri]; rewrite Z2Nat.id by lia; exact Dr|]. split; [rewrite Z2Nat.id by lia; change (2 ^ 16) with 65536; lia|].
  intros k Ik. rewrite S1 in Ik. apply in_map_iff in Ik. destruct Ik as (((k', td), ta) & Ek & Ik). cbn in Ek. subst k'.
  rewrite Forall_forall in Fs, Fe. destruct (Fs _ Ik) as (c & C1 & C2 & C3). destruct (Fe _ Ik) as (K1 & K2 & K3). specialize (St k td ta Ik). rewrite S2. cbn [dctab actab].
  rewrite !nth_error_map, C1. cbn [option_map]. destruct (Tb td K2) as (_ & T1 & _). destruct (Tb ta K3) as (_ & _ & T2).
  destruct (e_ss e =? 0)%nat eqn:E0.
  - apply Nat.eqb_eq in E0. specialize (Td E0 k td ta Ik). assert (Ei : (if match map (fun x => fst (fst x)) (e_order e) with [_] => true | _ => false end then c_dc c mod 4 else c_dc c)%nat = td).
    { rewrite C2. destruct (match map _ _ with [_] => true | _ => false end); [now apply Nat.mod_small|reflexivity]. }
    rewrite Ei. unfold table_as in T1. destruct (t_dc t td) as [(cn, sy)|] eqn:Et; [|congruence]. destruct T1 as (Ho & tb & -> & Nt). exists tb. split; [reflexivity|]. intros A0. rewrite S4 in A0. destruct (St A0) as (syms & Q1 & Q2).
    injection Q1 as -> ->. rewrite Q2. split; [now apply (ht_table true)|exact Nt].
  - rewrite C3. destruct St as (syms & Q1 & Q2). unfold table_as in T2. rewrite Q1 in T2. destruct T2 as (Ho & tb & -> & Nt). exists tb. split; [reflexivity|]. rewrite Q2. split; [now apply (ht_table false)|exact Nt].
Qed.

Lemma follow_file o coef h : fhead_ok h -> forall c t p m l p', later_scans (each_limit h) h coef c t p m l p' -> bytes l -> forall d, as_told d t -> as_frame d h ->
  scans_follow coef (frame_of h) dec (prog_headers o) c d p m l p'.
Proof.
  intros Fo. induction 1 as [t p rest|c t t1 p p1 p2 m l e data s m' rest Tn (Sa & It & Le & Sb & Td & Rf) Ls IH]; intros B d At Af; [constructor|].
  destruct (next_rest _ _ _ _ _ _ _ Tn B) as (Bd & So). destruct (next_ok o h e t m l data t1 d Fo Tn At Af) as (N217 & d' & E & At' & Af' & As').
  apply (one_more coef (frame_of h) dec (prog_headers o) c d d' p p1 p2 m l (head_of d') data s (Z.to_nat (t_dri t1)) m' rest); try assumption.
  - unfold prog_headers. rewrite E. reflexivity.
  - now apply (head_ok h d' t1 e s).
  - apply IH; [now apply (scan_rest _ _ _ _ _ _ _ _ Sb)|exact At'|exact Af'].
Qed.

(** * The frame *)
Definition plain (h : fhead) : Prop :=
  match h_parts h with
  | [] | [_] => True
  | p :: _ => (i_hs p, i_vs p) = (hmax (frame_of h), vmax (frame_of h)) /\ plain_layout (frame_of h)
  end.
Lemma rows_unique q n n' : by_rows q n -> natural q n' -> n = n'.
Proof.
  intros (L1 & E1) (_ & L2 & E2). apply (list_eq_nth 0); [congruence|]. rewrite L1. intros i Hi. destruct (unz_ok i Hi) as (U1 & U2). rewrite <- U2, E1, E2 by exact U1. reflexivity.
Qed.
Lemma setup_all width hm vm : forall l, Forall (fun x => fst (fst x) <= hm /\ snd (fst x) <= vm)%nat l ->
  setup_components width hm vm l = (hm, vm, map (fun x => Geo (fst (fst x)) (snd (fst x)) (fst (fst x) * (div_ceil width (hm * 8) * 8)) (snd x)) l).
Proof.
  induction l as [|((hs, vs), q) l IH]; intros F; [reflexivity|]. inversion F as [|x y (F1 & F2) F3]. subst x y. cbn [fst snd] in F1, F2. cbn [setup_components map fst snd].
  rewrite !Nat.max_l by assumption. now rewrite (IH F3).
Qed.
Lemma quantisers_ok d t qs : as_told d t -> forall cs k0, Forall (fun c => c_tq c < 4)%nat cs -> (forall k c, nth_error cs k = Some c -> exists q, t_q t (c_tq c) = Some q /\ by_rows q (qs (k0 + k)%nat)) ->
  quantisers d cs = Ok (map (fun '(k, c) => (c_hs c, c_vs c, qs (k0 + k)%nat)) (combine (seq 0 (length cs)) cs)).
Proof.
  intros (_ & _ & _ & Tb & _). induction cs as [|c cs IH]; intros k0 F Q; [reflexivity|]. inversion F as [|x y F1 F2]. subst x y. cbn [quantisers length seq combine map].
  destruct (Q 0%nat c eq_refl) as (q & Q1 & Q2). destruct (Tb (c_tq c) F1) as (T1 & _). unfold q_as in T1. rewrite Q1 in T1. destruct T1 as (n & -> & Nq & _).
  rewrite (IH (S k0) F2). 2: { intros k c' E. rewrite Nat.add_succ_comm. now apply Q. }
  cbn [bind]. rewrite (rows_unique _ _ _ Q2 Nq). do 2 f_equal.
  clear. set (n := length cs). clearbody n. generalize 0%nat. revert n. induction cs as [|c cs IH]; intros [|n] a; try reflexivity. cbn [seq combine map]. rewrite IH. now rewrite Nat.add_succ_comm.
Qed.
Lemma frame_of_ok h : fhead_ok h -> frame_ok (frame_of h) /\ Z.of_nat (f_x (frame_of h)) < 2 ^ 16 /\ Z.of_nat (f_y (frame_of h)) < 2 ^ 16 /\ length (f_samp (frame_of h)) = length (h_parts h).
Proof.
  intros (X & Y & _ & _ & F). unfold frame_of, frame_ok. cbn [f_x f_y f_samp]. split; [split; [lia|split; [lia|]]|].
  - destruct (h_parts h) as [|p [|p' l]]; [constructor|repeat constructor|]. apply Forall_forall. intros x Hx. apply in_map_iff in Hx. destruct Hx as (y & <- & Hy). rewrite Forall_forall in F. destruct (F y Hy) as (_ & Hs & Vs & _). cbn [fst snd].
    destruct Hs as [<-|[<-|[<-|[]]]]; lia.
  - change (2 ^ 16) with 65536. split; [lia|]. split; [lia|]. destruct (h_parts h) as [|p [|p' l]]; [reflexivity|reflexivity|]. now rewrite map_length.
Qed.
Lemma hs_of_head h k p : (1 < length (h_parts h))%nat -> nth_error (h_parts h) k = Some p -> hs_of (frame_of h) k = i_hs p /\ vs_of (frame_of h) k = i_vs p.
Proof.
  intros L E. unfold hs_of, vs_of, frame_of. cbn [f_samp]. destruct (h_parts h) as [|p0 [|p1 l]]; cbn [length] in L; [lia|lia|].
  rewrite (nth_error_nth (map (fun p => (i_hs p, i_vs p)) (p0 :: p1 :: l)) k (1, 1)%nat (x := (i_hs p, i_vs p))); [now split|]. now rewrite nth_error_map, E.
Qed.
Lemma combine_seq {A} (l : list A) : forall a k x, nth_error l k = Some x -> nth_error (combine (seq a (length l)) l) k = Some ((a + k)%nat, x).
Proof. induction l as [|y l IH]; intros a [|k] x E; try discriminate E; cbn [length seq combine nth_error] in *; [injection E as ->; now rewrite Nat.add_0_r|]. rewrite (IH (S a) k x E). now rewrite Nat.add_succ_comm. Qed.
Lemma combine_seq_length {A} (l : list A) a : length (combine (seq a (length l)) l) = length l.
Proof. now rewrite combine_length, seq_length, Nat.min_id. Qed.
Lemma setup_ok d t h qs : fhead_ok h -> plain h -> as_told d t -> as_frame d h -> quantisers_of h t qs ->
  exists fr, setup_frame d = Ok fr /\ frame_for fr (frame_of h) /\ plain_layout (frame_of h) /\ (forall k g, nth_error (geos fr) k = Some g -> gqt g = qs k /\ length (gqt g) = 64%nat).
Proof.
  intros Fo Pl At (_ & _ & Ew & Eh & Ec) Qs. pose proof Fo as (X & Y & Ln & _ & Fp).
  assert (Lc : length (d_comps d) = length (h_parts h)) by (rewrite <- Ec; now rewrite map_length).
  assert (Cp : forall k c, nth_error (d_comps d) k = Some c -> nth_error (h_parts h) k = Some (FPart (c_id c) (c_hs c) (c_vs c) (c_tq c))) by (intros k c E; rewrite <- Ec, nth_error_map, E; reflexivity).
  assert (Qa : forall k c, nth_error (d_comps d) k = Some c -> exists q, t_q t (c_tq c) = Some q /\ by_rows q (qs k)) by (intros k c E; apply (Qs k _ (Cp k c E))).
  assert (Q := quantisers_ok d t qs At (d_comps d) 0%nat).
  unfold setup_frame. rewrite Q; [|apply Forall_forall; intros c Hc; apply In_nth_error in Hc; destruct Hc as (k & Hk); apply Cp in Hk; apply nth_error_In in Hk; rewrite Forall_forall in Fp; apply Fp in Hk; destruct Hk as (_ & _ & _ & Hk); exact Hk|exact Qa].
  clear Q. cbn [bind Nat.add]. rewrite Ew, Eh. set (l := map (fun '(k, c) => (c_hs c, c_vs c, qs k)) (combine (seq 0 (length (d_comps d))) (d_comps d))).
  assert (Ll : length l = length (h_parts h)) by (unfold l; rewrite map_length, combine_seq_length; exact Lc).
  assert (El : forall k x, nth_error l k = Some x -> exists p, nth_error (h_parts h) k = Some p /\ x = (i_hs p, i_vs p, qs k) /\ length (qs k) = 64%nat).
  { intros k x E. unfold l in E. rewrite nth_error_map in E. destruct (nth_error (d_comps d) k) as [c|] eqn:Ek.
    - rewrite (combine_seq _ 0 k c Ek) in E. cbn [option_map Nat.add] in E. injection E as <-. eexists. split; [apply (Cp k c Ek)|]. split; [reflexivity|]. destruct (Qa k c Ek) as (q & _ & Lq & _). exact Lq.
    - apply nth_error_None in Ek. rewrite (proj2 (nth_error_None (combine _ _) k)) in E by (rewrite combine_seq_length; exact Ek). discriminate E. }
  eexists. split; [reflexivity|]. unfold plain in Pl. destruct (h_parts h) as [|p0 [|p1 ps]] eqn:Ep; [cbn in Ln; lia| |].
  - destruct l as [|x [|y l']] eqn:Edl; cbn [length] in Ll; [lia| |lia]. destruct (El 0%nat x eq_refl) as (p & P1 & -> & P2). injection P1 as <-.
    assert (Fr : setup (Z.to_nat (h_x h)) (Z.to_nat (h_y h)) [(i_hs p0, i_vs p0, qs 0%nat)] = Frame false (div_ceil (Z.to_nat (h_x h)) (Nat.max 1 (i_hs p0) * 8)) (div_ceil (Z.to_nat (h_y h)) (Nat.max 1 (i_vs p0) * 8))
      (div_ceil (Z.to_nat (h_x h)) 8) (div_ceil (Z.to_nat (h_y h)) 8) [Geo 1 1 (div_ceil (Z.to_nat (h_x h)) 8 * 8) (qs 0%nat)]) by reflexivity.
    rewrite Fr. split; [|split].
    + unfold frame_for, frame_of. rewrite Ep. cbn [bw bh inter f_x f_y f_samp geos length]. split; [reflexivity|]. split; [reflexivity|]. split; [reflexivity|]. split; [intros [H|H]; [discriminate H|lia]|]. split; [reflexivity|].
      intros [|k] g E; [|destruct k; discriminate E]. injection E as <-. cbn [ghs gvs gstride]. split; [reflexivity|]. split; [reflexivity|].
      unfold across, mcus_x, hmax, hs_of. cbn [f_samp map fold_right fst snd nth f_x]. change (Nat.max 1 1) with 1%nat. change (8 * 1)%nat with 8%nat. rewrite Nat.mul_1_r. apply Nat.mul_comm.
    + unfold plain_layout, frame_of. rewrite Ep. cbn [f_samp]. constructor; [now left|constructor].
    + intros [|k] g E; [|destruct k; discriminate E]. injection E as <-. cbn [gqt]. now split.
  - destruct Pl as (P0 & Pl). assert (L2 : (1 < length (h_parts h))%nat) by (rewrite Ep; cbn; lia).
    assert (Mx : forall k p, nth_error (h_parts h) k = Some p -> (i_hs p <= hmax (frame_of h))%nat /\ (i_vs p <= vmax (frame_of h))%nat).
    { intros k p E. assert (I : In (i_hs p, i_vs p) (f_samp (frame_of h))).
      { unfold frame_of. cbn [f_samp]. apply nth_error_In in E. rewrite Ep in *. now apply (in_map (fun p => (i_hs p, i_vs p))) in E. }
      split; unfold hmax, vmax; apply max_in; [now apply (in_map fst) in I|now apply (in_map snd) in I]. }
    set (H := hmax (frame_of h)) in *. set (V := vmax (frame_of h)) in *. assert (H1 : (0 < H)%nat) by apply hmax_pos. assert (V1 : (0 < V)%nat) by apply vmax_pos. injection P0 as P0 P0'.
    assert (Gs : setup_components (Z.to_nat (h_x h)) 1 1 l = (H, V, map (fun x => Geo (fst (fst x)) (snd (fst x)) (fst (fst x) * (div_ceil (Z.to_nat (h_x h)) (H * 8) * 8)) (snd x)) l)).
    { destruct l as [|x l'] eqn:Edl; [discriminate Ll|]. destruct (El 0%nat x eq_refl) as (p & Q1 & -> & _). rewrite <- Ep in Q1. pose proof Q1 as Q1'. rewrite Ep in Q1'. injection Q1' as <-. cbn [setup_components map fst snd]. rewrite P0, P0'.
      rewrite !Nat.max_r by assumption. rewrite setup_all; [reflexivity|]. apply Forall_forall. intros x Hx. apply In_nth_error in Hx. destruct Hx as (k & Hk). destruct (El (S k) x Hk) as (p & Q & -> & _). cbn [fst snd]. rewrite <- Ep in Q. now apply (Mx (S k)). }
    assert (Fr : setup (Z.to_nat (h_x h)) (Z.to_nat (h_y h)) l = Frame (negb (H =? 1)%nat || negb (V =? 1)%nat) (div_ceil (Z.to_nat (h_x h)) (H * 8)) (div_ceil (Z.to_nat (h_y h)) (V * 8))
      (div_ceil (Z.to_nat (h_x h)) 8) (div_ceil (Z.to_nat (h_y h)) 8) (map (fun x => Geo (fst (fst x)) (snd (fst x)) (fst (fst x) * (div_ceil (Z.to_nat (h_x h)) (H * 8) * 8)) (snd x)) l)).
    { unfold setup. rewrite Gs. clear -Ll. destruct l as [|((a, b), q) [|x' l']]; [discriminate Ll|discriminate Ll|reflexivity]. }
    assert (Sw : ceil_div (f_x (frame_of h)) (8 * H) = div_ceil (Z.to_nat (h_x h)) (H * 8)) by (unfold ceil_div, div_ceil, frame_of; cbn [f_x]; now rewrite (Nat.mul_comm 8 H)).
    assert (Sh : ceil_div (f_y (frame_of h)) (8 * V) = div_ceil (Z.to_nat (h_y h)) (V * 8)) by (unfold ceil_div, div_ceil, frame_of; cbn [f_y]; now rewrite (Nat.mul_comm 8 V)).
    assert (Lf : length (f_samp (frame_of h)) = length l) by (rewrite Ll, <- Ep; apply (frame_of_ok h Fo)).
    rewrite Fr. split; [|split; [exact Pl|]].
    + unfold frame_for. cbn [bw bh inter mx my geos]. fold H V. split; [reflexivity|]. split; [reflexivity|]. split; [reflexivity|]. split; [intros _; unfold mcus_x, mcus_y; fold H V; split; congruence|].
      split; [now rewrite map_length|]. intros k g E. rewrite nth_error_map in E. destruct (nth_error l k) as [x|] eqn:Ex; [|discriminate E]. cbn [option_map] in E. injection E as <-. destruct (El k x Ex) as (p & Q & -> & _). rewrite <- Ep in Q.
      cbn [fst snd ghs gvs gstride]. destruct (hs_of_head h k p L2 Q) as (E1 & E2). split; [now rewrite E1|]. split; [now rewrite E2|]. unfold across, mcus_x. fold H. rewrite Sw, E1. set (w := div_ceil _ _). clearbody w. lia.
    + intros k g E. cbn [geos] in E. rewrite nth_error_map in E. destruct (nth_error l k) as [x|] eqn:Ex; [|discriminate E]. cbn [option_map] in E. injection E as <-. destruct (El k x Ex) as (p & Q & -> & L64). cbn [gqt snd]. now split.
Qed.

(** * Coefficients of a whole file *)
Lemma prog_file_ok debug o max_scans h coef c file t p d data : fhead_ok h -> plain h -> bytes file ->
  (forall k b, (k < length (h_parts h))%nat -> (b < nblocks (frame_of h) k)%nat -> length (coef k b) = 64%nat /\ Forall small (coef k b)) -> (1 + c <= max_scans)%nat ->
  forall fr, frame_for fr (frame_of h) -> plain_layout (frame_of h) -> progressive_file first_limit (each_limit h) h coef c file t p -> h_x h <= max_w o -> h_y h <= max_h o ->
  decode_headers o file = Ok (d, data) -> exists bufs, prog_coefficients debug o max_scans d fr data = Ok bufs /\ bufs_ok coef (length (f_samp (frame_of h))) (nblocks (frame_of h)) p bufs.
Proof.
  intros Fo Pl B Co Mx fr Ff Fp (Pr & e & s & data' & m & rest & p1 & Fs & (Sa & It & Le & Sb & Td & Rf) & Sh & Ls) W H E.
  destruct (start_ok o true h e file data' t Fs W H) as (d' & E' & At & Af & As & _). rewrite E' in E. injection E as -> ->.
  destruct (start_rest _ _ _ _ _ _ Fs B) as (Bd & So & _). destruct (frame_of_ok h Fo) as (Fk & Fx & Fy & Lf).
  unfold prog_coefficients. apply (file_ok debug (h_strict o) coef (frame_of h) fr Fk Ff Fp Fx Fy) with (c := c) (p1 := p1) (s := s) (interval := Z.to_nat (t_dri t)) (m := m) (rest := rest); try assumption.
  - intros k b Hk. apply Co. now rewrite <- Lf.
  - now apply (head_ok h d t e s).
  - apply (follow_file o coef h Fo c t p1 m rest p Ls); [now apply (scan_rest _ _ _ _ _ _ _ _ Sb)|exact At|exact Af].
  - lia.
Qed.
