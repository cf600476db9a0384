(** Any bytes at all through the BMP decoder: no panic. *)
From Verif Require Import Base BaseProof Loops Slices BmpModel BmpSpec BmpProof BmpProps BmpFileModel BmpFileSpec BmpFileProof.

Definition safe {A} (r : res A) (P : A -> Prop) : Prop := match r with Ok x => P x | Err _ => True | _ => False end.
Lemma safe_bind {A B} (r : res A) (f : A -> res B) P Q : safe r P -> (forall x, P x -> safe (f x) Q) -> safe (bind r f) Q.
Proof. destruct r; cbn; auto. Qed.
Lemma safe_impl {A} (r : res A) (P Q : A -> Prop) : safe r P -> (forall x, P x -> Q x) -> safe r Q.
Proof. destruct r; cbn; auto. Qed.

(** * Headers *)
Lemma rd_le_safe k l : bytes l -> safe (rd_le k l) (fun x => 0 <= fst x < 256 ^ Z.of_nat k /\ bytes (snd x)).
Proof.
  intros H. unfold rd_le. destruct (length l <? k)%nat eqn:E; [exact I|]. cbn [safe fst snd]. split; [|now apply bytes_skip].
  assert (B : bytes (firstn k l)) by now apply bytes_first. pose proof (le_val_bound _ B) as V. rewrite firstn_length_le in V by lia. exact V.
Qed.
Lemma rd_many_safe n : forall l, bytes l -> safe (rd_many n l) (fun x => length (fst x) = n /\ Forall is_u32 (fst x) /\ bytes (snd x)).
Proof.
  induction n as [|n IH]; intros l H; cbn [rd_many]; [cbn; auto|]. eapply safe_bind; [now apply rd_le_safe|]. intros [v l1] [V B]. cbn [fst snd] in *.
  eapply safe_bind; [now apply IH|]. intros [vs l2] (L & F & B2). cbn [fst snd safe length] in *. split; [now rewrite L|]. split; [|exact B2]. constructor; [|exact F]. unfold is_u32. change (256 ^ Z.of_nat 4) with (2 ^ 32) in V. lia.
Qed.
Lemma comp_of_safe n : safe (comp_of n) (fun _ => True).
Proof. unfold comp_of. repeat (match goal with |- context [if ?b then _ else _] => destruct b end); exact I. Qed.

Definition good_fields (i : fields) : Prop := 0 <= f_w i < 2 ^ 32 /\ 0 <= f_h i < 2 ^ 32 /\ length (f_masks i) = 4%nat /\ Forall is_u32 (f_masks i).
Lemma zeros4 : length [0; 0; 0; 0] = 4%nat /\ Forall is_u32 [0; 0; 0; 0].
Proof. split; [reflexivity|]. repeat apply Forall_cons; try apply Forall_nil; unfold is_u32; lia. Qed.
Lemma info_safe f hsize isz l : bytes l -> safe (info_header f hsize isz l) good_fields.
Proof.
  intros Hl. unfold info_header. destruct (isz =? 12).
  - eapply safe_bind; [now apply rd_le_safe|]. intros [w l1] [W B1]. cbn [fst snd] in *. eapply safe_bind; [now apply rd_le_safe|]. intros [h l2] [H2 B2]. cbn [fst snd] in *.
    eapply safe_bind; [now apply rd_le_safe|]. intros [z l3] [_ B3]. cbn [fst snd] in *. eapply safe_bind; [now apply rd_le_safe|]. intros [bpp l4] [_ B4].
    cbn [safe]. unfold good_fields. cbn [f_w f_h f_masks]. change (256 ^ Z.of_nat 2) with 65536 in *. split; [lia|]. split; [lia|apply zeros4].
  - destruct (_ || _); [|exact I].
    eapply safe_bind; [now apply rd_le_safe|]. intros [w l1] [W B1]. cbn [fst snd] in *. eapply safe_bind; [now apply rd_le_safe|]. intros [h l2] [H2 B2]. cbn [fst snd] in *.
    eapply safe_bind; [now apply rd_le_safe|]. intros [z l3] [_ B3]. cbn [fst snd] in *. eapply safe_bind; [now apply rd_le_safe|]. intros [bpp l4] [_ B4]. cbn [fst snd] in *. change (256 ^ Z.of_nat 4) with (2 ^ 32) in *.
    apply safe_bind with (P := fun x => bytes (snd x)).
    { destruct (40 <=? hsize); [|exact B4]. eapply safe_bind; [now apply rd_le_safe|]. intros [n l5] [_ B5]. eapply safe_bind; [apply comp_of_safe|]. intros c _. exact B5. }
    intros [c l5] B5. cbn [snd] in B5. destruct (isz <=? 16); [unfold good_fields; cbn [safe f_w f_h f_masks]; split; [lia|]; split; [lia|apply zeros4]|].
    eapply safe_bind; [now apply rd_many_safe|]. intros [u l6] (_ & _ & B6). cbn [fst snd] in *. eapply safe_bind; [now apply rd_many_safe|]. intros [ms l7] (L7 & F7 & B7). cbn [fst snd] in *.
    assert (G : forall m, 0 <= m < 2 ^ 32 -> length (ms ++ [m]) = 4%nat /\ Forall is_u32 (ms ++ [m])).
    { intros m Hm. rewrite app_length, L7. split; [reflexivity|]. apply Forall_app. split; [exact F7|]. constructor; [exact Hm|constructor]. }
    destruct (isz <=? 40); [unfold good_fields; cbn [safe f_w f_h f_masks]; split; [lia|]; split; [lia|apply G; lia]|].
    eapply safe_bind; [now apply rd_le_safe|]. intros [ma l8] [M8 B8]. cbn [fst snd] in *. change (256 ^ Z.of_nat 4) with (2 ^ 32) in *. eapply safe_bind; [now apply rd_le_safe|]. intros [cs l9] [_ B9]. cbn [fst snd] in *.
    eapply safe_bind; [now apply rd_many_safe|]. intros [pr l10] (_ & _ & B10). cbn [fst snd] in *. cbv zeta.
    destruct (isz <=? 108); [unfold good_fields; cbn [safe f_w f_h f_masks]; split; [lia|]; split; [lia|now apply G]|].
    eapply safe_bind; [apply rd_le_safe; now apply bytes_skip|]. intros [a l11] [_ B11]. cbn [fst snd] in *. eapply safe_bind; [now apply rd_le_safe|]. intros [b l12] [_ B12]. cbn [fst snd] in *. eapply safe_bind; [now apply rd_le_safe|]. intros [e l13] [_ B13].
    unfold good_fields; cbn [safe f_w f_h f_masks]; split; [lia|]; split; [lia|now apply G].
Qed.

Definition pal_bytes (p : Z * Z * Z) : Prop := let '(r, g, b) := p in is_byte r /\ is_byte g /\ is_byte b.
Lemma zero3 : pal_bytes (0, 0, 0).
Proof. unfold pal_bytes, is_byte. lia. Qed.
Lemma getz_byte l i : bytes l -> is_byte (getz l i).
Proof. intros H. unfold getz. destruct (Nat.lt_ge_cases i (length l)) as [C|C]; [|rewrite nth_overflow by lia; unfold is_byte; lia]. unfold bytes in H. rewrite Forall_forall in H. now apply H, nth_In. Qed.
Lemma read_palette_bytes n k : forall l, bytes l -> Forall pal_bytes (read_palette n k l).
Proof.
  induction n as [|n IH]; intros l H; cbn [read_palette]; [constructor|]. destruct (length l <? k)%nat; constructor; try (now apply IH); try apply zero3; [|now apply IH, bytes_skip].
  unfold pal_bytes. split; [now apply getz_byte|]. split; now apply getz_byte.
Qed.
Lemma Forall_take {A} (P : A -> Prop) n l : Forall P l -> Forall P (firstn n l).
Proof. intros H. rewrite <- (firstn_skipn n l) in H. now apply Forall_app in H. Qed.
Lemma resize_Forall {A} (P : A -> Prop) l n x : P x -> Forall P l -> Forall P (resize l n x).
Proof. intros Px Pl. unfold resize. apply Forall_app. split; [now apply Forall_take|]. apply Forall_forall. intros y Hy. now apply repeat_spec in Hy as ->. Qed.
Lemma palette_safe o f isz bpp : bytes f -> safe (palette o f isz bpp) (fun p => length p = 256%nat /\ Forall pal_bytes p).
Proof.
  intros Hf. unfold palette. cbv zeta. eapply safe_bind with (P := fun _ => True).
  { destruct (36 <=? isz); [|exact I]. eapply safe_bind; [apply rd_le_safe; now apply bytes_skip|]. intros [t l] _. destruct (_ || _); [|exact I]. now destruct (bo_strict o). }
  intros c _. destruct (isz =? 12); [destruct (_ <? _); [exact I|]|]; cbn [safe]; (split; [apply resize_length|apply resize_Forall; [apply zero3|now apply read_palette_bytes, bytes_skip]]).
Qed.

Record good_hdr (o : bopts) (hd : bhdr) : Prop := GoodHdr {
  gh_w : 0 < Z.of_nat (b_w hd) <= bo_max_w o; gh_h : 0 < Z.of_nat (b_h hd) <= bo_max_h o; gh_h31 : Z.of_nat (b_h hd) <= 2 ^ 31;
  gh_masks : length (b_masks hd) = 4%nat /\ Forall is_u32 (b_masks hd);
  gh_pal : b_fmt hd = FPal -> length (b_pal hd) = 256%nat /\ Forall pal_bytes (b_pal hd) /\ In (b_depth hd) [1; 2; 4; 8];
  gh_depth : In (b_depth hd, b_fmt hd) [(1, FPal); (2, FPal); (4, FPal); (8, FPal); (8, FGray); (16, FRgb); (16, FRgba); (24, FRgb); (32, FRgba)] }.
Lemma as_i32_abs v : 0 <= v < 2 ^ 32 -> Z.abs (as_i32 v) <= 2 ^ 31.
Proof. intros H. unfold as_i32. rewrite Z.mod_small by lia. destruct (_ <? _) eqn:E; lia. Qed.
Lemma format_depth hs isz bpp c : safe (pixel_format hs isz bpp c) (fun fm => In (bpp, fm) [(1, FPal); (2, FPal); (4, FPal); (8, FPal); (8, FGray); (16, FRgb); (16, FRgba); (24, FRgb); (32, FRgba)]).
Proof.
  unfold pixel_format. cbv zeta. set (g := 0 <? _). clearbody g.
  destruct (bpp =? 32) eqn:E32; [apply Z.eqb_eq in E32 as ->; cbn; tauto|]. destruct (bpp =? 24) eqn:E24; [apply Z.eqb_eq in E24 as ->; cbn; tauto|].
  destruct (bpp =? 16) eqn:E16; [apply Z.eqb_eq in E16 as ->; destruct c; cbn; tauto|]. destruct (bpp =? 8) eqn:E8; [apply Z.eqb_eq in E8 as ->; destruct g; cbn; tauto|].
  destruct ((bpp =? 1) || (bpp =? 2) || (bpp =? 4)) eqn:Es; [|exact I]. destruct g; [|exact I]. assert (H : bpp = 1 \/ bpp = 2 \/ bpp = 4) by lia. destruct H as [-> | [-> | ->]]; cbn; tauto.
Qed.

Lemma headers_safe o f : bytes f -> safe (decode_headers o f) (fun x => good_hdr o (fst x) /\ bytes (snd x) /\ (length (snd x) <= length f)%nat).
Proof.
  intros Hf. unfold decode_headers. eapply safe_bind; [now apply rd_le_safe|]. intros [b l1] [_ B1]. cbn [fst snd] in *. destruct (negb _); [exact I|].
  eapply safe_bind; [now apply rd_le_safe|]. intros [m l2] [_ B2]. cbn [fst snd] in *. destruct (negb _); [exact I|]. cbv zeta.
  eapply safe_bind; [apply rd_le_safe; now apply bytes_skip|]. intros [hs l3] [_ B3]. cbn [fst snd] in *. eapply safe_bind; [now apply rd_le_safe|]. intros [isz l4] [_ B4]. cbn [fst snd] in *.
  destruct (_ <? _); [exact I|]. eapply safe_bind; [now apply info_safe|]. intros i (Gw & Gh & Gm & Gu). pose proof (as_i32_abs _ Gh) as A.
  destruct (bo_max_h o <? _) eqn:Mh; [exact I|]. destruct (bo_max_w o <? _) eqn:Mw; [exact I|]. destruct ((_ =? 0) || _) eqn:Z0; [exact I|]. destruct (f_bpp i =? 0); [exact I|].
  eapply safe_bind; [apply format_depth|]. intros fm D. eapply safe_bind with (P := fun p => fm = FPal -> length p = 256%nat /\ Forall pal_bytes p).
  { destruct fm; try (cbn; discriminate). eapply safe_impl; [now apply palette_safe|]. auto. }
  intros pal P. cbn [safe fst snd]. split; [|split; [now apply bytes_skip|rewrite skipn_length; lia]].
  constructor; cbn [b_w b_h b_masks b_fmt b_pal b_depth]; try (rewrite Z2Nat.id by lia); try lia; [easy| |exact D].
  intros E. destruct (P E) as [P1 P2]. split; [exact P1|]. split; [exact P2|]. subst fm. cbn [In] in D |- *. decompose [or] D; clear D; try contradiction; match goal with H : (_, _) = _ |- _ => inversion H end; auto.
Qed.

(** * Rows *)
Definition good_rows (n len : nat) (rows : list (list Z)) : Prop := length rows = n /\ Forall (fun r => length r = len) rows /\ Forall bytes rows.
Lemma rows_by_safe row len n : (forall l, bytes l -> safe (row l) (fun x => length (fst x) = len /\ bytes (fst x) /\ bytes (snd x))) -> forall l, bytes l -> safe (rows_by row n l) (good_rows n len).
Proof.
  intros R. induction n as [|n IH]; intros l Hl; cbn [rows_by]; [cbn; unfold good_rows; auto|]. eapply safe_bind; [now apply R|]. intros [r l1] (L & B & B1). cbn [fst snd] in *.
  eapply safe_bind; [now apply IH|]. intros rs (L2 & F2 & F3). cbn [safe]. unfold good_rows. cbn [length]. split; [now rewrite L2|]. split; now constructor.
Qed.
Lemma pixels_by_safe px k nc : (forall b, length b = k -> bytes b -> exists p, px b = Ok p /\ length p = nc /\ bytes p) -> forall n l, bytes l ->
  exists ps r, pixels_by px k n l = Ok (ps, r) /\ length ps = (n * nc)%nat /\ bytes ps /\ bytes r.
Proof.
  intros P. induction n as [|n IH]; intros l Hl; cbn [pixels_by].
  - exists [], l. split; [reflexivity|]. split; [reflexivity|]. split; [constructor|exact Hl].
  - assert (Q : exists b r, rd_zero k l = (b, r) /\ length b = k /\ bytes b /\ bytes r).
    { unfold rd_zero. destruct (length l <? k)%nat eqn:E.
      - eexists _, _. split; [reflexivity|]. split; [rewrite app_length, repeat_length; lia|]. split; [|exact Hl]. apply bytes_app. split; [exact Hl|]. apply Forall_forall. intros x Hx. apply repeat_spec in Hx as ->. unfold is_byte. lia.
      - eexists _, _. split; [reflexivity|]. split; [rewrite firstn_length; lia|]. split; [now apply bytes_first|now apply bytes_skip]. }
    destruct Q as (b & r & -> & Lb & Bb & Br). destruct (P b Lb Bb) as (p & -> & Lp & Bp). cbn [bind]. destruct (IH r Br) as (ps & r' & -> & Lps & Bps & Br'). cbn [bind].
    exists (p ++ ps), r'. split; [reflexivity|]. split; [rewrite app_length, Lp, Lps; cbn; lia|]. split; [apply bytes_app; auto|exact Br'].
Qed.
Lemma conv_safe alpha ms v : length ms = 4%nat -> Forall is_u32 ms -> is_u32 v -> exists p, conv false alpha ms v = Ok p /\ length p = (if alpha : bool then 4 else 3)%nat /\ bytes p.
Proof.
  intros L F V. destruct ms as [|mr [|mg [|mb [|ma [|]]]]]; try discriminate. inversion_clear F as [|? ? U1 F1]. inversion_clear F1 as [|? ? U2 F2]. inversion_clear F2 as [|? ? U3 F3]. inversion_clear F3 as [|? ? U4 _].
  destruct (field_total mr v U1 V) as (r & Er & Br). destruct (field_total mg v U2 V) as (g & Eg & Bg). destruct (field_total mb v U3 V) as (b & Eb & Bb). destruct (field_total ma v U4 V) as (a & Ea & Ba).
  unfold conv. cbv zeta. change (getz [mr; mg; mb; ma] 0) with mr. change (getz [mr; mg; mb; ma] 1) with mg. change (getz [mr; mg; mb; ma] 2) with mb. change (getz [mr; mg; mb; ma] 3) with ma.
  rewrite Er. cbn [bind]. rewrite Eg. cbn [bind]. rewrite Eb. cbn [bind]. destruct alpha.
  - destruct (ma =? 0); [|rewrite Ea]; cbn [bind]; eexists; (split; [reflexivity|]); (split; [reflexivity|]); repeat apply Forall_cons; try assumption; try apply Forall_nil. unfold is_byte. lia.
  - eexists; (split; [reflexivity|]); (split; [reflexivity|]); repeat apply Forall_cons; try assumption; apply Forall_nil.
Qed.
Lemma le_val_u32 b k : (k <= 4)%nat -> length b = k -> bytes b -> is_u32 (le_val b).
Proof.
  intros Hk L B. pose proof (le_val_bound b B) as V. unfold is_u32. split; [apply V|]. eapply Z.lt_le_trans; [apply V|]. change (2 ^ 32) with (256 ^ 4). apply Z.pow_le_mono_r; lia.
Qed.
Lemma zeros_bytes n : bytes (repeat 0 n).
Proof. apply Forall_forall. intros x Hx. apply repeat_spec in Hx as ->. unfold is_byte. lia. Qed.
Lemma row16_safe nc ms w h l : nc = 3%nat \/ nc = 4%nat -> length ms = 4%nat -> Forall is_u32 ms -> bytes l ->
  safe (row16 false nc ms w h l) (fun x => length (fst x) = (w * nc)%nat /\ bytes (fst x) /\ bytes (snd x)).
Proof.
  intros Hn L F Hl. unfold row16. cbv zeta. set (per := ((h * 2 + 3) / 4 * 4)%nat). clearbody per.
  destruct (pixels_by_safe (fun b => conv false (3 <? nc)%nat ms (le_val b)) 2 nc) with (n := Nat.min w per) (l := l) as (ps & r & -> & Lp & Bp & Br); [|exact Hl|].
  - intros b Lb Bb. destruct (conv_safe (3 <? nc)%nat ms (le_val b) L F (le_val_u32 b 2 ltac:(lia) Lb Bb)) as (p & E & Lp & Bp). exists p. split; [exact E|]. split; [|exact Bp]. rewrite Lp. destruct Hn as [-> | ->]; reflexivity.
  - cbn [bind safe fst snd]. split; [rewrite app_length, repeat_length, Lp; nia|]. split; [apply bytes_app; split; [exact Bp|apply zeros_bytes]|now apply bytes_skip].
Qed.
Lemma rgb_bytes pal i : Forall pal_bytes pal -> bytes (rgb pal i).
Proof.
  intros H. unfold rgb. assert (P : pal_bytes (nth (Z.to_nat i) pal (0, 0, 0))).
  { destruct (Nat.lt_ge_cases (Z.to_nat i) (length pal)) as [C|C]; [rewrite Forall_forall in H; now apply H, nth_In|rewrite nth_overflow by lia; apply zero3]. }
  destruct (nth _ pal _) as [[r g] b]. destruct P as (A & B & C). repeat apply Forall_cons; try assumption; apply Forall_nil.
Qed.
Lemma pal_row_safe pal row : length pal = 256%nat -> Forall pal_bytes pal -> bytes row -> safe (pal_row pal row) (fun r => length r = (length row * 3)%nat /\ bytes r).
Proof.
  intros L P B. rewrite pal_row_ok by easy. cbn [safe]. split; [apply rgb_row_spec|]. apply Forall_concat. apply Forall_forall. intros r Hr. apply in_map_iff in Hr as (i & <- & _). now apply rgb_bytes.
Qed.
Lemma row_small_safe pal d w l : length pal = 256%nat -> Forall pal_bytes pal -> d = 1 \/ d = 2 \/ d = 4 -> bytes l ->
  safe (row_small pal d w l) (fun x => length (fst x) = (w * 3)%nat /\ bytes (fst x) /\ bytes (snd x)).
Proof.
  intros Lp Pp Hd Hl. unfold row_small. cbv zeta. set (n := ((w * Z.to_nat d + 7) / 8)%nat). destruct (length l <? n)%nat eqn:E; [exact I|].
  set (ix := concat (map (expand_byte d) (firstn n l))).
  assert (Bx : bytes ix).
  { unfold ix. apply Forall_concat. apply Forall_forall. intros r Hr. apply in_map_iff in Hr as (b & <- & _). pose proof (expand_bytes d b Hd) as EB. apply Forall_forall. intros v Hv. rewrite Forall_forall in EB. specialize (EB v Hv).
    unfold is_byte. destruct Hd as [-> | [-> | ->]]; cbn in EB; lia. }
  assert (Li : (w <= length ix)%nat).
  { unfold ix. rewrite (concat_length_const (8 / Z.to_nat d)). rewrite map_length, firstn_length_le by lia. unfold n. pose proof (Nat.div_mod_eq (w * Z.to_nat d + 7) 8) as DM. pose proof (Nat.mod_upper_bound (w * Z.to_nat d + 7) 8 ltac:(lia)) as MB.
    set (q := ((w * Z.to_nat d + 7) / 8)%nat) in *. clearbody q. clear - Hd DM MB. destruct Hd as [-> | [-> | ->]]; [change (Z.to_nat 1) with 1%nat in *; change (8 / 1)%nat with 8%nat|change (Z.to_nat 2) with 2%nat in *; change (8 / 2)%nat with 4%nat|change (Z.to_nat 4) with 4%nat in *; change (8 / 4)%nat with 2%nat]; lia.
    apply Forall_forall. intros r Hr. apply in_map_iff in Hr as (b & <- & _). now apply expand_length. }
  eapply safe_bind; [apply pal_row_safe; [exact Lp|exact Pp|now apply bytes_first]|]. intros r [Lr Br]. cbn [safe fst snd]. rewrite firstn_length_le in Lr by exact Li. split; [exact Lr|]. split; [exact Br|now apply bytes_skip].
Qed.
Lemma mapM_safe {A B} (f : A -> res B) (P : A -> Prop) (Q : B -> Prop) : (forall x, P x -> safe (f x) Q) -> forall l, Forall P l -> safe (mapM f l) (fun r => length r = length l /\ Forall Q r).
Proof.
  intros F. induction l as [|x l IH]; intros H; cbn [mapM]; [cbn; auto|]. inversion_clear H as [|? ? Hx Hl]. eapply safe_bind; [now apply F|]. intros y Hy. eapply safe_bind; [now apply IH|]. intros ys [L Q']. cbn [safe length]. split; [now rewrite L|now constructor].
Qed.
Lemma chunks_bytes n l : bytes l -> Forall bytes (chunks_exact n l).
Proof.
  intros H. destruct n; [constructor|]. revert H. pattern l; apply (chunk_ind (S n)); clear l; [lia| |].
  - intros l Hl H. rewrite chunks_exact_short by lia. constructor.
  - intros x l Hx IH H. apply bytes_app in H as [H1 H2]. rewrite chunks_exact_cons by lia. constructor; auto.
Qed.
Lemma swap_good l : bytes l -> bytes (swap_bgr l) /\ length (swap_bgr l) = length l.
Proof.
  intros H. unfold swap_bgr. split.
  - apply bytes_app. split; [|now apply bytes_skip]. apply Forall_concat. apply Forall_forall. intros r Hr. apply in_map_iff in Hr as (p & <- & Hp).
    pose proof (chunks_bytes 3 l H) as CB. rewrite Forall_forall in CB. specialize (CB p Hp). repeat apply Forall_cons; try (now apply getz_byte); apply Forall_nil.
  - rewrite app_length, (concat_length_const 3), map_length, chunks_exact_length, skipn_length by (try lia; apply Forall_forall; intros r Hr; apply in_map_iff in Hr as (p & <- & _); reflexivity).
    pose proof (Nat.div_mod_eq (length l) 3). lia.
Qed.
Lemma up_good n len rows : good_rows n len rows -> length (write_rows_up rows) = (n * len)%nat /\ bytes (write_rows_up rows).
Proof.
  intros (L & F & B). unfold write_rows_up. rewrite (concat_length_const len) by now apply Forall_rev. rewrite rev_length, L. split; [reflexivity|]. apply Forall_concat. now apply Forall_rev.
Qed.
Lemma flip_good len n buf : (0 < len)%nat -> length buf = (n * len)%nat -> bytes buf -> exists out, flip_rows len buf = Ok out /\ length out = (n * len)%nat /\ bytes out.
Proof.
  intros Hl L B. destruct (flip_rows_nth len n buf Hl L) as (out & E & Lo & N). exists out. split; [exact E|]. split; [exact Lo|]. apply Forall_forall. intros v Hv. apply (In_nth _ _ 0) in Hv as (k & Hk & <-).
  rewrite Lo in Hk. replace k with (k / len * len + k mod len)%nat by (rewrite (Nat.div_mod_eq k len) at 3; lia).
  assert (K1 : (k / len < n)%nat) by (apply Nat.div_lt_upper_bound; lia). pose proof (Nat.mod_upper_bound k len ltac:(lia)) as K2. rewrite N by assumption.
  unfold bytes in B. rewrite Forall_forall in B. apply B, nth_In. rewrite L. assert (K3 : ((n - 1 - k / len + 1) * len <= n * len)%nat) by (apply Nat.mul_le_mono_r; revert K1; generalize (k / len)%nat; clear; lia). revert K2 K3. generalize (k / len)%nat (k mod len)%nat. clear. intros; lia.
Qed.

Lemma depth_fmt d fm : In (d, fm) [(1, FPal); (2, FPal); (4, FPal); (8, FPal); (8, FGray); (16, FRgb); (16, FRgba); (24, FRgb); (32, FRgba)] ->
  1 <= d <= 32 /\ (d = 32 -> fm = FRgba) /\ (d = 16 -> channels fm = 3%nat \/ channels fm = 4%nat) /\ (d = 1 \/ d = 2 \/ d = 4 -> fm = FPal).
Proof. intros H. cbn [In] in H. decompose [or] H; try contradiction; match goal with E : (_, _) = (_, _) |- _ => injection E as <- <- end; cbn [channels]; (split; [lia|]; split; [|split]); intros; try lia; try reflexivity; auto. Qed.
Lemma channels_range fm : (1 <= channels fm <= 4)%nat.
Proof. destruct fm; cbn; lia. Qed.
Lemma rows_safe o hd l : good_hdr o hd -> bytes l -> bo_max_w o < 2 ^ 31 -> Z.of_nat (length l) < 2 ^ 55 ->
  safe (decode_rows false hd l) (fun x => length (fst (fst x)) = (b_h hd * (b_w hd * channels (b_fmt hd)))%nat /\ bytes (fst (fst x))).
Proof.
  intros [Gw Gh G31 [Gm Gu] Gp Gd] Hl Mw Hlen. assert (Hi : as_i32 (Z.of_nat (b_w hd)) =? - 2 ^ 31 = false) by (rewrite as_i32_small by lia; lia).
  set (w := b_w hd) in *. set (h := b_h hd) in *. set (d := b_depth hd) in *.
  destruct (depth_fmt _ _ Gd) as (Hdp & D32 & D16 & Dsm). fold d in Hdp, D32, D16, Dsm.
  assert (RLE : safe (do idx <- decode_rle d w h l ; match b_fmt hd with FPal => do buf <- expand_palette (b_pal hd) w h idx ; Ok (buf, true, false) | _ => Ok (repeat 0 (w * h * channels (b_fmt hd)), b_flip hd, false) end)
    (fun x => length (fst (fst x)) = (h * (w * channels (b_fmt hd)))%nat /\ bytes (fst (fst x)))).
  { pose proof (bmp_rle_safe d w h l Hl ltac:(lia) G31 ltac:(lia) Hlen) as S. destruct (decode_rle d w h l) as [idx|e| |]; try contradiction; [|exact I]. cbn [bind]. destruct S as [Bi Li].
    assert (Z0 : length (repeat 0 (w * h * channels (b_fmt hd))) = (h * (w * channels (b_fmt hd)))%nat /\ bytes (repeat 0 (w * h * channels (b_fmt hd)))).
    { rewrite repeat_length. split; [|apply zeros_bytes]. rewrite Nat.mul_assoc. now rewrite (Nat.mul_comm h w). }
    destruct (b_fmt hd) eqn:Ef; [exact Z0| |exact Z0|exact Z0]. clear Z0. destruct (Gp eq_refl) as (P1 & P2 & P3).
    assert (L8 : length idx = (w * h)%nat).
    { assert (d <= 8) by (cbn [In] in P3; lia). replace (Z.max 8 d) with 8 in Li by lia. apply Nat2Z.inj. rewrite Li, Nat2Z.inj_mul. rewrite Z.div_add_l by lia. change (7 / 8) with 0. lia. }
    unfold expand_palette. cbv zeta. eapply safe_bind with (P := fun buf => length buf = (h * (w * 3))%nat /\ bytes buf); [|intros buf Hbuf; exact Hbuf].
    eapply safe_bind; [apply (mapM_safe (pal_row (b_pal hd)) (fun r => length r = w /\ bytes r) (fun r => length r = (w * 3)%nat /\ bytes r))|].
    - intros r [Lr Br]. eapply safe_impl; [now apply pal_row_safe|]. intros q [Lq Bq]. now rewrite <- Lr.
    - apply Forall_take. pose proof (chunks_exact_lengths w idx) as CL. pose proof (chunks_bytes w idx Bi) as CB. rewrite Forall_forall in CL, CB |- *. auto.
    - intros rows [Lr Fr]. apply up_good. split; [|split].
      + rewrite Lr, firstn_length, chunks_exact_length by lia. rewrite L8, Nat.mul_comm, Nat.div_mul by lia. lia.
      + revert Fr. apply Forall_impl. tauto.
      + revert Fr. apply Forall_impl. tauto. }
  assert (RAW : safe (if (d =? 1) || (d =? 2) || (d =? 4) then
        if as_i32 (Z.of_nat w) =? - 2 ^ 31 then Panic else
        do rows <- rows_by (row_small (b_pal hd) d w) h l ;
        Ok (write_rows_up rows, negb (b_flip hd), false)
      else match b_fmt hd with
      | FPal =>
          if as_i32 (Z.of_nat w) =? - 2 ^ 31 then Panic else
          do rows <- mapM (pal_row (b_pal hd)) (pal_rows h w ((4 - w mod 4) mod 4) l) ;
          Ok (write_rows_up rows, negb (b_flip hd), false)
      | _ =>
          if (d =? 32) || (d =? 16) then
            let plain := forallb (Z.eqb 0) (b_masks hd) || match b_comp hd with CFields => false | _ => true end in
            do rows <- (if plain && (d =? 32) then rows_by (pixels_by (copy_pixel false) 4 w) h l
                        else if d =? 32 then rows_by (pixels_by (fun b => conv false true (b_masks hd) (le_val b)) 4 w) h l
                        else rows_by (row16 false (channels (b_fmt hd)) (if plain then [31744; 992; 31; 31] else b_masks hd) w h) h l) ;
            Ok (write_rows_up rows, negb (b_flip hd), true)
          else
            let ow := (w * channels (b_fmt hd))%nat in
            let iw := ((w * Z.to_nat d + 31) / 8 / 4 * 4)%nat in
            do rows <- read_rows h ow (iw - ow) l ;
            Ok (write_rows_up (map (fun r => if false then r else swap_bgr r) rows), negb (b_flip hd), true)
      end) (fun x => length (fst (fst x)) = (h * (w * channels (b_fmt hd)))%nat /\ bytes (fst (fst x)))).
  { rewrite Hi. destruct ((d =? 1) || (d =? 2) || (d =? 4)) eqn:Es.
    { assert (Ef : b_fmt hd = FPal) by (apply Dsm; lia).
      destruct (Gp Ef) as (P1 & P2 & _). rewrite Ef. cbn [channels]. eapply safe_bind; [apply (rows_by_safe _ (w * 3)); [|exact Hl]; intros l' Hl'; apply row_small_safe; try easy; lia|].
      intros rows G. cbn [safe fst]. now apply up_good. }
    pose proof (channels_range (b_fmt hd)) as CR.
    assert (PLAIN : b_fmt hd <> FPal -> safe (if (d =? 32) || (d =? 16) then
            let plain := forallb (Z.eqb 0) (b_masks hd) || match b_comp hd with CFields => false | _ => true end in
            do rows <- (if plain && (d =? 32) then rows_by (pixels_by (copy_pixel false) 4 w) h l
                        else if d =? 32 then rows_by (pixels_by (fun b => conv false true (b_masks hd) (le_val b)) 4 w) h l
                        else rows_by (row16 false (channels (b_fmt hd)) (if plain then [31744; 992; 31; 31] else b_masks hd) w h) h l) ;
            Ok (write_rows_up rows, negb (b_flip hd), true)
          else
            let ow := (w * channels (b_fmt hd))%nat in
            let iw := ((w * Z.to_nat d + 31) / 8 / 4 * 4)%nat in
            do rows <- read_rows h ow (iw - ow) l ;
            Ok (write_rows_up (map (fun r => if false then r else swap_bgr r) rows), negb (b_flip hd), true)) (fun x => length (fst (fst x)) = (h * (w * channels (b_fmt hd)))%nat /\ bytes (fst (fst x)))).
    { intros NP. destruct ((d =? 32) || (d =? 16)) eqn:E3.
      - cbv zeta. set (plain := _ || _). eapply safe_bind with (P := good_rows h (w * channels (b_fmt hd))); [|intros rows G; now apply up_good].
        destruct (d =? 32) eqn:E32.
        + assert (Ef : b_fmt hd = FRgba) by (apply D32; lia).
          rewrite Ef. cbn [channels]. destruct plain; cbn [andb]; apply rows_by_safe; try exact Hl; intros l' Hl'.
          * destruct (pixels_by_safe (copy_pixel false) 4 4) with (n := w) (l := l') as (ps & r & -> & A & B & C); [|exact Hl'|cbn [safe fst snd]; auto].
            intros b Lb Bb. eexists. split; [reflexivity|]. split; [reflexivity|]. repeat apply Forall_cons; try (now apply getz_byte); try apply Forall_nil. unfold is_byte. lia.
          * destruct (pixels_by_safe (fun b => conv false true (b_masks hd) (le_val b)) 4 4) with (n := w) (l := l') as (ps & r & -> & A & B & C); [|exact Hl'|cbn [safe fst snd]; auto].
            intros b Lb Bb. apply (conv_safe true); [exact Gm|exact Gu|now apply (le_val_u32 b 4)].
        + rewrite andb_false_r. apply rows_by_safe; [|exact Hl]. intros l' Hl'. assert (E16 : d = 16) by lia.
          assert (Ef : channels (b_fmt hd) = 3%nat \/ channels (b_fmt hd) = 4%nat) by (apply D16; lia).
          apply row16_safe; [exact Ef| | |exact Hl']; destruct plain; try easy. repeat apply Forall_cons; try apply Forall_nil; unfold is_u32; lia.
      - cbv zeta. set (ow := (w * channels (b_fmt hd))%nat). set (iw := (_ / 8 / 4 * 4)%nat). assert (How : (0 < ow)%nat) by (unfold ow; clear - Gw CR; nia). clearbody iw.
        pose proof (read_rows_spec h ow (iw - ow) How l) as RR. destruct ((h =? 0)%nat || _)%bool; [|rewrite RR; exact I]. destruct RR as (rows & -> & L & F & N). cbn [bind safe fst].
        apply up_good. split; [now rewrite map_length|].
        assert (B : Forall bytes rows).
        { apply Forall_forall. intros r Hr. apply (In_nth _ _ []) in Hr as (k & Hk & <-). apply Forall_forall. intros v Hv. apply (In_nth _ _ 0) in Hv as (j & Hj & <-). rewrite Forall_forall in F. rewrite (F (nth k rows [])) in Hj by now apply nth_In.
          rewrite N by lia. destruct (Nat.lt_ge_cases (k * (ow + (iw - ow)) + j) (length l)) as [Q|Q]; [|rewrite nth_overflow by lia; unfold is_byte; lia]. unfold bytes in Hl. rewrite Forall_forall in Hl. now apply Hl, nth_In. }
        rewrite !Forall_map. split; rewrite Forall_forall in *; intros r Hr.
        + destruct (swap_good r (B r Hr)) as [_ ->]. now apply F.
        + now apply swap_good, B. }
    destruct (b_fmt hd) eqn:Ef; try (apply PLAIN; discriminate). clear PLAIN. destruct (Gp eq_refl) as (P1 & P2 & _). cbn [channels].
    destruct (pal_rows_spec w ((4 - w mod 4) mod 4) h l Hl) as (PL & PW & PB & _).
    eapply safe_bind; [apply (mapM_safe (pal_row (b_pal hd)) (fun r => length r = w /\ bytes r) (fun r => length r = (w * 3)%nat /\ bytes r))|].
    - intros r [Lr Br]. eapply safe_impl; [now apply pal_row_safe|]. intros q [Lq Bq]. now rewrite <- Lr.
    - rewrite Forall_forall in PW, PB |- *. auto.
    - intros rows [Lr Fr]. cbn [safe fst]. apply up_good. split; [now rewrite Lr|]. split; revert Fr; apply Forall_impl; tauto. }
  unfold decode_rows. cbv zeta. fold w h d. destruct (b_comp hd); [exact RAW|exact RLE|exact RLE|exact RAW].
Qed.
