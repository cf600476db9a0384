(** Lemmas about whole BMP files. *)
From Verif Require Import Base BaseProof Loops Slices BmpModel BmpSpec BmpProof BmpProps BmpFileModel BmpFileSpec.

(** * Headers *)
Lemma rd_at f p k : (p + k <= length f)%nat -> rd_le k (skipn p f) = Ok (le_at f p k, skipn (p + k) f).
Proof.
  intros H. unfold rd_le, le_at, slice. rewrite skipn_length. replace (length f - p <? k)%nat with false by lia. now rewrite skipn_skipn'.
Qed.
Lemma rd_many_at f : forall n p, (p + 4 * n <= length f)%nat -> rd_many n (skipn p f) = Ok (map (fun i => le_at f (p + 4 * i) 4) (seq 0 n), skipn (p + 4 * n) f).
Proof.
  induction n as [|n IH]; intros p H; cbn [rd_many].
  - now rewrite Nat.mul_0_r, Nat.add_0_r.
  - rewrite rd_at by lia. cbn [bind]. rewrite IH by lia. cbn [bind]. replace (p + 4 + 4 * n)%nat with (p + 4 * S n)%nat by lia. f_equal. f_equal.
    cbn [seq map]. rewrite Nat.mul_0_r, Nat.add_0_r. f_equal. rewrite <- seq_shift, map_map. apply map_ext. intros i. f_equal. lia.
Qed.

Lemma bytes_skip f n : bytes f -> bytes (skipn n f).
Proof. intros H. rewrite <- (firstn_skipn n f) in H. now apply bytes_app in H. Qed.
Lemma bytes_first f n : bytes f -> bytes (firstn n f).
Proof. intros H. rewrite <- (firstn_skipn n f) in H. now apply bytes_app in H. Qed.
Lemma bytes_slice f i n : bytes f -> bytes (slice f i n).
Proof. intros H. now apply bytes_first, bytes_skip. Qed.

Lemma le_at1 f p : (p < length f)%nat -> le_at f p 1 = nth p f 0.
Proof.
  intros H. unfold le_at, slice. pose proof (nth_skipn p 0 f 0) as E. rewrite Nat.add_0_r in E. rewrite <- E. pose proof (skipn_length p f) as L.
  destruct (skipn p f); cbn [length] in L; [lia|]. cbn [firstn le_val nth]. lia.
Qed.
Definition roomy (f : list Z) (isz : Z) : Prop := isz = 12 \/ isz = 40 /\ (66 <= length f)%nat \/ 40 < isz /\ (122 <= length f)%nat.
(** What the decoder takes for masks *)
Definition mask_raw (f : list Z) (isz : Z) (i : nat) : Z := if (isz <=? 40) && (i =? 3)%nat then 0 else le_at f (54 + 4 * i) 4.
Definition masks_of (f : list Z) (isz : Z) : list Z := if isz =? 12 then [0; 0; 0; 0] else map (mask_raw f isz) [0; 1; 2; 3]%nat.
Definition prim_of (f : list Z) (isz : Z) : option (list Z) := if isz <=? 40 then None else Some (map (fun i => le_at f (74 + 4 * i) 4) (seq 0 9)).
Definition icc_of (f : list Z) (isz : Z) : option (list Z) := if isz <=? 108 then None else profile f (le_at f 70 4) (le_at f 126 4) (le_at f 130 4).

Lemma info_ok f isz w h down bpp comp off c : bmp_file f isz w h down bpp comp off -> roomy f isz -> comp_of comp = Ok c ->
  info_header f (Z.of_nat off) isz (skipn 18 f) = Ok (Fields (Z.of_nat w) (if down then 2 ^ 32 - Z.of_nat h else Z.of_nat h) bpp c (masks_of f isz) (prim_of f isz) (icc_of f isz)).
Proof.
  intros [Hb Hs Hm (Ho & Hi & Hl) Hz Hf] R Hc. unfold info_header. destruct Hf as [(-> & -> & -> & Ew & Eh & Eb)|(In_ & Hh & Ew & Eh & Eb & Ec)].
  - cbn [Z.eqb Pos.eqb]. do 4 (rewrite rd_at by lia; cbn [bind Nat.add]). rewrite Ew, Eh, Eb. injection Hc as <-. reflexivity.
  - assert (N12 : isz =? 12 = false) by (cbn [In] in In_; lia). rewrite N12. replace (_ || _ || _ || _ || _ || _ || _) with true by (cbn [In] in In_; lia).
    assert (I40 : 40 <= isz) by (cbn [In] in In_; lia). assert (Ln : (66 <= length f)%nat) by (unfold roomy in R; lia).
    do 4 (rewrite rd_at by lia; cbn [bind Nat.add]). replace (40 <=? Z.of_nat off) with true by lia. rewrite rd_at by lia. cbn [bind Nat.add]. rewrite Ec, Hc. cbn [bind].
    replace (isz <=? 16) with false by lia. rewrite rd_many_at by lia. cbn [bind Nat.mul Nat.add]. rewrite rd_many_at by lia. cbn [bind Nat.mul Nat.add].
    rewrite Ew, Eh, Eb. unfold masks_of, prim_of, icc_of. rewrite N12. destruct (isz <=? 40) eqn:E40.
    + replace (isz <=? 108) with true by lia. cbn [map seq app]. unfold mask_raw. rewrite E40. reflexivity.
    + assert (L2 : (122 <= length f)%nat) by (unfold roomy in R; lia).
      do 2 (rewrite rd_at by lia; cbn [bind Nat.add]). rewrite rd_many_at by lia. cbn [bind Nat.mul Nat.add].
      assert (Em : map (fun i => le_at f (54 + 4 * i) 4) (seq 0 3) ++ [le_at f 66 4] = map (mask_raw f isz) [0; 1; 2; 3]%nat) by (cbn [map seq app]; unfold mask_raw; rewrite E40; reflexivity).
      destruct (isz <=? 108) eqn:E108; [now rewrite <- Em|].
      rewrite skipn_skipn'. cbn [Nat.add]. assert (I124 : isz = 124) by (cbn [In] in In_; lia).
      do 3 (rewrite rd_at by lia; cbn [bind Nat.add]). now rewrite <- Em.
Qed.

Lemma as_i32_height h (down : bool) : (0 < h)%nat -> Z.of_nat h < 2 ^ 31 -> let z := as_i32 (if down then 2 ^ 32 - Z.of_nat h else Z.of_nat h) in Z.abs z = Z.of_nat h /\ (0 <? z) = negb down.
Proof.
  intros H0 H1. cbv zeta. unfold as_i32. destruct down.
  - rewrite Z.mod_small by lia. replace (_ <? _) with false by lia. cbn [negb]. lia.
  - rewrite Z.mod_small by lia. replace (_ <? _) with true by lia. cbn [negb]. lia.
Qed.

Lemma height_bound f isz w h down bpp comp off : bmp_file f isz w h down bpp comp off -> Z.of_nat h < 2 ^ 31 /\ Z.of_nat w < 2 ^ 32.
Proof.
  intros [Hb Hs Hm (Ho & Hi & Hl) Hz Hf]. assert (B : forall p k, 0 <= le_at f p k < 256 ^ Z.of_nat k).
  { intros p k. unfold le_at. pose proof (le_val_bound (slice f p k)) as L. assert (Bs : bytes (slice f p k)) by (now apply bytes_slice).
    specialize (L Bs). split; [apply L|]. eapply Z.lt_le_trans; [apply L|]. apply Z.pow_le_mono_r; [lia|]. unfold slice. rewrite firstn_length. lia. }
  destruct Hf as [(-> & -> & -> & Ew & Eh & Eb)|(In_ & Hh & Ew & Eh & Eb & Ec)].
  - pose proof (B 18%nat 2%nat). pose proof (B 20%nat 2%nat). lia.
  - pose proof (B 18%nat 4%nat). lia.
Qed.

Lemma headers_ok o f isz w h down bpp comp off c : bmp_file f isz w h down bpp comp off -> roomy f isz -> comp_of comp = Ok c ->
  Z.of_nat w <= bo_max_w o -> Z.of_nat h <= bo_max_h o -> bpp <> 0 ->
  decode_headers o f = (do fm <- pixel_format (Z.of_nat off) isz bpp c ; do pal <- match fm with FPal => palette o f isz bpp | _ => Ok [] end ;
    Ok (Bhdr w h (negb down) bpp c fm (masks_of f isz) pal (prim_of f isz) (icc_of f isz), skipn off f)).
Proof.
  intros B R Hc Mw Mh Hb. pose proof (info_ok f isz w h down bpp comp off c B R Hc) as I. destruct (height_bound _ _ _ _ _ _ _ _ B) as [Hh Hw]. destruct B as [Hby [Hs1 Hs2] [M0 M1] (Ho & Hi & Hl) Hz Hf].
  assert (I12 : 12 <= isz) by (destruct Hf as [(-> & _)|(In_ & _)]; [lia|cbn [In] in In_; lia]).
  unfold decode_headers. change f with (skipn 0 f) at 1.
  assert (E0 : le_at f 0 1 = 66) by (rewrite le_at1 by lia; exact M0). assert (E1 : le_at f 1 1 = 77) by (rewrite le_at1 by lia; exact M1).
  do 2 (rewrite rd_at by lia; cbn [bind Nat.add]; rewrite ?E0, ?E1; cbn [Z.eqb Pos.eqb negb]). rewrite skipn_skipn'. cbn [Nat.add].
  do 2 (rewrite rd_at by lia; cbn [bind Nat.add]). rewrite Ho, Hz. replace (Z.of_nat off <? _) with false by lia. rewrite I. cbn [bind f_h f_w f_bpp f_comp f_masks f_prim f_icc].
  destruct (as_i32_height h down Hs2 Hh) as [-> ->]. replace (bo_max_h o <? Z.of_nat h) with false by lia. replace (bo_max_w o <? Z.of_nat w) with false by lia.
  replace ((Z.of_nat w =? 0) || (Z.of_nat h =? 0)) with false by lia. replace (bpp =? 0) with false by lia. now rewrite !Nat2Z.id.
Qed.

(** * Rows and pixels *)
Lemma rows_by_spec row r st l : forall n k, (forall i, (k <= i < k + n)%nat -> row (skipn (i * st) l) = Ok (r i, skipn ((i + 1) * st) l)) ->
  rows_by row n (skipn (k * st) l) = Ok (map r (seq k n)).
Proof.
  induction n as [|n IH]; intros k H; cbn [rows_by seq map]; [reflexivity|]. rewrite H by lia. cbn [bind]. rewrite (Nat.add_1_r k). rewrite IH by (intros i Hi; apply H; lia). reflexivity.
Qed.
Lemma rows_by_ok row r st l n : (forall i, (i < n)%nat -> row (skipn (i * st) l) = Ok (r i, skipn ((i + 1) * st) l)) -> rows_by row n l = Ok (map r (seq 0 n)).
Proof. intros H. apply (rows_by_spec row r st l n 0). intros i Hi. apply H. lia. Qed.

Lemma pixels_by_ok px k g : (forall b, length b = k -> bytes b -> px b = Ok (g b)) -> forall n l, bytes l -> (n * k <= length l)%nat ->
  pixels_by px k n l = Ok (concat (map (fun i => g (slice l (i * k) k)) (seq 0 n)), skipn (n * k) l).
Proof.
  intros G. induction n as [|n IH]; intros l Hl Hn; cbn [pixels_by seq map concat]; [reflexivity|].
  unfold rd_zero. replace (length l <? k)%nat with false by lia. rewrite G; [|rewrite firstn_length; lia|now apply bytes_first]. cbn [bind].
  rewrite IH; [|now apply bytes_skip|rewrite skipn_length; lia]. cbn [bind]. rewrite skipn_skipn'. f_equal. f_equal. f_equal.
  rewrite <- seq_shift, map_map. f_equal. apply map_ext. intros i. f_equal. unfold slice. now rewrite skipn_skipn'.
Qed.

Definition pix_row (w : nat) (pix : nat -> list Z) : list Z := concat (map pix (seq 0 w)).
Lemma pix_row_spec nc w pix : (forall x, length (pix x) = nc) -> length (pix_row w pix) = (w * nc)%nat /\
  forall x c, (x < w)%nat -> (c < nc)%nat -> nth (x * nc + c) (pix_row w pix) 0 = nth c (pix x) 0.
Proof.
  intros H. assert (F : Forall (fun p : list Z => length p = nc) (map pix (seq 0 w))) by (apply Forall_forall; intros p Hp; apply in_map_iff in Hp as (x & <- & _); apply H).
  unfold pix_row. split; [rewrite (concat_length_const nc) by easy; now rewrite map_length, seq_length|].
  intros x c Hx Hc. rewrite (concat_rows_nth nc) by (rewrite ?map_length, ?seq_length; easy). rewrite (map_nth_in pix _ x 0%nat []) by (rewrite seq_length; lia). now rewrite seq_nth by lia.
Qed.
Lemma placed nc w h (down : bool) pix : (0 < nc)%nat -> (0 < w)%nat -> (forall y x, length (pix y x) = nc) ->
  exists out, (if down then flip_rows (w * nc) (write_rows_up (map (fun y => pix_row w (pix y)) (seq 0 h))) else Ok (write_rows_up (map (fun y => pix_row w (pix y)) (seq 0 h)))) = Ok out /\
    length out = (w * h * nc)%nat /\
    forall x y c, (x < w)%nat -> (y < h)%nat -> (c < nc)%nat -> nth ((y * w + x) * nc + c) out 0 = nth c (pix (stored_row down h y) x) 0.
Proof.
  intros Hn Hw Hp. set (rows := map _ (seq 0 h)).
  assert (L : length rows = h) by (unfold rows; now rewrite map_length, seq_length).
  assert (F : Forall (fun x : list Z => length x = (w * nc)%nat) rows).
  { apply Forall_forall. intros r Hr. apply in_map_iff in Hr as (y & <- & _). apply pix_row_spec, Hp. }
  destruct (rows_placed (w * nc) h rows down ltac:(nia) L F) as (out & E & Lo & N). exists out. split; [exact E|]. split; [rewrite Lo; lia|]. intros x y c Hx Hy Hc.
  replace ((y * w + x) * nc + c)%nat with (y * (w * nc) + (x * nc + c))%nat by lia. rewrite N by nia.
  assert (Hs : (stored_row down h y < h)%nat) by (unfold stored_row; destruct down; lia).
  unfold rows. rewrite (map_nth_in _ _ _ 0%nat []) by (rewrite seq_length; lia). rewrite seq_nth by lia. now apply pix_row_spec.
Qed.

(** The end of [decode_bmp], once the rows are there *)
Lemma finish bgra o f hd l rows (down inb : bool) pix : decode_headers o f = Ok (hd, l) -> (0 < b_w hd)%nat -> Z.of_nat (b_w hd) * Z.of_nat (b_h hd) < 2 ^ 60 ->
  decode_rows bgra hd l = Ok (write_rows_up rows, down, inb) -> rows = map (fun y => pix_row (b_w hd) (pix y)) (seq 0 (b_h hd)) ->
  (forall y x, length (pix y x) = channels (b_fmt hd)) -> bgra && negb inb = true -> channels (b_fmt hd) = 3%nat ->
  exists out, decode_bmp bgra o f = Ok out /\ length out = (b_w hd * b_h hd * channels (b_fmt hd))%nat /\
    forall x y c, (x < b_w hd)%nat -> (y < b_h hd)%nat -> (c < channels (b_fmt hd))%nat ->
      nth ((y * b_w hd + x) * channels (b_fmt hd) + c) out 0 = nth c (rev (pix (stored_row down (b_h hd) y) x)) 0.
Proof.
  intros E Hw Hs D -> Hp Hb Hc. assert (Hn : (0 < channels (b_fmt hd) <= 4)%nat) by (destruct (b_fmt hd); cbn; lia).
  destruct (placed (channels (b_fmt hd)) (b_w hd) (b_h hd) down pix ltac:(lia) Hw Hp) as (out & Eo & Lo & N).
  assert (S : output_buf_size hd = Ok (Z.to_nat (Z.of_nat (b_w hd) * Z.of_nat (b_h hd) * Z.of_nat (channels (b_fmt hd))))) by (unfold output_buf_size; now replace (_ || _) with false by nia).
  destruct (swap_bgr_spec (b_w hd * b_h hd) out ltac:(rewrite Lo, Hc; lia)) as [L2 N2].
  exists (swap_bgr out). split.
  - unfold decode_bmp. rewrite E. cbn [bind]. rewrite S. cbn [bind]. rewrite Z2Nat.id by nia. replace (2 ^ 63 <=? _) with false by nia. rewrite D. cbn [bind]. rewrite Eo. cbn [bind].
    rewrite Hb, Hc. reflexivity.
  - rewrite Hc in *. split; [exact L2|]. intros x y c Hx Hy Hc3. rewrite N2 by nia. rewrite N by lia.
    rewrite rev_nth by (rewrite Hp; lia). now rewrite Hp.
Qed.
Lemma finish0 bgra o f hd l rows (down inb : bool) pix : decode_headers o f = Ok (hd, l) -> (0 < b_w hd)%nat -> Z.of_nat (b_w hd) * Z.of_nat (b_h hd) < 2 ^ 60 ->
  decode_rows bgra hd l = Ok (write_rows_up rows, down, inb) -> rows = map (fun y => pix_row (b_w hd) (pix y)) (seq 0 (b_h hd)) ->
  (forall y x, length (pix y x) = channels (b_fmt hd)) -> bgra && negb inb = false ->
  exists out, decode_bmp bgra o f = Ok out /\ length out = (b_w hd * b_h hd * channels (b_fmt hd))%nat /\
    forall x y c, (x < b_w hd)%nat -> (y < b_h hd)%nat -> (c < channels (b_fmt hd))%nat ->
      nth ((y * b_w hd + x) * channels (b_fmt hd) + c) out 0 = nth c (pix (stored_row down (b_h hd) y) x) 0.
Proof.
  intros E Hw Hs D -> Hp Hb. assert (Hn : (0 < channels (b_fmt hd) <= 4)%nat) by (destruct (b_fmt hd); cbn; lia).
  destruct (placed (channels (b_fmt hd)) (b_w hd) (b_h hd) down pix ltac:(lia) Hw Hp) as (out & Eo & Lo & N).
  assert (S : output_buf_size hd = Ok (Z.to_nat (Z.of_nat (b_w hd) * Z.of_nat (b_h hd) * Z.of_nat (channels (b_fmt hd))))) by (unfold output_buf_size; now replace (_ || _) with false by nia).
  exists out. split; [|split; [exact Lo|exact N]].
  unfold decode_bmp. rewrite E. cbn [bind]. rewrite S. cbn [bind]. rewrite Z2Nat.id by nia. replace (2 ^ 63 <=? _) with false by nia. rewrite D. cbn [bind]. rewrite Eo. cbn [bind]. now rewrite Hb.
Qed.

(** * Depths *)
Lemma slice_skip (l : list Z) a b n : slice (skipn a l) b n = slice l (a + b) n.
Proof. unfold slice. now rewrite skipn_skipn'. Qed.
Lemma getz_slice (l : list Z) p k i : (i < k)%nat -> getz (slice l p k) i = nth (p + i) l 0.
Proof. intros H. unfold getz. now apply slice_nth. Qed.

(** Fixed pixels of [k] bytes, [w] to a row of [st] bytes *)
Lemma pixel_rows px k g w st h l : (forall b, length b = k -> bytes b -> px b = Ok (g b)) -> bytes l -> st = (w * k)%nat -> (h * st <= length l)%nat ->
  rows_by (pixels_by px k w) h l = Ok (map (fun y => pix_row w (fun x => g (slice l (y * st + x * k) k))) (seq 0 h)).
Proof.
  intros G Hl -> Hn. apply (rows_by_ok _ _ (w * k)). intros i Hi. rewrite (pixels_by_ok px k g G); [|now apply bytes_skip|rewrite skipn_length; nia].
  f_equal. f_equal; [|rewrite skipn_skipn'; f_equal; lia]. unfold pix_row. f_equal. apply map_ext. intros x. now rewrite slice_skip.
Qed.
Lemma stride32 w : stride w 32 = (w * 4)%nat.
Proof. unfold stride. rewrite Nat.div_add_l by lia. change (31 / 32)%nat with 0%nat. lia. Qed.

Lemma conv_ok rs rn gs gn bs bn (al : option (Z * Z)) alpha v : 0 <= rs -> 1 <= rn -> rs + rn <= 32 -> 0 <= gs -> 1 <= gn -> gs + gn <= 32 -> 0 <= bs -> 1 <= bn -> bs + bn <= 32 ->
  match al with None => True | Some (s, n) => 0 <= s /\ 1 <= n /\ s + n <= 32 end -> 0 <= v ->
  conv false alpha [mask rs rn; mask gs gn; mask bs bn; match al with None => 0 | Some (s, n) => mask s n end] v =
  Ok ([scaled rs rn v; scaled gs gn v; scaled bs bn v] ++ if alpha : bool then [match al with None => 255 | Some (s, n) => scaled s n v end] else []).
Proof.
  intros. unfold conv. cbn [getz nth]. change (getz [mask rs rn; mask gs gn; mask bs bn; _] 0) with (mask rs rn).
  unfold getz. cbn [nth]. rewrite !field_spec by lia. cbn [bind]. destruct alpha; [|reflexivity].
  destruct al as [[s n]|]; [|reflexivity]. assert (M : mask s n =? 0 = false).
  { apply Z.eqb_neq. unfold mask. pose proof (Z.pow_pos_nonneg 2 s ltac:(lia) ltac:(lia)). pose proof (Z.pow_le_mono_r 2 1 n ltac:(lia) ltac:(lia)). nia. }
  rewrite M. rewrite field_spec by lia. reflexivity.
Qed.

(** * Palettes *)
Lemma read_palette_nth k : (3 <= k)%nat -> forall n l i, (i < n)%nat -> (i * k + k <= length l)%nat ->
  nth i (read_palette n k l) (0, 0, 0) = (nth (i * k + 2) l 0, nth (i * k + 1) l 0, nth (i * k) l 0).
Proof.
  intros Hk. induction n as [|n IH]; intros l i Hi Hl; [lia|]. cbn [read_palette]. destruct i as [|i].
  - replace (length l <? k)%nat with false by lia. reflexivity.
  - replace (length l <? k)%nat with false by nia. cbn [nth]. rewrite IH by (rewrite ?skipn_length; lia). rewrite !nth_skipn. cbn [Nat.mul]. rewrite !Nat.add_assoc. reflexivity.
Qed.
Lemma read_palette_length n k : forall l, length (read_palette n k l) = n.
Proof. induction n as [|n IH]; intros l; cbn [read_palette]; [reflexivity|]. destruct (length l <? k)%nat; cbn [length]; now rewrite IH. Qed.

Lemma le_at_range f p k : bytes f -> 0 <= le_at f p k < 256 ^ Z.of_nat k.
Proof.
  intros Hb. unfold le_at. assert (Bs : bytes (slice f p k)) by (now apply bytes_slice). pose proof (le_val_bound (slice f p k) Bs) as L.
  split; [apply L|]. eapply Z.lt_le_trans; [apply L|]. apply Z.pow_le_mono_r; [lia|]. unfold slice. rewrite firstn_length. lia.
Qed.

Lemma resize_nth_d {A} (l : list A) n x j : (j < n)%nat -> nth j (resize l n x) x = nth j l x.
Proof.
  intros H. destruct (Nat.lt_ge_cases j (length l)) as [C|C]; [now apply resize_nth|]. rewrite (nth_overflow l) by lia.
  destruct (Nat.le_gt_cases (length l) n) as [D|D]; [|lia]. rewrite resize_grow by lia. rewrite app_nth2 by lia. apply nth_repeat.
Qed.
Lemma palette_ok o f isz w h down bpp comp off : bmp_file f isz w h down (Z.of_nat bpp) comp off -> (1 <= bpp <= 8)%nat -> palette_fits f isz bpp off ->
  exists pal, palette o f isz (Z.of_nat bpp) = Ok pal /\ length pal = 256%nat /\ forall i, 0 <= i < 2 ^ Z.of_nat bpp -> rgb pal i = color_at f isz bpp i.
Proof.
  intros B Hbpp [Pc Pf]. pose proof (bf_bytes _ _ _ _ _ _ _ _ B) as Hby. destruct (bf_off _ _ _ _ _ _ _ _ B) as (_ & Hi & Hl).
  assert (P8 : 2 ^ Z.of_nat bpp <= 256) by (change 256 with (2 ^ 8); apply Z.pow_le_mono_r; lia).
  assert (P0 : 0 < 2 ^ Z.of_nat bpp) by (apply Z.pow_pos_nonneg; lia).
  assert (Hc : 1 <= colors_of f isz bpp). { unfold colors_of. pose proof (le_at_range f 46 4 Hby). destruct (_ || _) eqn:E; lia. }
  set (c := colors_of f isz bpp) in *.
  destruct (bf_fields _ _ _ _ _ _ _ _ B) as [(E12 & _)|(I & _)].
  - subst isz. eexists. split; [|split].
    + unfold palette. cbn [Z.leb Z.compare Pos.compare Pos.compare_cont Z.eqb Pos.eqb bind]. replace ((0 - 0 - 14) mod 2 ^ 32 <? _) with false by reflexivity. reflexivity.
    + apply resize_length.
    + intros i Hii. unfold rgb, color_at. assert (I256 : (Z.to_nat i < 256)%nat) by lia. rewrite (resize_nth_d _ _ _ _ I256). change (Z.to_nat (Z.min 256 ((0 - 0 - 14) mod 2 ^ 32 / 3))) with 256%nat.
      fold c. assert (Ec : c = 2 ^ Z.of_nat bpp) by reflexivity. replace (i <? c) with true by lia. cbn [Z.eqb Pos.eqb] in Pf.
      rewrite read_palette_nth by (rewrite ?skipn_length; lia). unfold palette_at. cbn [Z.eqb Pos.eqb]. change (Z.to_nat (14 + 12)) with 26%nat. change (14 + Z.to_nat 12)%nat with 26%nat. rewrite !nth_skipn. rewrite !Nat.add_assoc. reflexivity.
  - assert (N12 : isz =? 12 = false) by (cbn [In] in I; lia). assert (N36 : 36 <=? isz = true) by (cbn [In] in I; lia). rewrite N12 in Pf. pose proof (le_at_range f 46 4 Hby) as R4.
    assert (Ht : (do colors <- (if 36 <=? isz then do (t, _) <- rd_le 4 (skipn 46 f) ; let t := as_i32 t in
      if (t <? 0) || (2 ^ Z.of_nat bpp <? t) then (if bo_strict o then Err EOther else Ok (2 ^ Z.of_nat bpp)) else Ok (if t =? 0 then 2 ^ Z.of_nat bpp else t) else Ok (Z.min 256 ((0 - 0 - 14) mod 2 ^ 32 / 3))) ; Ok colors) = Ok c).
    { rewrite N36. rewrite rd_at by (cbn [In] in I; lia). cbn [bind]. unfold c, colors_of in *. rewrite N12 in *. cbn [orb] in *.
      destruct (le_at f 46 4 =? 0) eqn:E0.
      - apply Z.eqb_eq in E0. rewrite E0. change (as_i32 0) with 0. cbn [Z.ltb Z.compare orb Z.eqb]. now replace (2 ^ Z.of_nat bpp <? 0) with false by lia.
      - cbv zeta. rewrite as_i32_small by lia. replace (_ || _) with false by lia. cbn [bind]. now rewrite E0. }
    eexists. split; [|split].
    + unfold palette. destruct (if 36 <=? isz then _ else _) as [x|e| |]; cbn [bind] in Ht |- *; try discriminate. injection Ht as ->. rewrite N12. reflexivity.
    + apply resize_length.
    + intros i Hii. unfold rgb, color_at. assert (I256 : (Z.to_nat i < 256)%nat) by lia. rewrite (resize_nth_d _ _ _ _ I256). fold c. destruct (i <? c) eqn:Ei.
      * rewrite read_palette_nth by (rewrite ?skipn_length; lia). unfold palette_at. rewrite N12, !nth_skipn.
        replace (Z.to_nat (14 + isz)) with (14 + Z.to_nat isz)%nat by (cbn [In] in I; lia). rewrite !Nat.add_assoc. reflexivity.
      * rewrite nth_overflow; [reflexivity|]. rewrite read_palette_length. lia.
Qed.

Lemma map_index {A B} (f : A -> B) d l : map f l = map (fun i => f (nth i l d)) (seq 0 (length l)).
Proof. induction l as [|x l IH]; cbn [map length seq nth]; [reflexivity|]. f_equal. rewrite <- seq_shift, map_map. exact IH. Qed.
Lemma pal_pix pal row w : length row = w -> concat (map (rgb pal) row) = pix_row w (fun x => rgb pal (nth x row 0)).
Proof. intros <-. unfold pix_row. now rewrite (map_index _ 0). Qed.
Lemma rgb_length pal i : length (rgb pal i) = 3%nat.
Proof. unfold rgb. now destruct (nth _ pal _) as [[? ?] ?]. Qed.

(** The end for pictures with a palette *)
Lemma finish_pal bgra o f hd l (down : bool) pix : decode_headers o f = Ok (hd, l) -> b_fmt hd = FPal -> (0 < b_w hd)%nat -> Z.of_nat (b_w hd) * Z.of_nat (b_h hd) < 2 ^ 60 ->
  decode_rows bgra hd l = Ok (write_rows_up (map (fun y => pix_row (b_w hd) (pix y)) (seq 0 (b_h hd))), down, false) -> (forall y x, length (pix y x) = 3%nat) ->
  exists out, decode_bmp bgra o f = Ok out /\ length out = (b_w hd * b_h hd * 3)%nat /\
    forall x y c, (x < b_w hd)%nat -> (y < b_h hd)%nat -> (c < 3)%nat ->
      nth ((y * b_w hd + x) * 3 + c) out 0 = nth c (let p := pix (stored_row down (b_h hd) y) x in if bgra then rev p else p) 0.
Proof.
  intros H F Hw Hs D Hp. assert (C3 : channels (b_fmt hd) = 3%nat) by now rewrite F.
  destruct bgra.
  - destruct (finish true o f hd l _ down false pix H Hw Hs D eq_refl ltac:(intros; now rewrite C3) eq_refl C3) as (out & E & L & N). rewrite C3 in *. now exists out.
  - destruct (finish0 false o f hd l _ down false pix H Hw Hs D eq_refl ltac:(intros; now rewrite C3) eq_refl) as (out & E & L & N). rewrite C3 in *. now exists out.
Qed.

(** * Small depths *)
Lemma expand_length d b : d = 1 \/ d = 2 \/ d = 4 -> length (expand_byte d b) = (8 / Z.to_nat d)%nat.
Proof. intros [-> | [-> | ->]]; reflexivity. Qed.
Lemma expand_bytes d b : d = 1 \/ d = 2 \/ d = 4 -> Forall (fun v => 0 <= v < 2 ^ d) (expand_byte d b).
Proof.
  intros [-> | [-> | ->]]; unfold expand_byte; cbn [Z.eqb Pos.eqb]; apply Forall_forall; intros v Hv; apply in_map_iff in Hv as (s & <- & _).
  - change (2 ^ 1) with 2. apply Z.mod_pos_bound. lia.
  - change (2 ^ 2) with 4. apply Z.mod_pos_bound. lia.
  - change (2 ^ 4) with 16. apply Z.mod_pos_bound. lia.
Qed.
Lemma expand_nth d b k : d = 1 \/ d = 2 \/ d = 4 -> (k < 8 / Z.to_nat d)%nat -> nth k (expand_byte d b) 0 = b / 2 ^ Z.of_nat (8 - Z.to_nat d - k * Z.to_nat d) mod 2 ^ d.
Proof.
  intros [-> | [-> | ->]] Hk; unfold expand_byte; cbn [Z.eqb Pos.eqb map].
  - change (8 / Z.to_nat 1)%nat with 8%nat in Hk. do 8 (destruct k as [|k]; [reflexivity|]). lia.
  - change (8 / Z.to_nat 2)%nat with 4%nat in Hk. do 4 (destruct k as [|k]; [reflexivity|]). lia.
  - change (8 / Z.to_nat 4)%nat with 2%nat in Hk. do 2 (destruct k as [|k]; [reflexivity|]). lia.
Qed.
Lemma split_bits d x : d = 1 \/ d = 2 \/ d = 4 -> let k := Z.to_nat d in (x * k / 8 = x / (8 / k) /\ x * k mod 8 = x mod (8 / k) * k)%nat.
Proof.
  intros [-> | [-> | ->]]; cbv zeta; [change (Z.to_nat 1) with 1%nat; change (8 / 1)%nat with 8%nat|change (Z.to_nat 2) with 2%nat; change (8 / 2)%nat with 4%nat|change (Z.to_nat 4) with 4%nat; change (8 / 4)%nat with 2%nat]; lia.
Qed.
Lemma indices_nth d l x : d = 1 \/ d = 2 \/ d = 4 -> (x * Z.to_nat d / 8 < length l)%nat -> nth x (concat (map (expand_byte d) l)) 0 = index_at l (Z.to_nat d) 0 x.
Proof.
  intros Hd Hx. destruct (split_bits d x Hd) as [E1 E2]. cbv zeta in *. rewrite E1 in Hx. set (k := (8 / Z.to_nat d)%nat) in *.
  assert (Hk : (0 < k)%nat) by (unfold k; destruct Hd as [-> | [-> | ->]]; cbn; lia).
  replace x with (x / k * k + x mod k)%nat at 1 by (rewrite (Nat.div_mod_eq x k) at 3; lia).
  rewrite (concat_rows_nth k).
  - rewrite (map_nth_in _ _ _ 0 []) by lia. rewrite expand_nth by (easy || (unfold k; apply Nat.mod_upper_bound; unfold k in Hk; lia)). unfold index_at. rewrite E1, E2. cbn [Nat.add]. rewrite Z2Nat.id by lia. reflexivity.
  - apply Forall_forall. intros r Hr. apply in_map_iff in Hr as (b & <- & _). now apply expand_length.
  - rewrite map_length. lia.
  - apply Nat.mod_upper_bound. lia.
Qed.
