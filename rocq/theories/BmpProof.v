(** Proofs about the BMP model. *)
From Verif Require Import Base BaseProof Bits Loops Slices HdrProof PpmProof BmpModel BmpSpec.

(** ** Safety of the run-length decoder *)

Definition wf (alloc h : nat) (s : rle) : Prop :=
  bytes (r_in s) /\ bytes (r_pix s) /\ length (r_pix s) = alloc /\ 0 <= r_line s < Z.of_nat h /\
  (r_off s + r_len s <= alloc)%nat.

Lemma rd8_spec l : bytes l -> exists x r, rd8 l = (x, r) /\ is_byte x /\ bytes r /\
  (length l <= length r + 1)%nat /\ (length r <= length l)%nat /\ (l <> [] -> length r < length l)%nat /\ (l = [] -> x = 0).
Proof.
  intros H. destruct l as [|x r]; cbn [rd8].
  - exists 0, []. repeat split; try easy; cbn; lia.
  - apply Forall_cons_iff in H as [H1 H2]. exists x, r. repeat split; try easy; cbn; try lia; apply H1.
Qed.

Lemma put_bytes l i xs : bytes l -> bytes xs -> bytes (put l i xs).
Proof.
  intros H1 H2. unfold put, bytes in *. apply Forall_app. split; [now apply Forall_firstn'|].
  apply Forall_app. split; [easy|now apply Forall_skipn'].
Qed.

Lemma out_set_ok alloc h s p v : wf alloc h s -> (p < r_len s)%nat -> is_byte v ->
  exists px, out_set s p v = Ok px /\ bytes px /\ length px = alloc /\ px = upd (r_pix s) (r_off s + p) v.
Proof.
  intros (H1 & H2 & H3 & H4 & H5) Hp Hv. unfold out_set. replace (p <? r_len s)%nat with true by lia.
  rewrite set_at_ok by lia. exists (upd (r_pix s) (r_off s + p) v). split; [easy|].
  split; [now apply upd_Forall|]. now rewrite upd_length.
Qed.

Lemma out_put_ok alloc h s p vs : wf alloc h s -> (p + length vs <= r_len s)%nat -> bytes vs ->
  exists px, out_put s p vs = Ok px /\ bytes px /\ length px = alloc /\ px = put (r_pix s) (r_off s + p) vs.
Proof.
  intros (H1 & H2 & H3 & H4 & H5) Hp Hv. unfold out_put. replace (p + length vs <=? r_len s)%nat with true by lia.
  rewrite put_slice_ok by lia. exists (put (r_pix s) (r_off s + p) vs). split; [easy|].
  split; [now apply put_bytes|]. split; [rewrite put_length; lia|easy].
Qed.

Lemma nib_hi b : is_byte b -> is_byte (b / 16).
Proof. unfold is_byte. lia. Qed.
Lemma nib_lo b : is_byte b -> is_byte (b mod 16).
Proof. unfold is_byte. lia. Qed.

Lemma abs4_safe alloc h w odd : forall k s, wf alloc h s -> r_len s = w ->
  exists s', abs4 k odd w s = Ok s' /\ wf alloc h s' /\ r_len s' = w /\ r_line s' = r_line s /\
             (length (r_in s') <= length (r_in s))%nat.
Proof.
  induction k as [|k IH]; intros s Hs Hw; cbn [abs4].
  - exists s. repeat split; try apply Hs; auto.
  - destruct (w <=? r_pos s)%nat eqn:E; [exists s; repeat split; try apply Hs; auto|].
    destruct (rd8_spec (r_in s) (proj1 Hs)) as (b & r & -> & Hb & Hr & _ & Hlr & _).
    destruct (out_set_ok alloc h s (r_pos s) (b / 16) Hs ltac:(lia) (nib_hi b Hb)) as (px & -> & Hpx & Hl & _).
    cbn [bind]. set (s1 := Rle r px (r_line s) (r_pos s + 1) (r_off s) (r_len s)).
    assert (W1 : wf alloc h s1) by (unfold wf, s1; cbn; destruct Hs as (?&?&?&?&?); repeat split; easy).
    destruct ((k =? 0)%nat && odd); [exists s1; repeat split; try apply W1; auto|].
    destruct (w <=? r_pos s1)%nat eqn:E1; [exists s1; repeat split; try apply W1; auto|].
    assert (E2 : (r_pos s1 < r_len s1)%nat) by (unfold s1 in *; cbn [r_pos r_len] in *; lia).
    destruct (out_set_ok alloc h s1 (r_pos s1) (b mod 16) W1 E2 (nib_lo b Hb))
      as (px2 & -> & Hpx2 & Hl2 & _).
    cbn [bind]. edestruct (IH (Rle r px2 (r_line s) (r_pos s1 + 1) (r_off s) (r_len s))) as (s' & E' & W' & A & B & C).
    + unfold wf; cbn; destruct Hs as (?&?&?&?&?); repeat split; try easy; lia.
    + easy.
    + exists s'. split; [exact E'|]. split; [easy|]. split; [easy|]. split; [easy|]. cbn in C. lia.
Qed.

Lemma run4_safe alloc h w b : is_byte b -> forall k e s, wf alloc h s -> r_len s = w ->
  exists s', run4 k e b w s = Ok s' /\ wf alloc h s' /\ r_len s' = w /\ r_line s' = r_line s /\ r_in s' = r_in s.
Proof.
  intros Hb. induction k as [|k IH]; intros e s Hs Hw; cbn [run4].
  - exists s. repeat split; try apply Hs; auto.
  - destruct (w <=? r_pos s)%nat eqn:E; [exists s; repeat split; try apply Hs; auto|].
    destruct (out_set_ok alloc h s (r_pos s) (if e then b / 16 else b mod 16) Hs ltac:(lia)) as (px & -> & Hpx & Hl & _).
    { destruct e; [now apply nib_hi|now apply nib_lo]. }
    cbn [bind]. edestruct (IH (negb e) (Rle (r_in s) px (r_line s) (r_pos s + 1) (r_off s) (r_len s))) as (s' & E' & W' & A & B & C).
    + unfold wf; cbn; destruct Hs as (?&?&?&?&?); repeat split; try easy; lia.
    + easy.
    + exists s'. split; [exact E'|]. repeat (split; [easy|]). easy.
Qed.

Lemma set_row_ok alloc h w s input line pos : wf alloc h s -> (w * h <= alloc)%nat -> bytes input ->
  0 <= line < Z.of_nat h ->
  exists s', set_row w s input line pos = Ok (inl s') /\ wf alloc h s' /\ r_len s' = w /\ r_line s' = line /\
             r_in s' = input /\ r_pos s' = pos /\ r_pix s' = r_pix s /\ r_off s' = (Z.to_nat line * w)%nat.
Proof.
  intros (H1 & H2 & H3 & H4 & H5) Ha Hi Hl. unfold set_row.
  assert (Hx : (Z.to_nat line * w + w <= w * h)%nat) by (assert (Z.to_nat line < h)%nat by lia; nia).
  replace (_ <=? length (r_pix s))%nat with true by lia.
  eexists. split; [reflexivity|]. unfold wf; cbn. repeat split; try easy; lia.
Qed.

Lemma uadd_ok a b : Z.of_nat a + Z.of_nat b < 2 ^ 64 -> uadd a b = Ok (a + b)%nat.
Proof. intros H. unfold uadd. now replace (_ <? 2 ^ 64) with true by lia. Qed.

(** One turn at depth 4: no panic, and either the input shrinks or (at its end) the line goes down. *)
Lemma turn4_safe alloc h w s : wf alloc h s -> r_len s = w -> (w * h <= alloc)%nat -> (r_pos s <= w)%nat ->
  Z.of_nat w < 2 ^ 62 ->
  match turn4 w s with
  | Ok (inl s') => wf alloc h s' /\ r_len s' = w /\
                   (length (r_in s') + Z.to_nat (r_line s') < length (r_in s) + Z.to_nat (r_line s))%nat
  | Ok (inr px) => bytes px /\ length px = alloc
  | Err _ => True
  | Panic | Fuel => False
  end.
Proof.
  intros Hs Hw Ha Hp Hw2. pose proof Hs as (B1 & B2 & B3 & B4 & B5). unfold turn4.
  destruct (rd8_spec (r_in s) B1) as (code & r1 & -> & Hc & Hr1 & L1 & L1' & L1'' & N1).
  destruct (code =? 0) eqn:Ec.
  - destruct (rd8_spec r1 Hr1) as (sb & r2 & E2 & Hsb & Hr2 & L2 & L2' & L2'' & N2). rewrite E2.
    destruct (sb =? 0) eqn:Es0.
    + destruct (r_line s - 1 <? 0) eqn:El; [easy|].
      destruct (set_row_ok alloc h w s r2 (r_line s - 1) 0 Hs Ha Hr2 ltac:(lia)) as (s' & -> & W & A & B & C & _).
      split; [easy|]. split; [easy|]. rewrite B, C. lia.
    + assert (Hne : r_in s <> []).
      { intros E. rewrite E in L1'. destruct r1; [|cbn in L1'; lia]. cbn in E2. injection E2 as <- _. lia. }
      specialize (L1'' Hne).
      destruct (sb =? 1) eqn:Es1; [easy|].
      destruct (sb =? 2) eqn:Es2.
      * destruct (rd8_spec r2 Hr2) as (dx & r3 & -> & Hdx & Hr3 & L3 & L3' & _).
        destruct (rd8_spec r3 Hr3) as (dy & r4 & -> & Hdy & Hr4 & L4 & L4' & _).
        unfold is_byte in *. rewrite uadd_ok by lia. cbn [bind].
        destruct (r_line s - dy <? 0) eqn:El; [easy|].
        destruct (set_row_ok alloc h w s r4 (r_line s - dy) (r_pos s + Z.to_nat dx) Hs Ha Hr4 ltac:(lia))
          as (s' & -> & W & A & B & C & _).
        split; [easy|]. split; [easy|]. rewrite B, C. lia.
      * edestruct (abs4_safe alloc h w (sb mod 2 =? 1) (Z.to_nat ((sb + 1) / 2))
                    (Rle r2 (r_pix s) (r_line s) (r_pos s) (r_off s) (r_len s))) as (s' & -> & W & A & B & C).
        { unfold wf; cbn; repeat split; try easy; lia. }
        { easy. }
        cbn [bind]. split; [|split; [easy|]].
        { destruct W as (W1 & W2 & W3 & W4 & W5). unfold wf. cbn [r_in r_pix r_line r_off r_len].
          split; [now apply Forall_skipn'|]. repeat (split; [easy|]). easy. }
        cbn [r_in r_line] in *. rewrite skipn_length. rewrite B. lia.
  - assert (Hne : r_in s <> []) by (intros E; specialize (N1 E); lia). specialize (L1'' Hne).
    unfold is_byte in Hc. rewrite uadd_ok by lia. cbn [bind].
    destruct (w + 1 <? _)%nat; [easy|].
    destruct (rd8_spec r1 Hr1) as (b & r2 & -> & Hb & Hr2 & L2 & L2' & _).
    edestruct (run4_safe alloc h w b Hb (Z.to_nat code) true (Rle r2 (r_pix s) (r_line s) (r_pos s) (r_off s) (r_len s)))
      as (s' & -> & W & A & B & C).
    { unfold wf; cbn; repeat split; try easy; lia. }
    { easy. }
    cbn [bind]. split; [easy|]. split; [easy|]. rewrite B, C. cbn. lia.
Qed.

Lemma loop4_safe alloc h w : (w * h <= alloc)%nat -> Z.of_nat w < 2 ^ 62 -> forall fuel s, wf alloc h s -> r_len s = w ->
  (length (r_in s) + Z.to_nat (r_line s) < fuel)%nat ->
  match loop4 fuel w s with
  | Ok px => bytes px /\ length px = alloc
  | Err _ => True
  | Panic | Fuel => False
  end.
Proof.
  intros Ha Hw. induction fuel as [|f IH]; intros s Hs Hl Hf; [lia|]. cbn [loop4].
  destruct ((0 <=? r_line s) && (r_pos s <=? w)%nat) eqn:E; [|split; apply Hs].
  pose proof (turn4_safe alloc h w s Hs Hl Ha ltac:(lia) Hw) as T.
  destruct (turn4 w s) as [[s'|px]|e| |]; cbn [bind]; try easy.
  destruct T as (W & L & M). apply IH; [easy|easy|lia].
Qed.

Lemma read_many_spec k : forall l, bytes l -> exists vs r, read_many k l = (vs, r) /\ length vs = k /\ bytes vs /\ bytes r /\
  (length r <= length l)%nat.
Proof.
  induction k as [|k IH]; intros l Hl; cbn [read_many].
  - exists [], l. repeat split; try easy. apply Forall_nil.
  - destruct (rd8_spec l Hl) as (x & r & -> & Hx & Hr & _ & L & _).
    destruct (IH r Hr) as (vs & r' & -> & Hv & Bv & Br & L').
    exists (x :: vs), r'. split; [easy|]. split; [cbn; lia|]. split; [now apply Forall_cons|]. split; [easy|lia].
Qed.

Lemma repeat_bytes v n : is_byte v -> bytes (repeat v n).
Proof. intros H. apply Forall_forall. intros x Hx. now apply repeat_spec in Hx as ->. Qed.

Lemma concat_repeat_bytes vs n : bytes vs -> bytes (concat (repeat vs n)).
Proof. intros H. induction n; cbn; [apply Forall_nil|]. apply bytes_app. now split. Qed.

Lemma concat_repeat_length {A} (vs : list A) n : length (concat (repeat vs n)) = (n * length vs)%nat.
Proof. induction n; cbn; [easy|]. rewrite app_length. lia. Qed.

(** One turn at depths 8, 16, 32. [B] bounds the cursor: each byte of input moves it by at most 255. *)
Lemma turn8_safe alloc h w k s B : wf alloc h s -> (w * h <= alloc)%nat -> (1 <= k <= 4)%nat ->
  Z.of_nat (r_pos s) + 255 * Z.of_nat (length (r_in s)) <= B -> B + 2000 < 2 ^ 64 -> Z.of_nat alloc + 255 * Z.of_nat (length (r_in s)) <= B ->
  r_in s <> [] ->
  match turn8 k w s with
  | Ok (inl s') => wf alloc h s' /\ (length (r_in s') < length (r_in s))%nat /\
                   Z.of_nat (r_pos s') + 255 * Z.of_nat (length (r_in s')) <= B
  | Ok (inr px) => bytes px /\ length px = alloc
  | Err _ => True
  | Panic | Fuel => False
  end.
Proof.
  intros Hs Ha Hk Hp Hb HB Hne. pose proof Hs as (B1 & B2 & B3 & B4 & B5). unfold turn8.
  destruct (rd8_spec (r_in s) B1) as (p1 & r1 & -> & Hc & Hr1 & L1 & L1' & L1'' & N1).
  specialize (L1'' Hne).
  destruct (p1 =? 0) eqn:Ec.
  - destruct (rd8_spec r1 Hr1) as (p2 & r2 & -> & Hp2 & Hr2 & L2 & L2' & L2'' & N2).
    destruct (p2 =? 0) eqn:E0.
    + destruct (r_line s - 1 <? 0) eqn:El; [destruct (rd16be r2 =? 1); easy|].
      destruct (r_len s <? r_pos s)%nat eqn:Ep; [easy|].
      destruct (set_row_ok alloc h w s r2 (r_line s - 1) 0 Hs Ha Hr2 ltac:(lia)) as (s' & -> & W & A & Bb & C & D & _).
      split; [easy|]. rewrite C, D. split; lia.
    + destruct (p2 =? 1) eqn:E1; [easy|].
      destruct (p2 =? 2) eqn:E2.
      * destruct (rd8_spec r2 Hr2) as (dx & r3 & Er & Hdx & Hr3 & L3 & L3' & L3'' & N3). rewrite Er.
        destruct (rd8_spec r3 Hr3) as (dy & r4 & -> & Hdy & Hr4 & L4 & L4' & _).
        unfold is_byte in *. rewrite uadd_ok by lia. cbn [bind].
        destruct (r_line s - dy <? 0) eqn:El; [easy|].
        destruct (set_row_ok alloc h w s r4 (r_line s - dy) (r_pos s + Z.to_nat dx) Hs Ha Hr4 ltac:(lia))
          as (s' & -> & W & A & Bb & C & D & _).
        split; [easy|]. rewrite C, D. split; lia.
      * unfold is_byte in Hp2. set (n := Z.to_nat p2). assert (Hn : (n <= 255)%nat) by (unfold n; lia).
        clearbody n. assert (Hnk : (n * k <= 1020)%nat) by nia.
        rewrite uadd_ok by lia. cbn [bind].
        destruct (r_len s <? _)%nat eqn:Eo.
        { cbn [r_in r_pos]. rewrite skipn_length. split; [|split; lia].
          unfold wf; cbn. repeat split; try easy; try lia. now apply Forall_skipn'. }
        destruct (k =? 1)%nat eqn:Ek.
        { destruct (length r2 <? n)%nat eqn:Elen; [easy|].
          assert (k = 1%nat) as -> by lia.
          destruct (out_put_ok alloc h s (r_pos s) (firstn n r2) Hs) as (px & -> & P1 & P2 & _).
          { rewrite firstn_length. lia. }
          { now apply Forall_firstn'. }
          cbn [bind]. cbn [r_in r_pos]. rewrite !skipn_length.
          split; [|split; lia].
          unfold wf; cbn [r_in r_pix r_line r_off r_len]. split; [now apply Forall_skipn', Forall_skipn'|]. repeat split; try easy; lia. }
        { unfold groups. replace (r_pos s <=? r_len s)%nat with true by lia. cbn [bind].
          set (g := Nat.min n ((r_len s - r_pos s) / k)).
          assert (Hg : (g <= n)%nat) by (unfold g; lia). clearbody g.
          destruct (read_many_spec (g * k) r2 Hr2) as (vs & r3 & -> & Hv & Bv & Br & Lr).
          destruct (out_put_ok alloc h s (r_pos s) vs Hs) as (px & -> & P1 & P2 & _).
          { rewrite Hv. nia. }
          { easy. }
          cbn [bind]. cbn [r_in r_pos]. split; [|split; lia].
          unfold wf; cbn. repeat split; try easy; lia. }
  - unfold is_byte in Hc. set (n := Z.to_nat p1). assert (Hn : (n <= 255)%nat) by (unfold n; lia).
    clearbody n. assert (Hnk : (n * k <= 1020)%nat) by nia.
    rewrite uadd_ok by lia. cbn [bind].
    destruct (r_len s <? _)%nat eqn:Eo; [easy|].
    destruct (read_many_spec k r1 Hr1) as (pix & r2 & -> & Hv & Bv & Br & Lr).
    destruct (k =? 1)%nat eqn:Ek.
    + assert (k = 1%nat) as -> by lia.
      destruct (out_put_ok alloc h s (r_pos s) (repeat (getz pix 0) n) Hs) as (px & -> & P1 & P2 & _).
      { rewrite repeat_length. lia. }
      { apply repeat_bytes. destruct pix; [easy|]. now apply Forall_cons_iff in Bv as [? _]. }
      cbn [bind]. cbn [r_in r_pos]. split; [|split; lia].
      unfold wf; cbn. repeat split; try easy; lia.
    + unfold groups. replace (r_pos s <=? r_len s)%nat with true by lia. cbn [bind].
      set (g := Nat.min n ((r_len s - r_pos s) / k)).
      assert (Hg : (g <= n)%nat) by (unfold g; lia). clearbody g.
      destruct (out_put_ok alloc h s (r_pos s) (concat (repeat pix g)) Hs) as (px & -> & P1 & P2 & _).
      { rewrite concat_repeat_length, Hv. nia. }
      { now apply concat_repeat_bytes. }
      cbn [bind]. cbn [r_in r_pos]. split; [|split; lia].
      unfold wf; cbn. repeat split; try easy; lia.
Qed.

Lemma loop8_safe alloc h w k B : (w * h <= alloc)%nat -> (1 <= k <= 4)%nat -> B + 2000 < 2 ^ 64 -> forall fuel s, wf alloc h s ->
  Z.of_nat (r_pos s) + 255 * Z.of_nat (length (r_in s)) <= B -> Z.of_nat alloc + 255 * Z.of_nat (length (r_in s)) <= B ->
  (length (r_in s) <= fuel)%nat ->
  match loop8 fuel k w s with
  | Ok px => bytes px /\ length px = alloc
  | Err _ => True
  | Panic | Fuel => False
  end.
Proof.
  intros Ha Hk HB. induction fuel as [|f IH]; intros s Hs Hp Hq Hf.
  - destruct (r_in s) eqn:E; [|cbn in Hf; lia]. cbn [loop8]. rewrite E. split; apply Hs.
  - cbn [loop8]. destruct (r_in s) as [|x r] eqn:E; [split; apply Hs|]. rewrite <- E in *.
    pose proof (turn8_safe alloc h w k s B Hs Ha Hk Hp HB Hq ltac:(rewrite E; discriminate)) as T.
    destruct (turn8 k w s) as [[s'|px]|e| |]; cbn [bind]; try easy.
    destruct T as (W & L & M). apply IH; try easy; lia.
Qed.

Lemma as_i32_small x : 0 <= x < 2 ^ 31 -> as_i32 x = x.
Proof.
  intros H. unfold as_i32. rewrite Z.mod_small by lia. now replace (x <? 2 ^ 31) with true by lia.
Qed.

Lemma repeat0_bytes n : bytes (repeat 0 n).
Proof. apply repeat_bytes. unfold is_byte. lia. Qed.

(** ** Meaning of run-length streams *)

Definition shows (w h : nat) (px : list Z) (c : canvas) : Prop :=
  length px = (w * h)%nat /\
  forall x y, (x < w)%nat -> (y < h)%nat -> nth ((h - 1 - y) * w + x) px 0 = c x y.

Definition at_ (w h : nat) (s : rle) (input : list Z) (x y : nat) (c : canvas) : Prop :=
  r_in s = input /\ shows w h (r_pix s) c /\ r_line s = Z.of_nat (h - 1 - y) /\ (y < h)%nat /\ r_pos s = x /\
  r_off s = ((h - 1 - y) * w)%nat /\ r_len s = w.

Lemma row_bound w h y : (y < h)%nat -> ((h - 1 - y) * w + w <= w * h)%nat.
Proof. intros H. assert (h - 1 - y + 1 <= h)%nat by lia. nia. Qed.

Lemma shows_put w h px c x y vs : shows w h px c -> (y < h)%nat -> (x + length vs <= w)%nat ->
  shows w h (put px ((h - 1 - y) * w + x) vs) (put_px vs x y c).
Proof.
  intros [Hl Hn] Hy Hx. pose proof (row_bound w h y Hy) as RB. split; [rewrite put_length; lia|].
  intros x' y' Hx' Hy'. rewrite put_nth by lia. unfold put_px.
  destruct (Nat.eq_dec y' y) as [->|Ne].
  - rewrite Nat.eqb_refl. cbn [andb].
    set (o := ((h - 1 - y) * w)%nat) in *. 
    destruct ((x <=? x')%nat && (x' <? x + length vs)%nat) eqn:E.
    + replace ((o + x <=? o + x')%nat && (o + x' <? o + x + length vs)%nat) with true by lia. f_equal. lia.
    + replace ((o + x <=? o + x')%nat && (o + x' <? o + x + length vs)%nat) with false by lia. unfold o. now apply Hn.
  - replace (y' =? y)%nat with false by lia. cbn [andb].
    assert (Hd : ((h - 1 - y') * w + x' < (h - 1 - y) * w + x \/ (h - 1 - y) * w + x + length vs <= (h - 1 - y') * w + x')%nat).
    { assert (h - 1 - y' < h - 1 - y \/ h - 1 - y < h - 1 - y')%nat as [D|D] by lia.
      - left. assert ((h - 1 - y') * w + w <= (h - 1 - y) * w)%nat by nia. lia.
      - right. assert ((h - 1 - y) * w + w <= (h - 1 - y') * w)%nat by nia. lia. }
    match goal with |- context [if ?b then _ else _] => replace b with false by lia end. now apply Hn.
Qed.

Lemma put_nil {A} (l : list A) i : put l i [] = l.
Proof. unfold put. cbn. rewrite Nat.add_0_r. apply firstn_skipn. Qed.

Lemma put_upd (l : list Z) i a vs : (i + 1 + length vs <= length l)%nat ->
  put (upd l i a) (i + 1) vs = put l i (a :: vs).
Proof.
  intros H. apply (list_eq_nth 0).
  - rewrite !put_length; rewrite ?upd_length; cbn [length]; lia.
  - intros j Hj. rewrite put_length in Hj by (rewrite upd_length; lia). rewrite upd_length in Hj.
    rewrite !put_nth by (rewrite ?upd_length; cbn [length]; lia). cbn [length].
    destruct ((i <=? j)%nat && (j <? i + S (length vs))%nat) eqn:E.
    + destruct (Nat.eq_dec j i) as [->|Ne].
      * replace ((i + 1 <=? i)%nat && _) with false by lia. rewrite upd_nth_same by lia. now rewrite Nat.sub_diag.
      * replace ((i + 1 <=? j)%nat && (j <? i + 1 + length vs)%nat) with true by lia.
        replace (j - i)%nat with (S (j - (i + 1))) by lia. easy.
    + replace ((i + 1 <=? j)%nat && (j <? i + 1 + length vs)%nat) with false by lia.
      apply upd_nth_other. lia.
Qed.

Lemma alternate_length n a b : length (alternate n a b) = n.
Proof. revert a b. induction n; intros; cbn; [easy|]. now rewrite IHn. Qed.

Lemma run4_put b w : forall k e s, (r_pos s + k <= w)%nat -> r_len s = w -> (r_off s + w <= length (r_pix s))%nat ->
  run4 k e b w s = Ok (Rle (r_in s) (put (r_pix s) (r_off s + r_pos s)
                         (alternate k (if e then b / 16 else b mod 16) (if e then b mod 16 else b / 16)))
                         (r_line s) (r_pos s + k) (r_off s) (r_len s)).
Proof.
  induction k as [|k IH]; intros e s Hp Hl Ho; cbn [run4 alternate].
  - rewrite put_nil, Nat.add_0_r. now destruct s.
  - replace (w <=? r_pos s)%nat with false by lia. unfold out_set. replace (r_pos s <? r_len s)%nat with true by lia.
    rewrite set_at_ok by lia. cbn [bind]. rewrite IH; cbn [r_in r_pix r_line r_pos r_off r_len]; [|lia|easy|rewrite upd_length; lia].
    f_equal. f_equal; [|lia]. rewrite Nat.add_assoc, put_upd by (rewrite alternate_length; lia).
    now destruct e.
Qed.

Lemma list_ind2 {A} (P : list A -> Prop) : P [] -> (forall a, P [a]) -> (forall a b l, P l -> P (a :: b :: l)) -> forall l, P l.
Proof.
  intros H0 H1 H2. assert (H : forall l, P l /\ forall a, P (a :: l)).
  { induction l as [|a l [IH1 IH2]]; split; auto. }
  intros l. apply H.
Qed.

Lemma abs4_put w odd : forall vs s rest, Forall (fun v => 0 <= v < 16) vs -> odd = Nat.odd (length vs) ->
  r_in s = pack4 vs ++ rest ->
  (r_pos s + length vs <= w)%nat -> r_len s = w -> (r_off s + w <= length (r_pix s))%nat ->
  abs4 ((length vs + 1) / 2) odd w s =
    Ok (Rle rest (put (r_pix s) (r_off s + r_pos s) vs) (r_line s) (r_pos s + length vs) (r_off s) (r_len s)).
Proof.
  intros vs. induction vs as [|a|a b vs IH] using list_ind2; intros s rest Hv Ho Hi Hp Hl Hpx.
  - cbn. rewrite put_nil, Nat.add_0_r. cbn in Hi. subst rest. now destruct s.
  - apply Forall_cons_iff in Hv as [Ha _]. cbn [pack4 app] in Hi. cbn [length] in *. change ((1 + 1) / 2)%nat with 1%nat.
    cbn [abs4]. replace (w <=? r_pos s)%nat with false by lia. rewrite Hi. cbn [rd8].
    unfold out_set. replace (r_pos s <? r_len s)%nat with true by lia. rewrite set_at_ok by lia. cbn [bind].
    subst odd. cbn [Nat.odd Nat.even negb andb Nat.eqb].
    rewrite <- (put_upd (r_pix s) (r_off s + r_pos s) a []) by (cbn; lia). rewrite put_nil.
    replace (16 * a / 16) with a by lia. easy.
  - apply Forall_cons_iff in Hv as [Ha Hv]. apply Forall_cons_iff in Hv as [Hb Hv].
    cbn [pack4 app] in Hi. cbn [length] in *.
    replace ((S (S (length vs)) + 1) / 2)%nat with (S ((length vs + 1) / 2)) by lia.
    cbn [abs4]. replace (w <=? r_pos s)%nat with false by lia. rewrite Hi. cbn [rd8].
    unfold out_set at 1. replace (r_pos s <? r_len s)%nat with true by lia. rewrite set_at_ok by lia. cbn [bind r_pos].
    replace (((length vs + 1) / 2 =? 0)%nat && odd) with false.
    2:{ destruct vs as [|v vs]; cbn [length] in *; [subst odd; reflexivity|]. symmetry. apply andb_false_intro1. lia. }
    replace (w <=? r_pos s + 1)%nat with false by lia.
    unfold out_set. cbn [r_pix r_len r_off]. replace (r_pos s + 1 <? r_len s)%nat with true by lia.
    rewrite set_at_ok by (rewrite upd_length; lia). cbn [bind].
    rewrite (IH _ rest Hv); cbn [r_in r_pix r_line r_pos r_off r_len].
    + f_equal. f_equal; [|lia].
      replace (16 * a + b) with (b + a * 16) by lia. rewrite Z.div_add, Z_mod_plus_full by lia.
      rewrite Z.div_small, Z.mod_small by lia. cbn [Z.add].
      replace (r_off s + (r_pos s + 1))%nat with (r_off s + r_pos s + 1)%nat by lia.
      replace (r_off s + (r_pos s + 1 + 1))%nat with (r_off s + r_pos s + 1 + 1)%nat by lia.
      rewrite put_upd by (rewrite upd_length; lia). rewrite put_upd by (cbn [length]; lia). easy.
    + subst odd. reflexivity.
    + reflexivity.
    + lia.
    + easy.
    + rewrite !upd_length. lia.
Qed.

(** The next state of the drawing. *)
Definition step_x (a : act) (x : nat) : nat :=
  match a with Put vs => x + length vs | NewLine => 0 | Move dx _ => x + dx end.
Definition step_y (a : act) (y : nat) : nat :=
  match a with Put _ => y | NewLine => y + 1 | Move _ dy => y + dy end.
Definition step_c (a : act) (x y : nat) (c : canvas) : canvas :=
  match a with Put vs => put_px vs x y c | _ => c end.
Definition step_ok (w h : nat) (a : act) (x y : nat) : Prop :=
  match a with Put vs => (x + length vs <= w)%nat | NewLine => (y + 1 < h)%nat | Move dx dy => (x + dx <= w)%nat /\ (y + dy < h)%nat end.

Lemma set_row_at w h s rest x y y' c : at_ w h s (r_in s) x y c -> (y' < h)%nat -> forall x',
  exists s', set_row w s rest (Z.of_nat (h - 1 - y')) x' = Ok (inl s') /\ at_ w h s' rest x' y' c.
Proof.
  intros (H1 & H2 & H3 & H4 & H5 & H6 & H7) Hy x'. unfold set_row. rewrite Nat2Z.id.
  pose proof (row_bound w h y' Hy). replace (_ <=? length (r_pix s))%nat with true by (rewrite (proj1 H2); lia).
  eexists. split; [reflexivity|]. unfold at_. cbn. repeat (split; [easy|]). easy.
Qed.

Lemma at_in w h s i x y c : at_ w h s i x y c -> at_ w h s (r_in s) x y c.
Proof. intros (H1 & H). split; [easy|exact H]. Qed.

Lemma turn8_cmd w h s cm rest x y c : cmd_ok 256 cm -> step_ok w h (act8 cm) x y -> (x <= w)%nat -> Z.of_nat w < 2 ^ 60 ->
  at_ w h s (enc8 cm ++ rest) x y c ->
  exists s', turn8 1 w s = Ok (inl s') /\ at_ w h s' rest (step_x (act8 cm) x) (step_y (act8 cm) y) (step_c (act8 cm) x y c).
Proof.
  intros Hok Hst Hx Hw Hat. pose proof Hat as (H1 & H2 & H3 & H4 & H5 & H6 & H7).
  pose proof (row_bound w h y H4) as RB. pose proof (proj1 H2) as HL.
  unfold turn8. rewrite H1.
  destruct cm as [n v|vs| |dx dy]; cbn [enc8 act8 cmd_ok step_ok app step_x step_y step_c rd8] in *.
  - destruct Hok as [Hn Hv]. replace (Z.of_nat n =? 0) with false by lia. rewrite Nat2Z.id, Nat.mul_1_r.
    rewrite repeat_length in *. rewrite uadd_ok by lia. cbn [bind].
    replace (r_len s <? r_pos s + n)%nat with false by lia.
    cbn [read_many rd8]. change ((1 =? 1)%nat) with true. cbv iota. unfold out_put. rewrite repeat_length.
    replace (r_pos s + n <=? r_len s)%nat with true by lia. rewrite put_slice_ok by (rewrite repeat_length; lia). cbn [bind].
    eexists. split; [reflexivity|]. unfold at_. cbn [r_in r_pix r_line r_pos r_off r_len].
    split; [easy|]. split; [|repeat (split; [easy|]); repeat split; try easy; lia].
    rewrite H6, H5. apply shows_put; try easy. rewrite repeat_length. lia.
  - destruct Hok as [Hn Hv]. cbn [rd8]. replace (0 =? 0) with true by lia.
    set (N := Z.of_nat (length vs)) in *. replace (N =? 0) with false by lia. replace (N =? 1) with false by lia.
    replace (N =? 2) with false by lia. rewrite Nat.mul_1_r. unfold N. rewrite Nat2Z.id.
    rewrite uadd_ok by lia. cbn [bind]. replace (r_len s <? r_pos s + length vs)%nat with false by lia.
    change ((1 =? 1)%nat) with true. cbv iota.
    replace (length ((vs ++ repeat 0%Z (length vs mod 2)) ++ rest) <? length vs)%nat with false by (rewrite !app_length; lia).
    rewrite <- app_assoc, firstn_app_exact by easy. rewrite skipn_app_exact by easy.
    unfold out_put. replace (r_pos s + length vs <=? r_len s)%nat with true by lia.
    rewrite put_slice_ok by lia. cbn [bind]. eexists. split; [reflexivity|].
    unfold at_. cbn [r_in r_pix r_line r_pos r_off r_len]. split.
    { apply skipn_app_exact. rewrite repeat_length. rewrite <- (Nat2Z.inj_mod _ 2).
      pose proof (Nat.mod_upper_bound (length vs) 2 ltac:(lia)) as Hm.
      destruct (length vs mod 2)%nat as [|[|]]; [reflexivity|reflexivity|lia]. }
    split; [|repeat split; try easy; lia]. rewrite H6, H5. now apply shows_put.
  - cbn [rd8]. change (0 =? 0) with true. cbv iota. rewrite H3.
    replace (Z.of_nat (h - 1 - y) - 1 <? 0) with false by lia.
    replace (r_len s <? r_pos s)%nat with false by lia.
    replace (Z.of_nat (h - 1 - y) - 1) with (Z.of_nat (h - 1 - (y + 1))) by lia.
    apply set_row_at with (x := x) (y := y); [now apply at_in in Hat|lia].
  - cbn [rd8]. change (0 =? 0) with true. change (2 =? 0) with false. change (2 =? 1) with false. change (2 =? 2) with true.
    cbv iota. rewrite !Nat2Z.id. rewrite uadd_ok by lia. cbn [bind]. rewrite H3, H5.
    replace (Z.of_nat (h - 1 - y) - Z.of_nat dy <? 0) with false by lia.
    replace (Z.of_nat (h - 1 - y) - Z.of_nat dy) with (Z.of_nat (h - 1 - (y + dy))) by lia.
    apply set_row_at with (x := x) (y := y); [now apply at_in in Hat|lia].
Qed.

Lemma pack4_length vs : length (pack4 vs) = ((length vs + 1) / 2)%nat.
Proof.
  induction vs as [| |a b vs IH] using list_ind2; [easy|easy|]. cbn [pack4 length]. rewrite IH. lia.
Qed.

Lemma turn4_cmd w h s cm rest x y c : cmd_ok 16 cm -> step_ok w h (act4 cm) x y -> (x <= w)%nat -> Z.of_nat w < 2 ^ 60 ->
  at_ w h s (enc4 cm ++ rest) x y c ->
  exists s', turn4 w s = Ok (inl s') /\ at_ w h s' rest (step_x (act4 cm) x) (step_y (act4 cm) y) (step_c (act4 cm) x y c).
Proof.
  intros Hok Hst Hx Hw Hat. pose proof Hat as (H1 & H2 & H3 & H4 & H5 & H6 & H7).
  pose proof (row_bound w h y H4) as RB. pose proof (proj1 H2) as HL.
  unfold turn4. rewrite H1.
  destruct cm as [n v|vs| |dx dy]; cbn [enc4 act4 cmd_ok step_ok app step_x step_y step_c rd8] in *.
  - destruct Hok as [Hn Hv]. replace (Z.of_nat n =? 0) with false by lia. rewrite Nat2Z.id.
    rewrite alternate_length in *. rewrite uadd_ok by lia. cbn [bind].
    replace (w + 1 <? r_pos s + n)%nat with false by lia.
    rewrite run4_put; cbn [r_in r_pix r_line r_pos r_off r_len]; [|lia|easy|lia]. cbn [bind].
    eexists. split; [reflexivity|]. unfold at_. cbn [r_in r_pix r_line r_pos r_off r_len].
    split; [easy|]. split; [|repeat (split; [easy|]); repeat split; try easy; lia].
    rewrite H6, H5. apply shows_put; try easy. rewrite alternate_length. lia.
  - destruct Hok as [Hn Hv]. cbn [rd8]. change (0 =? 0) with true. cbv iota.
    set (N := Z.of_nat (length vs)) in *. replace (N =? 0) with false by lia. replace (N =? 1) with false by lia.
    replace (N =? 2) with false by lia.
    replace (Z.to_nat ((N + 1) / 2)) with ((length vs + 1) / 2)%nat by (unfold N; lia).
    rewrite (abs4_put w _ vs _ (repeat 0 (length (pack4 vs) mod 2) ++ rest)); cbn [r_in r_pix r_line r_pos r_off r_len].
    + cbn [bind r_in r_pix r_line r_pos r_off r_len]. eexists. split; [reflexivity|].
      unfold at_. cbn [r_in r_pix r_line r_pos r_off r_len]. split.
      { apply skipn_app_exact. now rewrite repeat_length, pack4_length. }
      split; [|repeat split; try easy; lia]. rewrite H6, H5. now apply shows_put.
    + easy.
    + unfold N.
      destruct (Nat.odd (length vs)) eqn:Eo.
      * apply Nat.odd_spec in Eo as [q Hq]. lia.
      * rewrite <- Nat.negb_even in Eo. apply negb_false_iff, Nat.even_spec in Eo as [q Hq]. lia.
    + now rewrite <- app_assoc.
    + lia.
    + easy.
    + lia.
  - cbn [rd8]. change (0 =? 0) with true. cbv iota. rewrite H3.
    replace (Z.of_nat (h - 1 - y) - 1 <? 0) with false by lia.
    replace (Z.of_nat (h - 1 - y) - 1) with (Z.of_nat (h - 1 - (y + 1))) by lia.
    apply set_row_at with (x := x) (y := y); [now apply at_in in Hat|lia].
  - cbn [rd8]. change (0 =? 0) with true. change (2 =? 0) with false. change (2 =? 1) with false. change (2 =? 2) with true.
    cbv iota. rewrite !Nat2Z.id. rewrite uadd_ok by lia. cbn [bind]. rewrite H3, H5.
    replace (Z.of_nat (h - 1 - y) - Z.of_nat dy <? 0) with false by lia.
    replace (Z.of_nat (h - 1 - y) - Z.of_nat dy) with (Z.of_nat (h - 1 - (y + dy))) by lia.
    apply set_row_at with (x := x) (y := y); [now apply at_in in Hat|lia].
Qed.

Lemma fits_step w h a l x y : fits w h (a :: l) x y -> step_ok w h a x y /\ fits w h l (step_x a x) (step_y a y).
Proof. destruct a; cbn; tauto. Qed.
Lemma draw_step a l x y c : draw (a :: l) x y c = draw l (step_x a x) (step_y a y) (step_c a x y c).
Proof. now destruct a. Qed.
Lemma step_x_le w h a x y : step_ok w h a x y -> (step_x a x <= w)%nat.
Proof. destruct a; cbn; lia. Qed.

(** Where the drawing ends. *)
Fixpoint end_x (l : list act) (x : nat) : nat := match l with [] => x | a :: r => end_x r (step_x a x) end.
Fixpoint end_y (l : list act) (y : nat) : nat := match l with [] => y | a :: r => end_y r (step_y a y) end.

Lemma enc8_nonempty c : enc8 c <> [].
Proof. destruct c; discriminate. Qed.
Lemma enc4_nonempty c : (1 <= length (enc4 c))%nat.
Proof. destruct c; cbn; lia. Qed.

(** Running the loop over a whole command list leaves it in the state the drawing describes. *)
Lemma loop8_cmds w h tail : Z.of_nat w < 2 ^ 60 -> forall l s x y c, Forall (cmd_ok 256) l -> fits w h (map act8 l) x y -> (x <= w)%nat ->
  at_ w h s (stream8 l ++ tail) x y c -> forall fuel, (length (stream8 l ++ tail) <= fuel)%nat ->
  exists s' fuel', loop8 fuel 1 w s = loop8 fuel' 1 w s' /\ (length tail <= fuel')%nat /\
    at_ w h s' tail (end_x (map act8 l) x) (end_y (map act8 l) y) (draw (map act8 l) x y c) /\ (end_x (map act8 l) x <= w)%nat.
Proof.
  intros Hw. induction l as [|cm l IH]; intros s x y c Hok Hf Hx Hat fuel Hfu.
  - exists s, fuel. repeat split; try easy; apply Hat.
  - apply Forall_cons_iff in Hok as [Ho Hok]. cbn [map] in Hf. apply fits_step in Hf as [Hs Hf].
    unfold stream8 in Hat, Hfu. cbn [map concat] in Hat, Hfu. rewrite <- app_assoc in Hat, Hfu. fold (stream8 l) in Hat, Hfu.
    destruct (turn8_cmd w h s cm _ x y c Ho Hs Hx Hw Hat) as (s1 & E1 & A1).
    destruct fuel as [|f]; [exfalso; rewrite app_length in Hfu; pose proof (enc8_nonempty cm); destruct (enc8 cm); cbn in *; [easy|lia]|].
    destruct (IH s1 _ _ _ Hok Hf (step_x_le _ _ _ _ _ Hs) A1 f) as (s' & f' & E & L & A & X).
    { rewrite app_length in Hfu. pose proof (enc8_nonempty cm). destruct (enc8 cm); cbn [length] in *; [easy|lia]. }
    exists s', f'. split; [|split; [exact L|]].
    + cbn [loop8]. destruct (r_in s) eqn:Ei.
      { destruct Hat as [Hi _]. rewrite Ei in Hi. pose proof (enc8_nonempty cm). destruct (enc8 cm); easy. }
      rewrite E1. cbn [bind]. exact E.
    + cbn [map]. rewrite draw_step. cbn [end_x end_y]. now split.
Qed.

Lemma loop4_cmds w h tail : Z.of_nat w < 2 ^ 60 -> forall l s x y c, Forall (cmd_ok 16) l -> fits w h (map act4 l) x y -> (x <= w)%nat ->
  at_ w h s (stream4 l ++ tail) x y c -> forall fuel, (length (stream4 l ++ tail) <= fuel)%nat ->
  exists s' fuel', loop4 fuel w s = loop4 fuel' w s' /\ (length tail <= fuel')%nat /\
    at_ w h s' tail (end_x (map act4 l) x) (end_y (map act4 l) y) (draw (map act4 l) x y c) /\ (end_x (map act4 l) x <= w)%nat.
Proof.
  intros Hw. induction l as [|cm l IH]; intros s x y c Hok Hf Hx Hat fuel Hfu.
  - exists s, fuel. repeat split; try easy; apply Hat.
  - apply Forall_cons_iff in Hok as [Ho Hok]. cbn [map] in Hf. apply fits_step in Hf as [Hs Hf].
    unfold stream4 in Hat, Hfu. cbn [map concat] in Hat, Hfu. rewrite <- app_assoc in Hat, Hfu. fold (stream4 l) in Hat, Hfu.
    destruct (turn4_cmd w h s cm _ x y c Ho Hs Hx Hw Hat) as (s1 & E1 & A1).
    pose proof (enc4_nonempty cm) as Hn. rewrite app_length in Hfu.
    destruct fuel as [|f]; [lia|].
    destruct (IH s1 _ _ _ Hok Hf (step_x_le _ _ _ _ _ Hs) A1 f ltac:(lia)) as (s' & f' & E & L & A & X).
    exists s', f'. split; [|split; [exact L|]].
    + cbn [loop4]. destruct Hat as (_ & _ & H3 & H4 & H5 & _).
      replace ((0 <=? r_line s) && (r_pos s <=? w)%nat) with true by lia.
      rewrite E1. cbn [bind]. exact E.
    + cbn [map]. rewrite draw_step. cbn [end_x end_y]. now split.
Qed.

Lemma shows_blank w h : shows w h (repeat 0 (w * h)) blank.
Proof. split; [apply repeat_length|]. intros. unfold blank. apply nth_repeat. Qed.

Lemma decode_rle_init d w h data : (d = 4 \/ d = 8) -> (0 < h)%nat -> Z.of_nat h <= 2 ^ 31 -> Z.of_nat w * Z.of_nat h < 2 ^ 60 ->
  exists s, at_ w h s data 0 0 blank /\
    decode_rle d w h data = if d =? 4 then loop4 (length data + (h - 1) + 1) w s else loop8 (length data) 1 w s.
Proof.
  intros Hd Hh Hh2 Hwh. unfold decode_rle. rewrite as_i32_small by lia.
  replace (if d <? 8 then 8 else d) with 8 by (destruct Hd as [->| ->]; easy).
  set (A := Z.of_nat w * Z.of_nat h) in *.
  replace ((2 ^ 64 <=? A) || (2 ^ 64 <=? A * 8) || (2 ^ 64 <=? A * 8 + 7)) with false by lia.
  replace (Z.to_nat ((A * 8 + 7) / 8)) with (w * h)%nat by (unfold A; lia).
  replace (h =? 0)%nat with false by lia. replace (Z.of_nat h - 1 <? 0) with false by lia.
  replace (Z.to_nat (Z.of_nat h - 1)) with (h - 1)%nat by lia.
  assert (RB : ((h - 1) * w + w = w * h)%nat) by (destruct h; [lia|]; replace (S h - 1)%nat with h by lia; lia).
  replace (w * h <? (h - 1) * w)%nat with false by lia.
  replace (negb _) with false by (destruct Hd as [->| ->]; easy).
  exists (Rle data (repeat 0 (w * h)) (Z.of_nat h - 1) 0 ((h - 1) * w) (w * h - (h - 1) * w)). split.
  - unfold at_. cbn [r_in r_pix r_line r_pos r_off r_len]. split; [easy|]. split; [apply shows_blank|].
    rewrite Nat.sub_0_r. repeat split; lia.
  - destruct Hd as [->| ->]; [easy|]. cbn [Z.eqb]. easy.
Qed.

Lemma rle8_meaning w h l junk : (0 < h)%nat -> Z.of_nat h <= 2 ^ 31 -> (0 < w)%nat -> Z.of_nat w * Z.of_nat h < 2 ^ 60 ->
  Forall (cmd_ok 256) l -> fits w h (map act8 l) 0 0 ->
  exists px, decode_rle 8 w h (stream8 l ++ [0; 1] ++ junk) = Ok px /\ shows w h px (draw (map act8 l) 0 0 blank).
Proof.
  intros Hh Hh2 Hw Hwh Hok Hf.
  destruct (decode_rle_init 8 w h (stream8 l ++ [0; 1] ++ junk) ltac:(now right) Hh Hh2 Hwh) as (s & A & ->).
  cbn [Z.eqb].
  assert (Hw60 : Z.of_nat w < 2 ^ 60) by nia.
  destruct (loop8_cmds w h ([0; 1] ++ junk) Hw60 l s _ _ _ Hok Hf ltac:(lia) A _ (le_n _)) as (s' & f & E & L & A' & _).
  change (Z.pos 8 =? 4) with false. cbv iota. rewrite E. destruct f as [|f]; [cbn in L; lia|].
  cbn [loop8]. destruct A' as (Hi & Hs & _). unfold turn8. rewrite Hi. cbn [app rd8].
  change (0 =? 0) with true. change (1 =? 0) with false. change (1 =? 1) with true. cbn [bind].
  exists (r_pix s'). now split.
Qed.

(** A line end after the last row is accepted before the end-of-bitmap mark (RLE8). *)
Lemma rle8_meaning_eol w h l junk : (0 < h)%nat -> Z.of_nat h <= 2 ^ 31 -> (0 < w)%nat -> Z.of_nat w * Z.of_nat h < 2 ^ 60 ->
  Forall (cmd_ok 256) l -> fits w h (map act8 l) 0 0 -> end_y (map act8 l) 0 = (h - 1)%nat ->
  exists px, decode_rle 8 w h (stream8 l ++ [0; 0; 0; 1] ++ junk) = Ok px /\ shows w h px (draw (map act8 l) 0 0 blank).
Proof.
  intros Hh Hh2 Hw Hwh Hok Hf He.
  destruct (decode_rle_init 8 w h (stream8 l ++ [0; 0; 0; 1] ++ junk) ltac:(now right) Hh Hh2 Hwh) as (s & A & ->).
  assert (Hw60 : Z.of_nat w < 2 ^ 60) by nia.
  destruct (loop8_cmds w h ([0; 0; 0; 1] ++ junk) Hw60 l s _ _ _ Hok Hf ltac:(lia) A _ (le_n _)) as (s' & f & E & L & A' & _).
  change (Z.pos 8 =? 4) with false. cbv iota. rewrite E. destruct f as [|f]; [cbn in L; lia|].
  cbn [loop8]. destruct A' as (Hi & Hs & Hl & _). unfold turn8. rewrite Hi. cbn [app rd8].
  change (0 =? 0) with true. rewrite Hl, He. cbv iota. replace (Z.of_nat (h - 1 - (h - 1)) - 1 <? 0) with true by lia.
  cbn [rd16be rd8]. change (256 * 0 + 1 =? 1) with true. cbn [bind].
  exists (r_pix s'). now split.
Qed.

Lemma rle4_meaning w h l junk : (0 < h)%nat -> Z.of_nat h <= 2 ^ 31 -> (0 < w)%nat -> Z.of_nat w * Z.of_nat h < 2 ^ 60 ->
  Forall (cmd_ok 16) l -> fits w h (map act4 l) 0 0 ->
  exists px, decode_rle 4 w h (stream4 l ++ [0; 1] ++ junk) = Ok px /\ shows w h px (draw (map act4 l) 0 0 blank).
Proof.
  intros Hh Hh2 Hw Hwh Hok Hf.
  destruct (decode_rle_init 4 w h (stream4 l ++ [0; 1] ++ junk) ltac:(now left) Hh Hh2 Hwh) as (s & A & ->).
  assert (Hw60 : Z.of_nat w < 2 ^ 60) by nia.
  change (4 =? 4) with true. cbv iota.
  destruct (loop4_cmds w h ([0; 1] ++ junk) Hw60 l s _ _ _ Hok Hf ltac:(lia) A (length (stream4 l ++ [0; 1] ++ junk) + (h - 1) + 1) ltac:(lia)) as (s' & f & E & L & A' & X).
  rewrite E. destruct f as [|f]; [cbn in L; lia|].
  cbn [loop4]. destruct A' as (Hi & Hs & Hl & Hy & Hp & _).
  replace ((0 <=? r_line s') && (r_pos s' <=? w)%nat) with true by lia.
  unfold turn4. rewrite Hi. cbn [app rd8].
  change (0 =? 0) with true. change (1 =? 0) with false. change (1 =? 1) with true. cbn [bind].
  exists (r_pix s'). now split.
Qed.

(** ** Row flips *)

Lemma slice_len {A} (l : list A) i n : (i + n <= length l)%nat -> length (slice l i n) = n.
Proof. apply slice_length. Qed.

Lemma swap_rows_nth len h : (0 < len)%nat -> forall k i buf, length buf = (h * len)%nat -> (2 * (i + k) <= h)%nat ->
  length (swap_rows k len i buf) = (h * len)%nat /\
  forall r c, (r < h)%nat -> (c < len)%nat ->
    nth (r * len + c) (swap_rows k len i buf) 0 =
    nth ((if ((i <=? r) && (r <? i + k) || (i <=? h - 1 - r) && (h - 1 - r <? i + k))%nat then h - 1 - r else r) * len + c) buf 0.
Proof.
  intros Hlen. induction k as [|k IH]; intros i buf Hb Hk; cbn [swap_rows].
  - split; [easy|]. intros r c Hr Hc. 
    replace ((i <=? r) && (r <? i + 0) || (i <=? h - 1 - r) && (h - 1 - r <? i + 0))%nat with false by lia. easy.
  - set (j := (length buf - (i + 1) * len)%nat).
    assert (Hj : j = ((h - 1 - i) * len)%nat) by (unfold j; rewrite Hb; nia).
    assert (Hij : ((i + 1) * len <= (h - 1 - i) * len)%nat) by nia.
    assert (Hjb : ((h - 1 - i) * len + len = (h - i) * len)%nat) by (replace (h - i)%nat with (h - 1 - i + 1)%nat by lia; lia).
    assert (Hjb2 : ((h - i) * len <= h * len)%nat) by nia.
    assert (Hi1 : (i * len + len = (i + 1) * len)%nat) by lia.
    set (top := slice buf (i * len) len). set (bot := slice buf j len).
    assert (Lt : length top = len) by (apply slice_length; lia).
    assert (Lb : length bot = len) by (apply slice_length; lia).
    set (b1 := put buf (i * len) bot). assert (L1 : length b1 = (h * len)%nat) by (unfold b1; rewrite put_length; lia).
    set (b2 := put b1 j top). assert (L2 : length b2 = (h * len)%nat) by (unfold b2; rewrite put_length; lia).
    destruct (IH (i + 1)%nat b2 L2 ltac:(lia)) as [IL IN]. split; [exact IL|].
    intros r c Hr Hc. rewrite IN by easy. clear IN IL IH.
    assert (Hrow : forall q, (q < h)%nat -> nth (q * len + c) b2 0 =
              nth ((if (q =? i)%nat || (q =? h - 1 - i)%nat then h - 1 - q else q) * len + c) buf 0).
    { intros q Hq. unfold b2. rewrite put_nth by lia. unfold b1. rewrite put_nth by lia.
      assert (Hdis : forall a b, (a < b)%nat -> (a * len + len <= b * len)%nat) by (intros; nia).
      destruct (Nat.eq_dec q (h - 1 - i)) as [->|N1].
      - replace ((j <=? (h - 1 - i) * len + c) && ((h - 1 - i) * len + c <? j + length top))%nat with true by lia.
        replace ((h - 1 - i =? i)%nat || (h - 1 - i =? h - 1 - i)%nat) with true by lia.
        rewrite Hj. replace ((h - 1 - i) * len + c - (h - 1 - i) * len)%nat with c by lia.
        unfold top. rewrite slice_nth by lia. f_equal. f_equal. f_equal. lia.
      - replace ((j <=? q * len + c) && (q * len + c <? j + length top))%nat with false.
        2:{ assert (q < h - 1 - i \/ h - 1 - i < q)%nat as [D|D] by lia; specialize (Hdis _ _ D); lia. }
        destruct (Nat.eq_dec q i) as [->|N2].
        + replace ((i * len <=? i * len + c) && (i * len + c <? i * len + length bot))%nat with true by lia.
          replace ((i =? i)%nat || _) with true by lia.
          replace (i * len + c - i * len)%nat with c by lia. unfold bot. rewrite slice_nth by lia. f_equal. lia.
        + replace ((i * len <=? q * len + c) && (q * len + c <? i * len + length bot))%nat with false.
          2:{ assert (q < i \/ i < q)%nat as [D|D] by lia; specialize (Hdis _ _ D); lia. }
          replace ((q =? i)%nat || (q =? h - 1 - i)%nat) with false by lia. easy. }
    rewrite Hrow by (destruct (_ || _); lia). f_equal. f_equal. f_equal. clear - Hk Hr.
    destruct ((i + 1 <=? r) && (r <? i + 1 + k) || (i + 1 <=? h - 1 - r) && (h - 1 - r <? i + 1 + k))%nat eqn:E1;
    destruct ((i <=? r) && (r <? i + S k) || (i <=? h - 1 - r) && (h - 1 - r <? i + S k))%nat eqn:E2;
    match goal with |- (if ?b then _ else _) = _ => destruct b eqn:E3 end; lia.
Qed.

Lemma flip_rows_nth len h buf : (0 < len)%nat -> length buf = (h * len)%nat ->
  exists out, flip_rows len buf = Ok out /\ length out = (h * len)%nat /\
    forall r c, (r < h)%nat -> (c < len)%nat -> nth (r * len + c) out 0 = nth ((h - 1 - r) * len + c) buf 0.
Proof.
  intros Hl Hb. unfold flip_rows. replace (len =? 0)%nat with false by lia.
  eexists. split; [reflexivity|].
  assert (Hm : (Nat.min (length buf / 2 / len) ((length buf - length buf / 2) / len) = h / 2)%nat).
  { rewrite Nat.div_div by lia. rewrite Hb. rewrite (Nat.mul_comm 2 len), <- Nat.div_div by lia. rewrite Nat.div_mul by lia.
    apply Nat.min_l. apply Nat.div_le_lower_bound; [lia|].
    assert (H2 : (2 * (h / 2) <= h)%nat) by lia. set (q := (h / 2)%nat) in *. clearbody q.
    assert (len * q * 2 <= h * len)%nat by nia. lia. }
  rewrite Hm. destruct (swap_rows_nth len h Hl (h / 2) 0 buf Hb ltac:(lia)) as [A B]. split; [easy|].
  intros r c Hr Hc. rewrite B by easy. f_equal. f_equal. f_equal.
  match goal with |- (if ?b then _ else _) = _ => destruct b eqn:E end; lia.
Qed.

Lemma concat_rows_nth (len : nat) : forall rows r c, Forall (fun x => length x = len) rows -> (r < length rows)%nat -> (c < len)%nat ->
  nth (r * len + c) (concat rows) (0 : Z) = nth c (nth r rows []) 0.
Proof.
  induction rows as [|row rows IH]; intros r c Hf Hr Hc; [cbn in Hr; lia|].
  apply Forall_cons_iff in Hf as [H1 H2]. cbn [concat]. destruct r as [|r].
  - cbn [Nat.mul Nat.add nth]. apply app_nth1. lia.
  - rewrite app_nth2 by (cbn; lia). cbn [nth]. rewrite <- (IH r c) by (cbn in Hr; try easy; lia). f_equal. cbn. lia.
Qed.

Lemma rows_up_nth len rows r c : Forall (fun x => length x = len) rows -> (r < length rows)%nat -> (c < len)%nat ->
  nth (r * len + c) (write_rows_up rows) 0 = nth c (nth (length rows - 1 - r) rows []) 0.
Proof.
  intros Hf Hr Hc. unfold write_rows_up. rewrite concat_rows_nth; [|now apply Forall_rev|now rewrite rev_length|easy].
  rewrite rev_nth by easy. f_equal. f_equal. lia.
Qed.
Lemma rows_up_length len rows : Forall (fun x => length x = len) rows -> length (write_rows_up rows) = (length rows * len)%nat.
Proof.
  intros Hf. unfold write_rows_up. rewrite (concat_length_const len) by now apply Forall_rev. rewrite rev_length. lia.
Qed.

(** Rows, then the optional flip: which row of the input lands where. *)
Lemma rows_placed len h rows (down : bool) : (0 < len)%nat -> length rows = h -> Forall (fun x => length x = len) rows ->
  exists out, (if down then flip_rows len (write_rows_up rows) else Ok (write_rows_up rows)) = Ok out /\
    length out = (h * len)%nat /\
    forall y c, (y < h)%nat -> (c < len)%nat -> nth (y * len + c) out 0 = nth c (nth (stored_row down h y) rows []) 0.
Proof.
  intros Hl Hh Hf. pose proof (rows_up_length len rows Hf) as HL. rewrite Hh in HL. destruct down.
  - destruct (flip_rows_nth len h _ Hl HL) as (out & E & L & N). exists out. split; [easy|]. split; [easy|].
    intros y c Hy Hc. rewrite N by easy. rewrite rows_up_nth by (try easy; lia). cbn. f_equal. f_equal. lia.
  - eexists. split; [reflexivity|]. split; [easy|]. intros y c Hy Hc. rewrite rows_up_nth by (try easy; lia).
    cbn. f_equal. f_equal. lia.
Qed.

Lemma read_rows_spec n ow pad : (0 < ow)%nat -> forall data, 
  if ((n =? 0) || ((n - 1) * (ow + pad) + ow <=? length data))%nat
  then exists rows, read_rows n ow pad data = Ok rows /\ length rows = n /\ Forall (fun x => length x = ow) rows /\
       forall r c, (r < n)%nat -> (c < ow)%nat -> nth c (nth r rows []) 0 = nth (r * (ow + pad) + c) data 0
  else read_rows n ow pad data = Err EEof.
Proof.
  intros Ho. induction n as [|n IH]; intros data; cbn [read_rows].
  - cbn. exists []. repeat split; try easy.
  - replace (S n =? 0)%nat with false by lia. cbn [orb]. replace (S n - 1)%nat with n by lia.
    specialize (IH (skipn pad (skipn ow data))). rewrite !skipn_length in IH.
    destruct (length data <? ow)%nat eqn:E.
    { replace (n * (ow + pad) + ow <=? length data)%nat with false by lia. easy. }
    destruct (n * (ow + pad) + ow <=? length data)%nat eqn:E2.
    + replace ((n =? 0) || ((n - 1) * (ow + pad) + ow <=? length data - ow - pad))%nat with true in IH.
      2:{ symmetry. destruct n as [|n]; [easy|]. replace (S n =? 0)%nat with false by lia. cbn [orb].
          replace (S n - 1)%nat with n by lia. cbn in E2. lia. }
      destruct IH as (rows & -> & Hl & Hf & Hn). cbn [bind]. eexists. split; [reflexivity|].
      split; [cbn; lia|]. split; [apply Forall_cons; [rewrite firstn_length; lia|easy]|].
      intros [|r] c Hr Hc; cbn [nth].
      * rewrite nth_firstn by lia. f_equal.
      * rewrite Hn by lia. rewrite skipn_skipn', nth_skipn. f_equal. lia.
    + replace ((n =? 0) || ((n - 1) * (ow + pad) + ow <=? length data - ow - pad))%nat with false in IH.
      2:{ symmetry. destruct n as [|n]; [cbn in E2; lia|]. replace (S n =? 0)%nat with false by lia. cbn [orb].
          replace (S n - 1)%nat with n by lia. cbn in E2. lia. }
      rewrite IH. reflexivity.
Qed.

Lemma swap_bgr_spec w row : length row = (w * 3)%nat ->
  length (swap_bgr row) = (w * 3)%nat /\
  forall x c, (x < w)%nat -> (c < 3)%nat -> nth (x * 3 + c) (swap_bgr row) 0 = nth (x * 3 + (2 - c)) row 0.
Proof.
  intros Hl. unfold swap_bgr.
  assert (Hs : skipn (3 * (length row / 3)) row = []).
  { rewrite Hl, Nat.div_mul by lia. apply skipn_all2. lia. }
  rewrite Hs, app_nil_r.
  assert (Hc : concat (chunks_exact 3 row) = row).
  { apply chunks_exact_concat; [lia|]. rewrite Hl. apply Nat.mod_mul. lia. }
  pose proof (chunks_exact_lengths 3 row) as Hf. pose proof (chunks_exact_length 3 row ltac:(lia)) as Hn.
  rewrite Hl, Nat.div_mul in Hn by lia.
  set (ch := chunks_exact 3 row) in *. clearbody ch.
  assert (Hg : Forall (fun x : list Z => length x = 3%nat) (map (fun p => [getz p 2; getz p 1; getz p 0]) ch)).
  { apply Forall_forall. intros p Hp. apply in_map_iff in Hp as (q & <- & _). reflexivity. }
  split; [rewrite (concat_length_const 3) by easy; rewrite map_length; lia|].
  intros x c Hx Hcc. rewrite (concat_rows_nth 3) by (rewrite ?map_length; try easy; lia).
  rewrite (map_nth_in _ ch x [] []) by lia.
  rewrite <- Hc. rewrite (concat_rows_nth 3) by (try easy; try lia; now apply Hf).
  unfold getz. destruct c as [|[|[|]]]; try reflexivity. lia.
Qed.

Lemma stride24 w : (w * 3 + ((w * 24 + 31) / 8 / 4 * 4 - w * 3) = stride w 24)%nat.
Proof. unfold stride. rewrite Nat.div_div by lia. change (8 * 4)%nat with 32%nat. lia. Qed.

Lemma decode24_spec bgra down w h data : (0 < w)%nat ->
  if ((h =? 0) || ((h - 1) * stride w 24 + w * 3 <=? length data))%nat
  then exists out, decode24 bgra down w h data = Ok out /\ length out = (w * h * 3)%nat /\
       forall x y c, (x < w)%nat -> (y < h)%nat -> (c < 3)%nat ->
         nth ((y * w + x) * 3 + c) out 0 =
         nth (stored_row down h y * stride w 24 + x * 3 + (if bgra then c else 2 - c)) data 0
  else decode24 bgra down w h data = Err EEof.
Proof.
  intros Hw. unfold decode24. replace (w * 3 =? 0)%nat with false by lia.
  pose proof (read_rows_spec h (w * 3) ((w * 24 + 31) / 8 / 4 * 4 - w * 3) ltac:(lia) data) as H.
  rewrite stride24 in H. destruct ((h =? 0) || ((h - 1) * stride w 24 + w * 3 <=? length data))%nat.
  - destruct H as (rows & -> & Hl & Hf & Hn). cbn [bind].
    set (g := fun r => if bgra then r else swap_bgr r).
    assert (Hg : Forall (fun x => length x = (w * 3)%nat) (map g rows)).
    { apply Forall_forall. intros p Hp. apply in_map_iff in Hp as (q & <- & Hq). rewrite Forall_forall in Hf.
      specialize (Hf q Hq). unfold g. destruct bgra; [easy|]. now apply swap_bgr_spec. }
    destruct (rows_placed (w * 3) h (map g rows) down ltac:(lia) ltac:(now rewrite map_length) Hg) as (out & E & L & N).
    exists out. split; [exact E|]. split; [lia|]. intros x y c Hx Hy Hc.
    assert (Hsr : (stored_row down h y < h)%nat) by (unfold stored_row; destruct down; lia).
    replace ((y * w + x) * 3 + c)%nat with (y * (w * 3) + (x * 3 + c))%nat by lia.
    rewrite N by (try easy; lia). rewrite (map_nth_in g rows _ [] []) by lia.
    unfold g. destruct bgra.
    + rewrite Hn by (try easy; lia). f_equal. lia.
    + destruct (swap_bgr_spec w (nth (stored_row down h y) rows [])) as [_ S].
      { rewrite Forall_forall in Hf. apply Hf. apply nth_In. lia. }
      rewrite S by easy. rewrite Hn by (try easy; lia). f_equal. lia.
  - now rewrite H.
Qed.

(** ** Palette images *)

Lemma mapM_ok {A B} (f : A -> res B) (g : A -> B) l : (forall x, In x l -> f x = Ok (g x)) -> mapM f l = Ok (map g l).
Proof.
  induction l as [|x l IH]; intros H; cbn [mapM map]; [easy|]. rewrite (H x) by now left. cbn [bind].
  rewrite IH by (intros; apply H; now right). easy.
Qed.

Definition rgb (pal : list (Z * Z * Z)) (i : Z) : list Z :=
  let '(r, g, b) := nth (Z.to_nat i) pal (0, 0, 0) in [r; g; b].
Lemma rgb_length pal i : length (rgb pal i) = 3%nat.
Proof. unfold rgb. now destruct (nth _ pal _) as [[? ?] ?]. Qed.

Lemma pal_row_ok pal row : length pal = 256%nat -> bytes row -> pal_row pal row = Ok (concat (map (rgb pal) row)).
Proof.
  intros Hp Hr. unfold pal_row. rewrite (mapM_ok _ (rgb pal)); [easy|].
  intros x Hx. unfold bytes in Hr. rewrite Forall_forall in Hr. specialize (Hr x Hx). unfold is_byte in Hr.
  unfold pal_pixel, rgb. rewrite (get_at_ok _ _ (0, 0, 0)) by lia. cbn [bind]. now destruct (nth _ pal _) as [[? ?] ?].
Qed.

Lemma rgb_row_spec pal row : length (concat (map (rgb pal) row)) = (length row * 3)%nat /\
  forall x c, (x < length row)%nat -> (c < 3)%nat -> nth (x * 3 + c) (concat (map (rgb pal) row)) 0 = nth c (rgb pal (nth x row 0)) 0.
Proof.
  assert (Hg : Forall (fun x : list Z => length x = 3%nat) (map (rgb pal) row)).
  { apply Forall_forall. intros p Hp. apply in_map_iff in Hp as (q & <- & _). apply rgb_length. }
  split; [rewrite (concat_length_const 3) by easy; rewrite map_length; lia|].
  intros x c Hx Hc. rewrite (concat_rows_nth 3) by (rewrite ?map_length; easy).
  now rewrite (map_nth_in (rgb pal) row x 0 []).
Qed.

(** Index rows to a placed image. *)
Lemma pal_image pal down w h rows : length pal = 256%nat -> (0 < w)%nat -> length rows = h ->
  Forall (fun r => length r = w) rows -> Forall bytes rows ->
  exists out, (do rs <- mapM (pal_row pal) rows ;
               if down : bool then flip_rows (w * 3) (write_rows_up rs) else Ok (write_rows_up rs)) = Ok out /\
    length out = (w * h * 3)%nat /\
    forall x y c, (x < w)%nat -> (y < h)%nat -> (c < 3)%nat ->
      nth ((y * w + x) * 3 + c) out 0 = nth c (rgb pal (nth x (nth (stored_row down h y) rows []) 0)) 0.
Proof.
  intros Hp Hw Hl Hf Hb. rewrite (mapM_ok _ (fun r => concat (map (rgb pal) r))).
  2:{ intros r Hr. rewrite Forall_forall in Hb. apply pal_row_ok; auto. }
  cbn [bind]. set (g := fun r => concat (map (rgb pal) r)).
  assert (Hg : Forall (fun x : list Z => length x = (w * 3)%nat) (map g rows)).
  { apply Forall_forall. intros p Hq. apply in_map_iff in Hq as (q & <- & Hq). rewrite Forall_forall in Hf.
    unfold g. rewrite (proj1 (rgb_row_spec pal q)). rewrite (Hf q Hq). lia. }
  destruct (rows_placed (w * 3) h (map g rows) down ltac:(lia) ltac:(now rewrite map_length) Hg) as (out & E & L & N).
  exists out. split; [exact E|]. split; [lia|]. intros x y c Hx Hy Hc.
  assert (Hsr : (stored_row down h y < h)%nat) by (unfold stored_row; destruct down; lia).
  replace ((y * w + x) * 3 + c)%nat with (y * (w * 3) + (x * 3 + c))%nat by lia.
  rewrite N by (try easy; lia). rewrite (map_nth_in g rows _ [] []) by lia.
  unfold g. apply rgb_row_spec; [|easy].
  rewrite Forall_forall in Hf. rewrite (Hf (nth (stored_row down h y) rows [])); [easy|]. apply nth_In. lia.
Qed.

Lemma read_many_nth k : forall l vs r, read_many k l = (vs, r) -> r = skipn k l /\ length vs = k /\ forall i, (i < k)%nat -> nth i vs 0 = nth i l 0.
Proof.
  induction k as [|k IH]; intros l vs r E; cbn [read_many] in E.
  - injection E as <- <-. repeat split; try easy.
  - destruct l as [|x l]; cbn [rd8] in E.
    + destruct (read_many k []) as [vs' r'] eqn:E'. injection E as <- <-. destruct (IH _ _ _ E') as (A & B & C).
      split; [rewrite A; destruct k; reflexivity|]. split; [cbn; lia|]. intros [|i] Hi; cbn [nth]; [easy|]. rewrite C by lia. now destruct i.
    + destruct (read_many k l) as [vs' r'] eqn:E'. injection E as <- <-. destruct (IH _ _ _ E') as (A & B & C).
      split; [easy|]. split; [cbn; lia|]. intros [|i] Hi; cbn [nth]; [easy|]. apply C. lia.
Qed.

Lemma pal_rows_spec w pad : forall n data, bytes data -> length (pal_rows n w pad data) = n /\
  Forall (fun r => length r = w) (pal_rows n w pad data) /\ Forall bytes (pal_rows n w pad data) /\
  forall r c, (r < n)%nat -> (c < w)%nat -> nth c (nth r (pal_rows n w pad data) []) 0 = nth (r * (w + pad) + c) data 0.
Proof.
  induction n as [|n IH]; intros data Hd; cbn [pal_rows].
  - repeat split; try apply Forall_nil. lia.
  - destruct (read_many w data) as [row r] eqn:E. destruct (read_many_nth _ _ _ _ E) as (A & B & C).
    destruct (read_many_spec w data Hd) as (vs & r0 & E0 & _ & Hb & Hr & _). rewrite E in E0. injection E0 as <- <-.
    destruct (IH (skipn pad r) ltac:(now apply Forall_skipn')) as (I1 & I2 & I3 & I4).
    split; [cbn; lia|]. split; [now apply Forall_cons|]. split; [now apply Forall_cons|].
    intros [|q] c Hq Hc; cbn [nth].
    + rewrite C by easy. f_equal.
    + rewrite I4 by lia. rewrite nth_skipn, A, nth_skipn. f_equal. lia.
Qed.

Lemma stride8 w : (w + (4 - w mod 4) mod 4 = stride w 8)%nat.
Proof. unfold stride. lia. Qed.

Lemma decode_pal8_spec pal down w h data : length pal = 256%nat -> (0 < w)%nat -> bytes data ->
  exists out, decode_pal8 pal down w h data = Ok out /\ length out = (w * h * 3)%nat /\
    forall x y c, (x < w)%nat -> (y < h)%nat -> (c < 3)%nat ->
      nth ((y * w + x) * 3 + c) out 0 = nth c (rgb pal (nth (stored_row down h y * stride w 8 + x) data 0)) 0.
Proof.
  intros Hp Hw Hd. unfold decode_pal8. replace (w =? 0)%nat with false by lia.
  destruct (pal_rows_spec w ((4 - w mod 4) mod 4) h data Hd) as (A & B & C & D).
  destruct (pal_image pal down w h _ Hp Hw A B C) as (out & E & L & N). exists out. split; [exact E|]. split; [easy|].
  intros x y c Hx Hy Hc. rewrite N by easy. rewrite D, stride8; [easy| |easy].
  unfold stored_row; destruct down; lia.
Qed.

Lemma rle_image_spec pal w h cv px : length pal = 256%nat -> (0 < w)%nat -> (0 < h)%nat -> bytes px -> shows w h px cv ->
  exists out, (do buf <- expand_palette pal w h px ; flip_rows (w * 3) buf) = Ok out /\ length out = (w * h * 3)%nat /\
    forall x y c, (x < w)%nat -> (y < h)%nat -> (c < 3)%nat ->
      nth ((y * w + x) * 3 + c) out 0 = nth c (rgb pal (cv x (h - 1 - y)%nat)) 0.
Proof.
  intros Hp Hw Hh Hb [HL HS]. unfold expand_palette.
  assert (Hc : concat (chunks_exact w px) = px).
  { apply chunks_exact_concat; [lia|]. rewrite HL, Nat.mul_comm. apply Nat.mod_mul. lia. }
  pose proof (chunks_exact_lengths w px) as Hf. pose proof (chunks_exact_length w px ltac:(lia)) as Hn.
  rewrite HL, (Nat.mul_comm w h), Nat.div_mul in Hn by lia. rewrite firstn_all2 by lia.
  set (rows := chunks_exact w px) in *. clearbody rows.
  assert (Hbr : Forall bytes rows).
  { apply Forall_forall. intros r Hr. apply Forall_forall. intros x Hx. unfold bytes in Hb. rewrite Forall_forall in Hb. apply Hb.
    rewrite <- Hc. apply in_concat. now exists r. }
  destruct (pal_image pal true w h rows Hp Hw Hn ltac:(now apply Hf) Hbr) as (out & E & L & N).
  exists out. split.
  { destruct (mapM (pal_row pal) rows); cbn [bind] in *; easy. }
  split; [easy|]. intros x y c Hx Hy Hcc. rewrite N by easy. cbn [stored_row].
  rewrite <- (concat_rows_nth w) by (try easy; try lia; now apply Hf). rewrite Hc.
  rewrite <- HS by lia. do 3 f_equal. f_equal. f_equal. f_equal. lia.
Qed.

(** ** Bit fields *)

Lemma land_mask v s n : 0 <= v -> 0 <= s -> 0 <= n -> Z.land v (mask s n) = (v / 2 ^ s) mod 2 ^ n * 2 ^ s.
Proof.
  intros Hv Hs Hn. unfold mask. rewrite <- Z.ones_equiv || idtac.
  replace (2 ^ n - 1) with (Z.ones n) by (rewrite Z.ones_equiv; lia).
  rewrite <- !Z.shiftl_mul_pow2 by lia. rewrite <- Z.shiftr_div_pow2 by lia. rewrite <- Z.land_ones by lia.
  apply Z.bits_inj'. intros k Hk. rewrite Z.land_spec, !Z.shiftl_spec by lia.
  destruct (Z.ltb_spec k s).
  - rewrite !Z.testbit_neg_r with (n := k - s) by lia. apply andb_false_r.
  - rewrite Z.land_spec, Z.shiftr_spec by lia. replace (k - s + s) with k by lia. reflexivity.
Qed.

Definition counts_ok (n s : Z) : bool :=
  if s + n <=? 32 then (bit_len (mask s n) =? s + n) && (popcount 32 (mask s n) =? n) else true.
Lemma counts_sweep : forall n, In n (map Z.of_nat (seq 1 32)) -> forall s, In s (map Z.of_nat (seq 0 32)) -> counts_ok n s = true.
Proof.
  intros n Hn. apply forallb_forall. revert n Hn. apply forallb_forall. vm_compute. reflexivity.
Qed.

Lemma in_zseq a k x : Z.of_nat a <= x < Z.of_nat (a + k) -> In x (map Z.of_nat (seq a k)).
Proof. intros H. apply in_map_iff. exists (Z.to_nat x). split; [lia|]. apply in_seq. lia. Qed.

Lemma mask_counts s n : 0 <= s -> 1 <= n -> s + n <= 32 -> bit_len (mask s n) = s + n /\ popcount 32 (mask s n) = n.
Proof.
  intros Hs Hn Hsn. pose proof (counts_sweep n (in_zseq 1 32 n ltac:(lia)) s (in_zseq 0 32 s ltac:(lia))) as H.
  unfold counts_ok in H. replace (s + n <=? 32) with true in H by lia.
  apply andb_true_iff in H as [A B]. lia.
Qed.

Definition mul_ok (n f : Z) : bool :=
  if f <? 2 ^ n then
    (f * getz MUL_TABLE (Z.to_nat n) / 2 ^ getz SHIFT_TABLE (Z.to_nat n) =? replicate n f)
    && (f * getz MUL_TABLE (Z.to_nat n) <? 65536) && (0 <=? replicate n f) && (replicate n f <? 256)
    && ((f =? 0) || (replicate n (f - 1) <? replicate n f)) else true.
Lemma mul_sweep : forall n, In n (map Z.of_nat (seq 1 8)) -> forall f, In f (map Z.of_nat (seq 0 256)) -> mul_ok n f = true.
Proof.
  intros n Hn. apply forallb_forall. revert n Hn. apply forallb_forall. vm_compute. reflexivity.
Qed.

Lemma mul_facts n f : 1 <= n <= 8 -> 0 <= f < 2 ^ n ->
  f * getz MUL_TABLE (Z.to_nat n) / 2 ^ getz SHIFT_TABLE (Z.to_nat n) = replicate n f /\
  f * getz MUL_TABLE (Z.to_nat n) < 65536 /\ 0 <= replicate n f < 256 /\
  (f = 0 \/ replicate n (f - 1) < replicate n f).
Proof.
  intros Hn Hf. assert (Hp : 2 ^ n <= 2 ^ 8) by (apply Z.pow_le_mono_r; lia). change (2 ^ 8) with 256 in Hp.
  pose proof (mul_sweep n (in_zseq 1 8 n ltac:(lia)) f (in_zseq 0 256 f ltac:(lia))) as H. unfold mul_ok in H. replace (f <? 2 ^ n) with true in H by lia.
  repeat rewrite andb_true_iff in H. destruct H as ((((A & B) & C) & D) & E).
  split; [now apply Z.eqb_eq|]. split; [now apply Z.ltb_lt|]. split; [split; [now apply Z.leb_le|now apply Z.ltb_lt]|].
  apply orb_true_iff in E as [E|E]; [left; now apply Z.eqb_eq|right; now apply Z.ltb_lt].
Qed.

Lemma shift_part f s n : 0 <= f < 2 ^ n -> 0 <= s -> 1 <= n -> s + n <= 32 ->
  (if s + n - 8 <? 0
   then (if -(s + n - 8) <? 32 then Ok (u32 (f * 2 ^ s * 2 ^ (-(s + n - 8)))) else Panic)
   else (if s + n - 8 <? 32 then Ok (f * 2 ^ s / 2 ^ (s + n - 8)) else Panic)) =
  Ok (if n <=? 8 then f * 2 ^ (8 - n) else f / 2 ^ (n - 8)).
Proof.
  intros Hf Hs Hn Hsn. destruct (s + n - 8 <? 0) eqn:E.
  - replace (-(s + n - 8) <? 32) with true by lia. f_equal. replace (n <=? 8) with true by lia.
    rewrite <- Z.mul_assoc, <- Z.pow_add_r by lia. replace (s + -(s + n - 8)) with (8 - n) by lia.
    unfold u32. apply Z.mod_small.
    assert (f * 2 ^ (8 - n) < 2 ^ n * 2 ^ (8 - n)) by (apply Z.mul_lt_mono_pos_r; lia).
    rewrite <- Z.pow_add_r in H by lia. replace (n + (8 - n)) with 8 in H by lia. split; [nia|lia].
  - replace (s + n - 8 <? 32) with true by lia. f_equal. destruct (n <=? 8) eqn:E2.
    + replace (f * 2 ^ s) with (f * 2 ^ (8 - n) * 2 ^ (s + n - 8)).
      2:{ rewrite <- Z.mul_assoc, <- Z.pow_add_r by lia. f_equal. f_equal. lia. }
      apply Z.div_mul. lia.
    + replace (2 ^ (s + n - 8)) with (2 ^ (n - 8) * 2 ^ s) by (rewrite <- Z.pow_add_r by lia; f_equal; lia).
      apply Z.div_mul_cancel_r; lia.
Qed.

Lemma field_spec s n v : 0 <= s -> 1 <= n -> s + n <= 32 -> 0 <= v ->
  field (mask s n) v = Ok (let f := (v / 2 ^ s) mod 2 ^ n in if n <=? 8 then replicate n f else f / 2 ^ (n - 8)).
Proof.
  intros Hs Hn Hsn Hv. unfold field. rewrite land_mask by lia.
  destruct (mask_counts s n Hs Hn Hsn) as [-> ->].
  set (f := (v / 2 ^ s) mod 2 ^ n). assert (Hf : 0 <= f < 2 ^ n) by (apply Z.mod_pos_bound; lia). clearbody f.
  unfold shift_signed. rewrite shift_part by easy. cbn [bind]. destruct (n <=? 8) eqn:E.
  - assert (Hb : 0 <= f * 2 ^ (8 - n) < 256).
    { assert (f * 2 ^ (8 - n) < 2 ^ n * 2 ^ (8 - n)) by (apply Z.mul_lt_mono_pos_r; lia).
      rewrite <- Z.pow_add_r in H by lia. replace (n + (8 - n)) with 8 in H by lia. split; [nia|lia]. }
    replace (256 <=? f * 2 ^ (8 - n)) with false by lia. rewrite Z.min_r by lia. rewrite Z.div_mul by lia.
    destruct (mul_facts n f ltac:(lia) Hf) as (A & B & C & _).
    replace (2 ^ 32 <=? f * getz MUL_TABLE (Z.to_nat n)) with false by lia. cbn [bind]. rewrite A. unfold u8.
    now rewrite Z.mod_small by lia.
  - assert (Hb : 0 <= f / 2 ^ (n - 8) < 256).
    { split; [apply Z.div_pos; lia|]. apply Z.div_lt_upper_bound; [lia|].
      replace (2 ^ (n - 8) * 256) with (2 ^ n); [lia|]. change 256 with (2 ^ 8). rewrite <- Z.pow_add_r by lia. f_equal. lia. }
    set (g := f / 2 ^ (n - 8)) in *. clearbody g.
    replace (256 <=? g) with false by lia. rewrite Z.min_l by lia. change (8 - 8) with 0. rewrite Z.pow_0_r, Z.div_1_r.
    change (getz MUL_TABLE (Z.to_nat 8)) with 1. change (getz SHIFT_TABLE (Z.to_nat 8)) with 0.
    rewrite Z.mul_1_r, Z.pow_0_r, Z.div_1_r.
    replace (2 ^ 32 <=? g) with false by lia. cbn [bind]. unfold u8. now rewrite Z.mod_small by lia.
Qed.

Lemma bit_len_lt m : 0 <= m -> m < 2 ^ bit_len m.
Proof.
  intros H. unfold bit_len. destruct (m <=? 0) eqn:E; [assert (m = 0) as -> by lia; cbn; lia|].
  apply Z.log2_spec. lia.
Qed.
Lemma bit_len_le m k : 0 <= m < 2 ^ k -> 0 <= k -> 0 <= bit_len m <= k.
Proof.
  intros H Hk. unfold bit_len. destruct (m <=? 0) eqn:E; [lia|].
  pose proof (Z.log2_nonneg m). pose proof (proj1 (Z.log2_lt_pow2 m k ltac:(lia)) ltac:(lia)). lia.
Qed.
Lemma land_le v m : 0 <= v -> 0 <= m -> 0 <= Z.land v m <= m.
Proof.
  intros Hv Hm. split; [apply Z.land_nonneg; now left|].
  rewrite Z.land_comm. apply Z.ldiff_le; [easy|]. 
  apply Z.bits_inj'. intros k Hk. rewrite Z.ldiff_spec, Z.land_spec, Z.bits_0. destruct (Z.testbit m k), (Z.testbit v k); reflexivity.
Qed.
Lemma popcount_nonneg n : forall x, 0 <= popcount n x.
Proof. induction n as [|n IH]; intros x; cbn [popcount]; [lia|]. specialize (IH (x / 2)). pose proof (Z.mod_pos_bound x 2). lia. Qed.

(** Any mask at all, contiguous or not: the extraction never panics and yields a byte. *)
Lemma field_total m v : is_u32 m -> is_u32 v -> exists r, field m v = Ok r /\ is_byte r.
Proof.
  intros Hm Hv. unfold is_u32 in *. unfold field.
  pose proof (land_le v m ltac:(lia) ltac:(lia)) as Hl. pose proof (bit_len_lt m ltac:(lia)) as Hb.
  pose proof (bit_len_le m 32 ltac:(lia) ltac:(lia)) as Hbb. pose proof (popcount_nonneg 32 m) as Hp.
  set (x := Z.land v m) in *. set (b := bit_len m) in *. set (n := popcount 32 m) in *. clearbody x b n.
  unfold shift_signed.
  assert (Hx : exists y, (if b - 8 <? 0
    then (if -(b - 8) <? 32 then Ok (u32 (x * 2 ^ (-(b - 8)))) else Panic)
    else (if b - 8 <? 32 then Ok (x / 2 ^ (b - 8)) else Panic)) = Ok y /\ 0 <= y < 256).
  { destruct (b - 8 <? 0) eqn:E.
    - replace (-(b - 8) <? 32) with true by lia. eexists. split; [reflexivity|].
      assert (x * 2 ^ (-(b - 8)) < 2 ^ b * 2 ^ (-(b - 8))) by (apply Z.mul_lt_mono_pos_r; lia).
      rewrite <- Z.pow_add_r in H by lia. replace (b + -(b - 8)) with 8 in H by lia. change (2 ^ 8) with 256 in H.
      assert (0 <= x * 2 ^ (-(b - 8))) by nia.
      unfold u32. rewrite Z.mod_small by lia. lia.
    - replace (b - 8 <? 32) with true by lia. eexists. split; [reflexivity|].
      split; [apply Z.div_pos; lia|]. apply Z.div_lt_upper_bound; [lia|].
      replace (2 ^ (b - 8) * 256) with (2 ^ b); [lia|]. change 256 with (2 ^ 8). rewrite <- Z.pow_add_r by lia. f_equal. lia. }
  destruct Hx as (y & -> & Hy). cbn [bind]. replace (256 <=? y) with false by lia.
  set (k := Z.min 8 n). assert (Hk : 0 <= k <= 8) by lia. clearbody k.
  assert (Hm1 : 0 <= getz MUL_TABLE (Z.to_nat k) <= 255).
  { assert (In (Z.to_nat k) (seq 0 9)) by (apply in_seq; lia). 
    assert (T : forallb (fun n => (0 <=? getz MUL_TABLE n) && (getz MUL_TABLE n <=? 255)) (seq 0 9) = true) by reflexivity.
    rewrite forallb_forall in T. specialize (T _ H). lia. }
  assert (Hd : 0 <= y / 2 ^ (8 - k) <= y).
  { split; [apply Z.div_pos; lia|]. apply Z.div_le_upper_bound; [lia|]. assert (1 <= 2 ^ (8 - k)) by (pose proof (Z.pow_pos_nonneg 2 (8 - k)); lia). nia. }
  set (q := y / 2 ^ (8 - k)) in *. clearbody q.
  assert (Hq : 0 <= q * getz MUL_TABLE (Z.to_nat k) <= 255 * 255) by nia.
  replace (2 ^ 32 <=? q * getz MUL_TABLE (Z.to_nat k)) with false by lia. cbn [bind].
  eexists. split; [reflexivity|]. unfold u8, is_byte. apply Z.mod_pos_bound. lia.
Qed.

Lemma replicate_mono n f g : 1 <= n <= 8 -> 0 <= f -> f < g -> g < 2 ^ n -> replicate n f < replicate n g.
Proof.
  intros Hn Hf Hfg Hg. assert (forall k, 0 <= k -> f + 1 + k < 2 ^ n -> replicate n f < replicate n (f + 1 + k)).
  { intros k Hk. pattern k. apply natlike_ind; [| |exact Hk].
    - intros H. destruct (mul_facts n (f + 1 + 0) Hn ltac:(lia)) as (_ & _ & _ & [E|E]); [lia|].
      replace (f + 1 + 0 - 1) with f in E by lia. exact E.
    - intros j Hj IH H. destruct (mul_facts n (f + 1 + Z.succ j) Hn ltac:(lia)) as (_ & _ & _ & [E|E]); [lia|].
      replace (f + 1 + Z.succ j - 1) with (f + 1 + j) in E by lia. specialize (IH ltac:(lia)). lia. }
  replace g with (f + 1 + (g - f - 1)) by lia. apply H; lia.
Qed.
