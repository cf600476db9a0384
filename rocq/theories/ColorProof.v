(** Proofs about colorspace conversion: on well-formed images every conversion is a function applied to every frame. *)
From Verif Require Import Base BaseProof Loops F32 DepthModel DepthSpec DepthProof DepthProps ChannelModel DeintModel DeintProof ColorModel ColorSpec.

Lemma colorspace_eqb_eq a b : colorspace_eqb a b = true <-> a = b.
Proof.
  split.
  - destruct a, b; cbn [colorspace_eqb]; intros H; try easy. apply Nat.eqb_eq in H. now subst.
  - intros <-. destruct a; cbn [colorspace_eqb]; try easy. apply Nat.eqb_refl.
Qed.

(** Frames of a known number of channels *)
Ltac frame_cases f H := repeat (destruct f as [|? f]; cbn [length] in H; try discriminate H; try lia).

Lemma channels_true cs (f : list samples) : convertible cs -> length f = num_components cs ->
  exists chs, channels cs true f = Ok chs /\ incl chs f /\ (exists c r, chs = c :: r).
Proof.
  intros Hc H. destruct cs; cbn [convertible num_components] in *; try easy; frame_cases f H; cbn; eexists; (split; [reflexivity|]); (split; [|eauto]);
    intros x Hx; cbn in Hx |- *; tauto.
Qed.
Lemma channels_all cs (f : list samples) : length f = num_components cs -> channels cs false f = Ok f.
Proof. intros H. unfold channels. cbn [andb]. rewrite <- H, Nat.leb_refl, firstn_all. reflexivity. Qed.
Lemma chan_bytes d n c : chan d n c -> byte_len c = (size_of d * n)%nat.
Proof. intros [H <-]. destruct d, c as [l|l|l]; cbn [of_depth] in H; try easy; cbn [byte_len size_of count]; lia. Qed.

Lemma confirm_wf i : convertible (cspace i) -> wf i -> checked i = Done i.
Proof.
  intros Hc [_ H]. unfold checked, confirm. replace (negb _) with false.
  - replace (fold_right _ _ _) with (Ok (A := unit) tt); [easy|]. induction H as [|f fs Hf H IH]; cbn [fold_right]; [easy|].
    destruct Hf as [L F]. destruct (channels_true _ f Hc L) as [chs [-> [I _]]]. cbn [bind].
    replace (forallb _ _) with true; [exact IH|]. symmetry. apply forallb_forall. intros c Hin. apply Nat.eqb_eq.
    rewrite Forall_forall in F. apply chan_bytes. apply F, I, Hin.
  - symmetry. apply negb_false_iff, forallb_forall. intros f Hin. apply Nat.eqb_eq. rewrite Forall_forall in H. apply H, Hin.
Qed.
Lemma execute_ok op i i' : convertible (cspace i) -> wf i -> op i = Done i' -> convertible (cspace i') -> wf i' -> execute op i = Done i'.
Proof.
  intros C W E C' W'. unfold execute. replace (admitted (cspace i)) with true by now destruct (cspace i).
  cbn [negb]. rewrite (confirm_wf i) by easy. cbn [obind]. rewrite E. cbn [obind]. now apply confirm_wf.
Qed.

(** Frame by frame *)
Lemma each_frame_map F g fs : Forall (fun f => F f = Done (g f)) fs -> each_frame F fs = Done (map g fs).
Proof. induction 1 as [|f fs H _ IH]; cbn [each_frame map]; [easy|]. now rewrite H, IH. Qed.
Definition on_frames (g : list samples -> list samples) (i : image) : image := Img (cspace i) (idepth i) (npx i) (map g (frames i)).
Lemma with_frames_map F g i : Forall (fun f => F f = Done (g f)) (frames i) -> with_frames F i = Done (on_frames g i).
Proof. intros H. unfold with_frames. now rewrite (each_frame_map F g). Qed.
Definition relabel (c : colorspace) (i : image) : image := Img c (idepth i) (npx i) (frames i).

(** ** Three channels zipped *)
Lemma combine3_map {A B} (F : A -> A -> A -> B) (r g b : list A) d : length g = length r -> length b = length r ->
  map (fun q => F (fst (fst q)) (snd (fst q)) (snd q)) (combine (combine r g) b) = map (fun k => F (nth k r d) (nth k g d) (nth k b d)) (seq 0 (length r)).
Proof.
  revert g b. induction r as [|x r IH]; intros [|y g] [|z b] H1 H2; cbn [length] in *; try discriminate; [easy|].
  cbn [combine map seq fst snd nth]. f_equal. rewrite IH by lia. rewrite <- (seq_shift (length r) 0), map_map. reflexivity.
Qed.
Lemma zip3_front {A B} (F : A -> A -> A -> B) (r g b : list A) (o : list B) d n : length r = n -> length g = n -> length b = n -> (n <= length o)%nat ->
  zip3 F r g b o = map (fun k => F (nth k r d) (nth k g d) (nth k b d)) (seq 0 n) ++ skipn n o.
Proof.
  intros Hr Hg Hb Ho. unfold zip3.
  rewrite (min_len_all [r; g; b] (length o) n) by (try lia; try (left; discriminate); repeat apply Forall_cons; auto).
  rewrite firstn_all2 by (rewrite !combine_length; lia). f_equal.
  rewrite (combine3_map F r g b d) by lia. now rewrite Hr.
Qed.
Lemma zip3_pixels {A B} (F : A -> A -> A -> B) (r g b : list A) (o : list B) d n : length r = n -> length g = n -> length b = n -> length o = n ->
  zip3 F r g b o = map (fun k => F (nth k r d) (nth k g d) (nth k b d)) (seq 0 n).
Proof. intros Hr Hg Hb Ho. rewrite (zip3_front F r g b o d n) by lia. rewrite skipn_all2 by lia. apply app_nil_r. Qed.

Lemma gray8_range r g b : is_byte r -> is_byte g -> is_byte b -> is_byte (gray8 255 r g b).
Proof. unfold is_byte, gray8. intros Hr Hg Hb. change (2 ^ 14) with 16384. change (2 ^ 15) with 32768. lia. Qed.
Lemma gray16_range r g b : is_u16 r -> is_u16 g -> is_u16 b -> is_u16 (gray16 65535 r g b).
Proof. unfold is_u16, gray16. intros Hr Hg Hb. change (2 ^ 30) with 1073741824. change (2 ^ 31) with 2147483648. lia. Qed.
Lemma gray_lane_scalar r g b : is_byte r -> is_byte g -> is_byte b -> gray_lane r g b = gray8 255 r g b.
Proof.
  unfold is_byte, gray_lane, gray8, mulhrs. intros Hr Hg Hb. rewrite !(Z.mod_small (_ * 64)) by lia.
  change (2 ^ 14) with 16384. change (2 ^ 15) with 32768. rewrite Z.mod_small by lia. apply Z.min_comm.
Qed.

Lemma skipn_repeat {A} (x : A) n k : skipn k (repeat x n) = repeat x (n - k).
Proof. revert k. induction n as [|n IH]; intros [|k]; cbn [skipn repeat Nat.sub]; auto. Qed.
(** The vector routines, pixel by pixel: in whole blocks green and blue are exchanged; in the rest, pixel [q] is computed from another pixel or stays 0. *)
Lemma gray_vector_pixels k r g b n : (0 < k)%nat -> length r = n -> length g = n -> length b = n -> Forall is_byte r -> Forall is_byte g -> Forall is_byte b ->
  let rem := (n mod k)%nat in let start := (n - rem)%nat in
  gray_vector k r g b (repeat 0 n) = Ok (map (fun q => gray8 255 (nth q r 0) (nth q b 0) (nth q g 0)) (seq 0 start) ++
    map (fun j => gray8 255 (nth (n - rem / 3 + j) r 0) (nth (n - rem / 3 + j) g 0) (nth (n - rem / 3 + j) b 0)) (seq 0 (rem / 3)) ++ repeat 0 (rem - rem / 3)).
Proof.
  intros Hk Hr Hg Hb Br Bg Bb rem start. unfold gray_vector. rewrite repeat_length, Hr, Hg, Hb. fold rem.
  rewrite (min_len_all [r; b; g] n n) by (try lia; try (left; discriminate); repeat apply Forall_cons; auto).
  assert (Hs : (n / k * k)%nat = start). { unfold start, rem. pose proof (Nat.div_mod n k ltac:(lia)) as E. rewrite (Nat.mul_comm k) in E. set (q := (n / k * k)%nat) in *. set (m := (n mod k)%nat) in *. clearbody q m. lia. }
  rewrite Hs. assert (Ls : (start <= n)%nat) by (unfold start; lia).
  assert (Lr : (rem <= n)%nat) by (unfold rem; apply Nat.mod_le; lia).
  assert (L3 : (rem / 3 <= rem)%nat) by (apply Nat.div_le_upper_bound; lia).
  assert (Es : (n - start = rem)%nat) by (unfold start; lia).
  set (t := (rem / 3)%nat) in *. clearbody t.
  rewrite (zip3_front gray_lane _ _ _ _ 0 start) by (rewrite ?firstn_length_le, ?repeat_length; lia).
  rewrite skipn_repeat, Es.
  assert (M : map (fun k0 => gray_lane (nth k0 (firstn start r) 0) (nth k0 (firstn start b) 0) (nth k0 (firstn start g) 0)) (seq 0 start) =
              map (fun q => gray8 255 (nth q r 0) (nth q b 0) (nth q g 0)) (seq 0 start)).
  { apply map_ext_in. intros q Hq. apply in_seq in Hq. rewrite !nth_firstn by lia. rewrite Forall_forall in Br, Bg, Bb.
    apply gray_lane_scalar; [apply Br|apply Bb|apply Bg]; apply nth_In; lia. }
  rewrite M. clear M. set (blocks := map _ (seq 0 start)). assert (Lb : length blocks = start) by (unfold blocks; now rewrite map_length, seq_length).
  clearbody blocks. destruct (rem =? 0)%nat eqn:E0.
  - apply Nat.eqb_eq in E0. rewrite E0 in *. replace t with 0%nat by lia. cbn [Nat.sub repeat seq map app]. now rewrite app_nil_r.
  - replace (_ || _ || _)%bool with false.
    + fold start. rewrite firstn_app, Lb, Nat.sub_diag, firstn_all2 by lia. cbn [firstn]. rewrite app_nil_r.
      replace (skipn start (blocks ++ repeat 0 rem)) with (repeat 0 rem)
        by (rewrite skipn_app, Lb, Nat.sub_diag, (skipn_all2 blocks) by lia; reflexivity).
      rewrite (zip3_front (gray8 255) _ _ _ _ 0 t) by (rewrite ?skipn_length, ?repeat_length; lia).
      rewrite skipn_repeat. do 2 f_equal. f_equal. apply map_ext. intros j. now rewrite !nth_skipn.
    + symmetry. rewrite app_length, repeat_length, Lb. rewrite !orb_false_iff, !Nat.ltb_ge. fold start. lia.
Qed.
Lemma Forall_nth_byte P (l : list Z) k : Forall P l -> (k < length l)%nat -> P (nth k l 0).
Proof. intros F H. rewrite Forall_forall in F. apply F, nth_In, H. Qed.
Lemma gray_u8_ok p r g b n : length r = n -> length g = n -> length b = n -> Forall is_byte r -> Forall is_byte g -> Forall is_byte b ->
  exists l, gray_u8 p r g b (repeat 0 n) 255 = Ok l /\ length l = n /\ Forall is_byte l.
Proof.
  intros Hr Hg Hb Br Bg Bb.
  assert (V : forall k, (0 < k)%nat -> exists l, gray_vector k r g b (repeat 0 n) = Ok l /\ length l = n /\ Forall is_byte l).
  { intros k Hk. rewrite (gray_vector_pixels k r g b n) by easy. eexists. split; [reflexivity|].
    assert (Lr : (n mod k <= n)%nat) by (apply Nat.mod_le; lia). set (rem := (n mod k)%nat) in *.
    assert (L3 : (rem / 3 <= rem)%nat) by (apply Nat.div_le_upper_bound; lia). set (t := (rem / 3)%nat) in *. clearbody rem t. split.
    - rewrite !app_length, !map_length, !seq_length, repeat_length. lia.
    - apply Forall_app. split; [|apply Forall_app; split].
      + apply Forall_map, Forall_forall. intros q Hq. apply in_seq in Hq. apply gray8_range; apply Forall_nth_byte; auto; lia.
      + apply Forall_map, Forall_forall. intros q Hq. apply in_seq in Hq. apply gray8_range; apply Forall_nth_byte; auto; lia.
      + apply Forall_forall. intros x Hx. apply repeat_spec in Hx as ->. unfold is_byte. lia. }
  unfold gray_u8. destruct (simd p && avx2 p); [apply V; lia|]. destruct (simd p && sse41 p); [apply V; lia|].
  rewrite (zip3_pixels (gray8 255) r g b _ 0 n) by (rewrite ?repeat_length; easy). eexists. split; [reflexivity|].
  split; [now rewrite map_length, seq_length|]. apply Forall_map, Forall_forall. intros q Hq. apply in_seq in Hq.
  apply gray8_range; apply Forall_nth_byte; auto; lia.
Qed.

(** ** The frame functions *)
Definition none : samples := S8 [].
Definition gray_fn (p : cpu) (d : depth) (n : nat) (f : list samples) : samples :=
  match d, f with
  | D8, S8 r :: S8 g :: S8 b :: _ => match gray_u8 p r g b (repeat 0 n) 255 with Ok l => S8 l | _ => none end
  | D16, S16 r :: S16 g :: S16 b :: _ => S16 (zip3 (gray16 65535) r g b (repeat 0 n))
  | D32, SF r :: SF g :: SF b :: _ => SF (zip3 grayf r g b (repeat (of_int 0) n))
  | _, _ => none
  end.
(** Three channels of a depth: their sample lists *)
Ltac chan_cases := repeat match reverse goal with H : chan ?d ?n ?c |- _ =>
  let l := fresh "l" in let B := fresh "B" in let L := fresh "L" in
  destruct H as [B L]; destruct c as [l|l|l]; cbn [of_depth count] in B, L; try (exfalso; exact B) end.
Ltac forall_cases := repeat match goal with H : Forall _ (_ :: _) |- _ =>
  let H1 := fresh "H" in let H2 := fresh "H" in apply Forall_cons_iff in H as [H1 H2] | H : Forall _ [] |- _ => clear H end.

Lemma gray_fn_chan p d n f : (3 <= length f)%nat -> Forall (chan d n) f -> chan d n (gray_fn p d n f).
Proof.
  intros L F. do 3 (destruct f as [|? f]; cbn [length] in L; [lia|]). forall_cases. destruct d; chan_cases; cbn [gray_fn].
  - destruct (gray_u8_ok p l l0 l1 n) as [o [-> [Lo Bo]]]; auto. now split.
  - split; cbn [of_depth count]; rewrite (zip3_pixels (gray16 65535) l l0 l1 _ 0 n) by (rewrite ?repeat_length; auto);
      [|now rewrite map_length, seq_length]. apply Forall_map, Forall_forall. intros q Hq. apply in_seq in Hq.
    apply gray16_range; apply Forall_nth_byte; auto; lia.
  - split; cbn [of_depth count]; [easy|]. rewrite (zip3_pixels grayf l l0 l1 _ (of_int 0) n) by (rewrite ?repeat_length; auto).
    now rewrite map_length, seq_length.
Qed.
Lemma opaque_chan d n : chan d n (opaque d n).
Proof.
  destruct d; split; cbn [opaque of_depth count]; try apply repeat_length; try exact I;
    apply Forall_forall; intros x Hx; apply repeat_spec in Hx as ->; unfold is_byte, is_u16; lia.
Qed.

Lemma channels_rgb b (x y z : samples) : channels RGB b [x; y; z] = Ok [x; y; z]. Proof. now destruct b. Qed.
Lemma channels_rgba_true (x y z a : samples) : channels RGBA true [x; y; z; a] = Ok [x; y; z]. Proof. reflexivity. Qed.
Lemma channels_rgba_false (x y z a : samples) : channels RGBA false [x; y; z; a] = Ok [x; y; z; a]. Proof. reflexivity. Qed.
Definition alpha_fn (from : colorspace) (d : depth) (n : nat) (f : list samples) : samples := if has_alpha from then nth 3 f none else opaque d n.
Lemma to_gray_ok p from to i : wf i -> cspace i = from -> (from = RGB \/ from = RGBA) -> (to = Luma \/ to = LumaA) ->
  to_gray p to i = Done (on_frames (fun f => if has_alpha to then [gray_fn p (idepth i) (npx i) f; alpha_fn from (idepth i) (npx i) f] else [gray_fn p (idepth i) (npx i) f]) i).
Proof.
  intros [Ne W] C Hf Ht. unfold to_gray. rewrite (with_frames_map _ (fun f => if has_alpha to then [gray_fn p (idepth i) (npx i) f; alpha_fn from (idepth i) (npx i) f] else [gray_fn p (idepth i) (npx i) f])).
  - cbn [obind on_frames frames]. destruct (frames i); easy.
  - rewrite C in *. clear C. eapply Forall_impl; [|exact W]. cbn beta. intros f [L F].
    set (d := idepth i) in *. set (n := npx i) in *. clearbody d n.
    assert (G : forall r g b n, length r = n -> length g = n -> length b = n -> Forall is_byte r -> Forall is_byte g -> Forall is_byte b ->
        exists l, gray_u8 p r g b (repeat 0 n) 255 = Ok l).
    { intros r g b m H1 H2 H3 H4 H5 H6. destruct (gray_u8_ok p r g b m) as [l [E _]]; eauto. }
    destruct Hf; subst from; cbn [num_components] in L; frame_cases f L; forall_cases; destruct d; chan_cases;
      destruct Ht; subst to; unfold gray_frame, alpha_fn; cbn [has_alpha negb]; rewrite ?channels_rgb, ?channels_rgba_true, ?channels_rgba_false;
      cbn [andb nth_error gray_fn nth];
      match goal with |- context[gray_u8 p ?a ?b ?c _ _] => destruct (G a b c n) as [x ->]; auto | _ => reflexivity end.
Qed.

Lemma add_alpha_ok i : convertible (cspace i) -> wf i -> add_opaque_alpha i = Done (on_frames (fun f => f ++ [opaque (idepth i) (npx i)]) i).
Proof.
  intros C [Ne W]. unfold add_opaque_alpha, on_frames. destruct (frames i) as [|f fs] eqn:E; [easy|].
  pose proof W as W'. apply Forall_cons_iff in W' as [[L F] _]. destruct (channels_true _ f C L) as [chs [-> [I [c [r ->]]]]].
  assert (Hc : chan (idepth i) (npx i) c) by (rewrite Forall_forall in F; apply F, I; now left).
  rewrite (chan_bytes _ _ _ Hc). rewrite Nat.mul_comm, Nat.div_mul by (destruct (idepth i); cbn; lia).
  destruct fs; cbn [length Nat.ltb Nat.leb map]; reflexivity.
Qed.

Definition cmyk_fn (d : depth) (f : list samples) : list samples := match cmyk_frame d f with Done f' => f' | _ => f end.
Definition uncmyk_fn (d : depth) (f : list samples) : list samples := match uncmyk_frame d f with Done f' => f' | _ => f end.
Lemma zip_to4_pixels {A} (F : A -> A -> A -> A * A * A * A) (r g b k : list A) d n : length r = n -> length g = n -> length b = n -> length k = n ->
  zip_to4 F r g b k = let px := map (fun j => F (nth j r d) (nth j g d) (nth j b d)) (seq 0 n) in
    (map (fun q => fst (fst (fst q))) px, map (fun q => snd (fst (fst q))) px, map (fun q => snd (fst q)) px, map snd px).
Proof.
  intros Hr Hg Hb Hk. unfold zip_to4.
  rewrite (min_len_all [r; g; b] (length k) n) by (try lia; try (left; discriminate); repeat apply Forall_cons; auto).
  rewrite firstn_all2 by (rewrite !combine_length; lia). rewrite (combine3_map F r g b d) by lia.
  rewrite !skipn_all2 by lia. rewrite !app_nil_r. now rewrite Hr.
Qed.
Lemma combine4_map {A B} (F : A -> A -> A -> A -> B) (a b c e : list A) d : length b = length a -> length c = length a -> length e = length a ->
  map (fun q => F (fst (fst (fst q))) (snd (fst (fst q))) (snd (fst q)) (snd q)) (combine (combine (combine a b) c) e) =
  map (fun k => F (nth k a d) (nth k b d) (nth k c d) (nth k e d)) (seq 0 (length a)).
Proof.
  revert b c e. induction a as [|x a IH]; intros [|y b] [|z c] [|w e] H1 H2 H3; cbn [length] in *; try discriminate; [easy|].
  cbn [combine map seq fst snd nth]. f_equal. rewrite IH by lia. rewrite <- (seq_shift (length a) 0), map_map. reflexivity.
Qed.
Lemma zip_to3_pixels {A} (F : A -> A -> A -> A -> A * A * A) (c m y k : list A) d n : length c = n -> length m = n -> length y = n -> length k = n ->
  zip_to3 F c m y k = let px := map (fun j => F (nth j c d) (nth j m d) (nth j y d) (nth j k d)) (seq 0 n) in
    (map (fun q => fst (fst q)) px, map (fun q => snd (fst q)) px, map snd px).
Proof.
  intros Hr Hg Hb Hk. unfold zip_to3.
  rewrite (min_len_all [c; m; y] (length k) n) by (try lia; try (left; discriminate); repeat apply Forall_cons; auto).
  rewrite firstn_all2 by (rewrite !combine_length; lia). rewrite (combine4_map F c m y k d) by lia.
  rewrite !skipn_all2 by lia. rewrite !app_nil_r. now rewrite Hr.
Qed.
Lemma zip_to3'_pixels (F : triple) (a b c : list f32) d n : length a = n -> length b = n -> length c = n ->
  zip_to3' F a b c = let px := map (fun j => F (nth j a d) (nth j b d) (nth j c d)) (seq 0 n) in
    (map (fun q => fst (fst q)) px, map (fun q => snd (fst q)) px, map snd px).
Proof.
  intros Ha Hb Hc. unfold zip_to3'.
  rewrite (min_len_all [a; b] (length c) n) by (try lia; try (left; discriminate); repeat apply Forall_cons; auto).
  rewrite firstn_all2 by (rewrite !combine_length; lia). rewrite (combine3_map F a b c d) by lia.
  rewrite !skipn_all2 by lia. rewrite !app_nil_r. now rewrite Ha.
Qed.

Lemma out8_range x : is_byte (out8 x).
Proof. unfold is_byte, out8. pose proof (to_uint_range 255 (fadd (fsub f255 (fmul x f255)) half) ltac:(lia)). lia. Qed.
Lemma out16_range x : is_u16 (out16 x).
Proof. unfold is_u16, out16. pose proof (to_uint_range 65535 (fmul x (of_int 65535)) ltac:(lia)). lia. Qed.
Lemma blinn_range x y : is_byte (blinn x y).
Proof. unfold is_byte, blinn. apply Z.mod_pos_bound. lia. Qed.
Lemma cmyk_fn_ok d n f : length f = 3%nat -> Forall (chan d n) f -> cmyk_frame d f = Done (cmyk_fn d f) /\ wf_frame CMYK d n (cmyk_fn d f).
Proof.
  intros L F. frame_cases f L. forall_cases. unfold wf_frame. destruct d; chan_cases; unfold cmyk_fn; cbn [cmyk_frame].
  - rewrite (zip_to4_pixels _ l l0 l1 _ 0 n) by (rewrite ?repeat_length; auto). cbn zeta. split; [reflexivity|]. split; [reflexivity|].
    repeat apply Forall_cons; try apply Forall_nil; (split; cbn [of_depth count]; [|now rewrite !map_length, seq_length]);
      rewrite map_map; apply Forall_map, Forall_forall; intros q _; unfold rgb_cmyk8; cbn [fst snd]; apply out8_range.
  - rewrite (zip_to4_pixels _ l l0 l1 _ 0 n) by (rewrite ?repeat_length; auto). cbn zeta. split; [reflexivity|]. split; [reflexivity|].
    repeat apply Forall_cons; try apply Forall_nil; (split; cbn [of_depth count]; [|now rewrite !map_length, seq_length]);
      rewrite map_map; apply Forall_map, Forall_forall; intros q _; unfold rgb_cmyk16; destruct rgb_cmykf as [[[? ?] ?] ?]; cbn [fst snd]; apply out16_range.
  - rewrite (zip_to4_pixels _ l l0 l1 _ (of_int 0) n) by (rewrite ?repeat_length; auto). cbn zeta. split; [reflexivity|]. split; [reflexivity|].
    repeat apply Forall_cons; try apply Forall_nil; (split; cbn [of_depth count]; [easy|now rewrite !map_length, seq_length]).
Qed.
Lemma uncmyk_fn_ok d n f : length f = 4%nat -> Forall (chan d n) f -> uncmyk_frame d f = Done (uncmyk_fn d f) /\ wf_frame RGB d n (uncmyk_fn d f).
Proof.
  intros L F. frame_cases f L. forall_cases. unfold wf_frame. destruct d; chan_cases; unfold uncmyk_fn; cbn [uncmyk_frame].
  - rewrite (zip_to3_pixels _ l l0 l1 l2 0 n) by auto. cbn zeta. split; [reflexivity|]. split; [reflexivity|].
    repeat apply Forall_cons; try apply Forall_nil; (split; cbn [of_depth count]; [|now rewrite !map_length, seq_length]);
      rewrite map_map; apply Forall_map, Forall_forall; intros q _; unfold cmyk_rgb8; cbn [fst snd]; apply blinn_range.
  - rewrite (zip_to3_pixels _ l l0 l1 l2 0 n) by auto. cbn zeta. split; [reflexivity|]. split; [reflexivity|].
    repeat apply Forall_cons; try apply Forall_nil; (split; cbn [of_depth count]; [|now rewrite !map_length, seq_length]);
      rewrite map_map; apply Forall_map, Forall_forall; intros q _; unfold cmyk_rgb16; destruct cmyk_rgbf as [[? ?] ?]; cbn [fst snd]; apply out16_range.
  - rewrite (zip_to3_pixels _ l l0 l1 l2 (of_int 0) n) by auto. cbn zeta. split; [reflexivity|]. split; [reflexivity|].
    repeat apply Forall_cons; try apply Forall_nil; (split; cbn [of_depth count]; [easy|now rewrite !map_length, seq_length]).
Qed.

Definition depth_fn (from to : depth) (f : list samples) : list samples :=
  if depth_eqb from to then f else match convert_channels from to f with Ok f' => f' | _ => f end.
Lemma depth_fn_ok from to n f : Forall (chan from n) f ->
  Forall (chan to n) (depth_fn from to f) /\ length (depth_fn from to f) = length f /\
  (depth_eqb from to = false -> convert_channels from to f = Ok (depth_fn from to f)).
Proof.
  intros F. unfold depth_fn. destruct (depth_eqb from to) eqn:E.
  - assert (from = to) by now destruct from, to. subst to. easy.
  - destruct (depth_converts to (from, f)) as [cs [X [Y W]]]. { cbn [fst snd]. eapply Forall_impl; [|exact F]. now intros c [H _]. }
    unfold convert_depth in X. cbn [fst snd] in X, W. rewrite E in X. destruct (convert_channels from to f) as [cs'| | |]; cbn [bind] in X; try discriminate.
    injection X as ->. split; [|split; [|easy]].
    + clear -Y W F. revert f W F. induction Y as [|c cs Hc Y IH]; intros [|a f] W F; cbn [map] in W; try discriminate; constructor.
      * injection W as W1 W2. apply Forall_cons_iff in F as [[_ F1] _]. split; [easy|]. congruence.
      * injection W as W1 W2. apply Forall_cons_iff in F as [_ F]. now apply (IH f).
    + rewrite <- (map_length count cs), W. apply map_length.
Qed.
Definition set_depth (d : depth) (i : image) : image := Img (cspace i) d (npx i) (frames i).
Lemma to_depth_ok d i : convertible (cspace i) -> wf i ->
  to_depth d i = Done (set_depth d (on_frames (depth_fn (idepth i) d) i)) /\ wf (set_depth d (on_frames (depth_fn (idepth i) d) i)).
Proof.
  intros C [Ne W].
  assert (W' : wf (set_depth d (on_frames (depth_fn (idepth i) d) i))).
  { split; cbn [frames set_depth on_frames cspace idepth npx]. { now destruct (frames i). } apply Forall_map. eapply Forall_impl; [|exact W].
    intros f [L F]. destruct (depth_fn_ok (idepth i) d (npx i) f F) as [A [B _]]. cbn beta. split; [congruence|easy]. }
  split; [|easy]. unfold to_depth. apply execute_ok; try easy.
  destruct (depth_eqb (idepth i) d) eqn:E.
  - assert (idepth i = d) by (destruct (idepth i), d; easy). destruct i as [cs d' n fs]; cbn in *. subst d'. unfold set_depth, on_frames. cbn.
    unfold depth_fn. rewrite E, map_id. reflexivity.
  - rewrite (with_frames_map _ (depth_fn (idepth i) d)); [reflexivity|]. eapply Forall_impl; [|exact W].
    intros f [L F]. cbn beta. destruct (depth_fn_ok (idepth i) d (npx i) f F) as [A [B D]]. unfold depth_frame. rewrite channels_all by easy.
    rewrite (D E). rewrite skipn_all2 by lia. now rewrite app_nil_r.
Qed.

Definition triple_fn (h : triple) (f : list samples) : list samples := match triple_frame h f with Done f' => f' | _ => f end.
Lemma triple_fn_ok h n f : length f = 3%nat -> Forall (chan D32 n) f ->
  triple_frame h f = Done (triple_fn h f) /\ length (triple_fn h f) = 3%nat /\ Forall (chan D32 n) (triple_fn h f).
Proof.
  intros L F. frame_cases f L. forall_cases. chan_cases. unfold triple_fn. cbn [triple_frame].
  rewrite (zip_to3'_pixels h l l0 l1 (of_int 0) n) by auto. cbn zeta. split; [reflexivity|]. split; [reflexivity|].
  repeat apply Forall_cons; try apply Forall_nil; (split; cbn [of_depth count]; [easy|now rewrite !map_length, seq_length]).
Qed.
Definition float_fn (h : triple) (d : depth) (f : list samples) : list samples := depth_fn D32 d (triple_fn h (depth_fn d D32 f)).
Lemma through_float_ok h i : convertible (cspace i) -> num_components (cspace i) = 3%nat -> wf i ->
  through_float h i = Done (on_frames (float_fn h (idepth i)) i) /\ wf (on_frames (float_fn h (idepth i)) i).
Proof.
  intros C N W. unfold through_float. destruct (to_depth_ok D32 i C W) as [-> W1]. cbn [obind].
  set (i1 := set_depth D32 _) in *.
  assert (E2 : with_frames (triple_frame h) i1 = Done (on_frames (triple_fn h) i1)).
  { apply with_frames_map. destruct W1 as [_ W1]. eapply Forall_impl; [|exact W1]. intros f [L F]. cbn beta.
    apply (triple_fn_ok h (npx i1)); [|exact F]. cbn [cspace i1 set_depth on_frames] in L. congruence. }
  rewrite E2. cbn [obind]. assert (W2 : wf (on_frames (triple_fn h) i1)).
  { destruct W1 as [N1 W1]. split; cbn [frames on_frames cspace idepth npx]. { now destruct (frames i1). } apply Forall_map. eapply Forall_impl; [|exact W1].
    intros f [L F]. cbn beta. destruct (triple_fn_ok h (npx i1) f) as [A [B D]]; [cbn [cspace i1 set_depth on_frames] in L; congruence|exact F|].
    split; [|exact D]. cbn [cspace i1 set_depth on_frames]. congruence. }
  destruct (to_depth_ok (idepth i) (on_frames (triple_fn h) i1)) as [E3 W3]; try easy.
  rewrite E3. assert (Eq : set_depth (idepth i) (on_frames (depth_fn (idepth (on_frames (triple_fn h) i1)) (idepth i)) (on_frames (triple_fn h) i1)) = on_frames (float_fn h (idepth i)) i).
  { unfold i1, on_frames, set_depth. cbn [cspace idepth npx frames]. now rewrite !map_map. }
  rewrite Eq in *. split; easy.
Qed.

(** ** The conversions as functions of frames *)
Lemma wf_map g c i : wf i -> (forall f, wf_frame (cspace i) (idepth i) (npx i) f -> wf_frame c (idepth i) (npx i) (g f)) -> wf (relabel c (on_frames g i)).
Proof.
  intros [Ne W] H. split; cbn [frames relabel on_frames cspace idepth npx]. { now destruct (frames i). }
  apply Forall_map. eapply Forall_impl; [|exact W]. exact H.
Qed.
Ltac fin := unfold set_colorspace, on_frames, relabel; cbn [obind cspace idepth npx frames]; do 2 f_equal; rewrite ?map_map; apply map_ext_in;
  let f := fresh "f" in let H := fresh "Hin" in intros f H;
  match goal with W : Forall (wf_frame _ _ _) ?fs |- _ => match type of H with In f fs =>
    let L := fresh "L" in rewrite Forall_forall in W; destruct (W f H) as [L _]; cbn [num_components] in L; frame_cases f L; reflexivity end end.
Ltac last_step Step := unfold set_colorspace, on_frames; cbn [obind cspace idepth npx frames]; rewrite Step by reflexivity; cbn [obind cspace idepth npx frames];
  do 2 f_equal; rewrite map_map; apply map_ext; intros f; reflexivity.
Ltac lengths Wf := cbn [frames]; eapply Forall_impl; [|exact Wf]; let f := fresh "f" in let L := fresh "L" in intros f [L _]; cbn beta; cbn [num_components] in L; frame_cases f L; reflexivity.
Section Convert.
Variables (p : cpu) (rgb_hsl hsl_rgb rgb_hsv hsv_rgb : triple).
Notation conv := (convert p rgb_hsl hsl_rgb rgb_hsv hsv_rgb).
(** From RGB and RGBA *)
Definition rgb_fn (from to : colorspace) (d : depth) (n : nat) (f : list samples) : list samples :=
  let col := firstn 3 f in let a := alpha_fn from d n f in
  match to with
  | RGB => col | RGBA => col ++ [a] | BGR => rev col | BGRA => rev col ++ [a] | ARGB => a :: col
  | Luma => [gray_fn p d n f] | LumaA => [gray_fn p d n f; a]
  | CMYK => cmyk_fn d col | HSL => float_fn rgb_hsl d col | HSV => float_fn rgb_hsv d col
  | _ => f
  end.
(** The first step of the others, to the colorspace [mid] *)
Definition mid (c : colorspace) : colorspace := match c with RGBA | LumaA | BGRA | ARGB => RGBA | _ => RGB end.
Definition first_fn (from : colorspace) (d : depth) (f : list samples) : list samples :=
  match from, f with
  | Luma, [l] => [l; l; l]
  | LumaA, [l; a] => [l; l; l; a]
  | BGR, [b; g; r] => [r; g; b]
  | BGRA, [b; g; r; a] => [r; g; b; a]
  | ARGB, [a; r; g; b] => [b; a; r; g]
  | CMYK, _ => uncmyk_fn d f
  | HSL, _ => float_fn hsl_rgb d f
  | HSV, _ => float_fn hsv_rgb d f
  | _, _ => f
  end.
Definition conv_fn (from to : colorspace) (d : depth) (n : nat) (f : list samples) : list samples :=
  if colorspace_eqb from to then f else
  match from, to with
  | Luma, LumaA => f ++ [opaque d n]
  | LumaA, Luma => firstn 1 f
  | _, _ => rgb_fn (mid from) to d n (first_fn from d f)
  end.

Lemma float_fn_wf h d n cs f : length f = 3%nat -> num_components cs = 3%nat -> Forall (chan d n) f -> wf_frame cs d n (float_fn h d f).
Proof.
  intros L N F. unfold float_fn. destruct (depth_fn_ok d D32 n f F) as [A [B _]]. destruct (triple_fn_ok h n (depth_fn d D32 f)) as [_ [C D]]; [congruence|easy|].
  destruct (depth_fn_ok D32 d n _ D) as [X [Y _]]. split; [congruence|easy].
Qed.
Lemma rgb_fn_wf from to d n f : (from = RGB \/ from = RGBA) -> convertible to -> wf_frame from d n f -> wf_frame to d n (rgb_fn from to d n f).
Proof.
  intros Hf Ht [L F]. assert (G : chan d n (gray_fn p d n f)) by (apply gray_fn_chan; [destruct Hf as [-> | ->]; rewrite L; cbn; lia|easy]).
  pose proof (opaque_chan d n) as O. assert (Hfrom : from = RGB \/ from = RGBA) by easy.
  destruct Hf as [-> | ->]; cbn [num_components] in L; frame_cases f L; unfold rgb_fn, alpha_fn; cbn [has_alpha nth firstn rev app]; forall_cases;
    (assert (W3 : length [s; s0; s1] = 3%nat) by reflexivity); (assert (F3 : Forall (chan d n) [s; s0; s1]) by (repeat apply Forall_cons; auto));
    destruct to; cbn [convertible] in Ht; try contradiction; try (split; [reflexivity|repeat apply Forall_cons; auto]);
    try (now apply cmyk_fn_ok); now apply float_fn_wf.
Qed.

Lemma conv_to_rgb k i : wf i -> (cspace i = RGB \/ cspace i = RGBA) -> conv (S k) RGB i = Done (relabel RGB (on_frames (firstn 3) i)).
Proof.
  intros W Hf. change (conv (S k) RGB i) with (execute (convert_impl p rgb_hsl hsl_rgb rgb_hsv hsv_rgb (conv k) RGB) i).
  assert (W' : wf (relabel RGB (on_frames (firstn 3) i))).
  { apply wf_map; [easy|]. intros f Hw. assert (X := rgb_fn_wf (cspace i) RGB (idepth i) (npx i) f Hf I Hw). exact X. }
  apply execute_ok; [destruct Hf as [-> | ->]; exact I|easy| |exact I|exact W']. unfold convert_impl.
  destruct i as [cs d n fs]; cbn [cspace idepth npx frames] in *. destruct W as [Ne W]; cbn [cspace idepth npx frames] in *.
  destruct Hf; subst cs; cbn [colorspace_eqb].
  - unfold relabel, on_frames. cbn [cspace idepth npx frames]. do 2 f_equal. rewrite <- map_id at 1. apply map_ext_in. intros f Hf.
    rewrite Forall_forall in W. destruct (W f Hf) as [L _]. cbn [num_components] in L. rewrite firstn_all2 by lia. reflexivity.
  - unfold pop_channel. rewrite (with_frames_map _ (firstn 3)); [reflexivity|]. cbn [frames]. eapply Forall_impl; [|exact W].
    intros f [L _]. cbn beta. cbn [num_components] in L. frame_cases f L. reflexivity.
Qed.

Lemma step_frames F g (i : image) (k : image -> out image) : Forall (fun f => F f = Done (g f)) (frames i) -> obind (with_frames F i) k = k (on_frames g i).
Proof. intros H. now rewrite (with_frames_map F g). Qed.

Lemma conv_rgb k to i : wf i -> (cspace i = RGB \/ cspace i = RGBA) -> convertible to ->
  conv (S (S k)) to i = Done (relabel to (on_frames (rgb_fn (cspace i) to (idepth i) (npx i)) i)) /\
  wf (relabel to (on_frames (rgb_fn (cspace i) to (idepth i) (npx i)) i)).
Proof.
  intros W Hf Ht.
  assert (W' : wf (relabel to (on_frames (rgb_fn (cspace i) to (idepth i) (npx i)) i))).
  { apply wf_map; [easy|]. intros f Hw. now apply rgb_fn_wf. }
  split; [|easy]. change (conv (S (S k)) to i) with (execute (convert_impl p rgb_hsl hsl_rgb rgb_hsv hsv_rgb (conv (S k)) to) i).
  apply execute_ok; [destruct Hf as [-> | ->]; exact I|easy| |exact Ht|exact W']. unfold convert_impl.
  pose proof (conv_to_rgb k i W Hf) as R.
  assert (A : cspace i = RGB -> add_opaque_alpha i = Done (on_frames (fun f => f ++ [opaque (idepth i) (npx i)]) i)) by (intros E; apply add_alpha_ok; [now rewrite E|easy]).
  assert (G : (to = Luma \/ to = LumaA) -> to_gray p to i = Done (on_frames (rgb_fn (cspace i) to (idepth i) (npx i)) i)).
  { intros Et. rewrite (to_gray_ok p (cspace i) to i) by easy. destruct Et; subst to; reflexivity. }
  assert (W3 : wf (relabel RGB (on_frames (firstn 3) i))).
  { apply wf_map; [easy|]. intros f Hw. exact (rgb_fn_wf (cspace i) RGB (idepth i) (npx i) f Hf I Hw). }
  assert (T : forall h, through_float h (relabel RGB (on_frames (firstn 3) i)) = Done (on_frames (float_fn h (idepth i)) (relabel RGB (on_frames (firstn 3) i)))).
  { intros h. exact (proj1 (through_float_ok h (relabel RGB (on_frames (firstn 3) i)) I eq_refl W3)). }
  assert (Cm : with_frames (cmyk_frame (idepth i)) (on_frames (firstn 3) i) = Done (on_frames (cmyk_fn (idepth i)) (on_frames (firstn 3) i))).
  { apply with_frames_map. destruct W3 as [_ W3]. eapply Forall_impl; [|exact W3]. intros f [L F]. cbn beta. now apply (cmyk_fn_ok (idepth i) (npx i)). }
  destruct i as [cs d n fs]; cbn [cspace idepth npx frames] in *. pose proof W as [Ne Wf]; cbn [cspace idepth npx frames] in Ne, Wf.
  unfold relabel, on_frames in *. cbn [cspace idepth npx frames] in *.
  assert (E3 : cs = RGB -> map (firstn 3) fs = fs).
  { intros ->. rewrite <- (map_id fs) at 2. apply map_ext_in. intros f Hin. rewrite Forall_forall in Wf. destruct (Wf f Hin) as [L _]. cbn [num_components] in L. now frame_cases f L. }
  assert (Sw : forall to, cs = RGB -> rgb_bgr RGB to (Img cs d n fs) =
             (let add := match to with RGBA | BGRA => true | _ => false end in
              if add then add_opaque_alpha (Img cs d n (map (fun f => rev (firstn 3 f)) fs)) else Done (Img cs d n (map (fun f => rev (firstn 3 f)) fs)))).
  { intros to' ->. unfold rgb_bgr. rewrite (step_frames _ (fun f => rev (firstn 3 f))).
    - unfold on_frames. cbn [cspace idepth npx frames]. destruct to'; reflexivity.
    - cbn [frames]. eapply Forall_impl; [|exact Wf]. intros f [L _]. cbn beta. cbn [num_components] in L. frame_cases f L. now destruct to'. }
  assert (Pop : cs = RGBA -> pop_channel (Img cs d n fs) = Done (Img cs d n (map (firstn 3) fs))).
  { intros ->. unfold pop_channel. apply (with_frames_map _ (firstn 3)). cbn [frames]. eapply Forall_impl; [|exact Wf]. intros f [L _]. cbn beta. cbn [num_components] in L. now frame_cases f L. }
  assert (Rv : forall f, wf_frame cs d n f -> wf_frame RGB d n (rev (firstn 3 f))).
  { intros f Hw. exact (rgb_fn_wf cs BGR d n f Hf I Hw). }
  destruct Hf; subst cs; destruct to; cbn [convertible] in Ht; try contradiction; cbn [colorspace_eqb]; cbv zeta.
  - (* RGB RGB *) rewrite <- (map_id fs) at 1. fin.
  - rewrite A by easy. fin.
  - rewrite G by auto. reflexivity.
  - rewrite G by auto. reflexivity.
  - (* CMYK *) rewrite <- (E3 eq_refl) at 1. rewrite Cm. fin.
  - (* BGR *) rewrite Sw by easy. fin.
  - (* BGRA *) rewrite Sw by easy. cbn [obind]. rewrite add_alpha_ok; [fin|exact I|exact (wf_map (fun f => rev (firstn 3 f)) RGB _ W Rv)].
  - (* ARGB *) unfold rgb_to_argb. rewrite A by easy. cbn [obind]. rewrite (step_frames _ (fun f => nth 3 f none :: firstn 3 f)); [fin|].
    cbn [frames]. apply Forall_map. eapply Forall_impl; [|exact Wf]. intros f [L _]. cbn beta. cbn [num_components] in L. frame_cases f L. reflexivity.
  - rewrite R. cbn [obind]. rewrite T. fin.
  - rewrite R. cbn [obind]. rewrite T. fin.
  - (* RGBA RGB *) rewrite Pop by easy. fin.
  - rewrite <- (map_id fs) at 1. fin.
  - rewrite G by auto. reflexivity.
  - rewrite G by auto. reflexivity.
  - rewrite Pop by easy. cbn [obind]. cbn [idepth]. change (Img RGBA d n (map (firstn 3) fs)) with (Img RGBA d n (map (firstn 3) fs)) in Cm. rewrite Cm. fin.
  - unfold rgb_bgr. cbn [obind]. rewrite (step_frames _ (fun f => rev (firstn 3 f))); [fin|].
    cbn [frames]. eapply Forall_impl; [|exact Wf]. intros f [L _]. cbn beta. cbn [num_components] in L. frame_cases f L. reflexivity.
  - unfold rgb_bgr. cbn [obind]. rewrite (step_frames _ (fun f => rev (firstn 3 f) ++ skipn 3 f)); [fin|].
    cbn [frames]. eapply Forall_impl; [|exact Wf]. intros f [L _]. cbn beta. cbn [num_components] in L. frame_cases f L. reflexivity.
  - unfold rgba_argb. cbn [cspace]. rewrite (step_frames _ (fun f => nth 3 f none :: firstn 3 f)); [fin|].
    cbn [frames]. eapply Forall_impl; [|exact Wf]. intros f [L _]. cbn beta. cbn [num_components] in L. frame_cases f L. reflexivity.
  - rewrite R. cbn [obind]. rewrite T. fin.
  - rewrite R. cbn [obind]. rewrite T. fin.
Qed.

Lemma first_fn_wf from d n f : convertible from -> wf_frame from d n f -> wf_frame (mid from) d n (first_fn from d f).
Proof.
  intros C [L F]. destruct from; cbn [convertible] in C; try contradiction; cbn [num_components] in L;
    try (cbn [first_fn mid]; apply float_fn_wf; now auto); try (cbn [first_fn mid]; now apply uncmyk_fn_ok);
    frame_cases f L; forall_cases; cbn [first_fn mid]; (split; [reflexivity|repeat apply Forall_cons; auto]).
Qed.
Lemma conv_fn_wf from to d n f : convertible from -> convertible to -> wf_frame from d n f -> wf_frame to d n (conv_fn from to d n f).
Proof.
  intros Cf Ct W. unfold conv_fn. destruct (colorspace_eqb from to) eqn:E. { apply colorspace_eqb_eq in E. now subst to. }
  assert (G : wf_frame to d n (rgb_fn (mid from) to d n (first_fn from d f))).
  { apply rgb_fn_wf; [destruct from; auto|easy|]. now apply first_fn_wf. }
  destruct from; try exact G; destruct to; try exact G; destruct W as [L F]; cbn [num_components] in L; frame_cases f L; forall_cases; split; try reflexivity;
    cbn [app firstn]; repeat apply Forall_cons; auto using opaque_chan.
Qed.

(** Every conversion between the supported colorspaces *)
Theorem conv_all k to i : wf i -> convertible (cspace i) -> convertible to ->
  conv (S (S (S k))) to i = Done (relabel to (on_frames (conv_fn (cspace i) to (idepth i) (npx i)) i)) /\
  wf (relabel to (on_frames (conv_fn (cspace i) to (idepth i) (npx i)) i)).
Proof.
  intros W Cf Ct.
  assert (W' : wf (relabel to (on_frames (conv_fn (cspace i) to (idepth i) (npx i)) i))).
  { apply wf_map; [easy|]. intros f Hw. now apply conv_fn_wf. }
  split; [|easy].
  assert (Base : (cspace i = RGB \/ cspace i = RGBA) -> conv (S (S (S k))) to i = Done (relabel to (on_frames (conv_fn (cspace i) to (idepth i) (npx i)) i))).
  { intros Hf. rewrite (proj1 (conv_rgb (S k) to i W Hf Ct)). destruct i as [cs d n fs]. cbn [cspace idepth npx frames] in *. destruct W as [_ Wf]; cbn [cspace idepth npx frames] in Wf.
    unfold relabel, on_frames. cbn [cspace idepth npx frames]. do 2 f_equal. apply map_ext_in. intros f Hin. rewrite Forall_forall in Wf. destruct (Wf f Hin) as [L _].
    unfold conv_fn. destruct Hf; subst cs; cbn [num_components] in L; destruct to; cbn [convertible] in Ct; try contradiction; cbn [colorspace_eqb mid first_fn]; try reflexivity;
      frame_cases f L; reflexivity. }
  destruct (cspace i) eqn:Ec; cbn [convertible] in Cf; try contradiction; try (apply Base; auto; fail); clear Base;
  change (conv (S (S (S k))) to i) with (execute (convert_impl p rgb_hsl hsl_rgb rgb_hsv hsv_rgb (conv (S (S k))) to) i);
  (apply execute_ok; [now rewrite Ec|easy| |exact Ct|exact W']); unfold convert_impl; rewrite Ec;
  (* the step to the intermediate colorspace *)
  assert (Step : forall i1, i1 = relabel (mid (cspace i)) (on_frames (first_fn (cspace i) (idepth i)) i) ->
     conv (S (S k)) to i1 = Done (relabel to (on_frames (rgb_fn (mid (cspace i)) to (idepth i) (npx i)) i1)))
    by (intros i1 ->; apply (conv_rgb k to (relabel (mid (cspace i)) (on_frames (first_fn (cspace i) (idepth i)) i)));
        [apply wf_map; [easy|]; intros f Hw; apply first_fn_wf; [rewrite Ec; exact I|exact Hw]|rewrite Ec; cbn; auto|exact Ct]);
  rewrite Ec in *; cbn [mid] in Step; destruct (colorspace_eqb _ to) eqn:Eq;
  try (apply colorspace_eqb_eq in Eq; subst to; destruct i as [cs d n fs]; cbn [cspace idepth npx frames] in *; subst cs; unfold relabel, on_frames; cbn [cspace idepth npx frames];
       do 2 f_equal; unfold conv_fn; cbn [colorspace_eqb]; symmetry; apply map_id).
  all: destruct i as [cs d n fs]; cbn [cspace idepth npx frames] in *; subst cs; pose proof W as [_ Wf]; cbn [cspace idepth npx frames] in Wf.
  all: assert (Last : forall c, obind (set_colorspace (mid c) (Img c d n (map (first_fn c d) fs))) (conv (S (S k)) to) = conv (S (S k)) to (Img (mid c) d n (map (first_fn c d) fs))) by reflexivity.
  all: unfold relabel, on_frames in *; cbn [cspace idepth npx frames] in *.
  - (* Luma *)
    assert (S1 : forall X, obind (luma_to_rgb RGB (Img Luma d n fs)) X = X (Img Luma d n (map (first_fn Luma d) fs))).
    { intros X. unfold luma_to_rgb. cbn [cspace]. rewrite (step_frames _ (first_fn Luma d)); [reflexivity|]. lengths Wf. }
    assert (S2 : add_opaque_alpha (Img Luma d n fs) = Done (Img Luma d n (map (fun f => f ++ [opaque d n]) fs))) by (now apply (add_alpha_ok (Img Luma d n fs))).
    destruct to; cbn [convertible] in Ct; try contradiction; try discriminate Eq; rewrite ?S1, ?S2; try reflexivity; try (last_step Step).
    unfold set_colorspace. cbn [idepth npx frames]. do 2 f_equal. apply map_ext_in. intros f Hin. rewrite Forall_forall in Wf. destruct (Wf f Hin) as [L _].
    cbn [num_components] in L. frame_cases f L. reflexivity.
  - (* LumaA *)
    assert (S1 : forall X, obind (luma_to_rgb RGBA (Img LumaA d n fs)) X = X (Img LumaA d n (map (first_fn LumaA d) fs))).
    { intros X. unfold luma_to_rgb. cbn [cspace]. rewrite (step_frames _ (first_fn LumaA d)); [reflexivity|]. lengths Wf. }
    assert (S2 : forall X, obind (luma_to_rgb RGB (Img LumaA d n fs)) X = X (Img LumaA d n (map (fun f => firstn 3 (first_fn LumaA d f)) fs))).
    { intros X. unfold luma_to_rgb. cbn [cspace]. rewrite (step_frames _ (fun f => firstn 3 (first_fn LumaA d f))); [reflexivity|]. lengths Wf. }
    assert (S3 : forall X, obind (pop_channel (Img LumaA d n fs)) X = X (Img LumaA d n (map (firstn 1) fs))).
    { intros X. unfold pop_channel. rewrite (step_frames _ (firstn 1)); [reflexivity|]. lengths Wf. }
    destruct to; cbn [convertible] in Ct; try contradiction; try discriminate Eq; rewrite ?S1, ?S2, ?S3; try reflexivity; try (last_step Step).
    unfold set_colorspace. cbn [idepth npx frames]. do 2 f_equal. apply map_ext_in. intros f Hin. rewrite Forall_forall in Wf. destruct (Wf f Hin) as [L _].
    cbn [num_components] in L. frame_cases f L. reflexivity.
  - (* CMYK *) rewrite (step_frames _ (uncmyk_fn d)).
    + destruct to; cbn [convertible] in Ct; try contradiction; try discriminate Eq; last_step Step.
    + cbn [frames]. eapply Forall_impl; [|exact Wf]. intros f [L F]. now apply (uncmyk_fn_ok d n).
  - (* BGR *) assert (S1 : forall X, obind (rgb_bgr BGR RGB (Img BGR d n fs)) X = X (Img BGR d n (map (first_fn BGR d) fs))).
    { intros X. unfold rgb_bgr. rewrite (step_frames _ (first_fn BGR d)); [reflexivity|]. lengths Wf. }
    rewrite S1. destruct to; cbn [convertible] in Ct; try contradiction; try discriminate Eq; last_step Step.
  - (* BGRA *) assert (S1 : forall X, obind (rgb_bgr BGRA RGBA (Img BGRA d n fs)) X = X (Img BGRA d n (map (first_fn BGRA d) fs))).
    { intros X. unfold rgb_bgr. rewrite (step_frames _ (first_fn BGRA d)); [reflexivity|]. lengths Wf. }
    rewrite S1. destruct to; cbn [convertible] in Ct; try contradiction; try discriminate Eq; last_step Step.
  - (* ARGB *) assert (S1 : forall X, obind (rgba_argb (Img ARGB d n fs)) X = X (Img ARGB d n (map (first_fn ARGB d) fs))).
    { intros X. unfold rgba_argb. cbn [cspace]. rewrite (step_frames _ (first_fn ARGB d)); [reflexivity|]. lengths Wf. }
    rewrite S1. destruct to; cbn [convertible] in Ct; try contradiction; try discriminate Eq; last_step Step.
  - (* HSL *) rewrite (proj1 (through_float_ok hsl_rgb (Img HSL d n fs) I eq_refl W)). cbn [obind].
    destruct to; cbn [convertible] in Ct; try contradiction; try discriminate Eq; last_step Step.
  - (* HSV *) rewrite (proj1 (through_float_ok hsv_rgb (Img HSV d n fs) I eq_refl W)). cbn [obind].
    destruct to; cbn [convertible] in Ct; try contradiction; try discriminate Eq; last_step Step.
Qed.
End Convert
.
