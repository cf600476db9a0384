(** Splitting into channels and flattening (C29), vector routines (C30), 16-bit serialisation (C55), alpha separation (C56). *)
From Verif Require Import Base BaseProof Loops ChannelModel DeintModel DeintSpec DeintProof.

Definition counting (n : nat) : list Z := map Z.of_nat (seq 0 n).

(** C29: samples of any type other than u8, any colorspace with components *)
Theorem deinterleave_wide_roundtrip {A} (d : A) cs px : let n := num_components cs in
  (0 < n)%nat -> (length px mod n = 0)%nat -> px <> [] ->
  exists chs, deinterleave_wide d cs px = Val (Ok chs) /\ splits d n px chs /\ flatten d chs = Ok px /\
    forall out, length out = length px -> swizzle d chs out = Ok (px, length px).
Proof.
  intros n Hn Hm Hp. exists (canon d n px). split; [|split; [now apply canon_splits|split; [now apply flatten_canon|]]].
  - apply deinterleave_canon; try easy; intros E; f_equal; apply scalar_canon; try easy; try lia;
      repeat (apply Forall_cons; [now rewrite repeat_length|]); apply Forall_nil.
  - intros out Lo. now apply swizzle_canon.
Qed.
Example wide_case : (length (counting 15) mod num_components (MultiBand 5) = 0)%nat /\
  deinterleave_wide 0 (MultiBand 5) (counting 15) = Val (Ok [[0; 5; 10]; [1; 6; 11]; [2; 7; 12]; [3; 8; 13]; [4; 9; 14]]).
Proof. now split. Qed.

Lemma u8_canon p cs px : let n := num_components cs in
  supported p cs -> (0 < n)%nat -> (length px mod n = 0)%nat -> px <> [] -> deinterleave_u8 p cs px = Val (Ok (canon 0 n px)).
Proof.
  intros n Sp Hn Hm Hp.
  assert (R : forall k, Forall (fun o : list Z => length o = (length px / k)%nat) (repeat (repeat 0 (length px / k)) k)).
  { intros k. apply Forall_forall. intros o Ho. apply repeat_spec in Ho as ->. apply repeat_length. }
  apply deinterleave_canon; try easy; intros E; fold n in E.
  - unfold supported in Sp. fold n in Sp. rewrite E in Sp, Hm.
    assert (B1 : block_split true 3 48 sse3_block px (repeat (repeat 0 (length px / 3)) 3) = Ok (canon 0 3 px)).
    { apply block_split_ok; [lia|lia|easy|apply sse3_block_ok|exact Hm|easy|apply R]. }
    assert (B2 : block_split true 3 96 sse2_block px (repeat (repeat 0 (length px / 3)) 3) = Ok (canon 0 3 px)).
    { apply block_split_ok; [lia|lia|easy|apply sse2_block_ok|exact Hm|easy|apply R]. }
    assert (B3 : scalar_split 0 3 px (repeat (repeat 0 (length px / 3)) 3) = canon 0 3 px) by (apply scalar_canon; [lia|easy|apply R]).
    unfold three_u8. rewrite B1, B2, B3. unfold needs, lift. destruct (simd p), (avx2 p), (sse3 p), (sse41 p), (sse2 p); cbn [andb]; try easy; exfalso;
      clear -Sp; intuition discriminate.
  - unfold supported in Sp. fold n in Sp. rewrite E in Sp, Hm.
    assert (B3 : scalar_split 0 4 px (repeat (repeat 0 (length px / 4)) 4) = canon 0 4 px) by (apply scalar_canon; [lia|easy|apply R]).
    unfold four_u8. rewrite B3. unfold needs. destruct (simd p), (avx2 p), (sse41 p); cbn [andb]; try easy; exfalso;
      clear -Sp; intuition discriminate.
Qed.

(** C29 for bytes, on processors where the routine chosen can run *)
Theorem deinterleave_u8_roundtrip_partial p cs px : let n := num_components cs in
  supported p cs -> (0 < n)%nat -> (length px mod n = 0)%nat -> px <> [] ->
  exists chs, deinterleave_u8 p cs px = Val (Ok chs) /\ splits 0 n px chs /\ flatten 0 chs = Ok px /\
    forall out, length out = length px -> swizzle 0 chs out = Ok (px, length px).
Proof.
  intros n Sp Hn Hm Hp. exists (canon 0 n px). split; [now apply u8_canon|]. split; [now apply canon_splits|]. split; [now apply flatten_canon|].
  intros out Lo. now apply swizzle_canon.
Qed.
Definition modern : cpu := Cpu true true true true true.
Definition nehalem : cpu := Cpu true false true true true.
Definition prescott : cpu := Cpu true false false true true.
Definition pentium3 : cpu := Cpu true false false false true.
Example u8_case : supported nehalem RGB /\ supported pentium3 RGB /\ supported modern RGBA /\
  deinterleave_u8 nehalem RGB (counting 51) = deinterleave_u8 pentium3 RGB (counting 51).
Proof. do 3 (split; [cbn; tauto|]). vm_compute. reflexivity. Qed.

(** The channels determine the samples and the other way round: channels of one length survive flattening. *)
Theorem flatten_deinterleave {A} (d : A) cs chs px m : let n := num_components cs in
  (0 < n)%nat -> (0 < m)%nat -> length chs = n -> Forall (fun c => length c = m) chs -> flatten d chs = Ok px ->
  deinterleave_wide d cs px = Val (Ok chs).
Proof.
  intros n Hn Hm L F E.
  assert (S : (length px = m * n)%nat /\ splits d n px chs).
  { assert (Cc : concat (map (column d chs) (seq 0 m)) = px /\ hd [] chs = hd [] chs).
    { split; [|easy]. unfold flatten in E.
      destruct chs as [|c1 chs]; [cbn [length] in L; lia|]. pose proof F as F'. apply Forall_cons_iff in F' as [F1 _].
      assert (M : min_len (c1 :: chs) (length (hd [] (c1 :: chs))) = m) by (apply min_len_all; [easy|now left|cbn [hd]; lia]).
      assert (K : columns_checked (c1 :: chs) 0 (length c1) = Ok (map (column d (c1 :: chs)) (seq 0 m))).
      { rewrite F1. apply columns_checked_ok. eapply Forall_impl; [|exact F]. cbn beta. intros; lia. }
      destruct chs as [|c2 [|c3 [|c4 [|c5 chs]]]].
      - injection E as <-. rewrite <- F1. clear.
        assert (G : forall s (c : list A), concat (map (column d [c]) (seq s (length c - s))) = skipn s c).
        { clear. intros s c. remember (length c - s)%nat as k eqn:Ek. revert s Ek. induction k as [|k IH]; intros s Ek; cbn [seq map concat].
          - now rewrite skipn_all2 by lia.
          - rewrite IH by lia. unfold column. cbn [map app]. apply (nth_ext _ _ d d).
            + cbn [length]. rewrite !skipn_length. lia.
            + intros i Hi. destruct i as [|i]; cbn [nth]; rewrite !nth_skipn; f_equal; lia. }
        specialize (G O c1). now rewrite Nat.sub_0_r in G.
      - rewrite M in E. now injection E.
      - rewrite M in E. now injection E.
      - rewrite M in E. now injection E.
      - rewrite K in E. cbn [bind] in E. now injection E. }
    destruct Cc as [Cc _].
    assert (FC : Forall (fun g => length g = n) (map (column d chs) (seq 0 m))).
    { apply Forall_forall. intros g Hg. apply in_map_iff in Hg as (p & <- & _). unfold column. now rewrite map_length. }
    assert (Lp : (length px = m * n)%nat).
    { rewrite <- Cc, (concat_length_const n) by easy. rewrite map_length, seq_length. lia. }
    split; [easy|]. split; [easy|]. rewrite Lp, Nat.div_mul by lia. intros i Hi.
    assert (Li : length (nth i chs []) = m) by (rewrite Forall_forall in F; apply F, nth_In; lia). split; [easy|].
    intros p Hp. rewrite <- (chunks_nth d n Hn px p i); [|rewrite Lp, Nat.div_mul by lia; easy|easy].
    rewrite <- Cc. rewrite chunks_exact_of_concat by easy. rewrite (map_nth_in _ _ _ O) by (now rewrite seq_length). rewrite seq_nth by easy.
    unfold column. cbn [Nat.add]. rewrite (map_nth_in _ _ _ []) by lia. reflexivity. }
  destruct S as [Lp S].
  destruct (deinterleave_wide_roundtrip d cs px Hn) as (chs' & E' & S' & _).
  - rewrite Lp. apply Nat.mod_mul. lia.
  - intros ->. cbn [length] in Lp. apply eq_sym, Nat.mul_eq_0 in Lp. lia.
  - rewrite E'. do 2 f_equal. rewrite (splits_canon d n px chs Hn S). now apply splits_canon.
Qed.
Example flatten_case : flatten 0 [[1; 2]; [3; 4]; [5; 6]] = Ok [1; 3; 5; 2; 4; 6]. Proof. reflexivity. Qed.

(** Left-over samples and empty input are refused; a colorspace without components panics. *)
Theorem deinterleave_refuses {A} (d : A) cs px : let n := num_components cs in
  ((0 < n)%nat -> (length px mod n <> 0)%nat \/ px = [] -> deinterleave_wide d cs px = Val (Err EOther)) /\
  (n = O -> deinterleave_wide d cs px = Val Panic).
Proof.
  intros n. unfold deinterleave_wide, deinterleave. fold n. split.
  - intros Hn [H| ->]; replace (n =? 0)%nat with false by lia.
    + now replace (length px mod n =? 0)%nat with false by (symmetry; now apply Nat.eqb_neq).
    + cbn [length]. rewrite Nat.mod_0_l, Nat.div_0_l by lia. reflexivity.
  - intros ->. reflexivity.
Qed.
Example refuse_case : deinterleave_wide 0 RGB [1; 2; 3; 4] = Val (Err EOther) /\ num_components Unknown = O. Proof. now split. Qed.

(** C30. The full claim is false: on a processor with SSE4.1 but without AVX2, four channels are split with a
    routine compiled for AVX2; on one with SSE3 only, three channels with one compiled for SSE4.1. *)
Theorem vector_split_refuted :
  plausible nehalem /\ plausible prescott /\
  deinterleave_u8 nehalem RGBA (counting 4) = Undefined /\ deinterleave_u8 prescott RGB (counting 3) = Undefined.
Proof. repeat apply conj; try easy. Qed.
(** Everywhere else the result is that of the scalar routine, whatever the length; and these are the only exceptions. *)
Theorem vector_split_partial p cs px :
  supported p cs -> deinterleave_u8 p cs px = deinterleave_wide 0 cs px.
Proof.
  intros Sp. set (n := num_components cs). destruct (Nat.eq_dec n 0) as [Z0|Hn].
  - unfold deinterleave_u8, deinterleave_wide, deinterleave. fold n. now rewrite Z0.
  - destruct (Nat.eq_dec (length px mod n) 0) as [Hm|Hm].
    + destruct px as [|x px].
      * unfold deinterleave_u8, deinterleave_wide, deinterleave. fold n. cbn [length]. rewrite Nat.mod_0_l, Nat.div_0_l by lia.
        now replace (n =? 0)%nat with false by lia.
      * rewrite u8_canon by (try easy; fold n; lia). fold n.
        destruct (deinterleave_wide_roundtrip 0 cs (x :: px)) as (chs & E & S & _); [fold n; lia|easy|easy|].
        rewrite E. do 2 f_equal. symmetry. apply splits_canon; [fold n; lia|exact S].
    + unfold deinterleave_u8, deinterleave_wide, deinterleave. fold n.
      replace (length px mod n =? 0)%nat with false by (symmetry; now apply Nat.eqb_neq). reflexivity.
Qed.
Theorem vector_split_undefined p cs px : let n := num_components cs in
  (length px mod n = 0)%nat -> px <> [] -> ~ supported p cs -> deinterleave_u8 p cs px = Undefined.
Proof.
  intros n Hm Hp NS. unfold supported in NS. fold n in NS. unfold deinterleave_u8, deinterleave. fold n. rewrite Hm.
  destruct n as [|[|[|[|[|n]]]]]; try (now exfalso).
  - cbn [Nat.eqb negb]. replace (length px / 3 =? 0)%nat with false.
    + unfold three_u8, needs. destruct (simd p), (avx2 p), (sse3 p), (sse41 p); cbn [andb]; try easy; exfalso; apply NS; intuition congruence.
    + symmetry. apply Nat.eqb_neq. destruct px as [|a px]; [easy|]. cbn [length] in *. generalize dependent (length px). intros k Hk. lia.
  - cbn [Nat.eqb negb]. replace (length px / 4 =? 0)%nat with false.
    + unfold four_u8, needs. destruct (simd p), (avx2 p), (sse41 p); cbn [andb]; try easy; exfalso; apply NS; intuition congruence.
    + symmetry. apply Nat.eqb_neq. destruct px as [|a px]; [easy|]. cbn [length] in *. generalize dependent (length px). intros k Hk. lia.
Qed.
Example unsupported_case : ~ supported nehalem RGBA /\ ~ supported prescott RGB. Proof. split; cbn; intuition discriminate. Qed.
(** The SSE4.1 routine for four channels, which no dispatch reaches, is wrong: its loads are eight bytes apart. *)
Theorem sse41_four_channels_refuted :
  exists src, length src = 64%nat /\ block_split false 4 64 sse41_block4 src (repeat (repeat 0 16) 4) <> Ok (scalar_split 0 4 src (repeat (repeat 0 16) 4)).
Proof. exists (counting 64). split; [reflexivity|]. vm_compute. discriminate. Qed.

(** C55: serialising a 16-bit frame writes the interleaved samples, most significant byte first, or in the machine's
    (little-endian) order. *)
Lemma to_endian_canon enc n px : (forall x, length (enc x) = 2%nat) -> (0 < n)%nat -> (length px mod n = 0)%nat -> px <> [] ->
  to_endian enc n (canon 0 n px) = Ok (concat (map enc px)).
Proof.
  intros He Hn Hm Hp. pose proof (concat_columns 0 n px Hn Hm) as C. pose proof (canon_lengths 0 n px Hn) as F. pose proof (canon_length 0 n px) as L.
  unfold to_endian. remember (canon 0 n px) as chs eqn:E. destruct chs as [|c chs]; [cbn [length] in L; lia|].
  pose proof F as F'. apply Forall_cons_iff in F' as [F1 _].
  assert (Fi : firstn n (c :: chs) = c :: chs) by (apply firstn_all2; lia).
  assert (M : min_len (c :: chs) (length c) = (length px / n)%nat) by (apply min_len_all; [easy|now left|lia]).
  assert (Q : (2 * length c * n - 2 * n * (length px / n) = 0)%nat) by (rewrite F1; generalize (length px / n)%nat; intros q; lia).
  assert (K : columns_checked (c :: chs) 0 (length c) = Ok (map (column 0 (c :: chs)) (seq 0 (length px / n)))).
  { rewrite F1. apply columns_checked_ok. eapply Forall_impl; [|exact F]. cbn beta. intros; lia. }
  assert (R : Ok (concat (map enc (concat (map (column 0 (firstn n (c :: chs))) (seq 0 (min_len (firstn n (c :: chs)) (length c)))))) ++
                  repeat 0 (2 * length c * n - 2 * n * min_len (firstn n (c :: chs)) (length c))) = Ok (concat (map enc px))).
  { rewrite Fi, M, Q, C. cbn [repeat]. now rewrite app_nil_r. }
  destruct n as [|[|[|[|[|n]]]]]; [lia| | | | |].
  1-4: rewrite L; exact R.
  rewrite Fi, K. cbn [bind]. f_equal. clear -C L.
  generalize dependent (length px / S (S (S (S (S n)))))%nat. intros q C. rewrite <- C. clear C. generalize (seq 0 q). intros s. induction s as [|p s IH]; cbn [map concat]; [easy|].
  rewrite map_app, concat_app, IH. f_equal. unfold column at 2. rewrite map_length, L, Nat.sub_diag. cbn [repeat Nat.mul]. apply app_nil_r.
Qed.
Theorem frame_u16_big_endian cs px chs : let n := num_components cs in
  (0 < n)%nat -> (length px mod n = 0)%nat -> px <> [] -> deinterleave_wide 0 cs px = Val (Ok chs) ->
  u16_to_big_endian cs chs = Ok (concat (map (be_bytes 2) px)) /\ u16_to_native_endian chs = Ok (concat (map (le_bytes 2) px)).
Proof.
  intros n Hn Hm Hp E. destruct (deinterleave_wide_roundtrip 0 cs px Hn Hm Hp) as (chs' & E' & S & _).
  replace chs' with chs in S by congruence. apply splits_canon in S; [|easy]. fold n in S. subst chs. split.
  - now apply to_endian_canon.
  - unfold u16_to_native_endian. rewrite canon_length. now apply to_endian_canon.
Qed.
Example endian_case : exists chs, deinterleave_wide 0 LumaA [258; 3; 65535; 256] = Val (Ok chs) /\
  u16_to_big_endian LumaA chs = Ok [1; 2; 0; 3; 255; 255; 1; 0].
Proof. eexists. split; reflexivity. Qed.

(** C56. False for grayscale with alpha: the roles are exchanged. *)
Theorem separate_lumaa_refuted :
  channels LumaA true [[10; 20]; [255; 0]] = Ok [[255; 0]] /\
  separate LumaA [[10; 20]; [255; 0]] = Ok (Some ([[255; 0]], [10; 20])).
Proof. now split. Qed.
(** For every other colorspace: the channels without the alpha channel are the colour channels in order, and the alpha
    channel is the one at the colorspace's alpha position. *)
Theorem separate_partial {A} cs (chs : list (list A)) (d : list A) : cs <> LumaA -> length chs = num_components cs ->
  match alpha_position cs with
  | Some p => separate cs chs = Ok (Some (firstn p chs ++ skipn (S p) chs, nth p chs d)) /\
              channels cs true chs = Ok (firstn p chs ++ skipn (S p) chs)
  | None => separate cs chs = Ok None /\ channels cs true chs = Ok chs
  end.
Proof.
  intros N L. assert (G : has_alpha cs = true -> exists a b c e, chs = [a; b; c; e]).
  { intros H. destruct cs; try easy; cbn in L; destruct chs as [|a [|b [|c [|e [|? ?]]]]]; try easy; now exists a, b, c, e. }
  destruct (has_alpha cs) eqn:Ha.
  - destruct (G eq_refl) as (a & b & c & e & ->). destruct cs; try easy; now split.
  - assert (Hp : alpha_position cs = None) by (destruct cs; easy). rewrite Hp. unfold separate, channels. rewrite Ha. cbn [negb andb]. split; [easy|].
    rewrite <- L, Nat.leb_refl. now rewrite firstn_all.
Qed.
Example separate_case : channels ARGB true [[9]; [1]; [2]; [3]] = Ok [[1]; [2]; [3]]. Proof. reflexivity. Qed.

Print Assumptions deinterleave_wide_roundtrip.
Print Assumptions deinterleave_u8_roundtrip_partial.
Print Assumptions flatten_deinterleave.
Print Assumptions deinterleave_refuses.
Print Assumptions vector_split_refuted.
Print Assumptions vector_split_partial.
Print Assumptions vector_split_undefined.
Print Assumptions sse41_four_channels_refuted.
Print Assumptions frame_u16_big_endian.
Print Assumptions separate_lumaa_refuted.
Print Assumptions separate_partial.
