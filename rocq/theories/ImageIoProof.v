(** Proofs for ImageIoProps.v. *)
From Verif Require Import Base BaseProof Loops StreamModel DecText F32 DepthModel DepthSpec ChannelModel DeintModel DeintSpec DeintProof DeintProps ColorModel ColorSpec ColorProof ColorProps ImageIoModel.
From Verif Require StreamSpec StreamProof.

(** ** Laying out a frame *)
Definition px_of (chs : list (list Z)) (n : nat) : list Z := concat (map (column 0 chs) (seq 0 n)).
Lemma px_of_all (P : Z -> Prop) chs n : P 0 -> Forall (Forall P) chs -> Forall P (px_of chs n).
Proof.
  intros P0 H. unfold px_of. apply Forall_concat, Forall_map, Forall_forall. intros k _. unfold column. apply Forall_map. eapply Forall_impl; [|exact H].
  intros c Hc. cbn beta. destruct (Nat.lt_ge_cases k (length c)) as [L|L]; [|now rewrite nth_overflow]. rewrite Forall_forall in Hc. now apply Hc, nth_In.
Qed.
Lemma px_of_length chs n : length (px_of chs n) = (n * length chs)%nat.
Proof.
  unfold px_of. rewrite <- (seq_length n 0) at 2. generalize (seq 0 n). intros l. induction l as [|a l IH]; cbn [map concat length]; [easy|].
  rewrite app_length, IH. unfold column. rewrite map_length. lia.
Qed.
Lemma px_one c : px_of [c] (length c) = c.
Proof.
  assert (E : px_of [c] (length c) = map (fun k => nth k c 0) (seq 0 (length c))).
  { unfold px_of. generalize (seq 0 (length c)). intros l. induction l as [|a l IH]; cbn [map concat]; [easy|]. rewrite IH. reflexivity. }
  rewrite E. apply (nth_ext _ _ 0 0); [now rewrite map_length, seq_length|]. intros k Hk. rewrite map_length, seq_length in Hk.
  rewrite (map_nth_in _ _ _ O) by now rewrite seq_length. now rewrite seq_nth.
Qed.
Definition writable (cs : colorspace) : Prop := match cs with Luma | LumaA | RGB | RGBA => True | _ => False end.
Lemma laid_out cs chs n : writable cs -> (0 < n)%nat -> length chs = num_components cs -> Forall (fun c : list Z => length c = n) chs ->
  flatten 0 chs = Ok (px_of chs n) /\ chs = canon 0 (num_components cs) (px_of chs n).
Proof.
  intros Wr Hn L F.
  assert (E : flatten 0 chs = Ok (px_of chs n)).
  { unfold px_of. destruct chs as [|c chs]; [destruct cs; easy|]. pose proof F as F'. apply Forall_cons_iff in F' as [Fc F'].
    assert (M : min_len (c :: chs) (length c) = n). { apply min_len_all; [easy|now left|lia]. }
    assert (Hd : hd [] (c :: chs) = c) by reflexivity.
    assert (K : (length chs <= 3)%nat) by (destruct cs; cbn [num_components length] in *; easy || lia).
    destruct chs as [|c2 [|c3 [|c4 [|c5 chs]]]]; cbn [flatten]; rewrite ?Hd, ?M; try reflexivity; [|cbn [length] in K; lia].
    f_equal. rewrite <- Fc. symmetry. exact (px_one c). }
  split; [exact E|]. assert (Hc : (0 < num_components cs)%nat) by (destruct cs; cbn; easy || lia).
  pose proof (flatten_deinterleave 0 cs chs _ n Hc Hn L F E) as D.
  assert (Lp : length (px_of chs n) = (n * num_components cs)%nat) by now rewrite px_of_length, L.
  destruct (deinterleave_wide_roundtrip 0 cs (px_of chs n)) as (chs' & D' & S & _); [exact Hc|rewrite Lp; apply Nat.mod_mul; lia|intros X; rewrite X in Lp; cbn in Lp; nia|].
  rewrite D in D'. injection D' as <-. now apply splits_canon in S.
Qed.

Lemma chans8 n f : Forall (chan D8 n) f -> exists chs, f = map S8 chs /\ all_ok u8_of f = Ok chs /\ Forall (fun c => length c = n) chs /\ Forall (Forall is_byte) chs.
Proof.
  induction 1 as [|c f [H1 H2] _ (chs & E & A & B & C)]; [now exists []|]. destruct c as [l|l|l]; cbn [of_depth count] in *; try easy.
  exists (l :: chs). cbn [map all_ok u8_of bind]. rewrite A. cbn [bind]. subst f. repeat split; try constructor; easy.
Qed.
Lemma chans16 n f : Forall (chan D16 n) f -> exists chs, f = map S16 chs /\ all_ok u16_of f = Ok chs /\ Forall (fun c => length c = n) chs /\ Forall (Forall is_u16) chs.
Proof.
  induction 1 as [|c f [H1 H2] _ (chs & E & A & B & C)]; [now exists []|]. destruct c as [l|l|l]; cbn [of_depth count] in *; try easy.
  exists (l :: chs). cbn [map all_ok u16_of bind]. rewrite A. cbn [bind]. subst f. repeat split; try constructor; easy.
Qed.
(** The samples of a frame, interleaved; its bytes in the file *)
Definition list_of (s : samples) : list Z := match s with S8 l | S16 l => l | SF _ => [] end.
Definition px_in (n : nat) (f : list samples) : list Z := px_of (map list_of f) n.
Definition layout_bytes (big : bool) (d : depth) (px : list Z) : list Z :=
  match d with D16 => concat (map (if big then be_bytes 2 else le_bytes 2) px) | _ => px end.
Lemma to_endian_two enc cs px : writable cs -> (forall x, length (enc x) = 2%nat) -> (length px mod num_components cs = 0)%nat -> px <> [] ->
  to_endian enc (num_components cs) (canon 0 (num_components cs) px) = Ok (concat (map enc px)).
Proof. intros W He Hm Hp. apply to_endian_canon; try easy. destruct cs; cbn; easy || lia. Qed.
Lemma frame_laid big cs d n f : writable cs -> (0 < n)%nat -> d <> D32 -> wf_frame cs d n f ->
  frame_bytes big cs d f = Ok (layout_bytes big d (px_in n f)) /\ length (px_in n f) = (n * num_components cs)%nat /\
  (d = D8 -> Forall is_byte (px_in n f) /\ map S8 (canon 0 (num_components cs) (px_in n f)) = f) /\
  (d = D16 -> Forall is_u16 (px_in n f) /\ map S16 (canon 0 (num_components cs) (px_in n f)) = f).
Proof.
  intros Wr Hn Hd [L F]. assert (Hc : (0 < num_components cs)%nat) by (destruct cs; cbn; easy || lia).
  assert (Lp : length (px_in n f) = (n * num_components cs)%nat) by (unfold px_in; now rewrite px_of_length, map_length, L).
  assert (Hm : (length (px_in n f) mod num_components cs = 0)%nat) by (rewrite Lp; apply Nat.mod_mul; lia).
  assert (Hp : px_in n f <> []) by (intros X; rewrite X in Lp; cbn in Lp; nia).
  destruct d; [| |easy].
  - destruct (chans8 n f F) as (chs & -> & A & B & C). unfold px_in in *. rewrite map_map in *. cbn [list_of] in *. rewrite map_id in *. rewrite map_length in L.
    destruct (laid_out cs chs n Wr Hn L B) as [E1 E2]. unfold frame_bytes. rewrite A. cbn [bind layout_bytes].
    split; [exact E1|]. split; [exact Lp|]. split; [|easy]. intros _. split; [apply px_of_all; [unfold is_byte; lia|exact C]|]. now rewrite <- E2.
  - destruct (chans16 n f F) as (chs & -> & A & B & C). unfold px_in in *. rewrite map_map in *. cbn [list_of] in *. rewrite map_id in *. rewrite map_length in L.
    destruct (laid_out cs chs n Wr Hn L B) as [E1 E2]. unfold frame_bytes. rewrite A. cbn [bind layout_bytes].
    split. { unfold u16_to_big_endian, u16_to_native_endian. rewrite L. set (px := px_of chs n) in *. rewrite E2. destruct big; apply to_endian_two; auto using be_bytes_length, le_bytes_length. }
    split; [exact Lp|]. split; [easy|]. intros _. split; [apply px_of_all; [unfold is_u16; lia|exact C]|]. now rewrite <- E2.
Qed.
Lemma all_ok_map {A B} (f : A -> res B) (g : A -> B) l : Forall (fun x => f x = Ok (g x)) l -> all_ok f l = Ok (map g l).
Proof. induction 1 as [|x l E _ IH]; cbn [all_ok map]; [easy|]. rewrite E. cbn [bind]. rewrite IH. reflexivity. Qed.
Lemma first_frame_ok big i : wf i -> writable (cspace i) -> (0 < npx i)%nat -> idepth i <> D32 ->
  first_frame big i = Ok (layout_bytes big (idepth i) (px_in (npx i) (hd [] (frames i)))).
Proof.
  intros [Ne W] Wr Hn Hd. unfold first_frame. rewrite (all_ok_map _ (fun f => layout_bytes big (idepth i) (px_in (npx i) f))).
  - destruct (frames i) as [|f fs]; [easy|]. reflexivity.
  - eapply Forall_impl; [|exact W]. intros f Hf. now apply (frame_laid big _ _ _ _ Wr Hn Hd).
Qed.
Lemma hd_wf i : wf i -> wf_frame (cspace i) (idepth i) (npx i) (hd [] (frames i)).
Proof. intros [Ne W]. destruct (frames i) as [|f fs]; [easy|]. now apply Forall_cons_iff in W as [W _]. Qed.
Lemma layout_length big d px : d <> D32 -> length (layout_bytes big d px) = (size_of d * length px)%nat.
Proof.
  destruct d; intros H; cbn [layout_bytes size_of]; [lia| |easy]. rewrite (concat_length_const 2).
  - rewrite map_length. lia.
  - apply Forall_map, Forall_forall. intros x _. destruct big; [apply be_bytes_length|apply le_bytes_length].
Qed.
Lemma layout_ok big d px : (d = D8 -> Forall is_byte px) -> d <> D32 -> bytes (layout_bytes big d px).
Proof.
  destruct d; intros H1 Hd; cbn [layout_bytes]; [now apply H1| |easy]. apply Forall_concat, Forall_map, Forall_forall. intros x _.
  destruct big; [apply be_bytes_bytes|apply le_bytes_bytes].
Qed.

(** ** Reading samples back *)
Lemma small_size w h cs : (num_components cs <= 4)%nat -> Z.of_nat w * Z.of_nat h * 8 < 2 ^ 63 -> Z.of_nat w * Z.of_nat h * Z.of_nat (num_components cs) < 2 ^ 64.
Proof.
  intros Hc Mem. assert (P : 0 <= Z.of_nat w * Z.of_nat h) by lia. set (m := Z.of_nat w * Z.of_nat h) in *. clearbody m.
  assert (m * Z.of_nat (num_components cs) <= m * 4) by (apply Z.mul_le_mono_nonneg_l; lia). lia.
Qed.
Lemma from_u8_ok p w h cs f : supported p cs -> writable cs -> (0 < w * h)%nat -> wf_frame cs D8 (w * h) f -> Z.of_nat w * Z.of_nat h * 8 < 2 ^ 63 ->
  from_u8 p w h cs (px_in (w * h) f) = Val (Ok (Pic w h false (Img cs D8 (w * h) [f]))).
Proof.
  intros Sp Wr Hn W Mem. assert (Hc : (0 < num_components cs <= 4)%nat) by (destruct cs; cbn; easy || lia).
  destruct (frame_laid false cs D8 (w * h) f Wr Hn ltac:(discriminate) W) as (_ & Lp & [_ E] & _); [reflexivity|].
  unfold from_u8, from_samples. rewrite (proj2 (Z.leb_gt _ _) (small_size w h cs ltac:(lia) Mem)). rewrite Lp, Nat.eqb_refl. cbn [negb].
  assert (Hm : (length (px_in (w * h) f) mod num_components cs = 0)%nat) by (rewrite Lp; apply Nat.mod_mul; lia).
  assert (Hp : px_in (w * h) f <> []) by (intros X; rewrite X in Lp; cbn in Lp; nia).
  rewrite (u8_canon p cs _ Sp ltac:(lia) Hm Hp). cbn [mbind]. now rewrite E.
Qed.
Lemma from_u16_ok w h cs f : writable cs -> (0 < w * h)%nat -> wf_frame cs D16 (w * h) f -> Z.of_nat w * Z.of_nat h * 8 < 2 ^ 63 ->
  from_u16 w h cs (px_in (w * h) f) = Val (Ok (Pic w h false (Img cs D16 (w * h) [f]))).
Proof.
  intros Wr Hn W Mem. assert (Hc : (0 < num_components cs <= 4)%nat) by (destruct cs; cbn; easy || lia).
  destruct (frame_laid false cs D16 (w * h) f Wr Hn ltac:(discriminate) W) as (_ & Lp & _ & [_ E]); [reflexivity|].
  unfold from_u16, from_samples. rewrite (proj2 (Z.leb_gt _ _) (small_size w h cs ltac:(lia) Mem)). rewrite Lp, Nat.eqb_refl. cbn [negb].
  destruct (deinterleave_wide_roundtrip 0 cs (px_in (w * h) f)) as (chs & D & S & _); [lia|rewrite Lp; apply Nat.mod_mul; lia|intros X; rewrite X in Lp; cbn in Lp; nia|].
  rewrite D. cbn [mbind]. apply splits_canon in S; [|lia]. subst chs. now rewrite E.
Qed.

(** ** Recognition *)
Lemma peek0 file n : Z.of_nat n <= peek_cap -> (n <= length file)%nat ->
  peek_at {| cdata := file; cpos := 0 |} 0 n = (Ok (firstn n file), {| cdata := file; cpos := 0 |}).
Proof.
  intros H1 H2. rewrite StreamProof.peek_at_spec. unfold StreamSpec.remaining. cbn [cdata cpos skipn]. replace (peek_cap <? Z.of_nat n) with false by lia.
  replace (n <=? length file - 0)%nat with true by (symmetry; apply Nat.leb_le; lia). cbn [Nat.leb andb orb]. reflexivity.
Qed.
Ltac look := unfold guess_format, magics; cbn [guess_loop length]; repeat (rewrite peek0 by (unfold peek_cap; cbn [length]; lia); cbn [firstn]; cbn [DecText.starts_with length firstn zeqb_list Z.eqb Pos.eqb andb]).
Lemma guess_png r : (2 <= length r)%nat -> guess_format {| cdata := [137; 80; 78; 71; 13; 10; 26; 10] ++ r; cpos := 0 |} = Some (PNG, {| cdata := [137; 80; 78; 71; 13; 10; 26; 10] ++ r; cpos := 0 |}).
Proof. intros H. cbn [app]. look. reflexivity. Qed.
Lemma guess_ppm v r : In v [53; 54; 55] -> (6 <= length r)%nat -> guess_format {| cdata := 80 :: v :: r; cpos := 0 |} = Some (PPM, {| cdata := 80 :: v :: r; cpos := 0 |}).
Proof.
  intros Hv H. destruct r as [|a [|b [|c [|d [|e [|g r]]]]]]; cbn [length] in H; try lia.
  destruct Hv as [<-|[<-|[<-|[]]]]; look; reflexivity.
Qed.
Lemma guess_farbfeld r : guess_format {| cdata := PpmModel.ff_magic ++ r; cpos := 0 |} = Some (Farbfeld, {| cdata := PpmModel.ff_magic ++ r; cpos := 0 |}).
Proof. unfold PpmModel.ff_magic. cbn [app]. look. reflexivity. Qed.
Lemma guess_qoi r : (4 <= length r)%nat -> guess_format {| cdata := [113; 111; 105; 102] ++ r; cpos := 0 |} = Some (QOI, {| cdata := [113; 111; 105; 102] ++ r; cpos := 0 |}).
Proof. intros H. destruct r as [|a [|b [|c [|d r]]]]; cbn [length] in H; try lia. cbn [app]. look. reflexivity. Qed.
