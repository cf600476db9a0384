(** Bit depth conversion (C32, C57). *)
From Verif Require Import Base BaseProof F32 DepthModel DepthSpec DepthProof.

Lemma convert_channels_map f from to cs :
  Forall (fun c => convert_channel from to c = Ok (f c)) cs -> convert_channels from to cs = Ok (map f cs).
Proof. induction 1 as [|c cs H _ IH]; cbn [convert_channels map]; [easy|]. rewrite H, IH. reflexivity. Qed.
Lemma two_steps a b (image : depth * list samples) : fst image = a -> depth_eqb a b = false ->
  (forall c, of_depth a c -> exists c', convert_channel a b c = Ok c' /\ convert_channel b a c' = Ok c) -> Forall (of_depth a) (snd image) ->
  exists wide, convert_depth b image = Ok wide /\ fst wide = b /\ convert_depth a wide = Ok image.
Proof.
  destruct image as [d cs]; cbn [fst snd]. intros -> Ne H F.
  assert (X : exists cs', convert_channels a b cs = Ok cs' /\ convert_channels b a cs' = Ok cs).
  { induction F as [|c cs Hc F IH]; [exists []; easy|]. destruct (H c Hc) as [c' [E1 E2]], IH as [cs' [E3 E4]].
    exists (c' :: cs'). cbn [convert_channels]. rewrite E1, E2. cbn [bind]. rewrite E3, E4. easy. }
  destruct X as [cs' [E1 E2]]. exists (b, cs'). unfold convert_depth; cbn [fst snd]. rewrite Ne, E1.
  assert (Ne' : depth_eqb b a = false) by (destruct a, b; easy). rewrite Ne', E2. easy.
Qed.

(** C32: an 8-bit image (any number of channels and samples) survives the way to 16 bits and back *)
Theorem depth_8_16_8_lossless image : fst image = D8 -> Forall (of_depth D8) (snd image) ->
  exists wide, convert_depth D16 image = Ok wide /\ fst wide = D16 /\ convert_depth D8 wide = Ok image.
Proof.
  intros D F. apply (two_steps D8 D16); try easy. intros [l|l|l] H; cbn [of_depth] in H; try easy.
  exists (S16 (map (fun x => 257 * x) l)). cbn [convert_channel max_value]. split; repeat f_equal.
  - unfold depth_u8_to_u16. rewrite zip_write_map by now rewrite repeat_length. apply map_ext_in. intros x Hx.
    apply u8_to_u16_exact. rewrite Forall_forall in H. auto.
  - unfold depth_u16_to_u8. rewrite zip_write_map by now rewrite repeat_length. rewrite map_map. rewrite <- map_id. apply map_ext_in. intros x Hx.
    rewrite Forall_forall in H. specialize (H x Hx). unfold is_byte in H. rewrite u16_to_u8_exact by (unfold is_u16; lia).
    rewrite Z.mul_comm. apply Z.div_mul. lia.
Qed.
Example lossless_case : convert_depth D16 (D8, [S8 [0; 1; 128]; S8 [255; 254; 7]]) = Ok (D16, [S16 [0; 257; 32896]; S16 [65535; 65278; 1799]]).
Proof. vm_compute. reflexivity. Qed.

(** C32: narrowing keeps black and white and the order of samples; it is exactly a division by 257 of every sample *)
Theorem depth_16_8_values l : Forall is_u16 l ->
  exists l', convert_depth D8 (D16, [S16 l]) = Ok (D8, [S8 l']) /\ length l' = length l /\ Forall is_byte l' /\
    forall i j, (i < length l)%nat -> (j < length l)%nat ->
      (nth i l 0 = 0 -> nth i l' 0 = 0) /\ (nth i l 0 = 65535 -> nth i l' 0 = 255) /\
      (nth i l 0 <= nth j l 0 -> nth i l' 0 <= nth j l' 0) /\
      257 * nth i l' 0 <= nth i l 0 < 257 * nth i l' 0 + 257.
Proof.
  intros F. exists (map (fun x => x / 257) l).
  assert (E : depth_u16_to_u8 l (repeat 0 (length l)) 65535 = map (fun x => x / 257) l).
  { unfold depth_u16_to_u8. rewrite zip_write_map by now rewrite repeat_length. apply map_ext_in. intros x Hx.
    apply u16_to_u8_exact. rewrite Forall_forall in F. auto. }
  unfold convert_depth. cbn [fst snd depth_eqb convert_channels convert_channel max_value bind]. rewrite E. cbn [bind].
  split; [easy|]. split; [apply map_length|]. split.
  - apply Forall_map. eapply Forall_impl; [|exact F]. unfold is_u16, is_byte. intros x Hx. cbn beta. lia.
  - intros i j Hi Hj. rewrite Forall_forall in F.
    assert (N : forall k, (k < length l)%nat -> nth k (map (fun x => x / 257) l) 0 = nth k l 0 / 257 /\ is_u16 (nth k l 0)).
    { intros k Hk. split; [|apply F, nth_In, Hk]. change 0 with ((fun x => x / 257) 0) at 1. apply map_nth. }
    destruct (N i Hi) as [Ei Bi], (N j Hj) as [Ej Bj]. rewrite Ei, Ej. unfold is_u16 in *.
    set (x := nth i l 0) in *. set (y := nth j l 0) in *. clearbody x y. clear -Bi Bj.
    repeat apply conj; intros; try (subst x); try lia; try reflexivity. 
Qed.
Example narrow_case : convert_depth D8 (D16, [S16 [0; 256; 257; 65534; 65535]]) = Ok (D8, [S8 [0; 0; 1; 254; 255]]).
Proof. vm_compute. reflexivity. Qed.

(** C57: 8 bits to floating point and back *)
Theorem depth_8_float_8_lossless image : fst image = D8 -> Forall (of_depth D8) (snd image) ->
  exists wide, convert_depth D32 image = Ok wide /\ fst wide = D32 /\ convert_depth D8 wide = Ok image.
Proof.
  intros D F. apply (two_steps D8 D32); try easy. intros [l|l|l] H; cbn [of_depth] in H; try easy.
  exists (SF (map (int_to_float 255) l)). cbn [convert_channel]. rewrite !zip_write_map by now rewrite repeat_length. split; [easy|].
  do 2 f_equal. rewrite map_map. rewrite <- map_id. apply map_ext_in. intros x Hx. apply u8_float_u8. rewrite Forall_forall in H. auto.
Qed.
Example float_case : convert_depth D32 (D8, [S8 [0; 255; 51]]) =
  Ok (D32, [SF [S754_zero false; S754_finite false 8388608 (-23); S754_finite false 13421774 (-26)]]).
Proof. vm_compute. reflexivity. Qed.

(** C57 for 16 bits is false: a sample can come back one lower *)
Theorem depth_16_float_16_refuted : exists image wide back, fst image = D16 /\ Forall (of_depth D16) (snd image) /\
  convert_depth D32 image = Ok wide /\ convert_depth D16 wide = Ok back /\ back <> image.
Proof.
  exists (D16, [S16 [257]]). eexists. exists (D16, [S16 [256]]). split; [easy|]. split; [|split; [vm_compute; reflexivity|split; [vm_compute; reflexivity|easy]]].
  repeat constructor; unfold is_u16; cbn; lia.
Qed.
(** What does hold: every sample comes back as it was or one lower *)
Theorem depth_16_float_16_partial image : fst image = D16 -> Forall (of_depth D16) (snd image) ->
  exists wide back, convert_depth D32 image = Ok wide /\ fst wide = D32 /\ convert_depth D16 wide = Ok (D16, back) /\ Forall2 one_lower (snd image) back.
Proof.
  destruct image as [d cs]; cbn [fst snd]. intros -> F.
  assert (X : exists ws back, convert_channels D16 D32 cs = Ok ws /\ convert_channels D32 D16 ws = Ok back /\ Forall2 one_lower cs back).
  { induction F as [|c cs Hc F IH]; [exists [], []; easy|]. destruct IH as [ws [back [E1 [E2 E3]]]].
    destruct c as [l|l|l]; cbn [of_depth] in Hc; try easy.
    exists (SF (map (int_to_float 65535) l) :: ws), (S16 (map (fun x => float_to 65535 (int_to_float 65535 x)) l) :: back).
    cbn [convert_channels convert_channel bind]. rewrite !zip_write_map by now rewrite repeat_length.
    rewrite E1, E2, map_map. cbn [bind]. split; [easy|]. split; [easy|]. constructor; [|easy]. cbn [one_lower].
    clear -Hc. induction Hc as [|x l Hx _ IH]; cbn [map]; constructor; [|easy]. now apply u16_float_u16. }
  destruct X as [ws [back [E1 [E2 E3]]]]. exists (D32, ws), back. unfold convert_depth. cbn [fst snd depth_eqb]. rewrite E1. cbn [bind].
  rewrite E2. easy.
Qed.
Example lower_case : convert_depth D16 (D32, [SF (map (int_to_float 65535) [65535; 256; 257; 261; 300])]) = Ok (D16, [S16 [65535; 256; 256; 260; 300]]).
Proof. vm_compute. reflexivity. Qed.

(** C57: every conversion of a well-formed image succeeds and gives a well-formed image of the wanted depth (floating point samples may be
    anything: infinite, negative, not a number), with the same number of channels and samples *)
Theorem depth_converts to image : Forall (of_depth (fst image)) (snd image) ->
  exists cs, convert_depth to image = Ok (to, cs) /\ Forall (of_depth to) cs /\ map count cs = map count (snd image).
Proof.
  destruct image as [d cs]; cbn [fst snd]. intros F. destruct (depth_eqb d to) eqn:E.
  - exists cs. assert (d = to) by now destruct d, to. subst to. unfold convert_depth. cbn [fst snd]. now rewrite E.
  - enough (exists ws, convert_channels d to cs = Ok ws /\ Forall (of_depth to) ws /\ map count ws = map count cs) as [ws [X Y]].
    { exists ws. unfold convert_depth. cbn [fst snd]. rewrite E, X. easy. }
    induction F as [|c cs Hc F [ws [E1 [E2 E3]]]]; [exists []; easy|].
    assert (X : exists w, convert_channel d to c = Ok w /\ of_depth to w /\ count w = count c).
    { destruct d, to, c as [l|l|l]; try easy; cbn [of_depth] in Hc; cbn [convert_channel]; eexists; (split; [reflexivity|]);
        unfold depth_u8_to_u16, depth_u16_to_u8; rewrite !zip_write_map by (now rewrite repeat_length); cbn [count of_depth]; rewrite map_length; (split; [|easy]);
        try exact I; apply Forall_map; eapply Forall_impl; try exact Hc; try (apply Forall_forall; intros x Hx; exact (I : (fun _ => True) x)); cbn beta; intros x Hx.
      - unfold u8_to_u16, is_u16. pose proof (to_uint_range 65535 (fmul (fmul (of_int x) (fdiv (of_int 1) (of_int 255))) (of_int 65535)) ltac:(lia)). cbn [max_value]. lia.
      - cbn [max_value]. rewrite u16_to_u8_exact by easy. unfold is_u16, is_byte in *. lia.
      - unfold float_to, is_byte. pose proof (to_uint_range 255 (fclamp (fmul (of_int 255) x) (of_int 0) (of_int 255)) ltac:(lia)). lia.
      - unfold float_to, is_u16. pose proof (to_uint_range 65535 (fclamp (fmul (of_int 65535) x) (of_int 0) (of_int 65535)) ltac:(lia)). lia. }
    destruct X as [w [X1 [X2 X3]]]. exists (w :: ws). cbn [convert_channels map]. rewrite X1, E1. cbn [bind].
    split; [easy|]. split; [now constructor|]. congruence.
Qed.
Example converts_case : convert_depth D8 (D32, [SF [S754_nan; S754_infinity false; S754_infinity true; int_to_float 255 200]]) = Ok (D8, [S8 [0; 255; 0; 200]]).
Proof. vm_compute. reflexivity. Qed.

Print Assumptions depth_8_16_8_lossless.
Print Assumptions depth_16_8_values.
Print Assumptions depth_8_float_8_lossless.
Print Assumptions depth_16_float_16_refuted.
Print Assumptions depth_16_float_16_partial.
Print Assumptions depth_converts.
