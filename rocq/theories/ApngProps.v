(** The composition of animated PNG frames: what the documented loop around [post_process_image] shows. *)
From Verif Require Import Base BaseProof Loops Slices F32 F32Round ToneModel ToneSpec DeintModel ApngModel ApngSpec ApngProof ApngOver.

Definition still (w h x y : nat) (d : dispose) (b : blending) : frame := mkFrame 0 w h x y 1 10 d b true.

(** ** Frames that replace what is below them *)
(** Every animation whose frames lie in the image, replace what is below them and stay (dispose operation "none") is shown as the
    specification says, whatever the sizes, the number of frames and the colour type. *)
Theorem apng_source_partial : forall powf over iw ih cs gm frames, (0 < num_components cs)%nat ->
  Forall (fun fp => within iw ih (fst fp) /\ f_blend (fst fp) = BSource /\ f_dispose (fst fp) = DNone /\
                    (f_h (fst fp) * f_w (fst fp) * num_components cs <= length (snd fp))%nat) frames ->
  exists outs, play powf iw ih cs gm frames None (repeat 0 (iw * ih * num_components cs)) = Ok outs /\
    Forall2 (holds_canvas iw ih (num_components cs)) outs (shown over (num_components cs) true frames (blank (num_components cs))).
Proof.
  intros powf over iw ih cs gm frames Hn HF. apply (play_shown powf iw ih cs gm over (fun _ => True)).
  - apply Forall_forall. rewrite Forall_forall in HF. intros [f px] I. destruct (HF _ I) as (W & B & D & L). cbn [fst snd] in *.
    split; [split; [exact Hn|rewrite B; discriminate]|]. split; [exact W|]. split; [exact D|]. split; [exact L|]. intros. now rewrite B.
  - split; [apply repeat_length|]. intros x y Hx Hy. unfold pixel, blank. set (n := num_components cs) in *.
    assert (A : ((y * iw + x) * n + n <= iw * ih * n)%nat). { assert ((y * iw + x + 1 <= iw * ih)%nat) by nia. clear - H. generalize dependent (y * iw + x)%nat. intros. nia. }
    apply (list_eq_nth 0); [rewrite slice_length, repeat_length by (rewrite repeat_length; exact A); reflexivity|]. intros k Hk. rewrite slice_length in Hk by (rewrite repeat_length; exact A).
    rewrite slice_nth by exact Hk. rewrite !nth_repeat. reflexivity.
  - easy.
Qed.
Example apng_source_demo : forall powf,
  play powf 3 2 LumaA None [(still 3 2 0 0 DNone BSource, [1;255; 2;255; 3;255; 4;255; 5;255; 6;255]); (still 2 1 1 1 DNone BSource, [7;9; 8;9])] None (repeat 0 12)
  = Ok [[1;255; 2;255; 3;255; 4;255; 5;255; 6;255]; [1;255; 2;255; 3;255; 4;255; 7;9; 8;9]] /\
  Forall (fun fp => within 3 2 (fst fp) /\ f_blend (fst fp) = BSource /\ f_dispose (fst fp) = DNone /\ (f_h (fst fp) * f_w (fst fp) * 2 <= length (snd fp))%nat)
    [(still 3 2 0 0 DNone BSource, [1;255; 2;255; 3;255; 4;255; 5;255; 6;255]); (still 2 1 1 1 DNone BSource, [7;9; 8;9])].
Proof. intros powf. split; [vm_compute; reflexivity|]. repeat constructor; vm_compute; lia. Qed.
Print Assumptions apng_source_partial.

(** The same for the dispose operation "background": the clearing is done too early (before the frame itself is drawn) and everywhere. *)
Theorem apng_background_refuted : exists iw ih cs frames,
  Forall (fun fp => within iw ih (fst fp) /\ f_blend (fst fp) = BSource /\ (f_h (fst fp) * f_w (fst fp) * num_components cs <= length (snd fp))%nat) frames /\
  forall powf over gm, exists outs, play powf iw ih cs gm frames None (repeat 0 (iw * ih * num_components cs)) = Ok outs /\
    ~ Forall2 (holds_canvas iw ih (num_components cs)) outs (shown over (num_components cs) true frames (blank (num_components cs))).
Proof.
  exists 2%nat, 1%nat, LumaA, [(still 2 1 0 0 DNone BSource, [1;255; 2;255]); (still 1 1 1 0 DBackground BSource, [3;255])]. split; [repeat constructor; vm_compute; lia|].
  intros powf over gm. eexists. split; [vm_compute; reflexivity|]. intros H. inversion H as [|? ? ? ? _ H1]; subst. inversion H1 as [|? ? ? ? [_ H2] _]; subst.
  specialize (H2 0%nat 0%nat ltac:(lia) ltac:(lia)). vm_compute in H2. discriminate.
Qed.
Print Assumptions apng_background_refuted.
(** The same for "previous": it brings back what was there before the frame is drawn, which is what is there anyway; the next frame still finds it. *)
Theorem apng_previous_refuted : exists iw ih cs frames,
  Forall (fun fp => within iw ih (fst fp) /\ f_blend (fst fp) = BSource /\ (f_h (fst fp) * f_w (fst fp) * num_components cs <= length (snd fp))%nat) frames /\
  forall powf over gm, exists outs, play powf iw ih cs gm frames None (repeat 0 (iw * ih * num_components cs)) = Ok outs /\
    ~ Forall2 (holds_canvas iw ih (num_components cs)) outs (shown over (num_components cs) true frames (blank (num_components cs))).
Proof.
  exists 2%nat, 1%nat, LumaA, [(still 2 1 0 0 DNone BSource, [1;255; 2;255]); (still 1 1 1 0 DPrevious BSource, [3;255]); (still 1 1 0 0 DNone BSource, [4;255])].
  split; [repeat constructor; vm_compute; lia|].
  intros powf over gm. eexists. split; [vm_compute; reflexivity|]. intros H. inversion H as [|? ? ? ? _ H1]; subst. inversion H1 as [|? ? ? ? _ H2]; subst. inversion H2 as [|? ? ? ? [_ H3] _]; subst.
  specialize (H3 1%nat 0%nat ltac:(lia) ltac:(lia)). vm_compute in H3. discriminate.
Qed.
Print Assumptions apng_previous_refuted.

(** ** Frames laid over the canvas *)
(** With a gamma of 1 and a canvas of full opacity (the first frame covers the whole image), every colour is the mixture of the two
    colours by the opacity of the frame's pixel, rounded to the nearest integer. *)
Definition mixes (iw ih nc : nat) (fp : frame * list Z) : Prop :=
  let '(f, px) := fp in
  within iw ih f /\ f_dispose f = DNone /\ (f_h f * f_w f * nc <= length px)%nat /\ samples px /\
  (f_blend f = BSource -> forall x y, (x < f_w f)%nat -> (y < f_h f)%nat -> opaque (pixel (f_w f) nc px x y)).
Lemma pixel_samples w nc l x y : samples l -> samples (pixel w nc l x y).
Proof. intros H. unfold pixel, slice. apply Forall_forall. intros v Hv. apply in_firstn_, in_skipn_ in Hv. unfold samples in H. rewrite Forall_forall in H. now apply H. Qed.
Theorem apng_over_partial : forall powf iw ih cs f px frames, (forall x, powf x f1 = x) -> has_alpha cs = true ->
  let nc := num_components cs in
  mixes iw ih nc (f, px) -> f_blend f = BSource -> f_w f = iw -> f_h f = ih -> Forall (mixes iw ih nc) frames ->
  exists outs, play powf iw ih cs (Some f1) ((f, px) :: frames) None (repeat 0 (iw * ih * nc)) = Ok outs /\
    Forall2 (holds_canvas iw ih nc) outs (shown over_opaque nc true ((f, px) :: frames) (blank nc)).
Proof.
  intros powf iw ih cs f px frames Hp Ha nc (W & D & L & S & O) B Ew Eh HF. specialize (O B).
  assert (Hn : (0 < nc)%nat) by (unfold nc; destruct cs; cbn in *; easy || lia).
  cbn [play shown].
  destruct (post_ok powf iw ih cs f px None (repeat 0 (iw * ih * nc)) (Some f1)) as (out & -> & HO); [split; [exact Hn|now rewrite B]|exact W|exact L|unfold has_previous; now rewrite D|apply repeat_length|].
  cbn [bind]. fold nc in HO. set (c1 := drawn over_opaque nc f px (blank nc)). destruct W as (W1 & W2 & W3 & W4).
  assert (I : forall x y, (x < iw)%nat -> (y < ih)%nat -> inside f x y = true) by (intros x y Hx Hy; unfold inside; lia).
  assert (X0 : (f_x f = 0 /\ f_y f = 0)%nat) by lia. destruct X0 as [X0 Y0].
  assert (H1 : holds_canvas iw ih nc out c1).
  { destruct HO as [LO HO]. split; [exact LO|]. intros x y Hx Hy. rewrite HO by easy. unfold c1, drawn. rewrite I, B by easy. reflexivity. }
  assert (P1 : forall x y, (x < iw)%nat -> (y < ih)%nat -> opaque (c1 x y) /\ samples (c1 x y)).
  { intros x y Hx Hy. unfold c1, drawn. rewrite I, B by easy. split; [apply O; lia|now apply pixel_samples]. }
  assert (R : Forall (regular powf iw ih cs (Some f1) over_opaque (fun p => opaque p /\ samples p)) frames).
  { apply Forall_forall. rewrite Forall_forall in HF. intros [f' px'] I'. destruct (HF _ I') as (W' & D' & L' & S' & O'). split; [split; [exact Hn|easy]|]. split; [exact W'|].
    split; [exact D'|]. split; [exact L'|]. intros x y Hx Hy s. assert (Ss : samples s) by (unfold s; now apply pixel_samples). destruct (f_blend f') eqn:B'; [split; [now apply O'|exact Ss]|].
    intros d Ld [Od Sd]. assert (Ls : length s = num_components cs).
    { unfold s, pixel. apply slice_length. fold nc in L' |- *. assert ((y * f_w f' + x + 1 <= f_h f' * f_w f')%nat) by nia. clear - H L'. generalize dependent (y * f_w f' + x)%nat. intros. nia. }
    cbn [gam]. rewrite over_pixel_linear by easy. split; [reflexivity|]. split; [apply mixed_opaque|]. apply mixed_samples; [easy|easy|congruence|rewrite Ld; exact Hn]. }
  destruct (play_shown powf iw ih cs (Some f1) over_opaque _ frames false (Some out) out c1 R H1 P1) as (outs & -> & HF2). cbn [bind]. exists (out :: outs). split; [reflexivity|].
  constructor; [exact H1|]. eapply shown_ext; [|exact R|exact HF2]. intros x y Hx Hy. unfold disposed. rewrite D. now destruct (inside f x y).
Qed.
Example apng_over_demo : let powf (x y : f32) := x in
  play powf 2 1 RGBA (Some f1) [(still 2 1 0 0 DNone BSource, [10;20;30;255; 200;100;50;255]); (still 1 1 1 0 DNone BOver, [100;200;0;64])] None (repeat 0 8)
  = Ok [[10;20;30;255; 200;100;50;255]; [10;20;30;255; 175;125;37;255]] /\
  mixes 2 1 4 (still 1 1 1 0 DNone BOver, [100;200;0;64]).
Proof. split; [vm_compute; reflexivity|]. unfold mixes, within, samples, sample. cbn. repeat split; try lia; try discriminate. repeat constructor; lia. Qed.
Print Assumptions apng_over_partial.

(** With any gamma: a fully transparent pixel of the frame changes nothing; a fully opaque one gives its colours, if the power function
    undoes the gamma correction well enough. *)
Theorem apng_over_clear : forall powf nc g s d, last s 0 = 0 -> over_pixel powf nc g s d = d.
Proof. intros powf nc g s d H. unfold over_pixel. now rewrite H. Qed.
Theorem apng_over_opaque_colours : forall powf nc g s d, inverts powf g -> (0 < nc)%nat -> length s = nc -> length d = nc -> samples s -> samples d -> opaque s ->
  forall k, (k < nc - 1)%nat -> nth k (over_pixel powf nc g s d) 0 = nth k s 0.
Proof. exact over_pixel_opaque. Qed.
Lemma frac_sharp i : 0 <= i <= 255 -> 4 * Z.abs (255 * fval (frac i) - i * unit_) <= unit_.
Proof. intros H. destruct (frac_val i H) as (_ & _ & N). unfold unit_ in *. lia. Qed.
Example apng_over_opaque_demo : inverts (fun x _ => x) (of_int 2) /\ over_pixel (fun x _ => x) 4 (of_int 2) [1;2;3;255] [9;8;7;255] = [1;2;3;255].
Proof.
  split; [|vm_compute; reflexivity]. intros i Hi. destruct (frac_val i Hi) as (F & B & N). split; [exact F|]. split; [exact B|]. intros x Fx ->. split; [exact Fx|]. split; [unfold unit_ in *; lia|].
  now apply frac_sharp.
Qed.
Print Assumptions apng_over_clear. Print Assumptions apng_over_opaque_colours.

(** The opacity of the canvas is never updated: an opaque frame laid over a transparent canvas stays invisible. *)
Theorem apng_over_alpha_refuted : exists iw ih cs frames, has_alpha cs = true /\
  Forall (fun fp => within iw ih (fst fp) /\ f_dispose (fst fp) = DNone /\ (f_h (fst fp) * f_w (fst fp) * num_components cs <= length (snd fp))%nat) frames /\
  forall powf over, (forall x, powf x f1 = x) -> (forall s d, opaque s -> over s d = s) ->
  exists outs, play powf iw ih cs (Some f1) frames None (repeat 0 (iw * ih * num_components cs)) = Ok outs /\
    ~ Forall2 (holds_canvas iw ih (num_components cs)) outs (shown over (num_components cs) true frames (blank (num_components cs))).
Proof.
  exists 1%nat, 1%nat, LumaA, [(still 1 1 0 0 DNone BOver, [7;255])]. split; [reflexivity|]. split; [repeat constructor; vm_compute; lia|]. intros powf over Hp Ho.
  destruct (post_ok powf 1 1 LumaA (still 1 1 0 0 DNone BOver) [7;255] None (repeat 0 2) (Some f1)) as (out & E & L & H);
    [split; [cbn; lia|reflexivity]|unfold within; cbn; lia|cbn; lia|discriminate|reflexivity|].
  exists [out]. split; [cbn [play]; change (1 * 1 * num_components LumaA)%nat with 2%nat; rewrite E; reflexivity|]. intros HF. inversion HF as [|? ? ? ? [_ H1] _]; subst.
  specialize (H1 0%nat 0%nat ltac:(lia) ltac:(lia)). specialize (H 0%nat 0%nat ltac:(lia) ltac:(lia)). rewrite H in H1. clear H. unfold drawn in H1. cbn [inside still f_x f_y f_w f_h f_blend] in H1.
  change (inside _ 0 0) with true in H1. cbv iota zeta in H1. change (pixel _ _ [7;255] _ _) with [7;255] in H1.
  apply (f_equal (fun l => last l 0)) in H1. rewrite over_pixel_alpha in H1 by (vm_compute; reflexivity || lia). rewrite Ho in H1 by reflexivity. vm_compute in H1. discriminate.
Qed.
Print Assumptions apng_over_alpha_refuted.

(** ** Safety *)
(** No buffer and no frame size makes the function panic, if the frame is not empty and OVER is asked only of pictures with opacity. *)
Theorem apng_safe_partial : forall powf iw ih cs f px prev out g, (0 < num_components cs)%nat -> (0 < f_w f)%nat -> (f_blend f = BOver -> has_alpha cs = true) ->
  exists r, post_process powf iw ih cs f px prev out g = r /\ r <> Panic /\ r <> Fuel /\
    ((iw < f_x f + f_w f \/ ih < f_y f + f_h f \/ length px < f_h f * f_w f * num_components cs)%nat -> exists e, r = Err e).
Proof.
  intros powf iw ih cs f px prev out g Hn Hw Ha. eexists. split; [reflexivity|]. unfold post_process. set (nc := num_components cs) in *.
  destruct (Nat.ltb_spec iw (f_x f + f_w f)) as [C1|C1]; [split; [discriminate|split; [discriminate|eauto]]|].
  destruct (Nat.ltb_spec ih (f_y f + f_h f)) as [C2|C2]; [split; [discriminate|split; [discriminate|eauto]]|].
  destruct (Nat.ltb_spec (length px) (f_h f * f_w f * nc)) as [C3|C3]; [split; [discriminate|split; [discriminate|eauto]]|].
  match goal with |- ?r <> Panic /\ _ => cut (match r with Panic | Fuel => False | _ => True end) end.
  { intros H. split; [|split; [|intros; lia]]; intros E; rewrite E in H; exact H. }
  assert (PS : match prepare f prev out with Panic | Fuel => False | _ => True end).
  { unfold prepare. destruct (f_dispose f); [exact I|exact I|]. destruct prev as [p|]; [destruct (_ =? _)%nat; exact I|destruct (_ <? _); exact I]. }
  destruct (prepare f prev out) as [b|e| |]; cbn [bind]; try exact PS. replace (f_w f * nc =? 0)%nat with false by nia. replace (iw * nc =? 0)%nat with false by nia. cbn [orb].
  match goal with |- context [draw_rows powf cs f ?G ?S ?R] => destruct (draw_rows_ok powf cs f G iw (conj Hn Ha) C1 S R) as [-> _] end; [apply chunks_exact_lengths| |exact I].
  apply Forall_forall. intros r Hr. apply in_firstn_, in_skipn_ in Hr. pose proof (chunks_exact_lengths (iw * nc) b) as F. rewrite Forall_forall in F. now apply F.
Qed.
Example apng_safe_demo : forall powf, post_process powf 2 2 RGB (still 1 1 1 1 DNone BSource) [1;2;3] None [] None = Ok [] /\
  post_process powf 2 2 RGB (still 2 1 1 1 DNone BSource) (repeat 0 6) None [] None = Err ESize.
Proof. intros. split; vm_compute; reflexivity. Qed.
Print Assumptions apng_safe_partial.
(** Both conditions are needed: an empty frame and OVER without opacity panic. *)
Theorem apng_panic_refuted : forall powf gm,
  post_process powf 2 2 RGBA (still 0 0 0 0 DNone BSource) [] None (repeat 0 16) gm = Panic /\
  post_process powf 1 1 RGB (still 1 1 0 0 DNone BOver) [1;2;3] None [0;0;0] gm = Panic.
Proof. intros. split; vm_compute; reflexivity. Qed.
Print Assumptions apng_panic_refuted.
