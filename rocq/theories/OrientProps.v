(** Theorems about whole-image rotation, automatic orientation and pipelines. *)
From Verif Require Import Base BaseProof Loops Slices BmpModel GeomModel GeomSpec GeomProof F32 F32Round OrientModel OrientSpec OrientProof.
From Coq Require Import SpecFloat.

(** What correctly rounded functions give for the two angles in radians. *)
Definition libm (t : turn) : f32 * f32 :=
  match t with
  | T90 => (S754_finite true 12303662 (-48), of_int 1)
  | T180 => (of_int (-1), S754_finite true 12303662 (-47))
  | T270 => (S754_finite false 13426222 (-50), of_int (-1))
  end.
Lemma libm_good t : t <> T180 -> good_trig (libm t).
Proof. intros N. destruct t; [|easy|]; (split; [split; [reflexivity|reflexivity]|]); (split; [reflexivity|]); vm_compute; discriminate. Qed.

(** ** Automatic orientation *)

(** For which pictures the orientation [b] is handled correctly. *)
Definition handled (trig : turn -> f32 * f32) (b : Z) (p : pic) : Prop :=
  match b with
  | 3 => p_size p = 1%nat /\ p_w p = 1%nat
  | 5 => (8 <= p_w p)%nat /\ (8 <= p_h p)%nat
  | 6 => p_size p = 1%nat /\ good_trig (trig T90) /\ close_sides (p_w p) (p_h p)
  | 7 | 8 => p_size p = 1%nat /\ good_trig (trig T270) /\ close_sides (p_w p) (p_h p)
  | _ => True
  end.

Lemma oriented_1 b p : valid p -> (b < 2 \/ 8 < b) -> oriented b p p.
Proof.
  intros (W & H & S & L) B. assert (E : forall x y, source b (p_w p) (p_h p) x y = (x, y)).
  { intros x y. destruct b as [|[[[b|b|]|[b|b|]|]|[[b|b|]|[b|b|]|]|]|b]; try reflexivity; try lia; destruct b; try reflexivity; lia. }
  unfold oriented. replace (sideways b) with false by (unfold sideways; lia). repeat split; try reflexivity.
  induction L as [|c l Hc _ IH]; constructor; [|exact IH]. split; [exact Hc|]. intros x y Hx Hy. now rewrite E.
Qed.

Lemma orient_by_ok trig checked b p : valid p -> handled trig b p -> exists q, orient_by trig checked b p = Ok q /\ oriented b p q.
Proof.
  intros V Hd. unfold orient_by.
  destruct (Z.eqb_spec b 2) as [->|N2]. { destruct (flip_h_ok p V) as (q & E & O). exists q. split; [now eapply execute_ok; eauto|exact O]. }
  destruct (Z.eqb_spec b 3) as [->|N3]. { cbn in Hd. destruct (rotate_half_ok trig p V) as (q & E & O); try apply Hd. exists q. split; [now eapply execute_ok; eauto|exact O]. }
  destruct (Z.eqb_spec b 4) as [->|N4]. { destruct (flip_v_ok p V) as (q & E & O). exists q. split; [now eapply execute_ok; eauto|exact O]. }
  destruct (Z.eqb_spec b 5) as [->|N5]. { cbn in Hd. destruct (transpose_ok checked p V) as (q & E & O); try apply Hd. now exists q. }
  destruct (Z.eqb_spec b 6) as [->|N6].
  { cbn in Hd. destruct Hd as (S & G & C). destruct (rotate_quarter_ok trig T90 6 p (or_introl (conj eq_refl eq_refl)) V S (dims_ok trig T90 _ _ G (proj1 V) (proj1 (proj2 V)) C)) as (q & E & O).
    exists q. split; [now eapply execute_ok; eauto|exact O]. }
  assert (R : (b = 7 \/ b = 8) -> exists q, execute (rotate_impl trig T270) p = Ok q /\ oriented 8 p q).
  { intros Hb. assert (Hd' : handled trig 8 p) by (destruct Hb as [-> | ->]; exact Hd). cbn in Hd'. destruct Hd' as (S & G & C).
    destruct (rotate_quarter_ok trig T270 8 p (or_intror (conj eq_refl eq_refl)) V S (dims_ok trig T270 _ _ G (proj1 V) (proj1 (proj2 V)) C)) as (q & E & O).
    exists q. split; [now eapply execute_ok; eauto|exact O]. }
  destruct (Z.eqb_spec b 7) as [->|N7].
  { destruct (R (or_introl eq_refl)) as (q & -> & O). cbn [bind]. pose proof (oriented_valid 8 p q V O) as Vq.
    destruct (flip_h_ok q Vq) as (r & E & O'). exists r. split; [now eapply execute_ok; eauto|now apply (compose_7 p q r)]. }
  destruct (Z.eqb_spec b 8) as [->|N8]; [now apply R; right|].
  exists p. split; [reflexivity|]. apply oriented_1; [exact V|lia].
Qed.

Lemma orient_fields_spec trig checked fs p : orient_fields trig checked fs p =
  match orientation fs with
  | None => Ok (p, true) | Some [] => Ok (p, false)
  | Some (b :: _) => do q <- orient_by trig checked b p ; Ok (q, true)
  end.
Proof.
  induction fs as [|f fs IH]; [reflexivity|]. cbn [orient_fields orientation]. unfold orientation_tag. destruct (f_tag f =? 274); [|exact IH].
  destruct (f_value f) as [[|b xs]| |]; try reflexivity; exact IH.
Qed.
Lemma neutral_orientation fs : orientation (neutral fs) = None.
Proof.
  unfold neutral, orientation_tag. induction fs as [|f fs IH]; [reflexivity|]. cbn [map orientation].
  destruct (f_tag f =? 274) eqn:E; cbn [f_tag f_value]; rewrite E; exact IH.
Qed.
Lemma neutral_neutral fs : neutral (neutral fs) = neutral fs.
Proof.
  unfold neutral. rewrite map_map. apply map_ext. intros f. destruct (f_tag f =? orientation_tag) eqn:E; cbn [f_tag]; now rewrite E.
Qed.

(** The picture is shown as its Exif data ask for, and the data then ask for nothing; for the orientations and
    pictures in [handled]. All orientations other than 3, 5, 6, 7 and 8 are always handled. *)
Theorem auto_orient_partial trig checked fs b xs p : valid p -> orientation fs = Some (b :: xs) -> handled trig b p ->
  exists q, auto_orient trig checked (Some fs) p = Ok (q, Some (neutral fs)) /\ oriented b p q /\ orientation (neutral fs) = None.
Proof.
  intros V O Hd. destruct (orient_by_ok trig checked b p V Hd) as (q & E & R). exists q. split; [|split; [exact R|apply neutral_orientation]].
  unfold auto_orient. rewrite confirm_ok by apply V. cbn [bind]. rewrite orient_fields_spec, O, E. cbn [bind fst].
  rewrite confirm_ok by (eapply oriented_lengths; exact R). reflexivity.
Qed.
Print Assumptions auto_orient_partial.
Definition ex_pic (w h size : nat) : pic := Pic w h size [map Z.of_nat (seq 0 (w * h)); repeat 7 (w * h)].
Definition ex_fields (b : Z) : list field := [Field 271 OtherValue; Field 274 OtherValue; Field 274 (Short [b; 9]); Field 305 OtherValue].
Example auto_orient_partial_ex :
  valid (ex_pic 4 5 1) /\ handled libm 6 (ex_pic 4 5 1) /\ handled libm 7 (ex_pic 4 5 1) /\ handled libm 8 (ex_pic 4 5 1) /\
  auto_orient libm true (Some (ex_fields 6)) (ex_pic 4 5 1) =
    Ok (Pic 5 4 1 [[16; 12; 8; 4; 0; 17; 13; 9; 5; 1; 18; 14; 10; 6; 2; 19; 15; 11; 7; 3]; repeat 7 20],
        Some [Field 271 OtherValue; Field 274 (Byte [1]); Field 274 (Byte [1]); Field 305 OtherValue]).
Proof.
  assert (C : close_sides 4 5) by (repeat split; vm_compute; discriminate).
  split; [|split; [|split; [|split]]].
  - split; [cbn; lia|]. split; [cbn; lia|]. split; [now left|]. repeat constructor.
  - split; [reflexivity|]. split; [now apply libm_good|exact C].
  - split; [reflexivity|]. split; [now apply libm_good|exact C].
  - split; [reflexivity|]. split; [now apply libm_good|exact C].
  - vm_compute. reflexivity.
Qed.

(** Without the restrictions it fails. Orientation 3: a wrong picture (8 bits) or a panic (more); 5: a panic for sides
    below 8 or wrong samples; 6 to 8: an error. *)
Theorem auto_orient_refuted :
  (exists p q fs, valid p /\ orientation fs = Some [3] /\ auto_orient libm true (Some fs) p = Ok (q, Some (neutral fs)) /\ ~ oriented 3 p q) /\
  (exists p fs, valid p /\ orientation fs = Some [3] /\ auto_orient libm true (Some fs) p = Panic) /\
  (exists p fs, valid p /\ orientation fs = Some [5] /\ auto_orient libm true (Some fs) p = Panic) /\
  (exists p q fs, valid p /\ orientation fs = Some [5] /\ auto_orient libm false (Some fs) p = Ok (q, Some (neutral fs)) /\ ~ oriented 5 p q) /\
  (forall b, 6 <= b <= 8 -> exists p fs, valid p /\ p_size p = 1%nat /\ orientation fs = Some [b] /\ auto_orient libm true (Some fs) p = Err ESize) /\
  (forall b, 6 <= b <= 8 -> exists p fs, valid p /\ p_size p = 2%nat /\ orientation fs = Some [b] /\ auto_orient libm true (Some fs) p = Err ESize).
Proof.
  assert (V : forall w h s, (0 < w)%nat -> (0 < h)%nat -> (s = 1 \/ s = 2 \/ s = 4)%nat -> valid (ex_pic w h s)).
  { intros w h s Hw Hh Hs. repeat split; try assumption. repeat constructor; [now rewrite map_length, seq_length|apply repeat_length]. }
  split; [|split; [|split; [|split; [|split]]]].
  - eexists (ex_pic 2 2 1), _, [Field 274 (Short [3])]. split; [apply V; lia|]. split; [reflexivity|]. split; [vm_compute; reflexivity|].
    intros (_ & _ & _ & F). inversion_clear F as [|? ? ? ? H _]. destruct H as [_ H]. specialize (H 0 0 ltac:(cbn; lia) ltac:(cbn; lia))%nat. discriminate H.
  - exists (ex_pic 2 2 2), [Field 274 (Short [3])]. split; [apply V; lia|]. split; reflexivity.
  - exists (ex_pic 7 9 1), [Field 274 (Short [5])]. split; [apply V; lia|]. split; vm_compute; reflexivity.
  - eexists (ex_pic 2 3 1), _, [Field 274 (Short [5])]. split; [apply V; lia|]. split; [reflexivity|]. split; [vm_compute; reflexivity|].
    intros (_ & _ & _ & F). inversion_clear F as [|? ? ? ? H _]. destruct H as [_ H]. specialize (H 1 0 ltac:(cbn; lia) ltac:(cbn; lia))%nat. discriminate H.
  - intros b Hb. exists (ex_pic 11 2 1), [Field 274 (Short [b])]. split; [apply V; lia|]. split; [reflexivity|]. split; [reflexivity|].
    assert (b = 6 \/ b = 7 \/ b = 8) as [-> | [-> | ->]] by lia; vm_compute; reflexivity.
  - intros b Hb. exists (ex_pic 4 4 2), [Field 274 (Short [b])]. split; [apply V; lia|]. split; [reflexivity|]. split; [reflexivity|].
    assert (b = 6 \/ b = 7 \/ b = 8) as [-> | [-> | ->]] by lia; vm_compute; reflexivity.
Qed.
Print Assumptions auto_orient_refuted.

(** Every picture of 1920 by 1080 samples of 8 bits and every quarter turn of a picture with wider samples is refused,
    so is (or panics) every half turn of such a picture. *)
Theorem rotate_common_sizes_refuted p : valid p -> p_chans p <> [] ->
  (p_w p = 1920 -> p_h p = 1080 -> forall q, execute (rotate_impl libm T90) p <> Ok q)%nat /\
  ((1 < p_size p)%nat -> forall q, execute (rotate_impl libm T180) p <> Ok q) /\
  ((1 < p_size p)%nat -> close_sides (p_w p) (p_h p) -> forall t q, t <> T180 -> execute (rotate_impl libm t) p <> Ok q).
Proof.
  intros V N. pose proof V as (W & H & S & L). split; [|split].
  - intros Ew Eh. apply quarter_fails; try assumption; [easy|]. rewrite Ew, Eh.
    assert (D : change_dims libm T90 1920 1080 = (1081, 1921)%nat \/ change_dims libm T90 1920 1080 = (1081, 1920)%nat) by (vm_compute; auto).
    assert (M : forall s, (s = 1 \/ s = 2 \/ s = 4)%nat -> (Z.of_nat (1920 * 1080 / s) <= 1920 * 1080)).
    { intros s Hs. rewrite Nat2Z.inj_div, Nat2Z.inj_mul. change (Z.of_nat 1920) with 1920. change (Z.of_nat 1080) with 1080.
      destruct Hs as [-> | [-> | ->]]; vm_compute; discriminate. }
    specialize (M _ S). set (n := (1920 * 1080 / p_size p)%nat) in *. clearbody n. destruct D as [-> | ->]; intros E; apply (f_equal Z.of_nat) in E; rewrite Nat2Z.inj_mul in E;
      change (Z.of_nat 1081) with 1081 in E; change (Z.of_nat 1921) with 1921 in E; change (Z.of_nat 1920) with 1920 in E; lia.
  - intros S1. now apply half_fails.
  - intros S1 C t q T. apply quarter_fails; try assumption. rewrite dims_ok by (try assumption; now apply libm_good).
    assert (p_w p * p_h p / p_size p < p_w p * p_h p)%nat by (apply Nat.div_lt; nia). lia.
Qed.
Print Assumptions rotate_common_sizes_refuted.
Example rotate_common_sizes_refuted_ex :
  (let p := Pic 1920 1080 1 [repeat 7 (1920 * 1080)] in valid p /\ p_chans p <> []) /\ close_sides 4 4 /\
  execute (rotate_impl libm T90) (ex_pic 4 4 4) = Err ESize.
Proof.
  split; [|split; [repeat split; vm_compute; discriminate|vm_compute; reflexivity]]. cbv zeta. split; [|discriminate].
  split; [cbn [p_w]; lia|]. split; [cbn [p_h]; lia|]. split; [now left|]. constructor; [apply repeat_length|constructor].
Qed.

(** Orienting twice is orienting once, whatever the picture and the fields. *)
Theorem auto_orient_idempotent trig checked fs p q fs' : auto_orient trig checked fs p = Ok (q, fs') -> auto_orient trig checked fs' q = Ok (q, fs').
Proof.
  unfold auto_orient. destruct (confirm p) as [[]| | |]; cbn [bind]; try easy. destruct fs as [l|]; cbn [bind].
  - rewrite orient_fields_spec. destruct (orientation l) as [[|b xs]|] eqn:O; cbn [bind].
    + cbn [fst]. destruct (confirm p) as [[]| | |] eqn:C; cbn [bind]; try easy. intros E. inversion E. subst q fs'. rewrite C. cbn [bind]. rewrite orient_fields_spec, O. cbn [bind fst]. now rewrite C.
    + destruct (orient_by trig checked b p) as [r| | |]; cbn [bind fst]; try easy. destruct (confirm r) as [[]| | |] eqn:C; cbn [bind]; try easy. intros E. inversion E. subst q fs'.
      rewrite C. cbn [bind]. rewrite orient_fields_spec, neutral_orientation. cbn [bind fst]. rewrite C. cbn [bind]. now rewrite neutral_neutral.
    + cbn [fst]. destruct (confirm p) as [[]| | |] eqn:C; cbn [bind]; try easy. intros E. inversion E. subst q fs'.
      rewrite C. cbn [bind]. rewrite orient_fields_spec, neutral_orientation. cbn [bind fst]. rewrite C. cbn [bind]. now rewrite neutral_neutral.
  - cbn [fst]. destruct (confirm p) as [[]| | |] eqn:C; cbn [bind]; try easy. intros E. inversion E. subst q fs'. rewrite C. cbn [bind fst]. now rewrite C.
Qed.
Print Assumptions auto_orient_idempotent.
Example auto_orient_idempotent_ex : exists q fs',
  auto_orient libm true (Some (ex_fields 7)) (ex_pic 4 5 1) = Ok (q, fs') /\ q <> ex_pic 4 5 1 /\ fs' <> Some (ex_fields 7).
Proof. eexists _, _. split; [vm_compute; reflexivity|]. split; discriminate. Qed.

(** Without an orientation the picture and all other fields stay. *)
Theorem auto_orient_keeps trig checked fs p : valid p ->
  auto_orient trig checked None p = Ok (p, None) /\
  (orientation fs = None \/ orientation fs = Some [] -> exists fs', auto_orient trig checked (Some fs) p = Ok (p, Some fs') /\
     map f_tag fs' = map f_tag fs /\ forall i f, nth_error fs i = Some f -> f_tag f <> 274 -> nth_error fs' i = Some f).
Proof.
  intros V. assert (C : confirm p = Ok tt) by (apply confirm_ok, V). split.
  - unfold auto_orient. rewrite C. cbn [bind fst]. now rewrite C.
  - assert (N : map f_tag (neutral fs) = map f_tag fs /\ forall i f, nth_error fs i = Some f -> f_tag f <> 274 -> nth_error (neutral fs) i = Some f).
    { unfold neutral. split.
      - rewrite map_map. apply map_ext. intros f. now destruct (f_tag f =? orientation_tag).
      - intros i f Hi Hf. rewrite (map_nth_error _ _ _ Hi). f_equal. unfold orientation_tag. now replace (f_tag f =? 274) with false by lia. }
    intros O. unfold auto_orient. rewrite C. cbn [bind]. rewrite orient_fields_spec. destruct O as [-> | ->]; cbn [bind fst]; rewrite C; cbn [bind].
    + exists (neutral fs). now split.
    + exists fs. now repeat split.
Qed.
Print Assumptions auto_orient_keeps.
Example auto_orient_keeps_ex : valid (ex_pic 4 5 2) /\ orientation [Field 274 (Byte [6]); Field 305 OtherValue] = None.
Proof. split; [|reflexivity]. split; [cbn; lia|]. split; [cbn; lia|]. split; [now right; left|]. repeat constructor. Qed.
