(** Channel storage (C28). *)
From Verif Require Import Base BaseProof Slices ChannelModel ChannelSpec ChannelProof.

Definition pushes (n : nat) : list op := map (fun i => OPush [Z.of_nat i]) (seq 0 n).

(** The full claim is false. A byte channel of capacity one: the second push enlarges the storage to 1 * 3 / 2 = 1
    bytes and writes behind it. *)
Theorem channel_push_outside_refuted :
  exists c, with_capacity 1 TU8 = Val c /\ Forall (op_ok TU8) (pushes 2) /\ run true (pushes 2) c = Undefined.
Proof.
  eexists. split; [reflexivity|]. split; [|vm_compute; reflexivity]. repeat (apply Forall_cons; [now exists TU8|]). apply Forall_nil.
Qed.

(** [Channel::new] followed by sixteen pushes of bytes: the second reallocation passes the layout of the first block. *)
Theorem channel_stale_layout_refuted :
  exists c, new TU8 = Val c /\ Forall (op_ok TU8) (pushes 16) /\ run true (pushes 16) c = Undefined.
Proof.
  eexists. split; [reflexivity|]. split; [|vm_compute; reflexivity].
  apply Forall_forall. intros o Ho. apply in_map_iff in Ho as (i & <- & _). now exists TU8.
Qed.

(** With an allocator that copies [min old new] bytes without looking, five of the sixteen bytes are lost. *)
Theorem channel_bytes_lost_refuted :
  exists c c' flags, new TU8 = Val c /\ run false (pushes 16) c = Val (c', flags) /\ len c' = 16%nat /\
    firstn (len c') (blk c') = map (fun i => Some (Z.of_nat i)) (seq 0 10) ++ repeat None 5 ++ [Some 15].
Proof. do 3 eexists. split; [reflexivity|]. split; [vm_compute; reflexivity|]. split; vm_compute; reflexivity. Qed.

(** An empty channel asks the allocator for no bytes, which the allocator does not allow. *)
Theorem channel_empty_refuted t : with_length 0 t = Undefined /\ with_capacity 0 t = Undefined.
Proof. now split. Qed.

(** Exactly which histories are sound: a channel made in any of the ways, after any history of pushes, extends, fills
    and clones, looks like the plain vector with the same history, unless storage that was already enlarged
    has to be enlarged again (or a byte is pushed at capacity one), when behaviour is undefined.
    Missing for C28: those histories, and channels of size 0. *)
Theorem channel_history_partial t r v n h : made t r v n -> Forall (op_ok t) h ->
  exists c, r = Val c /\
  if legal h (length v) n true then
    exists c', run true h c = Val (c', snd (vec_run t h v)) /\ looks_like t c' (fst (vec_run t h v))
  else run true h c = Undefined.
Proof.
  intros M Hh. destruct (made_holds t r v n M) as (c & E & H & F & C). exists c. split; [easy|].
  pose proof (run_exact t h c v H Hh) as R. rewrite C in R. replace (lay c =? n)%nat with true in R by (unfold fresh in F; lia).
  destruct (legal _ _ _ _); [|easy]. destruct R as (c' & E' & H'). exists c'. split; [easy|]. now apply holds_looks.
Qed.

Definition mixed : list op := [OPush [1; 2]; OExtend TU16 [3; 4; 5; 6; 7; 8; 9; 10]; OPush [7; 7]; OClone; OExtend TU16 (repeat 5 32); OFill TU16 [9; 8]; OFill TU8 [1]].
Example mixed_ok : Forall (op_ok TU16) mixed.
Proof. repeat (apply Forall_cons; [cbn; try split; try reflexivity; try now exists TU16|]). apply Forall_nil. Qed.
Example mixed_legal : legal mixed 0 10 true = true. Proof. reflexivity. Qed.
Example mixed_result : vec_run TU16 mixed [] = (concat (repeat [9; 8] 22), [true; true; true; true; true; true; false]).
Proof. reflexivity. Qed.
Example mixed_made : made TU16 (new TU16) [] 10. Proof. constructor. Qed.
Example pushes_illegal : legal (pushes 16) 0 10 true = false /\ legal (pushes 15) 0 10 true = true. Proof. now split. Qed.

(** No reallocation at all happens within the capacity the channel was made with, so every such history is sound, and
    whatever the allocator does. *)
Theorem channel_within_capacity strict t r v n h : made t r v n -> Forall (op_ok t) h -> (length v + added_all h <= n)%nat ->
  exists c c', r = Val c /\ run strict h c = Val (c', snd (vec_run t h v)) /\ looks_like t c' (fst (vec_run t h v)).
Proof.
  intros M Hh G. destruct (made_holds t r v n M) as (c & E & H & F & C). rewrite <- C in G.
  destruct (run_within strict t h c v H Hh G) as (c' & R & H' & _). exists c, c'. split; [easy|]. split; [easy|]. now apply holds_looks.
Qed.
Definition two_floats : list op := [OPush [0; 0; 128; 63]; OClone; OPush [0; 0; 0; 64]].
Example within_ok : made TF32 (with_capacity 12 TF32) [] 12 /\ (length (@nil Z) + added_all two_floats <= 12)%nat.
Proof. split; [constructor; lia|cbn; lia]. Qed.

(** The copy is independent of the source (values here) and has its look; the threaded [Frame::clone] as well, but its
    channels were enlarged from one byte already, so that a later growth is undefined. *)
Theorem channel_clone_equal strict t c v : holds t c v ->
  exists c', clone strict c = Val c' /\ looks_like t c' v /\ cap c' = cap c.
Proof. intros H. destruct (clone_holds strict t c v H) as (c' & E & H' & _ & C'). exists c'. split; [easy|]. split; [now apply holds_looks|easy]. Qed.
Theorem frame_clone_equal t c v : holds t c v -> (1000 < length v)%nat ->
  exists c', frame_clone true c = Val c' /\ looks_like t c' v /\
    forall e, length e = 1%nat -> push true c' e = Undefined.
Proof.
  intros H Hl. pose proof H as [T B P L F Y]. unfold frame_clone. rewrite T, L.
  destruct (with_capacity_holds 1 t ltac:(lia)) as (c1 & -> & H1 & F1 & C1). cbn [mbind].
  destruct (clone_holds true t c1 [] H1) as (c2 & -> & H2 & F2 & C2). cbn [mbind].
  destruct (realloc_holds t c2 [] (length v) H2 F2 ltac:(lia) ltac:(lia)) as (c3 & R & H3 & C3).
  assert (L3 : lay c3 = lay c2).
  { clear -R. unfold realloc in R. destruct (_ =? 0)%nat; [easy|]. destruct (true && _); [easy|]. now injection R as <-. }
  rewrite R. cbn [mbind]. replace ((length v <=? cap c3)%nat && (length v <=? length (blk c))%nat) with true by (symmetry; apply andb_true_iff; split; lia).
  pose proof H3 as [T3 B3 P3 LL3 F3 Y3]. unfold fresh in F2.
  assert (H4 : holds t (Chan (firstn (length v) (blk c) ++ skipn (length v) (blk c3)) (length v) (cap c3) (ctype c3) (lay c3)) v).
  { constructor; cbn [ctype blk cap len lay]; try easy; try lia.
    - rewrite app_length, firstn_length, skipn_length. lia.
    - rewrite firstn_app_exact by (rewrite firstn_length; lia). now rewrite <- L. }
  eexists. split; [reflexivity|]. split; [now apply holds_looks|]. intros e He. unfold push, has_capacity. cbn [len cap]. rewrite He.
  replace (length v + 1 <=? cap c3)%nat with false by lia. unfold realloc. cbn [lay blk cap].
  destruct (_ =? 0)%nat; [easy|]. replace (lay c3 =? _)%nat with false; [easy|]. symmetry. apply Nat.eqb_neq.
  rewrite app_length, firstn_length, skipn_length. lia.
Qed.
Example holds_nontrivial : exists c, new TU8 = Val c /\ holds TU8 c [] . Proof. destruct (made_holds TU8 _ _ _ (made_new TU8)) as (c & E & H & _). now exists c. Qed.

(** Extending with another element type panics instead of changing the contents. *)
Theorem channel_extend_wrong_type strict c t d : t <> ctype c -> extend strict c t d = Abort.
Proof. intros H. unfold extend. destruct t, (ctype c); try easy; now destruct H. Qed.
Example wrong_type : exists c, new TU8 = Val c /\ TU16 <> ctype c. Proof. eexists. split; [reflexivity|easy]. Qed.

Print Assumptions channel_push_outside_refuted.
Print Assumptions channel_stale_layout_refuted.
Print Assumptions channel_bytes_lost_refuted.
Print Assumptions channel_empty_refuted.
Print Assumptions channel_history_partial.
Print Assumptions channel_within_capacity.
Print Assumptions channel_clone_equal.
Print Assumptions frame_clone_equal.
Print Assumptions channel_extend_wrong_type.
