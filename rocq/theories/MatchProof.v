(** Both match-copy kernels implement the LZ77 match. *)
From Verif Require Import Base BaseProof Loops Slices InflateModel InflateSpec.

Lemma lz_copy_length len : forall out offset, length (lz_copy out offset len) = (length out + len)%nat.
Proof.
  induction len as [|len IH]; intros out offset; cbn [lz_copy]; [lia|].
  rewrite IH, app_length. cbn [length]. lia.
Qed.
Lemma lz_copy_old len : forall out offset i, (i < length out)%nat -> nth i (lz_copy out offset len) 0 = nth i out 0.
Proof.
  induction len as [|len IH]; intros out offset i H; cbn [lz_copy]; [reflexivity|].
  rewrite IH by (rewrite app_length; cbn [length]; lia). now apply app_nth1.
Qed.
Lemma lz_copy_new len : forall out offset i, (1 <= offset <= length out)%nat -> (length out <= i < length out + len)%nat ->
  nth i (lz_copy out offset len) 0 = nth (i - offset) (lz_copy out offset len) 0.
Proof.
  induction len as [|len IH]; intros out offset i Ho Hi; [lia|]. cbn [lz_copy].
  destruct (Nat.eq_dec i (length out)) as [->|Hn].
  - rewrite !lz_copy_old by (rewrite app_length; cbn [length]; lia).
    rewrite app_nth2 by lia. rewrite Nat.sub_diag. cbn [nth]. now rewrite app_nth1 by lia.
  - apply IH; rewrite app_length; cbn [length]; lia.
Qed.

(** A buffer that is periodic on the match region holds the match. *)
Lemma lz_of_periodic out out' dest offset len :
  (1 <= offset <= dest)%nat -> (dest <= length out)%nat -> (dest + len <= length out')%nat ->
  (forall i, (i < dest)%nat -> nth i out' 0 = nth i out 0) ->
  (forall i, (dest <= i < dest + len)%nat -> nth i out' 0 = nth (i - offset) out' 0) ->
  firstn (dest + len) out' = lz_copy (firstn dest out) offset len.
Proof.
  intros Ho Hd Hl Hold Hnew.
  assert (Lf : length (firstn dest out) = dest) by (rewrite firstn_length; lia).
  apply (list_eq_nth 0).
  - rewrite lz_copy_length, Lf, firstn_length. lia.
  - rewrite firstn_length, Nat.min_l by lia. intros i.
    induction i as [i IH] using (well_founded_induction lt_wf). intros Hi.
    rewrite nth_firstn by lia. destruct (Nat.lt_ge_cases i dest) as [Hlt|Hge].
    + rewrite lz_copy_old by lia. rewrite Hold by lia. now rewrite nth_firstn.
    + rewrite Hnew by lia. rewrite lz_copy_new by (rewrite ?Lf; lia).
      rewrite <- IH by lia. now rewrite nth_firstn by lia.
Qed.

Definition periodic (out0 out : list Z) (dest offset upto : nat) : Prop :=
  length out = length out0 /\
  (forall i, (i < dest)%nat -> nth i out 0 = nth i out0 0) /\
  (forall i, (dest <= i < upto)%nat -> nth i out 0 = nth (i - offset) out 0).

Lemma copy16_ok out src dst : (src + 16 <= length out)%nat -> (dst + 16 <= length out)%nat ->
  exists out', copy16 out src dst = Ok out' /\ length out' = length out /\
    forall i, nth i out' 0 = if ((dst <=? i) && (i <? dst + 16))%nat then nth (src + (i - dst)) out 0 else nth i out 0.
Proof.
  intros Hs Hd. unfold copy16, fastcopy. rewrite get_slice_ok by lia. cbn [bind].
  assert (L : length (slice out src 16) = 16%nat) by (apply slice_length; lia).
  rewrite put_slice_ok by lia. eexists. split; [reflexivity|]. split; [apply put_length; lia|].
  intros i. rewrite put_nth by lia. rewrite L. destruct ((dst <=? i) && (i <? dst + 16))%nat eqn:E; [|reflexivity].
  apply slice_nth. lia.
Qed.

(** One 16-byte copy extends the periodic region by [step] bytes. *)
Lemma copy16_step out0 out dest offset dst step :
  (step <= 16)%nat -> (step <= offset)%nat -> (1 <= offset <= dest)%nat -> (dest <= dst)%nat ->
  (dst + 16 <= length out0)%nat -> periodic out0 out dest offset dst ->
  exists out', copy16 out (dst - offset) dst = Ok out' /\ periodic out0 out' dest offset (dst + step).
Proof.
  intros H1 H2 H3 H4 H5 (L & A & B).
  destruct (copy16_ok out (dst - offset) dst) as (out' & E & L' & N); [lia|lia|].
  exists out'. split; [exact E|]. split; [lia|]. split.
  - intros i Hi. rewrite N. replace (dst <=? i)%nat with false by lia. cbn [andb]. now apply A.
  - intros i Hi. rewrite (N i), (N (i - offset)%nat).
    replace (dst <=? i - offset)%nat with false by lia. cbn [andb].
    destruct (Nat.leb_spec dst i); cbn [andb].
    + replace (i <? dst + 16)%nat with true by lia. f_equal. lia.
    + apply B. lia.
Qed.

Lemma periodic_weaken out0 out dest offset a b : (b <= a)%nat -> periodic out0 out dest offset a -> periodic out0 out dest offset b.
Proof. intros H (L & A & B). split; [exact L|]. split; [exact A|]. intros i Hi. apply B. lia. Qed.

Lemma rep_loop_ok out0 dest offset dest_end : (2 <= offset <= 16)%nat -> (offset <= dest)%nat ->
  (dest_end + 16 <= length out0)%nat ->
  forall fuel out dst, (dest <= dst)%nat -> (dst <= dest_end)%nat -> (dest_end < dst + fuel)%nat ->
  periodic out0 out dest offset dst ->
  exists out', rep_loop fuel offset dest_end out (dst - offset) dst = Ok out' /\ periodic out0 out' dest offset dest_end.
Proof.
  intros Ho Hd Hl. induction fuel as [|fuel IH]; intros out dst H1 H2 H3 P; [lia|]. cbn [rep_loop].
  destruct (copy16_step out0 out dest offset dst offset) as (out1 & E & P1); try lia; auto.
  rewrite E. cbn [bind]. destruct (Nat.ltb_spec dest_end (dst + offset)).
  - exists out1. split; [reflexivity|]. eapply periodic_weaken; [|exact P1]. lia.
  - replace (dst - offset + offset)%nat with (dst + offset - offset)%nat by lia. apply IH; auto; lia.
Qed.

Lemma chunk_loop_ok out0 dest offset dest_end : (16 <= offset)%nat -> (offset <= dest)%nat ->
  (dest_end + 16 <= length out0)%nat ->
  forall fuel out dst, (dest <= dst)%nat -> (dst <= dest_end)%nat -> (dest_end < dst + fuel)%nat ->
  periodic out0 out dest offset dst ->
  exists out', chunk_loop fuel dest_end out (dst - offset) dst = Ok out' /\ periodic out0 out' dest offset dest_end.
Proof.
  intros Ho Hd Hl. induction fuel as [|fuel IH]; intros out dst H1 H2 H3 P; [lia|]. cbn [chunk_loop].
  destruct (copy16_step out0 out dest offset dst 16) as (out1 & E & P1); try lia; auto.
  rewrite E. cbn [bind]. unfold fastcopy. destruct (Nat.ltb_spec dest_end (dst + 16)).
  - exists out1. split; [reflexivity|]. eapply periodic_weaken; [|exact P1]. lia.
  - replace (dst - offset + 16)%nat with (dst + 16 - offset)%nat by lia. apply IH; auto; lia.
Qed.

Lemma fast_match_periodic out dest offset len :
  (1 <= offset <= dest)%nat -> (dest + len + 16 <= length out)%nat ->
  exists out', fast_match out dest offset len = Ok out' /\ periodic out out' dest offset (dest + len).
Proof.
  intros Ho Hl. unfold fast_match. replace (dest <? offset)%nat with false by lia. cbn zeta.
  assert (P0 : periodic out out dest offset dest) by (split; [reflexivity|]; split; [reflexivity|intros; lia]).
  destruct (copy16_step out out dest offset dest (Nat.min 16 offset)) as (o1 & E1 & P1); try lia; auto.
  rewrite E1. cbn [bind]. destruct (Nat.eqb_spec offset 1) as [->|H1].
  - destruct P1 as (L1 & A1 & B1). rewrite (get_at_ok o1 (dest - 1) 0) by lia. cbn [bind].
    set (b := nth (dest - 1) o1 0). rewrite put_slice_ok by (rewrite repeat_length; lia).
    eexists. split; [reflexivity|]. split; [rewrite put_length; rewrite ?repeat_length; lia|].
    assert (Hb : forall i, nth i (put o1 dest (repeat b len)) 0 = if ((dest <=? i) && (i <? dest + len))%nat then b else nth i o1 0).
    { intros i. rewrite put_nth by (rewrite repeat_length; lia). rewrite repeat_length.
      destruct ((dest <=? i) && (i <? dest + len))%nat eqn:E; [|reflexivity].
      apply (repeat_spec len b). apply nth_In. rewrite repeat_length. lia. }
    split.
    + intros i Hi. rewrite Hb. replace (dest <=? i)%nat with false by lia. now apply A1.
    + intros i Hi. rewrite !Hb. replace ((dest <=? i) && (i <? dest + len))%nat with true by lia.
      destruct ((dest <=? i - 1) && (i - 1 <? dest + len))%nat eqn:E; [reflexivity|].
      unfold b. f_equal. lia.
  - destruct ((offset <=? fastcopy)%nat && (dest + offset <? dest + len)%nat) eqn:E2; unfold fastcopy in *.
    + replace (dest - offset + offset)%nat with (dest + offset - offset)%nat by lia.
      apply rep_loop_ok; try lia. eapply periodic_weaken; [|exact P1]. lia.
    + destruct (Nat.ltb_spec 16 len).
      * replace (dest - offset + 16)%nat with (dest + 16 - offset)%nat by lia.
        apply chunk_loop_ok; try lia. eapply periodic_weaken; [|exact P1]. lia.
      * exists o1. split; [reflexivity|]. eapply periodic_weaken; [|exact P1]. lia.
Qed.

(** The window loop. *)
Lemma rep_windows_ok out0 dest offset : (1 <= offset <= dest)%nat ->
  forall n out dst, (dest <= dst)%nat -> (dst + n <= length out0)%nat -> periodic out0 out dest offset dst ->
  exists out', rep_windows n out (dst - offset) dst = Ok out' /\ periodic out0 out' dest offset (dst + n).
Proof.
  intros Ho. induction n as [|n IH]; intros out dst Hd Hn P; cbn [rep_windows].
  - exists out. split; [reflexivity|]. now rewrite Nat.add_0_r.
  - destruct P as (L & A & B). rewrite (get_at_ok out (dst - offset) 0) by lia. cbn [bind].
    rewrite set_at_ok by lia. cbn [bind].
    replace (S (dst - offset)) with (S dst - offset)%nat by lia.
    replace (dst + S n)%nat with (S dst + n)%nat by lia. apply IH; try lia.
    split; [now rewrite upd_length|]. split.
    + intros i Hi. rewrite upd_nth_other by lia. now apply A.
    + intros i Hi. rewrite (upd_nth_other out dst (i - offset)) by lia.
      destruct (Nat.eq_dec i dst) as [->|Hne]; [now apply upd_nth_same; lia|].
      rewrite upd_nth_other by lia. apply B. lia.
Qed.

Lemma slow_match_periodic out dest offset len :
  (1 <= offset <= dest)%nat -> (dest <= length out)%nat ->
  exists out', slow_match out dest offset len = Ok out' /\ (dest + len <= length out')%nat /\
    (length out <= length out')%nat /\
    (forall i, (i < dest)%nat -> nth i out' 0 = nth i out 0) /\
    (forall i, (dest <= i < dest + len)%nat -> nth i out' 0 = nth (i - offset) out' 0).
Proof.
  intros Ho Hl. unfold slow_match. unfold fastcopy.
  set (o1 := if (length out <? dest + len + 16)%nat then resize out (length out + resize_by + len) 0 else out).
  assert (L1 : (dest + len + 16 <= length o1)%nat /\ (length out <= length o1)%nat /\
               forall i, (i < dest)%nat -> nth i o1 0 = nth i out 0).
  { unfold o1. destruct (Nat.ltb_spec (length out) (dest + len + 16)).
    - rewrite resize_length. unfold resize_by. split; [lia|]. split; [lia|].
      intros i Hi. apply resize_nth; lia.
    - split; [lia|]. auto. }
  destruct L1 as (La & Lb & Lc). replace (dest <? offset)%nat with false by lia. cbn zeta.
  destruct (Nat.ltb_spec dest (dest - offset + len + 16)).
  - unfold copy_rep_matches. replace (dest + len + 2 <=? length o1)%nat with true by lia.
    destruct (rep_windows_ok o1 dest offset Ho (len + 2) o1 dest) as (o2 & E & (P1 & P2 & P3)); try lia.
    { split; [reflexivity|]. split; [reflexivity|intros; lia]. }
    exists o2. split; [exact E|]. split; [lia|]. split; [lia|]. split.
    + intros i Hi. rewrite P2 by lia. now apply Lc.
    + intros i Hi. apply P3. lia.
  - rewrite get_slice_ok by lia. cbn [bind].
    assert (Ls : length (slice o1 (dest - offset) len) = len) by (apply slice_length; lia).
    rewrite put_slice_ok by lia. eexists. split; [reflexivity|].
    rewrite put_length by lia. split; [lia|]. split; [lia|]. split.
    + intros i Hi. rewrite put_nth by lia. replace (dest <=? i)%nat with false by lia. now apply Lc.
    + intros i Hi. rewrite !put_nth by lia. rewrite Ls.
      replace ((dest <=? i) && (i <? dest + len))%nat with true by lia.
      replace ((dest <=? i - offset) && (i - offset <? dest + len))%nat with false by lia.
      rewrite slice_nth by lia. f_equal. lia.
Qed.
