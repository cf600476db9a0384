(** Properties C01-C04, C47: byte readers and writers. *)
From Verif Require Import Base BaseProof StreamModel StreamSpec StreamProof.

(** C01: error-returning reads are exact, or report end of input without moving. *)
Theorem cursor_read_exact_or_unmoved : forall n c,
  ((n <= length (cdata c) - cpos c)%nat ->
     exists c', read_fixed_or_error n c = (Ok (firstn n (skipn (cpos c) (cdata c))), c')
                /\ cpos c' = (cpos c + n)%nat /\ cdata c' = cdata c)
  /\ ((length (cdata c) - cpos c < n)%nat -> read_fixed_or_error n c = (Err EEof, c)).
Proof.
  intros n c. rewrite read_fixed_or_error_spec. unfold remaining. rewrite skipn_length.
  split; intros H.
  - replace (n <=? length (cdata c) - cpos c)%nat with true by lia. eexists; repeat split; reflexivity.
  - replace (n <=? length (cdata c) - cpos c)%nat with false by lia. reflexivity.
Qed.
Print Assumptions cursor_read_exact_or_unmoved.
Example cursor_read_ex :
  read_fixed_or_error 3 {| cdata := [9;8;7;6;5]; cpos := 1 |} = (Ok [8;7;6], {| cdata := [9;8;7;6;5]; cpos := 4 |})
  /\ fst (read_fixed_or_error 3 {| cdata := [9;8;7;6;5]; cpos := 3 |}) = Err EEof
  /\ read_fixed_or_error 1 {| cdata := [9]; cpos := 7 |} = (Err EEof, {| cdata := [9]; cpos := 7 |}).
Proof. repeat split. Qed.

Theorem cursor_read_int_exact_or_unmoved : forall e k c,
  bytes (cdata c) ->
  match get_err e k c with
  | (Ok x, c') => 0 <= x < 256 ^ Z.of_nat k
                  /\ to_bytes e k x = firstn k (skipn (cpos c) (cdata c))
                  /\ (k <= length (cdata c) - cpos c)%nat
                  /\ cpos c' = (cpos c + k)%nat /\ cdata c' = cdata c
  | (Err _, c') => c' = c /\ (length (cdata c) - cpos c < k)%nat
  | _ => False
  end.
Proof.
  intros e k c Hb. rewrite get_err_spec. unfold remaining.
  destruct (Nat.leb_spec k (length (skipn (cpos c) (cdata c)))) as [H|H]; rewrite skipn_length in H.
  2:{ split; [reflexivity|lia]. }
  assert (Hl : length (firstn k (skipn (cpos c) (cdata c))) = k) by (rewrite firstn_length, skipn_length; lia).
  assert (Hbb : bytes (firstn k (skipn (cpos c) (cdata c)))).
  { unfold bytes in *. rewrite Forall_forall in *. intros x Hx. apply Hb.
    rewrite <- (firstn_skipn (cpos c) (cdata c)). apply in_or_app. right.
    rewrite <- (firstn_skipn k (skipn (cpos c) (cdata c))). apply in_or_app. now left. }
  repeat split; try lia; destruct e; cbn [of_bytes to_bytes];
    try (rewrite <- Hl at 2; first [apply be_val_bound | apply le_val_bound]; exact Hbb);
    try (first [apply be_val_bound | apply le_val_bound]; exact Hbb);
    rewrite <- Hl at 1; first [apply be_bytes_be_val | apply le_bytes_le_val]; exact Hbb.
Qed.
Print Assumptions cursor_read_int_exact_or_unmoved.
Example cursor_read_int_ex :
  get_err BE 2 {| cdata := [1;2;3]; cpos := 1 |} = (Ok 515, {| cdata := [1;2;3]; cpos := 3 |})
  /\ get_err LE 4 {| cdata := [1;2;3]; cpos := 0 |} = (Err EEof, {| cdata := [1;2;3]; cpos := 0 |})
  /\ bytes [1;2;3].
Proof. split; [reflexivity|split; [reflexivity|lit_bytes]]. Qed.

(** C47 (full claim): when fewer than N bytes remain the non-erroring read returns all zeros.
    The std build leaves the bytes that were available in the buffer. *)
Theorem read_or_zero_all_zero_refuted :
  exists n c, (length (cdata c) - cpos c < n)%nat
              /\ fst (read_fixed_or_zero n c) <> repeat 0 n.
Proof. exists 4%nat, {| cdata := [1;2]; cpos := 0 |}. split; [cbn; lia|]. vm_compute. discriminate. Qed.
Print Assumptions read_or_zero_all_zero_refuted.

(** What does hold: the missing bytes (only) are zero, and a short read does not move. *)
Theorem read_or_zero_pads_partial : forall n c,
  fst (read_fixed_or_zero n c) = firstn n (skipn (cpos c) (cdata c) ++ repeat 0 n)
  /\ cpos (snd (read_fixed_or_zero n c)) =
       (if (n <=? length (cdata c) - cpos c)%nat then cpos c + n else cpos c)%nat
  /\ cdata (snd (read_fixed_or_zero n c)) = cdata c.
Proof.
  intros n c. rewrite read_fixed_or_zero_spec. unfold remaining. cbn [fst snd]. rewrite skipn_length.
  split; [|destruct (n <=? _)%nat; split; reflexivity].
  rewrite firstn_app, skipn_length. f_equal.
  destruct (Nat.le_gt_cases n (length (cdata c) - cpos c)) as [H|H].
  - replace (n - (length (cdata c) - cpos c))%nat with O by lia. reflexivity.
  - assert (G : forall m k, (m <= k)%nat -> firstn m (repeat 0 k) = repeat 0 m).
    { induction m as [|m IH]; intros [|k] Hk; cbn [firstn repeat]; auto; try lia. now rewrite IH by lia. }
    rewrite G; [reflexivity|lia].
Qed.
Print Assumptions read_or_zero_pads_partial.

(** C02 (full claim: peeking never moves the stream) fails on the error path. *)
Theorem peek_at_restores_refuted :
  exists c p n, cpos (snd (peek_at c p n)) <> cpos c.
Proof. exists {| cdata := [1;2;3]; cpos := 0 |}, 2%nat, 5%nat. vm_compute. discriminate. Qed.
Print Assumptions peek_at_restores_refuted.

(** What does hold: successful peeks return what skip-then-read would and do not move; a peek at
    offset 0 never moves; the error is exactly "not enough bytes" or "more than 20 MB". *)
Theorem peek_at_partial : forall c p n,
  (Z.of_nat n <= peek_cap -> (n = 0 \/ p + n <= length (cdata c) - cpos c)%nat ->
     peek_at c p n = (Ok (firstn n (skipn (cpos c + p) (cdata c))), c))
  /\ (cpos (snd (peek_at c 0 n)) = cpos c)
  /\ (forall b, fst (peek_at c p n) = Ok b ->
        snd (peek_at c p n) = c /\ b = firstn n (skipn (cpos c + p) (cdata c)) /\ length b = n).
Proof.
  intros c p n. rewrite !peek_at_spec. unfold remaining. rewrite !skipn_length, skipn_skipn'.
  repeat split.
  - intros H1 H2. replace (peek_cap <? Z.of_nat n) with false by lia.
    replace (n <=? length (cdata c) - cpos c - p)%nat with true by lia.
    replace ((p <=? length (cdata c) - cpos c)%nat || (n =? 0)%nat) with true by lia. reflexivity.
  - rewrite Nat.add_0_r. destruct (peek_cap <? Z.of_nat n); [reflexivity|].
    destruct (_ && _); reflexivity.
  - destruct (peek_cap <? Z.of_nat n); [discriminate|]. destruct (_ && _) eqn:E; [reflexivity|discriminate].
  - revert H. destruct (peek_cap <? Z.of_nat n); [discriminate|].
    destruct (_ && _) eqn:E; [|discriminate]. cbn. intros [= <-]. reflexivity.
  - revert H. destruct (peek_cap <? Z.of_nat n); [discriminate|].
    destruct (_ && _) eqn:E; [|discriminate]. cbn [fst]. intros [= <-].
    rewrite firstn_length, skipn_length. lia.
Qed.
Print Assumptions peek_at_partial.
Example peek_at_ex : peek_at {| cdata := [1;2;3;4]; cpos := 1 |} 1 2 = (Ok [3;4], {| cdata := [1;2;3;4]; cpos := 1 |}).
Proof. reflexivity. Qed.

(** C03 (full claim) fails for a [&mut [u8]] sink in the std build: the failing [write_all] stores
    part of its bytes and they are not counted. *)
Theorem writer_history_refuted :
  exists cap ops, let w := wrun (new_writer (SliceStd [] cap)) ops in
    wcount w <> length (sink_out (wsink w)).
Proof. exists 2%nat, [OWriteAll [1;2;3;4]]. vm_compute. discriminate. Qed.
Print Assumptions writer_history_refuted.

(** What does hold: for a growable vector and for the no_std slice sink, every history keeps the
    count equal to the bytes stored, the output is that of the abstract all-or-nothing writer, and a
    slice is never overrun; for the std slice sink the same holds whenever what is offered fits. *)
Theorem writer_history_partial : forall s ops,
  (s = VecSink [] \/ exists cap, s = SliceNoStd [] cap) ->
  let w := wrun (new_writer s) ops in
  wcount w = length (sink_out (wsink w))
  /\ sink_out (wsink w) = aout (arun {| aout := []; acap := sink_room s |} ops)
  /\ (forall cap, s = SliceNoStd [] cap -> (length (sink_out (wsink w)) <= cap)%nat)
  /\ (s = VecSink [] -> sink_out (wsink w) = concat (map offered ops)).
Proof.
  intros s ops Hs w.
  assert (Hns : no_std_sink (wsink (new_writer s))).
  { destruct Hs as [->|[cap ->]]; exact I. }
  destruct (wrun_abs ops (new_writer s) Hns) as (A & B & C). fold w in A, B, C.
  assert (Ha : abs_writer (new_writer s) = {| aout := []; acap := sink_room s |}).
  { destruct Hs as [->|[cap ->]]; reflexivity. }
  assert (Ho : sink_out (wsink (new_writer s)) = []) by (destruct Hs as [->|[cap ->]]; reflexivity).
  rewrite Ho in C. cbn [new_writer wcount length] in C. rewrite Ha in A.
  assert (A2 : sink_out (wsink w) = aout (arun {| aout := []; acap := sink_room s |} ops)) by now rewrite <- A.
  repeat split; auto; try lia.
  - intros cap ->. rewrite A2. apply arun_room; [reflexivity|cbn; lia].
  - intros ->. subst w. now rewrite (vec_run ops (new_writer (VecSink [])) []).
Qed.
Print Assumptions writer_history_partial.
Example writer_history_ex :
  let w := wrun (new_writer (SliceNoStd [] 5)) [OU8 7; OInt BE 2 258; OInt LE 4 1; OU8Err 9] in
  sink_out (wsink w) = [7;1;2;9] /\ wcount w = 4%nat.
Proof. repeat split. Qed.

Theorem writer_std_slice_partial : forall cap ops,
  (length (concat (map offered ops)) <= cap)%nat ->
  let w := wrun (new_writer (SliceStd [] cap)) ops in
  sink_out (wsink w) = concat (map offered ops) /\ wcount w = length (sink_out (wsink w)).
Proof.
  intros cap ops H w. subst w. rewrite (std_slice_run ops (new_writer (SliceStd [] cap)) [] cap); auto.
Qed.
Print Assumptions writer_std_slice_partial.
Example writer_std_slice_ex :
  sink_out (wsink (wrun (new_writer (SliceStd [] 3)) [OU8 7; OInt BE 2 258])) = [7;1;2].
Proof. reflexivity. Qed.

(** C04: an integer written after any history is read back at that offset, whatever follows. *)
Theorem write_then_read_int : forall e k x before after,
  0 <= x < 256 ^ Z.of_nat k ->
  forall o, (o = OInt e k x \/ o = OIntErr e k x) ->
  let out := sink_out (wsink (wrun (new_writer (VecSink [])) (before ++ [o] ++ after))) in
  let pos := wcount (wrun (new_writer (VecSink [])) before) in
  get_err e k {| cdata := out; cpos := pos |} = (Ok x, {| cdata := out; cpos := pos + k |})
  /\ get_zero e k {| cdata := out; cpos := pos |} = (x, {| cdata := out; cpos := pos + k |}).
Proof.
  intros e k x before after Hx o Ho out pos.
  assert (Eo : offered o = to_bytes e k x) by (destruct Ho as [->| ->]; reflexivity).
  assert (Eout : out = concat (map offered before) ++ to_bytes e k x ++ concat (map offered after)).
  { subst out. rewrite (vec_run _ (new_writer (VecSink [])) []) by reflexivity. cbn [wsink sink_out app].
    rewrite map_app, concat_app. cbn [map app concat]. now rewrite Eo. }
  assert (Epos : pos = length (concat (map offered before))).
  { subst pos. now rewrite (vec_run _ (new_writer (VecSink [])) []) by reflexivity. }
  assert (Er : remaining {| cdata := out; cpos := pos |} = to_bytes e k x ++ concat (map offered after)).
  { unfold remaining. cbn [cpos cdata]. rewrite Eout, Epos. rewrite skipn_app, skipn_all, Nat.sub_diag. reflexivity. }
  assert (Ef : firstn k (to_bytes e k x ++ concat (map offered after)) = to_bytes e k x).
  { rewrite firstn_app, to_bytes_length, Nat.sub_diag, firstn_all2 by (rewrite to_bytes_length; lia).
    cbn [firstn]. apply app_nil_r. }
  assert (El : (k <=? length (to_bytes e k x ++ concat (map offered after)))%nat = true).
  { rewrite app_length, to_bytes_length. lia. }
  split.
  - rewrite get_err_spec, Er, El, Ef, of_to_bytes by exact Hx. reflexivity.
  - unfold get_zero. rewrite read_fixed_or_zero_spec, Er, El, Ef.
    rewrite app_length, to_bytes_length. replace (k - (k + _))%nat with O by lia.
    cbn [repeat]. rewrite app_nil_r, of_to_bytes by exact Hx. reflexivity.
Qed.
Print Assumptions write_then_read_int.
Example write_then_read_ex :
  get_err LE 4 {| cdata := sink_out (wsink (wrun (new_writer (VecSink [])) [OU8 1; OInt LE 4 3735928559; OU8 2]));
                  cpos := 1 |} = (Ok 3735928559, {| cdata := [1; 239; 190; 173; 222; 2]; cpos := 5 |}).
Proof. vm_compute. reflexivity. Qed.

(** Skipping forwards and rewinding: the position moves by exactly the bytes asked for, the data stays, a rewind undoes
    a skip, and rewinding past the start is an error. *)
Theorem skip_and_rewind : forall c n, exists c1, skip c n = Ok c1 /\ cdata c1 = cdata c /\ cpos c1 = (cpos c + n)%nat /\
  rewind c1 n = Ok c /\
  (forall m, (m <= cpos c)%nat -> exists c2, rewind c m = Ok c2 /\ cdata c2 = cdata c /\ (cpos c2 + m = cpos c)%nat) /\
  (forall m, (cpos c < m)%nat -> exists e, rewind c m = Err e).
Proof.
  intros c n. exists (at_pos c (cpos c + n)). split; [apply skip_spec|]. split; [reflexivity|]. split; [reflexivity|]. split; [|split].
  - unfold rewind. rewrite seek_cur_back by lia. rewrite Nat.add_sub. now rewrite at_pos_same.
  - intros m Hm. exists (at_pos c (cpos c - m)). split; [|split; [reflexivity|cbn [at_pos cpos]; lia]].
    unfold rewind. rewrite <- (at_pos_same c) at 1. apply seek_cur_back. exact Hm.
  - intros m Hm. exists EOther. unfold rewind, seek_cur. replace (Z.of_nat (cpos c) + - Z.of_nat m <? 0) with true by lia. reflexivity.
Qed.
Print Assumptions skip_and_rewind.
Example skip_and_rewind_case : let c := {| cdata := [1; 2; 3; 4; 5]; cpos := 1 |} in
  (do c1 <- skip c 3 ; do c2 <- rewind c1 2 ; Ok (fst (read_u8 c2))) = Ok 3 /\ rewind c 2 = Err EOther.
Proof. vm_compute. auto. Qed.
