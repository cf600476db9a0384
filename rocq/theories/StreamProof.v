(** Lemmas for the byte-stream properties. *)
From Verif Require Import Base BaseProof StreamModel StreamSpec.

Lemma peek_bytes_spec c n : peek_bytes c n = firstn n (remaining c).
Proof.
  unfold peek_bytes, remaining.
  destruct (Nat.le_gt_cases (cpos c) (length (cdata c))) as [H|H].
  - rewrite (Nat.min_l (cpos c)) by lia.
    destruct (Nat.le_gt_cases (cpos c + n) (length (cdata c))).
    + rewrite Nat.min_l by lia. f_equal. lia.
    + rewrite Nat.min_r by lia.
      rewrite !firstn_all2; auto; rewrite skipn_length; lia.
  - rewrite !Nat.min_r by lia. rewrite Nat.sub_diag. cbn [firstn].
    rewrite (skipn_all2 (n := cpos c)) by lia. now rewrite firstn_nil.
Qed.

Lemma at_pos_same c : at_pos c (cpos c) = c.
Proof. destruct c; reflexivity. Qed.

Lemma seek_cur_back c n k : (k <= n)%nat -> seek_cur (at_pos c n) (- Z.of_nat k) = Ok (at_pos c (n - k)).
Proof.
  intros H. unfold seek_cur, at_pos. cbn [cpos cdata].
  destruct (Z.ltb_spec (Z.of_nat n + - Z.of_nat k) 0); [lia|].
  f_equal. f_equal. lia.
Qed.

Lemma read_exact_loop_step f c buf k :
  (k < length buf)%nat ->
  read_exact_loop (S f) c buf k =
    let b := firstn (length buf - k) (remaining c) in
    if Nat.eqb (length b) 0
    then match seek_cur c (- Z.of_nat k) with
         | Ok c'' => (Err EEof, buf, c'')
         | _ => (Err EOther, buf, c)
         end
    else read_exact_loop f (at_pos c (cpos c + length b)) (splice buf k b) (k + length b).
Proof.
  intros H. cbn [read_exact_loop]. replace (k <? length buf)%nat with true by lia.
  unfold cur_read. rewrite peek_bytes_spec. cbv zeta.
  destruct (firstn (length buf - k) (remaining c)) as [|b0 bs] eqn:E.
  - cbn [length Nat.eqb]. rewrite Nat.add_0_r, at_pos_same. reflexivity.
  - cbn [length Nat.eqb]. reflexivity.
Qed.

Lemma read_exact_loop_done f c buf k :
  (length buf <= k)%nat -> read_exact_loop f c buf k = (Ok tt, buf, c).
Proof.
  intros H. destruct f; cbn [read_exact_loop]; replace (k <? length buf)%nat with false by lia; reflexivity.
Qed.

Lemma splice0_length buf b : (length b <= length buf)%nat -> length (splice buf 0 b) = length buf.
Proof. intros H. unfold splice. cbn [firstn app Nat.add]. rewrite app_length, skipn_length. lia. Qed.

Lemma read_exact_spec c n buf :
  length buf = n ->
  read_exact c buf =
    if (n <=? length (remaining c))%nat
    then (Ok tt, firstn n (remaining c), at_pos c (cpos c + n))
    else (Err EEof, remaining c ++ skipn (length (remaining c)) buf, c).
Proof.
  intros Hlen. unfold read_exact.
  destruct (Nat.eq_dec n 0) as [->|Hn0].
  - destruct buf; [|cbn in Hlen; lia]. cbn. rewrite Nat.add_0_r, at_pos_same. reflexivity.
  - destruct (Nat.leb_spec n (length (remaining c))) as [Hle|Hgt].
    + rewrite read_exact_loop_step by lia. cbv zeta. rewrite Nat.sub_0_r, Hlen.
      assert (El : length (firstn n (remaining c)) = n) by (rewrite firstn_length; lia).
      rewrite El. replace (n =? 0)%nat with false by lia.
      rewrite read_exact_loop_done by (rewrite splice0_length; lia).
      unfold splice. rewrite El. cbn [firstn app Nat.add].
      rewrite skipn_all2 by lia. now rewrite app_nil_r.
    + rewrite read_exact_loop_step by lia. cbv zeta. rewrite Nat.sub_0_r, firstn_all2 by lia.
      destruct (Nat.eqb_spec (length (remaining c)) 0) as [Hz|Hz].
      * destruct (remaining c); [|cbn in Hz; lia]. cbn [length skipn app].
        rewrite <- (at_pos_same c) at 1. rewrite seek_cur_back by lia.
        now rewrite Nat.sub_0_r, at_pos_same.
      * destruct (length buf) as [|m] eqn:Em; [lia|].
        rewrite read_exact_loop_step by (rewrite splice0_length; lia). cbv zeta.
        assert (Erem : remaining (at_pos c (cpos c + length (remaining c))) = []).
        { unfold remaining at 1. unfold at_pos. cbn [cdata cpos]. apply skipn_all2.
          unfold remaining. rewrite skipn_length. lia. }
        rewrite Erem, firstn_nil. cbn [length Nat.eqb Nat.add].
        rewrite seek_cur_back by lia.
        replace (cpos c + length (remaining c) - length (remaining c))%nat with (cpos c) by lia.
        now rewrite at_pos_same.
Qed.

Lemma remaining_at c k : remaining (at_pos c (cpos c + k)) = skipn k (remaining c).
Proof.
  unfold remaining, at_pos. cbn [cdata cpos]. now rewrite skipn_skipn'.
Qed.

Lemma read_fixed_or_error_spec n c :
  read_fixed_or_error n c =
    if (n <=? length (remaining c))%nat
    then (Ok (firstn n (remaining c)), at_pos c (cpos c + n))
    else (Err EEof, c).
Proof.
  unfold read_fixed_or_error. rewrite (read_exact_spec c n) by apply repeat_length.
  destruct (n <=? length (remaining c))%nat; reflexivity.
Qed.

Lemma skipn_repeat {A} (x : A) n k : skipn k (repeat x n) = repeat x (n - k).
Proof.
  revert n; induction k as [|k IH]; intros n; [now rewrite Nat.sub_0_r|].
  destruct n as [|n]; [reflexivity|]. cbn [repeat skipn Nat.sub]. apply IH.
Qed.

Lemma read_fixed_or_zero_spec n c :
  read_fixed_or_zero n c =
    (firstn n (remaining c) ++ repeat 0 (n - length (remaining c)),
     if (n <=? length (remaining c))%nat then at_pos c (cpos c + n) else c).
Proof.
  unfold read_fixed_or_zero. rewrite (read_exact_spec c n) by apply repeat_length.
  destruct (Nat.leb_spec n (length (remaining c))) as [H|H].
  - replace (n - length (remaining c))%nat with O by lia. cbn [repeat]. now rewrite app_nil_r.
  - rewrite skipn_repeat. now rewrite (firstn_all2 (n := n)) by lia.
Qed.

Lemma read_u8_spec c :
  read_u8 c = match remaining c with
              | [] => (0, c)
              | b :: _ => (b, at_pos c (cpos c + 1))
              end.
Proof.
  unfold read_u8, cur_read. rewrite peek_bytes_spec.
  destruct (remaining c) as [|b l]; cbn [firstn length nth].
  - now rewrite Nat.add_0_r, at_pos_same.
  - destruct l; reflexivity.
Qed.

Lemma get_err_spec e k c :
  get_err e k c =
    if (k <=? length (remaining c))%nat
    then (Ok (of_bytes e (firstn k (remaining c))), at_pos c (cpos c + k))
    else (Err EEof, c).
Proof.
  unfold get_err. rewrite read_fixed_or_error_spec. destruct (k <=? length (remaining c))%nat; reflexivity.
Qed.

Lemma of_to_bytes e k x : 0 <= x < 256 ^ Z.of_nat k -> of_bytes e (to_bytes e k x) = x.
Proof. destruct e; [apply be_val_be_bytes|apply le_val_le_bytes]. Qed.

Lemma to_bytes_length e k x : length (to_bytes e k x) = k.
Proof. destruct e; [apply be_bytes_length|apply le_bytes_length]. Qed.

Lemma peek_exact_spec c n :
  peek_exact c n =
    if (n <=? length (remaining c))%nat then (Ok (firstn n (remaining c)), c) else (Err EEof, c).
Proof.
  unfold peek_exact. rewrite (read_exact_spec c n) by apply repeat_length.
  destruct (Nat.leb_spec n (length (remaining c))); [|reflexivity].
  rewrite seek_cur_back by lia. now rewrite Nat.add_sub, at_pos_same.
Qed.

Lemma skip_spec c n : skip c n = Ok (at_pos c (cpos c + n)).
Proof.
  unfold skip, seek_cur. destruct (Z.ltb_spec (Z.of_nat (cpos c) + Z.of_nat n) 0); [lia|].
  f_equal. f_equal. lia.
Qed.

(** Complete behaviour of [peek_at], including where it leaves the position. *)
Lemma peek_at_spec c p n :
  peek_at c p n =
    if (peek_cap <? Z.of_nat n) then (Err EOther, at_pos c (cpos c + p))
    else if (n <=? length (remaining c) - p)%nat && ((p <=? length (remaining c))%nat || (n =? 0)%nat)
    then (Ok (firstn n (skipn p (remaining c))), c)
    else (Err EEof, at_pos c (cpos c + p)).
Proof.
  unfold peek_at. rewrite skip_spec.
  assert (E1 : (if Nat.eqb p 0 then Ok c else Ok (at_pos c (cpos c + p))) = Ok (at_pos c (cpos c + p))).
  { destruct (Nat.eqb_spec p 0) as [->|]; [|reflexivity]. now rewrite Nat.add_0_r, at_pos_same. }
  rewrite E1.
  destruct (Z.ltb_spec peek_cap (Z.of_nat n)); [reflexivity|].
  rewrite peek_exact_spec, remaining_at, skipn_length.
  destruct (Nat.leb_spec n (length (remaining c) - p)) as [H1|H1]; [|reflexivity].
  assert (E2 : (p <=? length (remaining c))%nat || (n =? 0)%nat = true).
  { destruct (Nat.leb_spec p (length (remaining c))); [reflexivity|]. cbn. apply Nat.eqb_eq. lia. }
  rewrite E2. cbn [andb].
  destruct (Nat.eqb_spec p 0) as [->|Hp].
  - now rewrite Nat.add_0_r, at_pos_same.
  - unfold rewind. rewrite seek_cur_back by lia. now rewrite Nat.add_sub, at_pos_same.
Qed.

(** Writers *)
Definition abs_writer (w : writer) : awriter :=
  {| aout := sink_out (wsink w);
     acap := match sink_room (wsink w) with None => None | Some r => Some (length (sink_out (wsink w)) + r)%nat end |}.

Definition no_std_sink (s : sink) : Prop := match s with SliceStd _ _ => False | _ => True end.

Lemma w_all_ok w b : no_std_sink (wsink w) ->
  abs_writer (snd (w_all w b)) = (if afits (abs_writer w) b
     then {| aout := aout (abs_writer w) ++ b; acap := acap (abs_writer w) |} else abs_writer w)
  /\ no_std_sink (wsink (snd (w_all w b)))
  /\ fst (w_all w b) = afits (abs_writer w) b
  /\ wcount (snd (w_all w b)) = (wcount w + if afits (abs_writer w) b then length b else 0)%nat.
Proof.
  destruct w as [[o|o r|o r] cnt]; cbn [wsink no_std_sink]; intros Hs; [|destruct Hs|].
  - cbn. repeat split.
  - unfold w_all, afits, abs_writer. cbn [wsink sink_write_all sink_out sink_room acap aout].
    destruct (Nat.ltb_spec r (length b)) as [H|H].
    + replace (length o + length b <=? length o + r)%nat with false by lia.
      cbn. repeat split; lia.
    + replace (length o + length b <=? length o + r)%nat with true by lia.
      cbn. repeat split. f_equal. f_equal. rewrite app_length. lia.
Qed.

Lemma wstep_abs w o : no_std_sink (wsink w) ->
  abs_writer (snd (wstep w o)) = astep (abs_writer w) o /\ no_std_sink (wsink (snd (wstep w o))) /\
  (wcount (snd (wstep w o)) + length (sink_out (wsink w)) = wcount w + length (sink_out (wsink (snd (wstep w o)))))%nat.
Proof.
  intros H.
  assert (G : forall b (r1 r2 : wret),
     let w' := snd (w_all w b) in
     abs_writer w' = (if afits (abs_writer w) b
        then {| aout := aout (abs_writer w) ++ b; acap := acap (abs_writer w) |} else abs_writer w)
     /\ no_std_sink (wsink w') /\ (wcount w' + length (sink_out (wsink w)) = wcount w + length (sink_out (wsink w')))%nat).
  { intros b _ _ w'. destruct (w_all_ok w b H) as (A & B & _ & D). subst w'. repeat split; auto.
    rewrite D. apply (f_equal (fun a => length (aout a))) in A.
    destruct (afits (abs_writer w) b); cbn [aout abs_writer] in A; rewrite ?app_length in A; lia. }
  destruct o; cbn [wstep astep offered]; cbv zeta;
    try (destruct (G b RErr RErr) as (A & B & D);
         destruct (w_all w b) as [[|] w'] eqn:E; cbn [snd] in *; auto; fail);
    try (destruct (G [b] RErr RErr) as (A & B & D);
         destruct (w_all w [b]) as [[|] w'] eqn:E; cbn [snd] in *; auto; fail);
    try (destruct (G (to_bytes e k x) RErr RErr) as (A & B & D);
         destruct (w_all w (to_bytes e k x)) as [[|] w'] eqn:E; cbn [snd] in *; auto; fail).
  destruct w as [[o|o r|o r] cnt]; cbn in H; [|destruct H|];
    unfold abs_writer, atake; cbn [wsink sink_write sink_out sink_room acap aout snd wcount no_std_sink].
  - rewrite firstn_all, app_length. repeat split; lia.
  - replace (length o + r - length o)%nat with r by lia.
    rewrite app_length, firstn_length. repeat split; try lia.
    f_equal. f_equal. lia.
Qed.

Lemma wrun_abs ops : forall w, no_std_sink (wsink w) ->
  abs_writer (wrun w ops) = arun (abs_writer w) ops /\ no_std_sink (wsink (wrun w ops)) /\
  (wcount (wrun w ops) + length (sink_out (wsink w)) = wcount w + length (sink_out (wsink (wrun w ops))))%nat.
Proof.
  induction ops as [|o ops IH]; intros w H; cbn [wrun arun fold_left]; [auto|].
  destruct (wstep_abs w o H) as (A & B & C).
  destruct (IH (snd (wstep w o)) B) as (A' & B' & C').
  unfold wrun, arun in *. rewrite A', A. repeat split; auto. lia.
Qed.

Lemma astep_cap a o : acap (astep a o) = acap a.
Proof. destruct o; cbn [astep]; try reflexivity; destruct (afits _ _); reflexivity. Qed.

Lemma arun_room c ops : forall a, acap a = Some c -> (length (aout a) <= c)%nat ->
  (length (aout (arun a ops)) <= c)%nat.
Proof.
  induction ops as [|o ops IH]; intros a Ha Hl; cbn [arun fold_left]; [exact Hl|].
  apply IH; [now rewrite astep_cap|].
  assert (G : forall b, (length (aout (if afits a b then {| aout := aout a ++ b; acap := acap a |} else a)) <= c)%nat).
  { intros b. unfold afits. rewrite Ha. destruct (Nat.leb_spec (length (aout a) + length b) c); cbn [aout]; [rewrite app_length|]; lia. }
  destruct o; cbn [astep]; try apply G.
  unfold atake. rewrite Ha. cbn [aout]. rewrite app_length, firstn_length. lia.
Qed.

(** Every byte placed earlier stays in place: the output only grows. *)
Lemma astep_prefix a o : exists suf, aout (astep a o) = aout a ++ suf.
Proof.
  destruct o; cbn [astep]; try (destruct (afits _ _); [eexists; reflexivity | exists []; now rewrite app_nil_r]).
  eexists; reflexivity.
Qed.

(** A std slice behaves like the abstract writer as long as everything offered fits. *)
Definition std_slice (s : sink) : Prop := match s with SliceStd _ _ => True | _ => False end.

Definition offered_total (ops : list wop) : nat := length (concat (map offered ops)).

Lemma std_slice_step w o r out :
  wsink w = SliceStd out r -> (length (offered o) <= r)%nat ->
  exists ret, wstep w o = (ret, {| wsink := SliceStd (out ++ offered o) (r - length (offered o));
                                   wcount := wcount w + length (offered o) |}).
Proof.
  intros Hs Hl.
  assert (G : forall b, (length b <= r)%nat -> w_all w b = (true,
     {| wsink := SliceStd (out ++ b) (r - length b); wcount := wcount w + length b |})).
  { intros b Hb. unfold w_all. rewrite Hs. cbn [sink_write_all].
    rewrite Nat.min_l by lia. rewrite firstn_all.
    replace (length b <=? r)%nat with true by lia. reflexivity. }
  destruct o; cbn [offered] in Hl; cbn [wstep offered]; cbv zeta;
    try (rewrite G by exact Hl; eexists; reflexivity).
  rewrite Hs. cbn [sink_write]. rewrite Nat.min_l by lia. rewrite firstn_all. eexists; reflexivity.
Qed.

Lemma std_slice_run ops : forall w out r,
  wsink w = SliceStd out r -> (offered_total ops <= r)%nat ->
  wrun w ops = {| wsink := SliceStd (out ++ concat (map offered ops)) (r - offered_total ops);
                  wcount := wcount w + offered_total ops |}.
Proof.
  unfold offered_total.
  induction ops as [|o ops IH]; intros w out r Hs Hl; cbn [wrun fold_left map concat] in *.
  - rewrite app_nil_r. cbn [length]. rewrite Nat.sub_0_r, Nat.add_0_r. destruct w; cbn in *; now subst.
  - rewrite app_length in Hl.
    destruct (std_slice_step w o r out Hs) as [ret E]; [lia|]. rewrite E. cbn [snd].
    specialize (IH {| wsink := SliceStd (out ++ offered o) (r - length (offered o));
                      wcount := wcount w + length (offered o) |} (out ++ offered o) (r - length (offered o))%nat eq_refl).
    unfold wrun in IH. rewrite IH by lia. cbn [wcount]. rewrite app_length, <- app_assoc. f_equal; [f_equal; lia|lia].
Qed.

Lemma vec_step w o out : wsink w = VecSink out ->
  exists ret, wstep w o = (ret, {| wsink := VecSink (out ++ offered o); wcount := wcount w + length (offered o) |}).
Proof.
  intros Hs.
  destruct o; cbn [wstep offered]; cbv zeta; unfold w_all; rewrite Hs; cbn [sink_write_all sink_write snd];
    eexists; reflexivity.
Qed.

Lemma vec_run ops : forall w out, wsink w = VecSink out ->
  wrun w ops = {| wsink := VecSink (out ++ concat (map offered ops)); wcount := wcount w + offered_total ops |}.
Proof.
  unfold offered_total.
  induction ops as [|o ops IH]; intros w out Hs; cbn [wrun fold_left map concat] in *.
  - rewrite app_nil_r. cbn [length]. rewrite Nat.add_0_r. destruct w; cbn in *; now subst.
  - destruct (vec_step w o out Hs) as [ret E]. rewrite E. cbn [snd].
    specialize (IH {| wsink := VecSink (out ++ offered o); wcount := wcount w + length (offered o) |} (out ++ offered o) eq_refl).
    unfold wrun in IH. rewrite IH. cbn [wcount]. rewrite app_length, <- app_assoc. f_equal. lia.
Qed.
