(** Reading back the headers of the JPEG XL file. *)
From Verif Require Import Base StreamModel JxlModel JxlSpec JxlProof.

Lemma andthen_some {A B} (p : parser A) (f : A -> parser B) s a s' : p s = Some (a, s') -> andthen p f s = f a s'.
Proof. intros H. unfold andthen. now rewrite H. Qed.

Lemma andthen_assoc {A B C} (p : parser A) (f : A -> parser B) (g : B -> parser C) s :
  andthen (andthen p f) g s = andthen p (fun a => andthen (f a) g) s.
Proof. unfold andthen. destruct (p s) as [[a s']|]; reflexivity. Qed.

Lemma andthen_ret {A B} (a : A) (f : A -> parser B) s : andthen (ret a) f s = f a s.
Proof. reflexivity. Qed.

Lemma expect_ok n v s : 0 <= v < 2 ^ Z.of_nat n -> expect n v (vbits n v ++ s) = Some (tt, s).
Proof. intros H. unfold expect. rewrite (andthen_some _ _ _ v s) by (now apply u_vbits). rewrite Z.eqb_refl. reflexivity. Qed.

Lemma u0 s : u 0 s = Some (0, s).
Proof. reflexivity. Qed.

Lemma u32f_ok i c0 c1 c2 c3 x s : 0 <= i < 4 ->
  let c := if i =? 0 then c0 else if i =? 1 then c1 else if i =? 2 then c2 else c3 in
  0 <= x < 2 ^ Z.of_nat (snd c) ->
  u32f c0 c1 c2 c3 (vbits 2 i ++ vbits (snd c) x ++ s) = Some (fst c + x, s).
Proof.
  intros Hi c Hx. unfold u32f. rewrite (andthen_some _ _ _ i (vbits (snd c) x ++ s)) by (apply u_vbits; exact Hi).
  fold c. cbv zeta. rewrite (andthen_some _ _ _ x s) by (now apply u_vbits). reflexivity.
Qed.

(** Bits of calls that only put *)
Definition pb1 (o : op) : list bool := match o with Put n v => vbits n v | Pad => [] end.
Definition pb (ops : list op) : list bool := flat_map pb1 ops.
Definition is_put (o : op) : Prop := match o with Put _ _ => True | Pad => False end.

Lemma fold_puts ops : forall acc, Forall is_put ops -> fold_left op_bits ops acc = acc ++ pb ops.
Proof.
  induction ops as [|o ops IH]; intros acc H; [cbn; now rewrite app_nil_r|]. inversion H as [|? ? H1 H2]; subst.
  cbn [fold_left pb flat_map]. rewrite IH by exact H2. destruct o; [|destruct H1]. cbn [op_bits pb1]. now rewrite <- app_assoc.
Qed.

Lemma pb_app a b : pb (a ++ b) = pb a ++ pb b.
Proof. apply flat_map_app. Qed.

Lemma fold_len ops : forall acc, (length (fold_left op_bits ops acc) <= length acc + total_len ops)%nat.
Proof.
  induction ops as [|o ops IH]; intros acc; [cbn; lia|]. cbn [fold_left]. unfold total_len. cbn [map fold_right]. fold (total_len ops).
  pose proof (IH (op_bits acc o)) as H1. pose proof (op_bits_length acc o) as H2. clear - H1 H2. lia.
Qed.

Lemma align_ok k s : (k < 8)%nat -> (length s mod 8 = 0)%nat -> align (repeat false k ++ s) = Some (tt, s).
Proof.
  intros Hk Hs. unfold align. rewrite app_length, repeat_length.
  replace ((k + length s) mod 8)%nat with k by (revert Hs; generalize (length s); clear - Hk; intros; lia).
  rewrite firstn_app, skipn_app, repeat_length, Nat.sub_diag. cbn [firstn skipn].
  rewrite firstn_all2, skipn_all2 by (rewrite repeat_length; lia). rewrite app_nil_r.
  replace (forallb negb (repeat false k)) with true; [reflexivity|]. clear. induction k; [reflexivity|exact IHk].
Qed.

Lemma pad8_zeros l : exists k, (k < 8)%nat /\ pad8 l = l ++ repeat false k.
Proof. eexists; split; [|reflexivity]. generalize (length l). clear. intros. lia. Qed.

(** One side *)
Definition side_ops (size : Z) : list op :=
  let s := size - 1 in
  if s <? 2 ^ 9 then [Put 2 0; Put 9 s] else if s <? 2 ^ 13 then [Put 2 1; Put 13 s]
  else if s <? 2 ^ 18 then [Put 2 2; Put 18 s] else [Put 2 3; Put 30 s].

Lemma side_ok size s : 1 < size < 2 ^ 30 -> p_side (pb (side_ops size) ++ s) = Some (size, s).
Proof.
  intros H. assert (R : forall i n, 0 <= i < 4 -> (if i =? 0 then (1, 9%nat) else if i =? 1 then (1, 13%nat) else if i =? 2 then (1, 18%nat) else (1, 30%nat)) = (1, n) ->
     0 <= size - 1 < 2 ^ Z.of_nat n -> p_side (pb [Put 2 i; Put n (size - 1)] ++ s) = Some (size, s)).
  { intros i n Hi Hn Hs. cbn [pb flat_map pb1]. rewrite app_nil_r, <- app_assoc. unfold p_side.
    pose proof (u32f_ok i (1, 9%nat) (1, 13%nat) (1, 18%nat) (1, 30%nat) (size - 1) s Hi) as X. cbv zeta in X. rewrite Hn in X.
    cbn [fst snd] in X. rewrite X by exact Hs. do 2 f_equal. lia. }
  unfold side_ops. cbv zeta.
  destruct (size - 1 <? 2 ^ 9) eqn:E1; [apply (R 0 9%nat); [lia|reflexivity|clear - H E1; lia]|].
  destruct (size - 1 <? 2 ^ 13) eqn:E2; [apply (R 1 13%nat); [lia|reflexivity|clear - H E2; lia]|].
  destruct (size - 1 <? 2 ^ 18) eqn:E3; [apply (R 2 18%nat); [lia|reflexivity|clear - H E3; lia]|].
  apply (R 3 30%nat); [lia|reflexivity|clear - H; lia].
Qed.

Lemma size_ops_ok size r : 1 < size < 2 ^ 30 -> size_ops size r = Ok (side_ops size ++ (if r then [Put 3 0] else [])).
Proof. intros H. unfold size_ops. replace ((1 <? size) && (size <? 2 ^ 30)) with true by lia. reflexivity. Qed.

Lemma size_header_ok w h s : 1 < w < 2 ^ 30 -> 1 < h < 2 ^ 30 ->
  p_size (vbits 1 0 ++ pb (side_ops h) ++ vbits 3 0 ++ pb (side_ops w) ++ s) = Some ((w, h), s).
Proof.
  intros Hw Hh. unfold p_size. rewrite (andthen_some _ _ _ tt _ (expect_ok 1 0 _ ltac:(cbn; lia))).
  rewrite (andthen_some _ _ _ h _ (side_ok h _ Hh)).
  rewrite (andthen_some _ _ _ tt _ (expect_ok 3 0 _ ltac:(cbn; lia))).
  rewrite (andthen_some _ _ _ w _ (side_ok w _ Hw)). reflexivity.
Qed.

(** The parts of the header without the final padding *)
Definition meta_puts (depth : Z) (nc : nat) : list op := removelast (meta_ops depth nc).
Definition frame_puts (nc : nat) : list op := removelast (frame_ops nc).

Ltac st :=
  match goal with
  | |- andthen (expect ?n ?v) ?f (vbits ?n ?v ++ ?s) = _ =>
      rewrite (andthen_some (expect n v) f _ tt s (expect_ok n v s ltac:(cbn; lia)))
  | |- andthen (u ?n) ?f (vbits ?n ?v ++ ?s) = _ =>
      rewrite (andthen_some (u n) f _ v s (u_vbits n v s ltac:(cbn; lia)))
  end.

Lemma meta_ok depth nc k s : (depth = 8 \/ depth = 16) -> (1 <= nc <= 4)%nat -> (k < 8)%nat -> (length s mod 8 = 0)%nat ->
  p_meta (pb (meta_puts depth nc) ++ repeat false k ++ s) =
    Some ((depth, if has_alpha nc then Some 8 else None, (nc <=? 2)%nat), s).
Proof.
  intros Hd Hn Hk Hs. pose proof (align_ok k s Hk Hs) as HA. revert HA. generalize (repeat false k ++ s). intros t HA.
  assert (Hn' : (nc = 1 \/ nc = 2 \/ nc = 3 \/ nc = 4)%nat) by lia. unfold p_meta.
  assert (Z2 : forall i c0 c1 c2 c3 t, 0 <= i < 4 ->
     snd (if i =? 0 then c0 else if i =? 1 then c1 else if i =? 2 then c2 else c3) = 0%nat ->
     u32f c0 c1 c2 c3 (vbits 2 i ++ t) = Some (fst (if i =? 0 then c0 else if i =? 1 then c1 else if i =? 2 then c2 else c3) + 0, t)).
  { clear. intros i c0 c1 c2 c3 t Hi Hc. rewrite <- (u32f_ok i c0 c1 c2 c3 0 t Hi); rewrite Hc; [reflexivity|cbn; lia]. }
  destruct Hd as [-> | ->]; destruct Hn' as [-> | [-> | [-> | ->]]];
    cbn -[vbits u32f expect u align p_enum Z.add]; rewrite <- ?app_assoc; cbn [app];
    repeat first
      [ st
      | match goal with
        | |- andthen (u32f (8, 0%nat) _ _ _) _ (vbits 2 0 ++ ?x) = _ => erewrite andthen_some by (apply (Z2 0); [lia|reflexivity])
        | |- andthen (u32f (8, 0%nat) (10, 0%nat) (12, 0%nat) (1, 6%nat)) _ (vbits 2 3 ++ vbits 6 15 ++ ?x) = _ =>
            erewrite andthen_some by (apply (u32f_ok 3 (8, 0%nat) (10, 0%nat) (12, 0%nat) (1, 6%nat) 15 x ltac:(lia)); cbn; lia)
        | |- andthen (u32f (0, 0%nat) _ _ _) _ (vbits 2 ?i ++ ?x) = _ => erewrite andthen_some by (apply (Z2 i); [lia|reflexivity])
        | |- andthen p_enum _ (vbits 2 1 ++ ?x) = _ => erewrite andthen_some by (apply (Z2 1); [lia|reflexivity])
        | |- andthen p_enum _ (vbits 2 2 ++ vbits 4 11 ++ ?x) = _ =>
            erewrite andthen_some by (apply (u32f_ok 2 (0, 0%nat) (1, 0%nat) (2, 4%nat) (18, 6%nat) 11 x ltac:(lia)); cbn; lia)
        | |- andthen align _ t = _ => rewrite (andthen_some _ _ _ _ _ HA)
        | |- andthen (andthen _ _) _ _ = _ => rewrite andthen_assoc
        | |- andthen (ret _) _ _ = _ => rewrite andthen_ret
        end
      | progress cbn -[vbits u32f expect u align p_enum andthen] ].
  all: reflexivity.
Qed.

Lemma frame_ok nc k s : (1 <= nc <= 4)%nat -> (k < 8)%nat -> (length s mod 8 = 0)%nat ->
  p_frame (has_alpha nc) (pb (frame_puts nc) ++ repeat false k ++ s) = Some (tt, s).
Proof.
  intros Hn Hk Hs. pose proof (align_ok k s Hk Hs) as HA. revert HA. generalize (repeat false k ++ s). intros t HA.
  assert (Hn' : (nc = 1 \/ nc = 2 \/ nc = 3 \/ nc = 4)%nat) by lia. unfold p_frame.
  destruct Hn' as [-> | [-> | [-> | ->]]];
    cbn -[vbits expect u align andthen]; rewrite <- ?app_assoc; cbn [app];
    repeat first [ st | match goal with |- andthen (ret _) _ _ = _ => rewrite andthen_ret end ]; exact HA.
Qed.

(** The table of contents *)
Lemma toc_entry_ok size s : 0 <= size < 2 ^ 30 + 4211712 ->
  u32f (0, 10%nat) (1024, 14%nat) (17408, 22%nat) (4211712, 30%nat) (pb (toc_ops size) ++ s) = Some (size, s).
Proof.
  intros H. assert (R : forall i o n, 0 <= i < 4 ->
     (if i =? 0 then (0, 10%nat) else if i =? 1 then (1024, 14%nat) else if i =? 2 then (17408, 22%nat) else (4211712, 30%nat)) = (o, n) ->
     0 <= size - o < 2 ^ Z.of_nat n ->
     u32f (0, 10%nat) (1024, 14%nat) (17408, 22%nat) (4211712, 30%nat) (pb [Put 2 i; Put n (size - o)] ++ s) = Some (size, s)).
  { intros i o n Hi Hn Hs. cbn [pb flat_map pb1]. rewrite app_nil_r, <- app_assoc.
    pose proof (u32f_ok i (0, 10%nat) (1024, 14%nat) (17408, 22%nat) (4211712, 30%nat) (size - o) s Hi) as X. cbv zeta in X. rewrite Hn in X.
    cbn [fst snd] in X. rewrite X by exact Hs. do 2 f_equal. lia. }
  unfold toc_ops.
  destruct (size <? 2 ^ 10) eqn:E1.
  { replace size with (size - 0) at 1 by lia. apply (R 0 0 10%nat); [lia|reflexivity|clear - H E1; lia]. }
  destruct (size - 1024 <? 2 ^ 14) eqn:E2; [apply (R 1 1024 14%nat); [lia|reflexivity|clear - H E1 E2; lia]|].
  destruct (size - 17408 <? 2 ^ 22) eqn:E3; [apply (R 2 17408 22%nat); [lia|reflexivity|clear - H E2 E3; lia]|].
  apply (R 3 4211712 30%nat); [lia|reflexivity|clear - H E3; lia].
Qed.

Lemma toc_ok sizes k s : Forall (fun x => 0 <= x < 2 ^ 30 + 4211712) sizes -> (k < 8)%nat -> (length s mod 8 = 0)%nat ->
  p_toc (length sizes) (pb (flat_map toc_ops sizes) ++ repeat false k ++ s) = Some (sizes, s).
Proof.
  intros HF Hk Hs. induction HF as [|x l Hx HF IH].
  - cbn [length p_toc flat_map pb app]. rewrite (andthen_some _ _ _ _ _ (align_ok k s Hk Hs)). reflexivity.
  - cbn [length p_toc flat_map]. rewrite pb_app, <- app_assoc. rewrite (andthen_some _ _ _ _ _ (toc_entry_ok x _ Hx)).
    rewrite (andthen_some _ _ _ _ _ IH). reflexivity.
Qed.

Lemma sections_ok secs : forall sizes, Forall2 (fun n s => 0 <= n /\ (8 * Z.to_nat n = length s)%nat) sizes secs ->
  p_sections sizes (concat secs) = Some (secs, []).
Proof.
  induction secs as [|x secs IH]; intros sizes H; inversion H as [|n ? sizes' ? (Hn & Hx) HF]; subst; [reflexivity|].
  cbn [p_sections concat]. rewrite Hx, app_length. replace (length x <=? length x + length (concat secs))%nat with true by lia.
  rewrite skipn_app, firstn_app, Nat.sub_diag. cbn [firstn skipn]. rewrite firstn_all, skipn_all. cbn [app]. rewrite app_nil_r.
  rewrite (andthen_some _ _ _ _ _ (IH _ HF)). reflexivity.
Qed.

(** The number of sections *)
Lemma ceil_256 x : ceil_div x 256 = (x + 255) / 256.
Proof. unfold ceil_div. lia. Qed.
Lemma ceil_2048 x : ceil_div x 2048 = (x + 2047) / 2048.
Proof. unfold ceil_div. lia. Qed.

Lemma sections_count w h : 1 < w -> 1 < h -> sections_of w h = num_sections w h.
Proof.
  intros Hw Hh. unfold sections_of, num_sections. rewrite !ceil_256, !ceil_2048.
  assert (H1 : 1 <= (w + 255) / 256) by lia. assert (H2 : 1 <= (h + 255) / 256) by lia. cbv zeta. revert H1 H2.
  generalize ((w + 255) / 256) ((h + 255) / 256) ((w + 2047) / 2048 * ((h + 2047) / 2048)). clear. intros a b c Ha Hb.
  destruct (a * b =? 1) eqn:E.
  - assert (a = 1 /\ b = 1) as (-> & ->) by nia. reflexivity.
  - replace ((a =? 1) && (b =? 1)) with false; [lia|]. destruct (a =? 1) eqn:Ea; destruct (b =? 1) eqn:Eb; try reflexivity.
    replace a with 1 in E by lia. replace b with 1 in E by lia. discriminate.
Qed.

(** * The header *)
Definition head_puts (w h depth : Z) (nc : nat) : list op :=
  [Put 16 0x0AFF; Put 1 0] ++ (side_ops h ++ [Put 3 0]) ++ side_ops w ++ meta_puts depth nc.

Lemma meta_shape depth nc : (depth = 8 \/ depth = 16) -> (1 <= nc <= 4)%nat ->
  meta_ops depth nc = meta_puts depth nc ++ [Pad] /\ Forall is_put (meta_puts depth nc) /\
  Forall op_small (meta_puts depth nc) /\ (total_len (meta_puts depth nc) <= 60)%nat.
Proof.
  intros Hd Hn. assert (Hn' : (nc = 1 \/ nc = 2 \/ nc = 3 \/ nc = 4)%nat) by lia.
  destruct Hd as [-> | ->]; destruct Hn' as [-> | [-> | [-> | ->]]];
    (split; [reflexivity|split; [repeat constructor|split; [repeat constructor; cbn [op_small]; lia|vm_compute; lia]]]).
Qed.

Lemma frame_shape nc : (1 <= nc <= 4)%nat ->
  frame_ops nc = frame_puts nc ++ [Pad] /\ Forall is_put (frame_puts nc) /\
  Forall op_small (frame_puts nc) /\ (total_len (frame_puts nc) <= 60)%nat.
Proof.
  intros Hn. assert (Hn' : (nc = 1 \/ nc = 2 \/ nc = 3 \/ nc = 4)%nat) by lia.
  destruct Hn' as [-> | [-> | [-> | ->]]];
    (split; [reflexivity|split; [repeat constructor|split; [repeat constructor; cbn [op_small]; lia|vm_compute; lia]]]).
Qed.

Lemma side_shape s : Forall is_put (side_ops s) /\ Forall op_small (side_ops s) /\ (total_len (side_ops s) <= 32)%nat.
Proof.
  unfold side_ops. cbv zeta. destruct (s - 1 <? 2 ^ 9); [|destruct (s - 1 <? 2 ^ 13); [|destruct (s - 1 <? 2 ^ 18)]];
    (split; [repeat constructor|split; [repeat constructor; cbn [op_small]; lia|vm_compute; lia]]).
Qed.
Lemma toc_shape s : Forall is_put (toc_ops s) /\ Forall op_small (toc_ops s) /\ (total_len (toc_ops s) <= 32)%nat.
Proof.
  unfold toc_ops. destruct (s <? 2 ^ 10); [|destruct (s - 1024 <? 2 ^ 14); [|destruct (s - 17408 <? 2 ^ 22)]];
    (split; [repeat constructor|split; [repeat constructor; cbn [op_small]; lia|vm_compute; lia]]).
Qed.

Lemma tocs_shape sizes : Forall is_put (flat_map toc_ops sizes) /\ Forall op_small (flat_map toc_ops sizes) /\
  (total_len (flat_map toc_ops sizes) <= 32 * length sizes)%nat.
Proof.
  induction sizes as [|x l (IH1 & IH2 & IH3)]; [repeat split; constructor|]. destruct (toc_shape x) as (A & B & C). cbn [flat_map length].
  split; [apply Forall_app; auto|]. split; [apply Forall_app; auto|].
  unfold total_len in *. rewrite map_app, fold_right_app. revert C IH3. generalize (map op_len (toc_ops x)) (fold_right Nat.add 0%nat (map op_len (flat_map toc_ops l))).
  clear. intros m n. revert n. assert (X : forall n, fold_right Nat.add n m = (fold_right Nat.add 0 m + n)%nat) by (intros n; induction m; cbn; lia).
  intros n H1 H2. rewrite X. lia.
Qed.

Lemma total_len_app a b : total_len (a ++ b) = (total_len a + total_len b)%nat.
Proof. unfold total_len. rewrite map_app, fold_right_app. generalize (map op_len a) (fold_right Nat.add 0%nat (map op_len b)). clear.
  intros l n. induction l; cbn; lia. Qed.

Lemma bw_new_ok cap : exists w, allocate bw_new cap = Ok w /\ okw w /\ content w = [] /\ length (dest w) = (cap / 8 + 64)%nat.
Proof.
  eexists; split; [reflexivity|]. split; [|split; [reflexivity|cbn [dest]; apply repeat_length]].
  split; [cbn; lia|]. split; [intros i _; apply Z.testbit_0_l|]. split; [apply Nat.le_0_l|]. cbn [dest]. generalize (cap / 8 + 64)%nat.
  intros n. induction n; constructor; [unfold is_byte; lia|assumption].
Qed.

Lemma okc_of_room w : okw w -> (length (content w) + 64 <= 8 * length (dest w))%nat -> okc w.
Proof. intros H L. split; [exact H|]. right. rewrite (content_length _ H) in L. unfold wbits in L. clear - L. lia. Qed.

Lemma prepare_header_ok w h depth nc gs : 1 < w < 2 ^ 30 -> 1 < h < 2 ^ 30 -> (depth = 8 \/ depth = 16) -> (1 <= nc <= 4)%nat ->
  exists hd, prepare_header w h depth nc gs = Ok hd /\ okc hd /\
    content hd = pad8 (pb (head_puts w h depth nc)) ++ pad8 (pb (frame_puts nc)) ++
                 pad8 (pb (flat_map toc_ops (map (fun g => Z.of_nat (group_size nc g)) gs))).
Proof.
  intros Hw Hh Hd Hn. unfold prepare_header.
  destruct (bw_new_ok (1000 + length gs * 32)) as (w0 & E1 & E2 & E3 & E4). rewrite E1. cbn [bind].
  rewrite (size_ops_ok h true Hh), (size_ops_ok w false Hw). cbn [bind]. rewrite app_nil_r.
  destruct (meta_shape depth nc Hd Hn) as (M1 & M2 & M3 & M4). destruct (frame_shape nc Hn) as (F1 & F2 & F3 & F4).
  destruct (side_shape h) as (H1 & H2 & H3). destruct (side_shape w) as (W1 & W2 & W3).
  set (sizes := map (fun g => Z.of_nat (group_size nc g)) gs).
  destruct (tocs_shape sizes) as (T1 & T2 & T3). assert (HL : length sizes = length gs) by apply map_length.
  assert (HT : flat_map (fun g => toc_ops (Z.of_nat (group_size nc g))) gs = flat_map toc_ops sizes).
  { unfold sizes. clear. induction gs as [|g l IH]; [reflexivity|]. cbn [flat_map map]. now rewrite IH. }
  rewrite HT, M1, F1.
  set (ops := [Put 16 0x0AFF; Put 1 0] ++ (side_ops h ++ [Put 3 0]) ++ side_ops w ++ (meta_puts depth nc ++ [Pad]) ++
              (frame_puts nc ++ [Pad]) ++ flat_map toc_ops sizes ++ [Pad]).
  assert (HO : ops = head_puts w h depth nc ++ [Pad] ++ frame_puts nc ++ [Pad] ++ flat_map toc_ops sizes ++ [Pad]).
  { unfold ops, head_puts. now rewrite <- !app_assoc. }
  assert (HP : Forall is_put (head_puts w h depth nc)).
  { unfold head_puts. apply Forall_app; split; [repeat constructor|]. apply Forall_app; split; [apply Forall_app; split; [exact H1|repeat constructor]|].
    apply Forall_app; auto. }
  assert (HS : Forall op_small ops).
  { rewrite HO. unfold head_puts. repeat (apply Forall_app; split); try assumption; repeat constructor; cbn [op_small]; lia. }
  assert (HN : (total_len ops <= 1000 + length gs * 32)%nat).
  { rewrite HO. unfold head_puts. rewrite !total_len_app. rewrite HL in T3. cbn [total_len map fold_right op_len].
    revert H3 W3 M4 F4 T3. generalize (total_len (side_ops h)) (total_len (side_ops w)) (total_len (meta_puts depth nc))
      (total_len (frame_puts nc)) (total_len (flat_map toc_ops sizes)) (length gs). clear. intros. lia. }
  assert (HR : room w0 (total_len ops)).
  { unfold room. rewrite E3, E4. revert HN. generalize (total_len ops) (length gs). clear. intros. cbn [length]. lia. }
  destruct (bw_run_ok ops w0 E2 HS HR) as (hd & R1 & R2 & R3 & R4). exists hd. split; [exact R1|].
  split.
  - apply okc_of_room; [exact R2|]. rewrite R3, R4, E3, E4. pose proof (fold_len ops []) as FL. revert FL HN.
    generalize (length (fold_left op_bits ops [])) (total_len ops) (length gs). clear. cbn [length]. intros. lia.
  - rewrite R3, E3, HO. rewrite !fold_left_app. cbn [fold_left op_bits]. rewrite (fold_puts _ [] HP). cbn [app].
    rewrite (fold_puts _ _ F2), (pad8_app _ _ (pad8_mod _)), (fold_puts _ _ T1).
    rewrite pad8_app, <- app_assoc; [reflexivity|]. rewrite app_length.
    pose proof (pad8_mod (pb (head_puts w h depth nc))) as P1. pose proof (pad8_mod (pb (frame_puts nc))) as P2. revert P1 P2.
    generalize (length (pad8 (pb (head_puts w h depth nc)))) (length (pad8 (pb (frame_puts nc)))). clear. intros. lia.
Qed.

Lemma secs_mod nc gs : (length (concat (map (section_bits nc) gs)) mod 8 = 0)%nat.
Proof.
  induction gs as [|g gs IH]; [reflexivity|]. cbn [map concat]. rewrite app_length. pose proof (pad8_mod (concat (map content (firstn nc g)))) as P.
  fold (section_bits nc g) in P. revert IH P. generalize (length (section_bits nc g)) (length (concat (map (section_bits nc) gs))). clear. intros. lia.
Qed.

Lemma mod8_app a b : (length (a : list bool) mod 8 = 0)%nat -> (length b mod 8 = 0)%nat -> (length (a ++ b) mod 8 = 0)%nat.
Proof. rewrite app_length. generalize (length a) (length b). clear. intros. lia. Qed.

(** Everything together, for writers in a good state *)
Lemma jxl_reads_back w h depth nc gs : 1 < w < 2 ^ 30 -> 1 < h < 2 ^ 30 -> (depth = 8 \/ depth = 16) -> (1 <= nc <= 4)%nat ->
  Z.of_nat (length gs) = num_sections w h -> Forall (fun g => (nc <= length g)%nat /\ Forall okc g) gs ->
  Forall (fun g => Z.of_nat (group_size nc g) < 2 ^ 30 + 4211712) gs ->
  exists file, jxl_encode w h depth nc gs = Ok file /\ bytes file /\
    read_jxl file = Some ({| iwidth := w; iheight := h; ibits := depth; ialpha_bits := if has_alpha nc then Some 8 else None;
                             igrey := (nc <=? 2)%nat |}, map (section_bits nc) gs).
Proof.
  intros Hw Hh Hd Hn HC HG HZ. unfold jxl_encode. replace (w <=? 1) with false by lia. replace (h <=? 1) with false by lia.
  replace (negb ((depth =? 8) || (depth =? 16))) with false by (destruct Hd as [-> | ->]; reflexivity).
  destruct (prepare_header_ok w h depth nc gs Hw Hh Hd Hn) as (hd & P1 & P2 & P3). rewrite P1. cbn [bind].
  destruct (write_output_ok nc hd gs P2 ltac:(lia) HG) as (file & F1 & F2 & F3). exists file. split; [exact F1|]. split; [exact F2|].
  set (sizes := map (fun g => Z.of_nat (group_size nc g)) gs) in *.
  set (S := concat (map (section_bits nc) gs)) in *.
  assert (HS : (length S mod 8 = 0)%nat) by apply secs_mod.
  assert (HPc : (length (content hd) mod 8 = 0)%nat) by (rewrite P3; apply mod8_app; [apply pad8_mod|]; apply mod8_app; apply pad8_mod).
  rewrite (pad8_nil _ HPc), P3, <- !app_assoc in F3.
  set (C := pad8 (pb (flat_map toc_ops sizes)) ++ S) in *.
  assert (HCm : (length C mod 8 = 0)%nat) by (apply mod8_app; [apply pad8_mod|exact HS]).
  set (B := pad8 (pb (frame_puts nc)) ++ C) in *.
  assert (HBm : (length B mod 8 = 0)%nat) by (apply mod8_app; [apply pad8_mod|exact HCm]).
  destruct (pad8_zeros (pb (head_puts w h depth nc))) as (k1 & K1 & Q1).
  destruct (pad8_zeros (pb (frame_puts nc))) as (k2 & K2 & Q2).
  destruct (pad8_zeros (pb (flat_map toc_ops sizes))) as (k3 & K3 & Q3).
  rewrite Q1 in F3. unfold head_puts in F3. rewrite !pb_app in F3. rewrite <- !app_assoc in F3.
  change (pb [Put 16 2815; Put 1 0]) with (vbits 8 255 ++ vbits 8 10 ++ vbits 1 0) in F3.
  change (pb [Put 3 0]) with (vbits 3 0 ++ []) in F3. rewrite app_nil_r in F3. rewrite <- !app_assoc in F3.
  unfold read_jxl. rewrite F3.
  rewrite (andthen_some _ _ _ _ _ (expect_ok 8 255 _ ltac:(cbn; lia))), (andthen_some _ _ _ _ _ (expect_ok 8 10 _ ltac:(cbn; lia))).
  rewrite (andthen_some _ _ _ _ _ (size_header_ok w h _ Hw Hh)).
  rewrite (andthen_some _ _ _ _ _ (meta_ok depth nc k1 B Hd Hn K1 HBm)).
  replace (match (if has_alpha nc then Some 8 else None) with Some _ => true | None => false end) with (has_alpha nc)
    by (destruct (has_alpha nc); reflexivity).
  unfold B. rewrite Q2, <- app_assoc. rewrite (andthen_some _ _ _ _ _ (frame_ok nc k2 C Hn K2 HCm)). cbn [fst snd].
  rewrite (sections_count w h) by lia.
  replace (Z.to_nat (num_sections w h)) with (length sizes) by (unfold sizes; rewrite map_length, <- HC; symmetry; apply Nat2Z.id).
  assert (HZ' : Forall (fun x => 0 <= x < 2 ^ 30 + 4211712) sizes).
  { unfold sizes. apply Forall_map. eapply Forall_impl; [|exact HZ]. cbv beta. intros g Hg. split; [apply Nat2Z.is_nonneg|exact Hg]. }
  unfold C. rewrite Q3, <- app_assoc. rewrite (andthen_some _ _ _ _ _ (toc_ok sizes k3 S HZ' K3 HS)).
  assert (HX : p_sections sizes S = Some (map (section_bits nc) gs, [])).
  { apply sections_ok. unfold sizes. clear - HG. induction HG as [|g gs (G1 & G2) HG IH]; [constructor|]. cbn [map]. constructor; [|exact IH].
    split; [apply Nat2Z.is_nonneg|]. rewrite Nat2Z.id. now apply group_size_bits. }
  rewrite (andthen_some _ _ _ _ _ HX). reflexivity.
Qed.
