(** Builds with and without overflow checks: whatever the input, the build with checks either stops with a panic
    or gives exactly the result of the build without. *)
From Verif Require Import Base BaseProof Loops Slices Bits BitReaderModel InflateModel HuffModel.

Definition left_ok (r : reader) : Prop := 0 <= r_left r <= 255.

Definition agree {A} (P : A -> Prop) (a b : res A) : Prop :=
  match a with
  | Panic => True
  | Ok x => b = Ok x /\ P x
  | _ => b = a
  end.

Lemma agree_bind {A B} (P : A -> Prop) (Q : B -> Prop) (a b : res A) (f g : A -> res B) :
  agree P a b -> (forall x, P x -> agree Q (f x) (g x)) -> agree Q (bind a f) (bind b g).
Proof.
  destruct a as [x|e| |]; cbn [agree bind]; intros H Hf; try exact I.
  - destruct H as (-> & Hx). cbn [bind]. apply Hf, Hx.
  - subst b. reflexivity.
  - subst b. reflexivity.
Qed.
Lemma agree_same {A} (a : res A) : agree (fun _ => True) a a.
Proof. destruct a; cbn; auto. Qed.
Lemma agree_ok {A} (P : A -> Prop) x : P x -> agree P (Ok x) (Ok x).
Proof. cbn; auto. Qed.
Lemma agree_err {A} (P : A -> Prop) e : agree P (Err e) (Err e).
Proof. reflexivity. Qed.
Lemma agree_fuel {A} (P : A -> Prop) : agree P Fuel Fuel.
Proof. reflexivity. Qed.

(** ** The reader *)

Lemma lor_left r : left_ok r -> 0 <= Z.lor (r_left r) 56 <= 255.
Proof.
  unfold left_ok. intros H. split; [apply Z.lor_nonneg; lia|].
  enough (Z.lor (r_left r) 56 < 2 ^ 8) by lia. apply lor_bound; lia.
Qed.
Lemma left_inner r : left_ok r -> left_ok (refill_inner_loop r).
Proof. intros H. unfold refill_inner_loop. destruct (get8 r); [|exact H]. unfold left_ok, refill_fast. cbn [r_left]. apply lor_left, H. Qed.
Lemma left_bytes : forall bs r, left_ok r -> left_ok (refill_bytes bs r).
Proof.
  induction bs as [|b bs IH]; cbn [refill_bytes]; intros r H; [exact H|].
  destruct (Z.leb_spec 56 (r_left r)); [exact H|]. apply IH. unfold left_ok in *. cbn [r_left]. lia.
Qed.
Lemma left_zeros : forall f r, left_ok r -> agree left_ok (refill_zeros f r) (refill_zeros f r).
Proof.
  induction f as [|f IH]; cbn [refill_zeros]; intros r H; destruct (Z.ltb_spec (r_left r) 56); try exact (agree_ok _ _ H); [reflexivity|].
  apply IH. unfold left_ok in *. cbn [r_left]. lia.
Qed.
Lemma left_refill r : left_ok r -> agree left_ok (refill r) (refill r).
Proof.
  intros H. unfold refill. destruct (get8 r); [apply agree_ok, lor_left, H|]. unfold refill_slow.
  destruct (length (r_src r) <? r_pos r)%nat; [exact I|]. apply left_zeros, left_bytes, H.
Qed.
Lemma left_drop k r : 0 <= k -> left_ok r -> agree left_ok (drop_bits k r) (drop_bits k r).
Proof.
  intros Hk H. unfold drop_bits. destruct (Z.ltb_spec (r_left r) k); [exact I|]. apply agree_ok. unfold left_ok in *. cbn [r_left]. lia.
Qed.
Lemma left_get k r : 0 <= k -> left_ok r -> agree (fun x => left_ok (snd x)) (get_bits k r) (get_bits k r).
Proof.
  intros Hk H. unfold get_bits. destruct (Z.ltb_spec (r_left r) k); [exact I|]. apply agree_ok. unfold left_ok in *. cbn [r_left snd]. lia.
Qed.
Lemma agree_drop k r : 0 <= k -> left_ok r -> agree left_ok (drop_any true k r) (drop_any false k r).
Proof.
  intros Hk H. unfold drop_any, drop_bits. destruct (Z.ltb_spec (r_left r) k); [exact I|]. unfold left_ok in *.
  replace (u8 (r_left r - k)) with (r_left r - k) by (unfold u8; rewrite Z.mod_small; lia). apply agree_ok. cbn [r_left]. lia.
Qed.
Lemma agree_peek k r : agree (fun _ => True) (peek_any true k r) (peek_any false k r).
Proof. unfold peek_any, peek_bits. destruct (r_left r <? k); [exact I|]. apply agree_ok. exact I. Qed.
Lemma u8_nonneg x : 0 <= u8 x.
Proof. unfold u8. apply Z.mod_pos_bound. lia. Qed.

Ltac agree_step :=
  match goal with
  | |- agree _ Panic _ => exact I
  | |- agree _ (Ok _) (Ok _) => apply agree_ok
  | |- agree _ (Err _) (Err _) => reflexivity
  | |- agree _ Fuel Fuel => reflexivity
  | |- agree _ (bind (drop_any true _ _) _) _ => eapply agree_bind; [apply agree_drop; [first [apply u8_nonneg|lia]|eassumption]|intros ? ?]
  | |- agree _ (bind (peek_any true _ _) _) _ => eapply agree_bind; [apply agree_peek|intros ? _]
  | |- agree _ (bind (refill _) _) _ => eapply agree_bind; [apply left_refill; eassumption|intros ? ?]
  | |- agree _ (bind (drop_bits _ _) _) _ => eapply agree_bind; [apply left_drop; [first [apply u8_nonneg|lia]|eassumption]|intros ? ?]
  | |- agree _ (bind (get_bits _ _) _) _ => eapply agree_bind; [apply left_get; [lia|eassumption]|intros (? & ?) ?; cbn [snd] in *]
  | |- agree _ (bind (get_at _ _) _) _ => eapply agree_bind; [apply agree_same|intros ? _]
  | |- agree _ (bind (set_at _ _ _) _) _ => eapply agree_bind; [apply agree_same|intros ? _]
  | |- agree _ (bind (peek_bits _ _) _) _ => eapply agree_bind; [apply agree_same|intros ? _]
  | |- agree _ (bind (need _ _) _) _ => eapply agree_bind; [apply agree_same|intros ? _]
  | |- agree _ (bind (fill_lens _ _ _ _) _) _ => eapply agree_bind; [apply agree_same|intros ? _]
  | |- agree _ (bind (fast_match _ _ _ _) _) _ => eapply agree_bind; [apply agree_same|intros ? _]
  | |- agree _ (bind (slow_match _ _ _ _) _) _ => eapply agree_bind; [apply agree_same|intros ? _]
  | |- agree _ (bind (get_slice _ _ _) _) _ => eapply agree_bind; [apply agree_same|intros ? _]
  | |- agree _ (bind (put_slice _ _ _) _) _ => eapply agree_bind; [apply agree_same|intros ? _]
  | |- agree _ (bind (build_table _ _ _ _ _) _) _ => eapply agree_bind; [apply agree_same|intros ? _]
  | |- agree _ (bind (resize_and_push _ _ _) _) _ => eapply agree_bind; [apply agree_same|intros ? _]
  end.

(** ** The fast loop *)

Definition dleft (d : dstate) : Prop := left_ok (d_r d).

Lemma agree_offset off r : left_ok r ->
  agree (fun x => left_ok (snd x)) (fast_offset true off r) (fast_offset false off r).
Proof.
  intros H. unfold fast_offset. do 2 agree_step.
  eapply (agree_bind (fun x => left_ok (snd x))).
  - destruct (flag _ _); repeat agree_step; cbn [snd]; assumption.
  - intros (e, r1) H1. cbn [snd] in H1. cbv zeta. repeat agree_step. cbn [snd]. assumption.
Qed.
Lemma agree_copy o lit off entry saved d : dleft d ->
  agree (fun x => dleft (snd x)) (fast_copy true o lit off entry saved d) (fast_copy false o lit off entry saved d).
Proof.
  intros H. unfold fast_copy. cbv zeta. eapply agree_bind; [apply agree_offset, H|]. intros (f, r) H1. cbn [snd] in H1.
  destruct (d_dest d <? f)%nat; [reflexivity|].
  assert (H2 : left_ok (if r_left r <? 11 then refill_inner_loop r else r)) by (destruct (r_left r <? 11); [apply left_inner|]; exact H1).
  revert H2. set (r2 := if r_left r <? 11 then _ else _). clearbody r2. intros H2. repeat agree_step.
  destruct (o_limit o <? _)%nat; [reflexivity|]. destruct (_ <? _)%nat; apply agree_ok; exact H2.
Qed.
Lemma agree_rest o lit off entry saved d : dleft d ->
  agree (fun x => dleft (snd x)) (fast_rest true o lit off entry saved d) (fast_rest false o lit off entry saved d).
Proof.
  intros H. unfold fast_rest. cbv zeta. unfold dleft in H.
  assert (C : forall e s d', dleft d' -> agree (fun x => dleft (snd x))
     (do (n, d0) <- fast_copy true o lit off e s d' ; Ok (match n with Some e => FNext e | None => FSlow end, d0))
     (do (n, d0) <- fast_copy false o lit off e s d' ; Ok (match n with Some e => FNext e | None => FSlow end, d0))).
  { intros e s d' H'. eapply agree_bind; [apply agree_copy, H'|]. intros (n, d0) H0. apply agree_ok. exact H0. }
  destruct (flag entry huff_exceptional); [|apply C, H].
  destruct (flag entry huff_end); [apply agree_ok; exact H|]. do 3 agree_step.
  destruct (flag _ huff_literal); [repeat agree_step; assumption|].
  destruct (flag _ huff_end); [apply agree_ok; assumption|]. apply C. assumption.
Qed.
Lemma agree_round o lit off entry d : dleft d ->
  agree (fun x => dleft (snd x)) (fast_round true o lit off entry d) (fast_round false o lit off entry d).
Proof.
  intros H. unfold fast_round. cbv zeta. unfold dleft in H. destruct (length (r_src (d_r d)) <? _)%nat; [apply agree_ok; exact H|].
  apply left_inner in H. agree_step. destruct (flag entry huff_literal); [|apply agree_rest; assumption].
  do 3 agree_step. match goal with |- agree _ (if ?c then _ else _) _ => destruct c end; [exact I|].
  destruct (flag _ huff_literal); [repeat agree_step; assumption|apply agree_rest; assumption].
Qed.
Lemma agree_fast o lit off : forall fuel entry d, dleft d ->
  agree (fun x => dleft (snd x)) (fast_loop true o lit off fuel entry d) (fast_loop false o lit off fuel entry d).
Proof.
  induction fuel as [|f IH]; cbn [fast_loop]; intros entry d H; [reflexivity|].
  eapply agree_bind; [apply agree_round, H|]. intros (n, d1) H1. cbn [snd] in H1. destruct n; [apply agree_ok; exact H1..|].
  apply IH, H1.
Qed.

(** ** The careful loop and the tables *)

Lemma keep_slow_round o lit off d : dleft d ->
  agree (fun x => dleft (snd x)) (slow_round o lit off d) (slow_round o lit off d).
Proof.
  intros H. unfold slow_round. cbv zeta. unfold dleft in H. agree_step. destruct (over_consumed x); [reflexivity|]. do 3 agree_step.
  eapply (agree_bind (fun x => left_ok (snd x))).
  { destruct (flag _ huff_pointer); repeat agree_step; cbn [snd]; assumption. }
  intros ((e, s), r) Hr. cbn [snd] in Hr. destruct (flag _ huff_literal); [repeat agree_step; assumption|].
  destruct (flag _ huff_end); [apply agree_ok; assumption|]. do 3 agree_step.
  eapply (agree_bind (fun x => left_ok (snd x))).
  { destruct (flag _ huff_exceptional); repeat agree_step; cbn [snd]; assumption. }
  intros (e2, r2) Hr2. cbn [snd] in Hr2. do 2 agree_step. destruct (_ <? _)%nat; [reflexivity|]. apply agree_ok. assumption.
Qed.
Lemma keep_slow o lit off : forall fuel d, dleft d ->
  agree dleft (slow_loop o lit off fuel d) (slow_loop o lit off fuel d).
Proof.
  induction fuel as [|f IH]; cbn [slow_loop]; intros d H; [reflexivity|].
  eapply agree_bind; [apply keep_slow_round, H|]. intros (n, d1) H1. cbn [snd] in H1. destruct n; [apply agree_ok; exact H1|].
  apply IH, H1.
Qed.
Lemma keep_lens table total : forall fuel r lens i, left_ok r ->
  agree (fun x => left_ok (snd x)) (lens_loop table total fuel r lens i) (lens_loop table total fuel r lens i).
Proof.
  induction fuel as [|f IH]; cbn [lens_loop]; intros r lens i H; [reflexivity|].
  destruct (total <=? i)%nat; [apply agree_ok; exact H|].
  eapply (agree_bind left_ok); [destruct (has 14 r); [apply agree_ok; exact H|apply left_refill, H]|]. intros r1 H1. cbv zeta.
  do 4 agree_step. destruct (_ <? 16); [agree_step; apply IH; assumption|].
  destruct (_ =? 16).
  { destruct (i =? 0)%nat; [reflexivity|]. do 4 agree_step. apply IH. assumption. }
  destruct (_ =? 17); do 3 agree_step; apply IH; assumption.
Qed.
Lemma keep_precode : forall order pre r, left_ok r ->
  agree (fun x => left_ok (snd x)) (precode_rest order pre r) (precode_rest order pre r).
Proof.
  induction order as [|i order IH]; cbn [precode_rest]; intros pre r H; [apply agree_ok; exact H|].
  do 2 agree_step. apply IH. assumption.
Qed.
Lemma keep_dynamic r : left_ok r -> agree (fun x => left_ok (snd x)) (dynamic_lens r) (dynamic_lens r).
Proof.
  intros H. unfold dynamic_lens. cbv zeta. do 10 agree_step.
  eapply agree_bind; [apply keep_precode; assumption|]. intros (pre, rp) Hp. cbn [snd] in Hp. agree_step.
  eapply agree_bind; [apply keep_lens; assumption|]. intros (lens, rl) Hl. apply agree_ok. exact Hl.
Qed.
Lemma keep_tables btype r t : left_ok r ->
  agree (fun x => left_ok (fst x)) (build_tables btype r t) (build_tables btype r t).
Proof.
  intros H. unfold build_tables.
  eapply (agree_bind (fun x => match x with None => True | Some (_, _, _, r, _) => left_ok r end)).
  - destruct (btype =? 2); [|destruct (t_static t); apply agree_ok; [exact I|exact H]].
    eapply agree_bind; [apply keep_dynamic, H|]. intros (((l, a), b), r1) H1. apply agree_ok. exact H1.
  - intros [((((lens, a), b), r1), s)|] H1; [|apply agree_ok; exact H]. repeat agree_step. exact H1.
Qed.

(** ** The whole decoder *)

Lemma agree_block o btype d : dleft d -> agree dleft (huff_block true o btype d) (huff_block false o btype d).
Proof.
  intros H. unfold huff_block. eapply agree_bind; [apply keep_tables, H|]. intros (r, t) Hr. cbn [fst] in Hr. cbv zeta.
  eapply (agree_bind (fun x => dleft (snd x))).
  - match goal with |- agree _ (if ?c then _ else _) _ => destruct c end; [|apply agree_ok; exact Hr].
    do 2 agree_step. apply agree_fast. apply left_inner, Hr.
  - intros (fin, d1) H1. cbn [snd] in H1.
    eapply (agree_bind dleft); [destruct fin; [apply agree_ok; exact H1|apply keep_slow, H1]|].
    intros d2 H2. destruct (over_consumed (d_r d2)); [reflexivity|apply agree_ok; exact H2].
Qed.
Lemma keep_stored o data position d : dleft d ->
  agree dleft (stored_block o data position d) (stored_block o data position d).
Proof.
  intros H. unfold stored_block. cbv zeta. unfold dleft in H. destruct (over_consumed (d_r d)); [reflexivity|].
  eapply agree_bind; [apply left_drop; [apply Z.land_nonneg; right; lia|exact H]|]. intros r1 H1. do 2 agree_step.
  match goal with |- agree _ (if ?c then _ else _) _ => destruct c end; [reflexivity|].
  match goal with |- agree _ (if ?c then _ else _) _ => destruct c end; [reflexivity|].
  match goal with |- agree _ (if ?c then _ else _) _ => destruct c end; [reflexivity|]. do 2 agree_step.
  match goal with |- agree _ (if ?c then _ else _) _ => destruct c end; [exact I|]. apply agree_ok. unfold dleft, left_ok. cbn. lia.
Qed.
Lemma agree_blocks o data position : forall fuel d, dleft d ->
  agree dleft (block_loop (huff_block true o) o data position fuel d) (block_loop (huff_block false o) o data position fuel d).
Proof.
  induction fuel as [|f IH]; cbn [block_loop]; intros d H; [reflexivity|]. unfold dleft in H. do 3 agree_step. cbv zeta.
  eapply (agree_bind dleft).
  - destruct (_ =? 0); [apply keep_stored; assumption|]. destruct (_ =? 3); [reflexivity|]. apply agree_block. assumption.
  - intros d1 Hd. destruct (_ =? 1); [apply agree_ok; exact Hd|apply IH, Hd].
Qed.
Lemma agree_deflate o data position :
  agree (fun _ => True) (decode_deflate (huff_block true o) o data position) (decode_deflate (huff_block false o) o data position).
Proof.
  unfold decode_deflate. destruct (_ <? _)%nat; [exact I|].
  eapply agree_bind; [apply left_refill; unfold left_ok; cbn; lia|]. intros r H.
  eapply agree_bind; [apply agree_blocks; exact H|]. intros d _. apply agree_ok. exact I.
Qed.
Lemma agree_zlib o data :
  agree (fun _ => True) (decode_zlib (huff_block true o) o data) (decode_zlib (huff_block false o) o data).
Proof.
  unfold decode_zlib. cbv zeta. repeat match goal with |- agree _ (if ?c then _ else _) _ => destruct c; [reflexivity|] end.
  eapply agree_bind; [apply agree_deflate|]. intros (out, r) _. apply agree_same.
Qed.
