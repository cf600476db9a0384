(** Lemmas about [Base]. *)
From Verif Require Import Base.

Lemma le_bytes_length k x : length (le_bytes k x) = k.
Proof. revert x; induction k as [|k IH]; intros x; cbn [le_bytes length]; [reflexivity|]. now rewrite IH. Qed.

Lemma be_bytes_length k x : length (be_bytes k x) = k.
Proof. unfold be_bytes. now rewrite rev_length, le_bytes_length. Qed.

Lemma le_bytes_bytes k x : bytes (le_bytes k x).
Proof.
  revert x; induction k as [|k IH]; intros x; cbn [le_bytes]; constructor; [|apply IH].
  unfold is_byte; lia.
Qed.

Lemma bytes_rev l : bytes l -> bytes (rev l).
Proof. unfold bytes. intros H. apply Forall_rev; exact H. Qed.

Lemma be_bytes_bytes k x : bytes (be_bytes k x).
Proof. apply bytes_rev, le_bytes_bytes. Qed.

Lemma bytes_app l1 l2 : bytes (l1 ++ l2) <-> bytes l1 /\ bytes l2.
Proof. unfold bytes. apply Forall_app. Qed.

Lemma pow256_S k : 256 ^ Z.of_nat (S k) = 256 * 256 ^ Z.of_nat k.
Proof. rewrite Nat2Z.inj_succ, Z.pow_succ_r; lia. Qed.

Lemma le_val_le_bytes k x : 0 <= x < 256 ^ Z.of_nat k -> le_val (le_bytes k x) = x.
Proof.
  revert x; induction k as [|k IH]; intros x Hx; cbn [le_bytes le_val].
  - change (256 ^ Z.of_nat 0) with 1 in Hx. lia.
  - rewrite pow256_S in Hx.
    rewrite IH.
    + pose proof (Z.div_mod x 256). lia.
    + split; [apply Z.div_pos; lia|]. apply Z.div_lt_upper_bound; lia.
Qed.

Lemma be_val_be_bytes k x : 0 <= x < 256 ^ Z.of_nat k -> be_val (be_bytes k x) = x.
Proof. intros H. unfold be_val, be_bytes. rewrite rev_involutive. now apply le_val_le_bytes. Qed.

Lemma le_val_bound l : bytes l -> 0 <= le_val l < 256 ^ Z.of_nat (length l).
Proof.
  induction l as [|b l IH]; intros H; cbn [le_val length].
  - change (256 ^ Z.of_nat 0) with 1. lia.
  - inversion H as [|? ? Hb Hl]; subst. specialize (IH Hl). unfold is_byte in Hb.
    rewrite pow256_S. lia.
Qed.

Lemma be_val_bound l : bytes l -> 0 <= be_val l < 256 ^ Z.of_nat (length l).
Proof.
  intros H. unfold be_val. rewrite <- (rev_length l). apply le_val_bound. now apply bytes_rev.
Qed.

Lemma le_bytes_le_val l : bytes l -> le_bytes (length l) (le_val l) = l.
Proof.
  induction l as [|b l IH]; intros H; cbn [le_val length le_bytes]; [reflexivity|].
  inversion H as [|? ? Hb Hl]; subst. unfold is_byte in Hb.
  replace ((b + 256 * le_val l) mod 256) with b by lia.
  replace ((b + 256 * le_val l) / 256) with (le_val l) by lia.
  now rewrite IH.
Qed.

Lemma be_bytes_be_val l : bytes l -> be_bytes (length l) (be_val l) = l.
Proof.
  intros H. unfold be_bytes, be_val. rewrite <- (rev_length l).
  rewrite le_bytes_le_val by now apply bytes_rev. apply rev_involutive.
Qed.

(** [upd] *)
Lemma upd_length {A} (l : list A) i x : length (upd l i x) = length l.
Proof. revert i; induction l as [|y l IH]; intros [|i]; cbn [upd length]; auto. Qed.

Lemma upd_nth_same {A} (l : list A) i x d : (i < length l)%nat -> nth i (upd l i x) d = x.
Proof.
  revert i; induction l as [|y l IH]; intros [|i] H; cbn [upd length nth] in *; try lia; auto.
  apply IH; lia.
Qed.

Lemma upd_nth_other {A} (l : list A) i j x d : i <> j -> nth j (upd l i x) d = nth j l d.
Proof.
  revert i j; induction l as [|y l IH]; intros [|i] [|j] H; cbn [upd nth]; auto; try lia.
Qed.

Lemma upd_nth {A} (l : list A) i j x d :
  nth j (upd l i x) d = if Nat.eqb i j then (if Nat.ltb i (length l) then x else nth j l d) else nth j l d.
Proof.
  destruct (Nat.eqb_spec i j) as [->|H].
  - destruct (Nat.ltb_spec j (length l)).
    + now apply upd_nth_same.
    + rewrite !nth_overflow; auto. now rewrite upd_length.
  - now apply upd_nth_other.
Qed.

Lemma upd_Forall {A} (P : A -> Prop) l i x : Forall P l -> P x -> Forall P (upd l i x).
Proof.
  intros H Hx; revert i; induction H as [|y l Hy Hl IH]; intros [|i]; cbn [upd]; constructor; auto.
Qed.

Lemma upd_same_id {A} (l : list A) i d : upd l i (nth i l d) = l.
Proof. revert i; induction l as [|y l IH]; intros [|i]; cbn [upd nth]; auto. now rewrite IH. Qed.

(** list equality by [nth] *)
Lemma list_eq_nth {A} (d : A) l1 l2 :
  length l1 = length l2 ->
  (forall i, (i < length l1)%nat -> nth i l1 d = nth i l2 d) -> l1 = l2.
Proof. intros; apply nth_ext with (d := d) (d' := d); auto. Qed.

(** chunks *)
Lemma chunks_exact_cons {A} n (x : list A) l :
  (0 < n)%nat -> length x = n -> chunks_exact n (x ++ l) = x :: chunks_exact n l.
Proof.
  intros Hn Hx. unfold chunks_exact. destruct n as [|n]; [lia|].
  rewrite app_length.
  assert (G : forall f (l : list A), (length l <= f)%nat ->
             chunks_exact_aux f (S n) l = chunks_exact_aux (length l) (S n) l).
  { clear. intros f. induction f as [f IH] using (well_founded_induction lt_wf). intros l Hl.
    destruct f as [|f].
    - destruct l; [reflexivity|cbn in Hl; lia].
    - destruct l as [|a l]; [cbn; reflexivity|].
      cbn [length chunks_exact_aux].
      destruct (Nat.leb_spec (S n) (S (length l))); [|reflexivity].
      f_equal. cbn [length] in Hl.
      rewrite IH; try (cbn [skipn]; rewrite skipn_length; lia); [|lia].
      symmetry.
      destruct (Nat.eq_dec f (length l)) as [->|].
      + rewrite IH by (try lia; cbn [skipn]; rewrite skipn_length; lia). reflexivity.
      + rewrite IH by (try lia; cbn [skipn]; rewrite skipn_length; lia). reflexivity. }
  rewrite Hx. cbn [Nat.add chunks_exact_aux].
  replace (S n <=? length (x ++ l))%nat with true by (rewrite app_length; lia).
  rewrite firstn_app, skipn_app, Hx, Nat.sub_diag, <- Hx, firstn_all, skipn_all.
  cbn [firstn skipn app]. rewrite app_nil_r. f_equal.
  rewrite Hx. rewrite G; [reflexivity|]. lia.
Qed.

Lemma chunks_exact_short {A} n (l : list A) :
  (length l < n)%nat -> chunks_exact n l = [].
Proof.
  intros H. unfold chunks_exact. destruct n as [|n]; [lia|].
  destruct (length l) as [|m] eqn:E; [reflexivity|].
  cbn [chunks_exact_aux]. replace (S n <=? length l)%nat with false by lia. reflexivity.
Qed.

Lemma chunks_exact_nil {A} n : @chunks_exact A n [] = [].
Proof. destruct n; reflexivity. Qed.

(** Induction principle: a list is a sequence of [n]-blocks followed by a short tail. *)
Lemma chunk_ind {A} (n : nat) (P : list A -> Prop) :
  (0 < n)%nat ->
  (forall l, (length l < n)%nat -> P l) ->
  (forall x l, length x = n -> P l -> P (x ++ l)) ->
  forall l, P l.
Proof.
  intros Hn Hs Hc l.
  remember (length l) as m eqn:E. revert l E.
  induction m as [m IH] using (well_founded_induction lt_wf). intros l ->.
  destruct (Nat.lt_ge_cases (length l) n) as [H|H]; [now apply Hs|].
  rewrite <- (firstn_skipn n l). apply Hc.
  - rewrite firstn_length; lia.
  - eapply IH; [|reflexivity]. rewrite skipn_length. lia.
Qed.

Lemma chunks_exact_lengths {A} n (l : list A) :
  Forall (fun c => length c = n) (chunks_exact n l).
Proof.
  destruct n as [|n]; [constructor|].
  revert l; apply (chunk_ind (S n)); [lia|intros l H|intros x l Hx IH].
  - rewrite chunks_exact_short by lia. constructor.
  - rewrite chunks_exact_cons by lia. constructor; auto.
Qed.

Lemma chunks_exact_length {A} n (l : list A) :
  (0 < n)%nat -> length (chunks_exact n l) = (length l / n)%nat.
Proof.
  intros Hn. revert l; apply (chunk_ind n); [lia|intros l H|intros x l Hx IH].
  - rewrite chunks_exact_short by lia. now rewrite Nat.div_small.
  - rewrite chunks_exact_cons, app_length by lia. cbn [length]. rewrite IH, Hx.
    replace (n + length l)%nat with (length l + 1 * n)%nat by lia.
    rewrite Nat.div_add by lia. lia.
Qed.

Lemma chunks_exact_concat {A} n (l : list A) :
  (0 < n)%nat -> Nat.modulo (length l) n = O -> concat (chunks_exact n l) = l.
Proof.
  intros Hn. pattern l; apply (chunk_ind n); clear l; [lia|intros l H Hm|intros x l Hx IH Hm].
  - rewrite Nat.mod_small in Hm by lia. destruct l; [|cbn in Hm; lia]. now rewrite chunks_exact_nil.
  - rewrite chunks_exact_cons by lia. cbn [concat]. rewrite IH; auto.
    rewrite app_length, Hx in Hm.
    replace (n + length l)%nat with (length l + 1 * n)%nat in Hm by lia.
    now rewrite Nat.mod_add in Hm by lia.
Qed.

Lemma chunks_exact_of_concat {A} n (ls : list (list A)) :
  (0 < n)%nat -> Forall (fun c => length c = n) ls -> chunks_exact n (concat ls) = ls.
Proof.
  intros Hn H. induction H as [|c ls Hc Hl IH]; cbn [concat].
  - apply chunks_exact_nil.
  - rewrite chunks_exact_cons by lia. now rewrite IH.
Qed.

Lemma concat_length_const {A} n (ls : list (list A)) :
  Forall (fun c => length c = n) ls -> length (concat ls) = (length ls * n)%nat.
Proof.
  intros H. induction H as [|c ls Hc Hl IH]; cbn [concat length Nat.mul]; [reflexivity|].
  rewrite app_length, IH, Hc. reflexivity.
Qed.

Lemma map_nth_in {A B} (f : A -> B) l i d d' :
  (i < length l)%nat -> nth i (map f l) d' = f (nth i l d).
Proof.
  intros H. rewrite (nth_indep _ d' (f d)) by (now rewrite map_length). apply map_nth.
Qed.

Lemma skipn_skipn' {A} a b (l : list A) : skipn a (skipn b l) = skipn (b + a) l.
Proof.
  revert l; induction b as [|b IH]; intros l; cbn [Nat.add skipn]; [reflexivity|].
  destruct l as [|x l]; [now rewrite skipn_nil|]. cbn [skipn]. apply IH.
Qed.

Lemma nth_skipn {A} n i (l : list A) d : nth i (skipn n l) d = nth (n + i) l d.
Proof.
  revert l; induction n as [|n IH]; intros l; cbn [Nat.add skipn]; [reflexivity|].
  destruct l as [|x l]; [destruct i; reflexivity|]. cbn [skipn nth]. apply IH.
Qed.

Lemma nth_firstn {A} n i (l : list A) d : (i < n)%nat -> nth i (firstn n l) d = nth i l d.
Proof.
  revert i l; induction n as [|n IH]; intros i l H; [lia|].
  destruct l as [|x l]; [reflexivity|]. destruct i as [|i]; cbn [firstn nth]; [reflexivity|]. apply IH; lia.
Qed.

(** Discharges [bytes] of a literal list. *)
Ltac lit_bytes := unfold bytes; repeat (apply Forall_cons; [unfold is_byte; lia|]); apply Forall_nil.

Lemma map_repeat' {A B} (f : A -> B) x n : map f (repeat x n) = repeat (f x) n.
Proof. induction n as [|n IH]; cbn [repeat map]; [reflexivity|]. now rewrite IH. Qed.
