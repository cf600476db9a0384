(** Checked slice reads and writes: Rust [a[i..j]], [copy_from_slice], [copy_within], [fill], [resize]. *)
From Verif Require Import Base BaseProof Loops.

Definition slice {A} (l : list A) (i n : nat) : list A := firstn n (skipn i l).

(** [l[i..i + n]] *)
Definition get_slice {A} (l : list A) (i n : nat) : res (list A) :=
  if (i + n <=? length l)%nat then Ok (slice l i n) else Panic.

Definition put {A} (l : list A) (i : nat) (xs : list A) : list A :=
  firstn i l ++ xs ++ skipn (i + length xs) l.

(** [l[i..i + xs.len()].copy_from_slice(xs)] *)
Definition put_slice {A} (l : list A) (i : nat) (xs : list A) : res (list A) :=
  if (i + length xs <=? length l)%nat then Ok (put l i xs) else Panic.

(** [l.resize(n, x)] *)
Definition resize {A} (l : list A) (n : nat) (x : A) : list A :=
  firstn n l ++ repeat x (n - length l).

Lemma slice_length {A} (l : list A) i n : (i + n <= length l)%nat -> length (slice l i n) = n.
Proof. intros H. unfold slice. rewrite firstn_length, skipn_length. lia. Qed.
Lemma slice_nth {A} (l : list A) i n j d : (j < n)%nat -> nth j (slice l i n) d = nth (i + j) l d.
Proof. intros H. unfold slice. rewrite nth_firstn by exact H. apply nth_skipn. Qed.
Lemma get_slice_ok {A} (l : list A) i n : (i + n <= length l)%nat -> get_slice l i n = Ok (slice l i n).
Proof. intros H. unfold get_slice. now replace (i + n <=? length l)%nat with true by lia. Qed.

Lemma put_length {A} (l : list A) i xs : (i + length xs <= length l)%nat -> length (put l i xs) = length l.
Proof. intros H. unfold put. rewrite !app_length, firstn_length, skipn_length. lia. Qed.
Lemma put_nth {A} (l : list A) i xs j d : (i + length xs <= length l)%nat ->
  nth j (put l i xs) d = if ((i <=? j) && (j <? i + length xs))%nat then nth (j - i) xs d else nth j l d.
Proof.
  intros H. unfold put. destruct (Nat.leb_spec i j) as [Hij|Hij].
  - rewrite (app_nth2 (firstn i l)) by (rewrite firstn_length; lia). rewrite firstn_length, Nat.min_l by lia.
    destruct (Nat.ltb_spec j (i + length xs)); cbn [andb].
    + now rewrite (app_nth1 xs) by lia.
    + rewrite (app_nth2 xs) by lia. rewrite nth_skipn. f_equal. lia.
  - cbn [andb]. rewrite (app_nth1 (firstn i l)) by (rewrite firstn_length; lia). now apply nth_firstn.
Qed.
Lemma put_slice_ok {A} (l : list A) i xs : (i + length xs <= length l)%nat -> put_slice l i xs = Ok (put l i xs).
Proof. intros H. unfold put_slice. now replace (i + length xs <=? length l)%nat with true by lia. Qed.

Lemma resize_length {A} (l : list A) n x : length (resize l n x) = n.
Proof. unfold resize. rewrite app_length, firstn_length, repeat_length. lia. Qed.
Lemma resize_nth {A} (l : list A) n x j d : (j < length l)%nat -> (j < n)%nat -> nth j (resize l n x) d = nth j l d.
Proof. intros H Hn. unfold resize. rewrite app_nth1 by (rewrite firstn_length; lia). now apply nth_firstn. Qed.
Lemma resize_grow {A} (l : list A) n x : (length l <= n)%nat -> resize l n x = l ++ repeat x (n - length l).
Proof. intros H. unfold resize. now rewrite (firstn_all2 l) by lia. Qed.

Lemma slice_app_exact {A} (a b c : list A) : slice (a ++ b ++ c) (length a) (length b) = b.
Proof.
  unfold slice. rewrite skipn_app, skipn_all, Nat.sub_diag. cbn [skipn app].
  rewrite firstn_app, Nat.sub_diag, firstn_all. cbn [firstn]. apply app_nil_r.
Qed.
Lemma put_at {A} (a b c xs : list A) : length b = length xs -> put (a ++ b ++ c) (length a) xs = a ++ xs ++ c.
Proof.
  intros H. unfold put. rewrite firstn_app, Nat.sub_diag, firstn_all. cbn [firstn]. rewrite app_nil_r. f_equal. f_equal.
  rewrite skipn_app, skipn_all2 by lia. cbn [app]. rewrite skipn_app, skipn_all2 by lia. cbn [app].
  replace (length a + length xs - length a - length b)%nat with 0%nat by lia. reflexivity.
Qed.
(** Writing at the end of what has been produced so far. *)
Lemma put_end {A} (a b xs : list A) : (length xs <= length b)%nat ->
  put (a ++ b) (length a) xs = (a ++ xs) ++ skipn (length xs) b.
Proof.
  intros H. rewrite <- (firstn_skipn (length xs) b) at 1. rewrite put_at by (rewrite firstn_length; lia).
  now rewrite app_assoc.
Qed.

Lemma firstn_app_exact {A} (a b : list A) n : length a = n -> firstn n (a ++ b) = a.
Proof. intros <-. rewrite firstn_app, Nat.sub_diag, firstn_all. cbn [firstn]. apply app_nil_r. Qed.
Lemma skipn_app_exact {A} (a b : list A) n : length a = n -> skipn n (a ++ b) = b.
Proof. intros <-. rewrite skipn_app, Nat.sub_diag, skipn_all. reflexivity. Qed.
Lemma put_slice_inv {A} (l : list A) i xs l' : put_slice l i xs = Ok l' ->
  l' = put l i xs /\ length l' = length l /\ (i + length xs <= length l)%nat.
Proof.
  unfold put_slice. intros E. destruct (Nat.leb_spec (i + length xs) (length l)) as [H|]; [|discriminate E].
  injection E as <-. split; [reflexivity|]. split; [now apply put_length|exact H].
Qed.
Lemma set_at_inv {A} (l : list A) i x l' : set_at l i x = Ok l' ->
  l' = upd l i x /\ length l' = length l /\ (i < length l)%nat.
Proof.
  unfold set_at. intros E. destruct (Nat.ltb_spec i (length l)) as [H|]; [|discriminate E].
  injection E as <-. split; [reflexivity|]. split; [apply upd_length|exact H].
Qed.
Lemma get_slice_inv {A} (l : list A) i n xs : get_slice l i n = Ok xs -> xs = slice l i n /\ (i + n <= length l)%nat.
Proof.
  unfold get_slice. intros E. destruct (Nat.leb_spec (i + n) (length l)) as [H|]; [|discriminate E].
  injection E as <-. auto.
Qed.
