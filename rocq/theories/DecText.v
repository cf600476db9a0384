(** Decimal text: Rust [format!("{}", n)] for an unsigned integer and [str::parse::<usize>]. *)
From Verif Require Import Base BaseProof.

Fixpoint dec_aux (fuel : nat) (n : Z) : list Z :=
  match fuel with
  | O => []
  | S f => if n <? 10 then [48 + n] else dec_aux f (n / 10) ++ [48 + n mod 10]
  end.
(** Twenty digits hold every [u64]. *)
Definition dec (n : Z) : list Z := dec_aux 20 n.

Definition is_digit (c : Z) : bool := (48 <=? c) && (c <=? 57).

Definition dec_val (l : list Z) : Z := fold_left (fun a c => a * 10 + (c - 48)) l 0.

(** [str::parse::<usize>]: an optional plus sign, at least one digit, only digits, below 2^64. *)
Definition parse_usize (l : list Z) : option Z :=
  let l := match l with 43 :: l' => match l' with [] => l | _ => l' end | _ => l end in
  match l with
  | [] => None
  | _ => if forallb is_digit l && (dec_val l <? 2 ^ 64) then Some (dec_val l) else None
  end.

(** Comparison of byte strings and [starts_with]. *)
Fixpoint zeqb_list (a b : list Z) : bool :=
  match a, b with
  | [], [] => true
  | x :: a', y :: b' => (x =? y) && zeqb_list a' b'
  | _, _ => false
  end.
Definition starts_with (l pre : list Z) : bool := zeqb_list (firstn (length pre) l) pre.

Lemma dec_val_snoc l c : dec_val (l ++ [c]) = dec_val l * 10 + (c - 48).
Proof. unfold dec_val. now rewrite fold_left_app. Qed.

Lemma dec_aux_ok f : forall n, 0 <= n < 10 ^ Z.of_nat (S f) ->
  dec_val (dec_aux (S f) n) = n /\ forallb is_digit (dec_aux (S f) n) = true /\ dec_aux (S f) n <> [].
Proof.
  induction f as [|f IH]; intros n Hn.
  - cbn [dec_aux]. change (10 ^ Z.of_nat 1) with 10 in Hn. replace (n <? 10) with true by lia.
    unfold dec_val, is_digit. cbn [fold_left forallb]. split; [lia|]. split; [lia|discriminate].
  - cbn [dec_aux] in *. destruct (Z.ltb_spec n 10) as [H|H].
    + unfold dec_val, is_digit. cbn [fold_left forallb]. split; [lia|]. split; [lia|discriminate].
    + rewrite Nat2Z.inj_succ, Z.pow_succ_r in Hn by lia.
      destruct (IH (n / 10)) as (A & B & C); [lia|].
      rewrite dec_val_snoc, A, forallb_app, B. cbn [forallb]. unfold is_digit.
      split; [lia|]. split; [lia|]. intros E. symmetry in E. now apply app_cons_not_nil in E.
Qed.

Lemma dec_ok n : 0 <= n < 2 ^ 64 -> dec_val (dec n) = n /\ forallb is_digit (dec n) = true /\ dec n <> [].
Proof. intros H. apply dec_aux_ok. change (10 ^ Z.of_nat 20) with 100000000000000000000. lia. Qed.

Lemma dec_bytes n : 0 <= n < 2 ^ 64 -> bytes (dec n).
Proof.
  intros H. destruct (dec_ok n H) as (_ & B & _). rewrite forallb_forall in B.
  apply Forall_forall. intros x Hx. specialize (B x Hx). unfold is_digit in B. unfold is_byte. lia.
Qed.

Lemma parse_dec n : 0 <= n < 2 ^ 64 -> parse_usize (dec n) = Some n.
Proof.
  intros H. destruct (dec_ok n H) as (A & B & C). unfold parse_usize.
  destruct (dec n) as [|c l] eqn:E; [congruence|].
  assert (Hc : is_digit c = true) by (cbn [forallb] in B; apply andb_true_iff in B; tauto).
  assert (K : match c with 43 => match l with [] => c :: l | _ :: _ => l end | _ => c :: l end = c :: l).
  { unfold is_digit in Hc. destruct c as [|p|p]; try lia. do 7 (destruct p as [p|p|]; try lia; try reflexivity). }
  rewrite K, B, A. replace (n <? 2 ^ 64) with true by lia. reflexivity.
Qed.

Lemma dec_length f : forall n, (length (dec_aux f n) <= f)%nat.
Proof.
  induction f as [|f IH]; intros n; cbn [dec_aux]; [cbn [length]; lia|].
  destruct (n <? 10); [cbn [length]; lia|]. rewrite app_length. cbn [length]. specialize (IH (n / 10)). lia.
Qed.
