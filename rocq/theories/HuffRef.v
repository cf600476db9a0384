(** An executable reference decoder for the specification HuffSpec.v. It is not a model of any code in /repo: it
    computes derivations of [deflate_stream], so that concrete streams can be shown to be valid. *)
From Verif Require Import Base BaseProof Slices BitReaderSpec InflateSpec HuffSpec.

(** Every used symbol with its length and code word. *)
Definition code_list (lens : list Z) : list (nat * (nat * Z)) :=
  map (fun s => (s, (Z.to_nat (nth s lens 0), codeword lens s)))
    (filter (fun s => 0 <? nth s lens 0) (seq 0 (length lens))).

Fixpoint find_symbol (codes : list (nat * (nat * Z))) (src : list Z) (n : Z) : option (nat * nat) :=
  match codes with
  | [] => None
  | (s, (l, c)) :: codes' => if msb_from src n l =? c then Some (s, l) else find_symbol codes' src n
  end.

Lemma find_symbol_ok lens src n s l : find_symbol (code_list lens) src n = Some (s, l) -> symbol_at lens src n s l.
Proof.
  assert (G : forall cs, Forall (fun x => let '(s, (l, c)) := x in
     (s < length lens)%nat /\ nth s lens 0 = Z.of_nat l /\ (1 <= l)%nat /\ c = codeword lens s) cs ->
     find_symbol cs src n = Some (s, l) -> symbol_at lens src n s l).
  { induction cs as [|(s', (l', c')) cs IH]; cbn [find_symbol]; intros H E; [discriminate|].
    inversion H as [|? ? X H5]; subst. cbn beta iota in X. destruct X as (H1 & H2 & H3 & ->).
    destruct (msb_from src n l' =? codeword lens s') eqn:B; [|exact (IH H5 E)].
    apply Z.eqb_eq in B. injection E as -> ->. repeat split; assumption. }
  apply G. unfold code_list. apply Forall_map, Forall_forall. intros x Hx. apply filter_In in Hx. destruct Hx as (Hx & Hp).
  apply in_seq in Hx. apply Z.ltb_lt in Hp. repeat split; lia.
Qed.

Lemma some_pair {A B} (a c : A) (b d : B) : Some (a, b) = Some (c, d) -> a = c /\ b = d.
Proof. intros E. inversion E. split; reflexivity. Qed.

(** ** Blocks *)

Fixpoint ref_symbols (fuel : nat) (budget : Z) (lit off : list (nat * (nat * Z))) (src : list Z) (n : Z) (out : list Z)
    : option (Z * list Z) :=
  match fuel with
  | O => None
  | S f =>
      match find_symbol lit src n with
      | None => None
      | Some (s, l) =>
          if (s =? 256)%nat then Some (n + Z.of_nat l, out)
          else if (s <? 256)%nat then ref_symbols f budget lit off src (n + Z.of_nat l) (out ++ [Z.of_nat s])
          else
            match nth_error rfc_lengths (s - 257) with
            | None => None
            | Some (base, ex) =>
                let n1 := n + Z.of_nat l + ex in
                match find_symbol off src n1 with
                | None => None
                | Some (t, l2) =>
                    match nth_error rfc_distances t with
                    | None => None
                    | Some (base2, ex2) =>
                        let dist := base2 + bits_from src (n1 + Z.of_nat l2) (Z.to_nat ex2) in
                        let m := n1 + Z.of_nat l2 + ex2 in
                        if (dist <=? Z.of_nat (length out)) && (m - n <=? budget) then
                          ref_symbols f budget lit off src m
                            (lz_copy out (Z.to_nat dist) (Z.to_nat (base + bits_from src (n + Z.of_nat l) (Z.to_nat ex))))
                        else None
                    end
                end
            end
      end
  end.

Lemma ref_symbols_ok budget lit off src : forall fuel n out n' out',
  ref_symbols fuel budget (code_list lit) (code_list off) src n out = Some (n', out') ->
  symbols budget lit off src n out n' out'.
Proof.
  induction fuel as [|f IH]; cbn [ref_symbols]; intros n out n' out' E; [discriminate|].
  destruct (find_symbol (code_list lit) src n) as [[s l]|] eqn:F; [|discriminate].
  apply find_symbol_ok in F.
  destruct (s =? 256)%nat eqn:E1.
  { apply Nat.eqb_eq in E1. subst s. injection E as <- <-. apply sym_end. exact F. }
  apply Nat.eqb_neq in E1. destruct (s <? 256)%nat eqn:E2.
  { apply Nat.ltb_lt in E2. exact (sym_literal _ _ _ _ _ _ _ _ _ _ F E2 (IH _ _ _ _ E)). }
  apply Nat.ltb_ge in E2. destruct (nth_error rfc_lengths (s - 257)) as [[base ex]|] eqn:E3; [|discriminate].
  cbv zeta in E. destruct (find_symbol (code_list off) src (n + Z.of_nat l + ex)) as [[t l2]|] eqn:F2; [|discriminate].
  apply find_symbol_ok in F2. destruct (nth_error rfc_distances t) as [[base2 ex2]|] eqn:E4; [|discriminate].
  match type of E with (if ?c then _ else _) = _ => destruct c eqn:E5; [|discriminate] end.
  apply andb_true_iff in E5. destruct E5 as (E5 & E6). apply Z.leb_le in E5, E6.
  eapply sym_match; [exact F|lia|exact E3|reflexivity|exact F2|exact E4|reflexivity|exact E5|reflexivity|exact E6|exact (IH _ _ _ _ E)].
Qed.

(** ** Code lengths *)

Definition ref_pre (src : list Z) (n : Z) (k : nat) : list Z :=
  let at_ i := if (i <? k)%nat then bits_from src (n + 3 * Z.of_nat i) 3 else 0 in
  [at_ 3; at_ 17; at_ 15; at_ 13; at_ 11; at_ 9; at_ 7; at_ 5; at_ 4; at_ 6; at_ 8; at_ 10; at_ 12; at_ 14; at_ 16; at_ 18;
   at_ 0; at_ 1; at_ 2]%nat.
Lemma ref_pre_ok src n k : precode src n k (ref_pre src n k).
Proof.
  split; [reflexivity|]. intros i Hi.
  do 19 (destruct i as [|i]; [reflexivity|]). lia.
Qed.

Definition ref_code (lens : list Z) : bool :=
  forallb (fun x => (0 <=? x) && (x <=? 15)) lens &&
  ((code_space lens =? 32768) || ((code_space lens =? 16384) && (count_len lens 1 =? 1)) || (code_space lens =? 0)).
Lemma ref_code_ok lens : ref_code lens = true -> code_lengths lens.
Proof.
  unfold ref_code, code_lengths. intros H. apply andb_true_iff in H. destruct H as (H1 & H2). split.
  - rewrite forallb_forall in H1. apply Forall_forall. intros x Hx. specialize (H1 x Hx). cbn beta in H1. lia.
  - change (2 ^ 15) with 32768. change (2 ^ 14) with 16384. lia.
Qed.

Fixpoint ref_lengths (fuel : nat) (pre : list (nat * (nat * Z))) (src : list Z) (total : nat) (n : Z) (acc : list Z)
    : option (Z * list Z) :=
  match fuel with
  | O => None
  | S f =>
      if (length acc =? total)%nat then Some (n, acc)
      else
        match find_symbol pre src n with
        | None => None
        | Some (s, l) =>
            let n1 := n + Z.of_nat l in
            if (s <? 16)%nat then
              if (length acc <? total)%nat then ref_lengths f pre src total n1 (acc ++ [Z.of_nat s]) else None
            else if (s =? 16)%nat then
              let k := (3 + Z.to_nat (bits_from src n1 2))%nat in
              if (0 <? length acc)%nat && (length acc + k <=? total)%nat then
                ref_lengths f pre src total (n1 + 2) (acc ++ repeat (last acc 0) k) else None
            else if (s =? 17)%nat then
              let k := (3 + Z.to_nat (bits_from src n1 3))%nat in
              if (length acc + k <=? total)%nat then ref_lengths f pre src total (n1 + 3) (acc ++ repeat 0 k) else None
            else if (s =? 18)%nat then
              let k := (11 + Z.to_nat (bits_from src n1 7))%nat in
              if (length acc + k <=? total)%nat then ref_lengths f pre src total (n1 + 7) (acc ++ repeat 0 k) else None
            else None
        end
  end.

Lemma ref_lengths_ok pre src total : forall fuel n acc n' acc',
  ref_lengths fuel (code_list pre) src total n acc = Some (n', acc') -> lengths pre src total n acc n' acc'.
Proof.
  induction fuel as [|f IH]; cbn [ref_lengths]; intros n acc n' acc' E; [discriminate|].
  destruct (length acc =? total)%nat eqn:E0.
  { apply Nat.eqb_eq in E0. injection E as <- <-. apply len_done. exact E0. }
  destruct (find_symbol (code_list pre) src n) as [[s l]|] eqn:F; [|discriminate]. apply find_symbol_ok in F. cbv zeta in E.
  destruct (s <? 16)%nat eqn:E1.
  { apply Nat.ltb_lt in E1. destruct (length acc <? total)%nat eqn:E2; [|discriminate]. apply Nat.ltb_lt in E2.
    eapply len_one; [exact F|exact E1|exact E2|exact (IH _ _ _ _ E)]. }
  destruct (s =? 16)%nat eqn:E2.
  { apply Nat.eqb_eq in E2. subst s.
    match type of E with (if ?c then _ else _) = _ => destruct c eqn:E5; [|discriminate] end.
    apply andb_true_iff in E5. destruct E5 as (E5 & E6). apply Nat.ltb_lt in E5. apply Nat.leb_le in E6.
    apply IH in E. assert (A : acc <> []) by (intros ->; cbn in E5; lia).
    pose proof (app_removelast_last 0 A) as R. set (x := last acc 0) in *. set (a := removelast acc) in *.
    assert (La : length acc = (length a + 1)%nat) by (rewrite R, app_length; reflexivity).
    rewrite R in E |- *. rewrite <- app_assoc in E.
    eapply len_again; [exact F|reflexivity|rewrite <- La; exact E6|exact E]. }
  destruct (s =? 17)%nat eqn:E3.
  { apply Nat.eqb_eq in E3. subst s.
    match type of E with (if ?c then _ else _) = _ => destruct c eqn:E5; [|discriminate] end. apply Nat.leb_le in E5.
    eapply len_zeros; [exact F|reflexivity|exact E5|exact (IH _ _ _ _ E)]. }
  destruct (s =? 18)%nat eqn:E4; [|discriminate].
  apply Nat.eqb_eq in E4. subst s.
  match type of E with (if ?c then _ else _) = _ => destruct c eqn:E5; [|discriminate] end. apply Nat.leb_le in E5.
  eapply len_many; [exact F|reflexivity|exact E5|exact (IH _ _ _ _ E)].
Qed.

Definition ref_dynamic (src : list Z) (n : Z) : option (list Z * list Z * Z) :=
  let hlit := (257 + Z.to_nat (bits_from src n 5))%nat in
  let hdist := (1 + Z.to_nat (bits_from src (n + 5) 5))%nat in
  let hclen := (4 + Z.to_nat (bits_from src (n + 10) 4))%nat in
  let pre := ref_pre src (n + 14) hclen in
  if ref_code pre then
    match ref_lengths 400 (code_list pre) src (hlit + hdist) (n + 14 + 3 * Z.of_nat hclen) [] with
    | None => None
    | Some (m, lens) =>
        if (length lens =? hlit + hdist)%nat && ref_code (firstn hlit lens) && ref_code (skipn hlit lens)
        then Some (firstn hlit lens, skipn hlit lens, m) else None
    end
  else None.
Lemma ref_dynamic_ok src n lit off m : ref_dynamic src n = Some (lit, off, m) -> dynamic src n lit off m.
Proof.
  unfold ref_dynamic, dynamic. cbv zeta. intros E.
  set (hlit := (257 + Z.to_nat (bits_from src n 5))%nat) in *. set (hdist := (1 + Z.to_nat (bits_from src (n + 5) 5))%nat) in *.
  set (hclen := (4 + Z.to_nat (bits_from src (n + 10) 4))%nat) in *. clearbody hlit hdist hclen.
  destruct (ref_code (ref_pre src (n + 14) hclen)) eqn:E1; [|discriminate].
  destruct (ref_lengths _ _ _ _ _ _) as [[m' lens]|] eqn:E2; [|discriminate]. apply ref_lengths_ok in E2.
  match type of E with (if ?c then _ else _) = _ => destruct c eqn:E5; [|discriminate] end.
  apply andb_true_iff in E5. destruct E5 as (E5 & E6). apply andb_true_iff in E5. destruct E5 as (E5 & E7).
  apply Nat.eqb_eq in E5. apply ref_code_ok in E6, E7. injection E as <- <- <-.
  exists (ref_pre src (n + 14) hclen). repeat split.
  - intros i Hi. apply (proj2 (ref_pre_ok src (n + 14) hclen) i Hi).
  - apply ref_code_ok, E1.
  - apply ref_code_ok, E1.
  - rewrite firstn_length. lia.
  - rewrite skipn_length. lia.
  - rewrite firstn_skipn. exact E2.
  - apply E7.
  - apply E7.
  - apply E6.
  - apply E6.
Qed.

(** ** Streams *)

Definition ref_block (budget : Z) (src : list Z) (btype n : Z) (out : list Z) : option (Z * list Z) :=
  if btype =? 0 then
    let p := Z.to_nat ((n + 7) / 8) in
    let len := Z.to_nat (bits_from src (8 * Z.of_nat p) 16) in
    if (bits_from src (8 * Z.of_nat p + 16) 16 =? 65535 - Z.of_nat len) && (p + 4 + len <=? length src)%nat
    then Some (8 * Z.of_nat (p + 4 + len), out ++ slice src (p + 4) len) else None
  else if btype =? 1 then
    ref_symbols (8 * length src) budget (code_list fixed_lit) (code_list fixed_off) src n out
  else if btype =? 2 then
    match ref_dynamic src n with
    | None => None
    | Some (lit, off, m) => ref_symbols (8 * length src) budget (code_list lit) (code_list off) src m out
    end
  else None.
Lemma ref_block_ok budget src btype n out n' out' :
  ref_block budget src btype n out = Some (n', out') -> block budget src btype n out n' out'.
Proof.
  unfold ref_block. intros E. destruct (Z.eqb_spec btype 0) as [->|_].
  { cbv zeta in E. match type of E with (if ?c then _ else _) = _ => destruct c eqn:E5; [|discriminate] end.
    apply andb_true_iff in E5. destruct E5 as (E5 & E6). apply Z.eqb_eq in E5. apply Nat.leb_le in E6.
    apply some_pair in E. destruct E as (<- & <-). apply block_stored; try reflexivity; assumption. }
  destruct (Z.eqb_spec btype 1) as [->|_]; [apply block_fixed, (ref_symbols_ok _ _ _ _ _ _ _ _ _ E)|].
  destruct (Z.eqb_spec btype 2) as [->|_]; [|discriminate].
  destruct (ref_dynamic src n) as [[[lit off] m]|] eqn:D; [|discriminate].
  apply ref_dynamic_ok in D. exact (block_dynamic _ _ _ _ _ _ _ _ _ D (ref_symbols_ok _ _ _ _ _ _ _ _ _ E)).
Qed.

Fixpoint ref_deflate (fuel : nat) (budget : Z) (src : list Z) (n : Z) (out : list Z) : option (Z * list Z) :=
  match fuel with
  | O => None
  | S f =>
      match ref_block budget src (bits_from src (n + 1) 2) (n + 3) out with
      | None => None
      | Some (m, out1) => if bit_at src n then Some (m, out1) else ref_deflate f budget src m out1
      end
  end.
Lemma ref_deflate_ok budget src : forall fuel n out n' out',
  ref_deflate fuel budget src n out = Some (n', out') -> deflated budget src n out n' out'.
Proof.
  induction fuel as [|f IH]; cbn [ref_deflate]; intros n out n' out' E; [discriminate|].
  destruct (ref_block _ _ _ _ _) as [[m out1]|] eqn:B; [|discriminate]. apply ref_block_ok in B.
  destruct (bit_at src n) eqn:Hb.
  - injection E as <- <-. eapply deflated_last; [exact Hb|reflexivity|exact B].
  - eapply deflated_more; [exact Hb|reflexivity|exact B|exact (IH _ _ _ _ E)].
Qed.

Definition ref_inflate (budget : Z) (bs : list Z) : option (list Z) :=
  if forallb (fun x => (0 <=? x) && (x <? 256)) bs then
    match ref_deflate (S (length bs)) budget bs 0 [] with
    | Some (n, out) => if Z.of_nat (length bs) =? (n + 7) / 8 then Some out else None
    | None => None
    end
  else None.
Theorem ref_inflate_ok budget bs out : ref_inflate budget bs = Some out -> deflate_stream budget bs out.
Proof.
  unfold ref_inflate, deflate_stream. intros E. destruct (forallb _ bs) eqn:B; [|discriminate].
  destruct (ref_deflate _ _ _ _ _) as [[n out1]|] eqn:D; [|discriminate]. apply ref_deflate_ok in D.
  destruct (Z.eqb_spec (Z.of_nat (length bs)) ((n + 7) / 8)) as [L|]; [|discriminate]. injection E as ->. split.
  - rewrite forallb_forall in B. apply Forall_forall. intros x Hx. specialize (B x Hx). cbn beta in B. unfold is_byte. lia.
  - exists n. split; assumption.
Qed.
