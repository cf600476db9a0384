(** Proofs about the thread model. *)
From Verif Require Import Base BaseProof ThreadModel ThreadSpec.

Lemma upd_error_same {A} (l : list A) i x : (i < length l)%nat -> nth_error (upd l i x) i = Some x.
Proof.
  revert i. induction l as [|y l IH]; intros i H; cbn [length] in H; [lia|].
  destruct i as [|i]; [reflexivity|]. cbn [upd nth_error]. apply IH. lia.
Qed.
Lemma upd_error_other {A} (l : list A) i j x : i <> j -> nth_error (upd l i x) j = nth_error l j.
Proof.
  revert i j. induction l as [|y l IH]; intros i j H; [reflexivity|].
  destruct i as [|i], j as [|j]; cbn [upd nth_error]; try easy. apply IH. lia.
Qed.
Lemma nth_error_lt {A} (l : list A) i x : nth_error l i = Some x -> (i < length l)%nat.
Proof. intros H. apply nth_error_Some. congruence. Qed.
Lemma nth_error_in_range {A} (l : list A) i : (i < length l)%nat -> exists x, nth_error l i = Some x.
Proof. intros H. destruct (nth_error l i) eqn:E; [now exists a|]. apply nth_error_None in E. lia. Qed.

Fixpoint sum_to (f : nat -> nat) (n : nat) : nat := match n with O => O | S k => (sum_to f k + f k)%nat end.
Lemma sum_to_ext f g n : (forall i, (i < n)%nat -> f i = g i) -> sum_to f n = sum_to g n.
Proof. induction n as [|n IH]; intros H; cbn [sum_to]; [easy|]. rewrite IH, H by (intros; auto; lia || apply H; lia). easy. Qed.
Definition set_fun (f : nat -> nat) (i v j : nat) : nat := if (j =? i)%nat then v else f j.
Lemma sum_to_set f i v n : (i < n)%nat -> (sum_to (set_fun f i v) n + f i = sum_to f n + v)%nat.
Proof.
  intros H. induction n as [|n IH]; [lia|]. cbn [sum_to]. unfold set_fun at 2. destruct (Nat.eqb_spec n i) as [->|N].
  - rewrite (sum_to_ext (set_fun f i v) f); [lia|]. intros j Hj. unfold set_fun. now replace (j =? i)%nat with false by lia.
  - specialize (IH ltac:(lia)). lia.
Qed.

Lemma sum_to_list ns N : length ns = N -> sum_to (fun i => S (nth i ns 0%nat)) N = (N + steps_total ns)%nat.
Proof.
  intros <-. assert (G : forall l k, (k <= length l)%nat -> sum_to (fun i => S (nth i l 0%nat)) k = (k + steps_total (firstn k l))%nat).
  { intros l k. induction k as [|k IH]; intros Hk; [reflexivity|]. cbn [sum_to]. rewrite IH by lia.
    assert (E : steps_total (firstn (S k) l) = (steps_total (firstn k l) + nth k l 0)%nat).
    { clear IH. revert k Hk. induction l as [|x l IHl]; intros k Hk; cbn [length] in Hk; [lia|].
      destruct k as [|k]; unfold steps_total in *; cbn [firstn fold_right nth]; [lia|]. specialize (IHl k ltac:(lia)). cbn [firstn] in IHl. lia. }
    lia. }
  rewrite G by lia. now rewrite firstn_all.
Qed.

Section Proofs.
Context {Mem Loc : Type} (start : nat -> Loc) (step : Loc -> Mem -> Mem * (Loc + outcome)).
Context (fs : list (Mem * outcome)).

(** Slot [i] is on the way to its own result [fs i], with [r] actions to go. *)
Definition slot_ok (i : nat) (t : tstate Loc) (m : Mem) (r : nat) : Prop :=
  exists f, nth_error fs i = Some f /\
  match t with
  | NotYet => exists k, r = S k /\ job step k (start i) m f
  | Running l => job step r l m f
  | Done o => r = O /\ f = (m, o)
  end.

Definition out_of (i : nat) (o : outcome) : Prop := exists m, nth_error fs i = Some (m, o).

Definition verdict_ok (c : config Mem Loc) : Prop :=
  match verdict c with
  | None => True
  | Some o => (o = TOk /\ joined c = length fs) \/ (o <> TOk /\ out_of (joined c) o /\ exists m, nth_error (slots c) (joined c) = Some (Done o, m))
  end.

Definition extra (c : config Mem Loc) : nat :=
  ((length fs - joined c) + (if verdict c then 0 else 1) + (if returned c then 0 else 1))%nat.

Record inv (c : config Mem Loc) (rem : nat -> nat) : Prop := Inv {
  inv_len : length (slots c) = length fs;
  inv_spawn : (spawned c <= length fs)%nat;
  inv_slot : forall i t m, nth_error (slots c) i = Some (t, m) -> slot_ok i t m (rem i) /\ ((i < spawned c)%nat <-> t <> NotYet);
  inv_joined : (joined c <= length fs)%nat /\ forall i, (i < joined c)%nat -> out_of i TOk;
  inv_phase : verdict c <> None \/ (0 < joined c)%nat -> spawned c = length fs;
  inv_verdict : verdict_ok c;
  inv_returned : forall r, returned c = Some r -> map snd (slots c) = map fst fs /\ r = combined (map snd fs) }.

Lemma job_pos n l m f : job step n l m f -> (1 <= n)%nat.
Proof. destruct 1; lia. Qed.

Lemma job_next n l m f : job step n l m f -> forall m' x, step l m = (m', x) ->
  match x with inl l' => exists k, n = S k /\ job step k l' m' f | inr o => n = 1%nat /\ f = (m', o) end.
Proof.
  intros H m' x E. destruct H as [l m m1 o E1 | n l m m1 l1 r E1 J]; rewrite E1 in E; injection E as <- <-.
  - now split.
  - now exists n.
Qed.

Lemma no_panic_iff os : existsb is_panic os = false <-> forall o, In o os -> o <> TPanic.
Proof.
  split.
  - intros H o Ho ->. assert (existsb is_panic os = true); [|congruence]. apply existsb_exists. now exists TPanic.
  - intros H. destruct (existsb is_panic os) eqn:E; [|easy]. apply existsb_exists in E as (o & Ho & P).
    destruct o; try easy. now destruct (H TPanic Ho).
Qed.

Lemma combined_app_ok a os : Forall (fun o => o = TOk) a -> combined (a ++ os) = combined os.
Proof.
  intros H. unfold combined. rewrite existsb_app.
  assert (E : existsb is_panic a = false). { apply no_panic_iff. intros o Ho. rewrite Forall_forall in H. now rewrite (H o Ho). }
  rewrite E. cbn [orb]. destruct (existsb is_panic os); [easy|].
  induction H as [|o a -> H IH]; cbn [app find]; [easy|]. apply IH. cbn [existsb] in E. now apply orb_false_iff in E.
Qed.

Lemma map_snd_slots (c : config Mem Loc) rem : inv c rem -> forallb done (slots c) = true ->
  map snd (slots c) = map fst fs /\ map (fun s => panicked s) (slots c) = map (fun f => is_panic (snd f)) fs.
Proof.
  intros [L S K J P V R] D. rewrite forallb_forall in D.
  assert (H : forall i s, nth_error (slots c) i = Some s -> exists f, nth_error fs i = Some f /\ snd s = fst f /\ panicked s = is_panic (snd f)).
  { intros i [t m] E. destruct (K i t m E) as [(f & F & T) _]. exists f. split; [easy|].
    specialize (D _ (nth_error_In _ _ E)). destruct t as [|l|o]; cbn in D; try discriminate. destruct T as [_ ->]. now split. }
  clear - H L. revert L H. generalize (slots c) as ss. intros ss. revert fs. induction ss as [|s ss IH]; intros [|f fs'] L H; try easy.
  cbn [length] in L. cbn [map]. destruct (H O s eq_refl) as (f' & E & A & B). injection E as ->.
  destruct (IH fs' ltac:(lia)) as [I1 I2].
  { intros i s' E. now apply (H (S i)). }
  split; f_equal; easy.
Qed.

Lemma act_inv limit a c c' rem : inv c rem -> act start step limit a c = Some c' ->
  exists rem', inv c' rem' /\ (sum_to rem' (length fs) + extra c' < sum_to rem (length fs) + extra c)%nat.
Proof.
  intros I E. unfold act in E. destruct (returned c) eqn:Rc; [easy|]. pose proof I as [L S K J P V R].
  destruct a as [|i| |].
  - (* spawn *)
    destruct (nth_error (slots c) (spawned c)) as [[t m]|] eqn:N; [|easy].
    destruct (match limit with Some n => (open c <=? n)%nat | None => true end); [|easy]. injection E as <-.
    destruct (K _ _ _ N) as [(f & F & T) Tn]. destruct t as [|l|o].
    2: { destruct Tn as [_ Tn]. specialize (Tn ltac:(easy)). lia. }
    2: { destruct Tn as [_ Tn]. specialize (Tn ltac:(easy)). lia. }
    destruct T as (k & Hk & Jk). pose proof (nth_error_lt _ _ _ N) as Lt.
    assert (Hs : (spawned c < length fs)%nat) by lia.
    exists (set_fun rem (spawned c) k). split.
    + constructor; cbn [slots spawned joined verdict returned].
      * now rewrite upd_length.
      * lia.
      * intros i t m' Ni. destruct (Nat.eq_dec (spawned c) i) as [<-|Ne].
        -- rewrite upd_error_same in Ni by easy. injection Ni as <- <-. split; [|split; [easy|lia]].
           exists f. split; [easy|]. unfold set_fun. now rewrite Nat.eqb_refl.
        -- rewrite upd_error_other in Ni by easy. destruct (K _ _ _ Ni) as [Ki Kn]. split.
           ++ unfold set_fun. now replace (i =? spawned c)%nat with false by lia.
           ++ rewrite <- Kn. lia.
      * easy.
      * intros H. specialize (P H). lia.
      * unfold verdict_ok in *. cbn [verdict joined slots]. destruct (verdict c) as [o|] eqn:Vc; [|easy].
        specialize (P ltac:(left; congruence)). lia.
      * easy.
    + pose proof (sum_to_set rem (spawned c) k (length fs) Hs). unfold extra. cbn [joined verdict returned]. rewrite Rc. lia.
  - (* a step of thread i *)
    destruct (nth_error (slots c) i) as [[t m]|] eqn:N; [|easy]. destruct t as [|l|o]; [easy| |easy].
    pose proof (nth_error_lt _ _ _ N) as Lt. assert (Hi : (i < length fs)%nat) by lia.
    destruct (K _ _ _ N) as [(f & F & T) Tn]. assert (Hsp : (i < spawned c)%nat) by (now apply Tn).
    assert (W : forall t' m' r' o', t' <> NotYet -> slot_ok i t' m' r' -> (r' < rem i)%nat ->
      let c2 := Config (upd (slots c) i (t', m')) (spawned c) o' (joined c) (verdict c) None in
      exists rem', inv c2 rem' /\ (sum_to rem' (length fs) + extra c2 < sum_to rem (length fs) + extra c)%nat).
    { intros t' m' r' o' Ht Hok Hr c2. exists (set_fun rem i r'). split.
      - constructor; subst c2; cbn [slots spawned joined verdict returned].
        + now rewrite upd_length.
        + easy.
        + intros j t2 m2 Nj. destruct (Nat.eq_dec i j) as [<-|Ne].
          * rewrite upd_error_same in Nj by easy. injection Nj as <- <-. split; [|easy]. unfold set_fun. now rewrite Nat.eqb_refl.
          * rewrite upd_error_other in Nj by easy. destruct (K _ _ _ Nj) as [Kj Kn]. split; [|easy].
            unfold set_fun. now replace (j =? i)%nat with false by lia.
        + easy.
        + exact P.
        + unfold verdict_ok in *. cbn [verdict joined slots]. destruct (verdict c) as [o|]; [|easy]. destruct V as [V|(V1 & V2 & m2 & V3)]; [now left|right].
          split; [easy|]. split; [easy|]. exists m2. rewrite upd_error_other; [easy|]. intros ->. rewrite N in V3. easy.
        + easy.
      - pose proof (sum_to_set rem i r' (length fs) Hi). subst c2. unfold extra. cbn [joined verdict returned]. rewrite Rc. lia. }
    destruct (step l m) as [m' [l'|o]] eqn:St; injection E as <-; pose proof (job_next _ _ _ _ T _ _ St) as Nx; cbv beta iota in Nx.
    + destruct Nx as (k & Hk & Jk). eapply (W (Running l') m' k); [easy| |lia]. exists f. now split.
    + destruct Nx as [Hk ->]. eapply (W (Done o) m' O); [easy| |lia]. exists (m', o). now repeat split.
  - (* join *)
    destruct (verdict c) as [?|] eqn:Vc; [easy|]. destruct (Nat.ltb_spec (spawned c) (length (slots c))) as [?|Hsp]; [easy|].
    assert (Hall : spawned c = length fs) by lia. clear Hsp.
    destruct (nth_error (slots c) (joined c)) as [[t m]|] eqn:N.
    + pose proof (nth_error_lt _ _ _ N) as Lt. destruct (K _ _ _ N) as [(f & F & T) Tn].
      destruct t as [|l|o]; [easy|easy|]. destruct T as [T0 ->]. assert (Oj : out_of (joined c) o) by (now exists m).
      assert (W : o <> TOk -> let c2 := Config (slots c) (spawned c) (open c) (joined c) (Some o) None in
        exists rem', inv c2 rem' /\ (sum_to rem' (length fs) + extra c2 < sum_to rem (length fs) + extra c)%nat).
      { intros Ho c2. exists rem. subst c2. split.
        - constructor; cbn [slots spawned joined verdict returned]; try easy.
          unfold verdict_ok. cbn [verdict joined slots]. right. split; [easy|]. split; [easy|]. now exists m.
        - unfold extra. cbn [joined verdict returned]. rewrite Vc, Rc. lia. }
      destruct o as [|code|]; injection E as <-; [|now apply W|now apply W].
      exists rem. split.
      * constructor; cbn [slots spawned joined verdict returned]; try easy.
        split; [lia|]. intros i Hi. destruct (Nat.eq_dec i (joined c)) as [->|Ne]; [easy|]. apply J. lia.
      * unfold extra. cbn [joined verdict returned]. rewrite Vc, Rc. lia.
    + injection E as <-. apply nth_error_None in N. exists rem. split.
      * constructor; cbn [slots spawned joined verdict returned]; try easy.
        unfold verdict_ok. cbn [verdict joined]. left. split; [easy|]. lia.
      * unfold extra. cbn [joined verdict returned]. rewrite Vc, Rc. lia.
  - (* the scope ends *)
    destruct (verdict c) as [o|] eqn:Vc; [|easy]. destruct (forallb done (slots c)) eqn:D; [|easy]. injection E as <-.
    destruct (map_snd_slots c rem I D) as [M1 M2]. exists rem. split.
    + constructor; cbn [slots spawned joined verdict returned]; try easy.
      * unfold verdict_ok in *. cbn [verdict joined slots]. now rewrite Vc in V.
      * intros r Hr. injection Hr as <-. split; [easy|].
        assert (Ex : existsb panicked (skipn (joined c) (slots c)) = existsb is_panic (map snd (skipn (joined c) fs))).
        { assert (G : forall A (p : A -> bool) l, existsb p l = existsb (fun b => b) (map p l)) by (induction l; cbn; congruence).
          rewrite (G _ panicked), (G _ is_panic), map_map, <- !skipn_map. f_equal. f_equal. exact M2. }
        rewrite Ex. clear Ex. unfold verdict_ok in V. rewrite Vc in V.
        assert (Fa : Forall (fun o => o = TOk) (map snd (firstn (joined c) fs))).
        { apply Forall_forall. intros o' Ho. apply in_map_iff in Ho as ([m' o2] & <- & Hin). apply In_nth_error in Hin as (k & Hk).
          pose proof (nth_error_lt _ _ _ Hk) as Lk. rewrite firstn_length in Lk.
          destruct J as [Jl J]. destruct (J k ltac:(lia)) as (m2 & Hm2).
          assert (nth_error (firstn (joined c) fs) k = nth_error fs k) as Ef.
          { rewrite <- (firstn_skipn (joined c) fs) at 2. rewrite nth_error_app1; [easy|]. rewrite firstn_length. lia. }
          rewrite Ef, Hm2 in Hk. now injection Hk as <- <-. }
        rewrite <- (firstn_skipn (joined c) fs) at 2. rewrite map_app, combined_app_ok by easy.
        destruct V as [[-> Hj] | (Ho & (mj & Oj) & _)].
        -- rewrite skipn_all2 by lia. reflexivity.
        -- unfold combined. destruct (existsb is_panic (map snd (skipn (joined c) fs))) eqn:Ep; [easy|].
           assert (Sk : exists l, skipn (joined c) fs = (mj, o) :: l).
           { apply nth_error_split in Oj as (l1 & l2 & -> & Hl1). exists l2. rewrite <- Hl1. rewrite skipn_app, skipn_all, Nat.sub_diag. reflexivity. }
           destruct Sk as (l & El). rewrite El in *. cbn [map find snd existsb] in *. destruct o; easy.
    + unfold extra. cbn [joined verdict returned]. rewrite Vc, Rc. lia.
Qed.

Lemma exec_inv limit sched : forall c rem c', inv c rem -> exec start step limit sched c = Some c' ->
  exists rem', inv c' rem' /\ (sum_to rem' (length fs) + extra c' + length sched <= sum_to rem (length fs) + extra c)%nat.
Proof.
  induction sched as [|a sched IH]; intros c rem c' I E; cbn [exec length] in *.
  - injection E as <-. exists rem. split; [easy|lia].
  - destruct (act start step limit a c) as [c1|] eqn:A; [|easy]. destruct (act_inv _ _ _ _ _ I A) as (rem1 & I1 & M1).
    destruct (IH _ _ _ I1 E) as (rem2 & I2 & M2). exists rem2. split; [easy|lia].
Qed.

(** The starting configuration. *)
Definition jobs (ms : list Mem) (ns : list nat) : Prop :=
  length ms = length fs /\ length ns = length fs /\
  forall i m f n, nth_error ms i = Some m -> nth_error fs i = Some f -> nth_error ns i = Some n -> job step n (start i) m f.

Lemma initial_inv ms ns : jobs ms ns -> inv (initial ms) (fun i => S (nth i ns 0%nat)).
Proof.
  intros (L1 & L2 & H). constructor; cbn [initial slots spawned joined verdict returned]; try easy.
  - now rewrite map_length.
  - lia.
  - intros i t m N. rewrite nth_error_map in N. destruct (nth_error ms i) as [m0|] eqn:E; [|easy]. injection N as <- <-.
    split; [|split; [lia|easy]]. pose proof (nth_error_lt _ _ _ E).
    destruct (nth_error_in_range fs i ltac:(lia)) as (f & F). destruct (nth_error_in_range ns i ltac:(lia)) as (n & Hn).
    exists f. split; [easy|]. exists (nth i ns 0%nat). split; [easy|]. rewrite (nth_error_nth ns i 0%nat Hn). now apply (H i).
  - split; [lia|]. intros; lia.
  - intros [?|?]; [easy|lia].
Qed.

(** Progress: unless the limit is in force and a thread panics, something can always happen. *)
Lemma act_progress limit c rem : inv c rem -> returned c = None ->
  (limit = None \/ ((open c <= length (filter (fun s => match fst s with Running _ => true | _ => false end) (slots c)))%nat)) ->
  exists a c', act start step limit a c = Some c'.
Proof.
  intros I Rc Hlim. pose proof I as [L S K J P V R].
  (* a running thread can step *)
  destruct (existsb (fun s => match fst s with Running _ => true | _ => false end) (slots c)) eqn:Ex.
  { apply existsb_exists in Ex as ([t m] & Hin & T). apply In_nth_error in Hin as (i & N). destruct t as [|l|]; try easy.
    exists (Step i). unfold act. rewrite Rc, N. destruct (step l m) as [m' [l'|o]]; eexists; reflexivity. }
  assert (NR : forall i t m, nth_error (slots c) i = Some (t, m) -> forall l, t <> Running l).
  { intros i t m N l ->. assert (existsb (fun s : tstate Loc * Mem => match fst s with Running _ => true | _ => false end) (slots c) = true); [|congruence].
    apply existsb_exists. exists (Running l, m). split; [|easy]. eapply nth_error_In. exact N. }
  assert (Z0 : filter (fun s : tstate Loc * Mem => match fst s with Running _ => true | _ => false end) (slots c) = []).
  { clear - Ex. revert Ex. induction (slots c) as [|s ss IH]; intros Ex; [easy|]. cbn [existsb] in Ex. apply orb_false_iff in Ex as [E1 E2].
    cbn [filter]. now rewrite E1, IH. }
  destruct (Nat.lt_ge_cases (spawned c) (length (slots c))) as [Hsp|Hsp].
  - destruct (nth_error_in_range (slots c) (spawned c) Hsp) as ([t m] & N).
    exists Spawn. unfold act. rewrite Rc, N.
    replace (match limit with Some n => (open c <=? n)%nat | None => true end) with true; [eexists; reflexivity|].
    destruct limit as [n|]; [|easy]. destruct Hlim as [?|Hlim]; [easy|]. rewrite Z0 in Hlim. cbn [length] in Hlim. symmetry. apply Nat.leb_le. lia.
  - assert (AD : forall i t m, nth_error (slots c) i = Some (t, m) -> exists o, t = Done o).
    { intros i t m N. pose proof (nth_error_lt _ _ _ N). destruct t as [|l|o]; [|now destruct (NR _ _ _ N l)|now exists o].
      destruct (K _ _ _ N) as [_ Kn]. destruct Kn as [Kn _]. now destruct (Kn ltac:(lia)). }
    destruct (verdict c) as [o|] eqn:Vc.
    + exists Return. unfold act. rewrite Rc, Vc.
      replace (forallb done (slots c)) with true; [eexists; reflexivity|]. symmetry. apply forallb_forall.
      intros [t m] Hin. apply In_nth_error in Hin as (i & N). destruct (AD _ _ _ N) as (o' & ->). reflexivity.
    + exists Join. unfold act. rewrite Rc, Vc. replace (spawned c <? length (slots c))%nat with false by lia.
      destruct (nth_error (slots c) (joined c)) as [[t m]|] eqn:N; [|eexists; reflexivity].
      destruct (AD _ _ _ N) as (o & ->). destruct o; eexists; reflexivity.
Qed.

(** The counter of open threads. *)
Definition live (s : tstate Loc * Mem) : bool := match fst s with Running _ => true | Done o => is_panic o | _ => false end.
Definition count_live (c : config Mem Loc) : nat := length (filter live (slots c)).

Lemma filter_upd {A} (p : A -> bool) l i x y : nth_error l i = Some y ->
  (length (filter p (upd l i x)) + (if p y then 1 else 0) = length (filter p l) + (if p x then 1 else 0))%nat.
Proof.
  revert i. induction l as [|z l IH]; intros i N; [now destruct i|]. destruct i as [|i]; cbn [upd nth_error filter] in *.
  - injection N as ->. destruct (p x), (p y); cbn [length]; lia.
  - specialize (IH i N). destruct (p z); cbn [length]; lia.
Qed.

Lemma act_open limit a c c' rem : inv c rem -> open c = count_live c -> act start step limit a c = Some c' ->
  open c' = count_live c' /\ (forall n, limit = Some n -> (open c <= n + 1)%nat -> (open c' <= n + 1)%nat).
Proof.
  intros I O E. unfold act in E. destruct (returned c); [easy|]. unfold count_live in *. destruct a as [|i| |].
  - destruct (nth_error (slots c) (spawned c)) as [[t m]|] eqn:N; [|easy].
    destruct (match limit with Some n => (open c <=? n)%nat | None => true end) eqn:G; [|easy]. injection E as <-. cbn [open slots].
    pose proof (filter_upd live (slots c) (spawned c) (Running (start (spawned c)), m) _ N) as Fu.
    destruct I as [L S K J P V R]. destruct (K _ _ _ N) as [_ Kn]. destruct t as [|l|o]; cbn [live fst] in Fu.
    + split; [lia|]. intros n ->. apply Nat.leb_le in G. lia.
    + destruct Kn as [_ Kn]. specialize (Kn ltac:(easy)). lia.
    + destruct Kn as [_ Kn]. specialize (Kn ltac:(easy)). lia.
  - destruct (nth_error (slots c) i) as [[t m]|] eqn:N; [|easy]. destruct t as [|l|o]; [easy| |easy].
    destruct (step l m) as [m' [l'|o]] eqn:St; injection E as <-; cbn [open slots].
    + pose proof (filter_upd live (slots c) i (Running l', m') _ N) as Fu. cbn [live fst] in Fu. split; [lia|easy].
    + pose proof (filter_upd live (slots c) i (Done o, m') _ N) as Fu. cbn [live fst] in Fu. destruct (is_panic o); split; try lia; intros; lia.
  - destruct (verdict c); [easy|]. destruct (spawned c <? length (slots c))%nat; [easy|].
    destruct (nth_error (slots c) (joined c)) as [[t m]|]; [destruct t as [| |[| |]]; try easy|]; injection E as <-; cbn [open slots]; split; easy || auto.
  - destruct (verdict c); [|easy]. destruct (forallb done (slots c)); [|easy]. injection E as <-. cbn [open slots]. split; easy || auto.
Qed.

Lemma exec_open limit sched : forall c rem c', inv c rem -> open c = count_live c -> exec start step limit sched c = Some c' ->
  open c' = count_live c' /\ (forall n, limit = Some n -> (open c <= n + 1)%nat -> (open c' <= n + 1)%nat).
Proof.
  induction sched as [|a sched IH]; intros c rem c' I O E; cbn [exec] in E.
  - injection E as <-. split; [easy|auto].
  - destruct (act start step limit a c) as [c1|] eqn:A; [|easy]. destruct (act_inv _ _ _ _ _ I A) as (rem1 & I1 & _).
    destruct (act_open _ _ _ _ _ I O A) as [O1 B1]. destruct (IH _ _ _ I1 O1 E) as [O2 B2]. split; [easy|]. intros n Hn H. auto.
Qed.

(** Without panics the live threads are the running ones. *)
Lemma live_running c rem : inv c rem -> Forall (fun f => snd f <> TPanic) fs ->
  count_live c = length (filter (fun s => match fst s with Running _ => true | _ => false end) (slots c)).
Proof.
  intros [L S K J P V R] NP. unfold count_live. f_equal. apply filter_ext_in. intros [t m] Hin. apply In_nth_error in Hin as (i & N).
  destruct (K _ _ _ N) as [(f & F & T) _]. destruct t as [|l|o]; try easy. cbn [live fst]. destruct T as [_ ->].
  rewrite Forall_forall in NP. specialize (NP _ (nth_error_In _ _ F)). cbn [snd] in NP. destruct o; easy.
Qed.

Lemma initial_open ms : open (initial ms : config Mem Loc) = count_live (initial ms).
Proof. unfold count_live. cbn [initial open slots]. induction ms as [|m ms IH]; [easy|]. cbn [map filter live fst]. exact IH. Qed.

End Proofs.

(** ** The sequential version *)

Lemma job_run_alone {Mem Loc} (step : Loc -> Mem -> Mem * (Loc + outcome)) n l m f : job step n l m f -> forall fuel, (n <= fuel)%nat -> run_alone step fuel l m = Some f.
Proof.
  induction 1 as [l m m' o E | n l m m' l' r E Jb IH]; intros fuel Hf; (destruct fuel as [|fuel]; [lia|]); cbn [run_alone]; rewrite E; [easy|].
  apply IH. lia.
Qed.

Lemma run_seq_ok {Mem Loc} (start : nat -> Loc) (step : Loc -> Mem -> Mem * (Loc + outcome)) fuel : forall (ms : list Mem) fs ns i,
  length ms = length fs -> length ns = length fs ->
  (forall k m f n, nth_error ms k = Some m -> nth_error fs k = Some f -> nth_error ns k = Some n -> job step n (start (i + k)%nat) m f) ->
  (forall n, In n ns -> (n <= fuel)%nat) ->
  exists ms', run_seq start step fuel i ms = Some (ms', match find (fun o => match o with TOk => false | _ => true end) (map snd fs) with Some o => o | None => TOk end) /\
    (Forall (fun f => snd f = TOk) fs -> ms' = map fst fs).
Proof.
  induction ms as [|m ms IH]; intros [|f fs] [|n ns] i L1 L2 H Hn; try easy; cbn [run_seq map find].
  - exists []. now split.
  - cbn [length] in *. pose proof (H O m f n eq_refl eq_refl eq_refl) as J. rewrite Nat.add_0_r in J.
    rewrite (job_run_alone step _ _ _ _ J) by (apply Hn; now left).
    destruct (IH fs ns (S i) ltac:(lia) ltac:(lia)) as (ms' & E & Q).
    + intros k m1 f1 n1 A B C. specialize (H (S k) m1 f1 n1 A B C). now replace (S i + k)%nat with (i + S k)%nat by lia.
    + intros n' Hin. apply Hn. now right.
    + destruct f as [m1 o]. destruct o as [|code|]; cbn [snd].
      * rewrite E. eexists. split; [reflexivity|]. intros F. apply Forall_cons_iff in F as [_ F]. cbn [fst map]. f_equal. now apply Q.
      * eexists. split; [reflexivity|]. intros F. apply Forall_cons_iff in F as [F _]. easy.
      * eexists. split; [reflexivity|]. intros F. apply Forall_cons_iff in F as [F _]. easy.
Qed.
