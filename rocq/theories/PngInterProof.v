From Verif Require Import Base BaseProof Loops Slices PngFilterModel PngFilterSpec PngFilterProof PngFilterProps PngRowModel PngSpec PngRowProof PngLoopProof.

(** * From rows to the picture *)
Lemma shown_ext l w row f : (forall i, (i < w)%nat -> samples (l_depth l) (l_comps l) row i = f i) ->
  shown l w row = concat (map (fun i => show l (f i)) (seq 0 w)).
Proof. intros H. unfold shown. apply concat_ext. intros i Hi. now rewrite H. Qed.
Lemma rows_picture l w h px rows : holds (l_depth l) (l_comps l) w h px rows -> concat (map (shown l w) rows) = picture l w h px.
Proof.
  intros (L & _ & _ & H). unfold picture. f_equal. apply (list_eq_nth []); [rewrite !map_length, seq_length; auto|].
  rewrite map_length, L. intros y Hy. rewrite (map_nth_in _ _ _ []) by lia. rewrite (map_nth_in _ _ _ 0%nat) by (rewrite seq_length; lia).
  rewrite seq_nth by lia. cbn [Nat.add]. apply shown_ext. auto.
Qed.
Lemma show_bytes x row i : supported x -> bytes (show (look_of x) (samples (depth x) (color_comps (col x)) row i)).
Proof.
  intros (Lg & _ & _ & _ & _ & PB). unfold show, look_of. cbn [l_pal l_key l_depth l_add l_pal_alpha].
  destruct (is_palette (col x)).
  - set (k := Z.to_nat _). assert (E : entry_ok (nth k (palette x) (0, 0, 0, 255))).
    { destruct (Nat.lt_ge_cases k (length (palette x))); [rewrite Forall_forall in PB; apply PB; now apply nth_In|]. rewrite nth_overflow by lia. repeat constructor; unfold is_byte; lia. }
    change entry with colour_entry in E. destruct (@nth colour_entry _ _ _) as [[[r g] b] a]. unfold entry_ok in E. destruct (_ || _); [exact E|].
    unfold bytes in *. inversion E as [|? ? E1 E2]; inversion E2 as [|? ? E3 E4]; inversion E4 as [|? ? E5 E6]; subst. repeat (apply Forall_cons; [assumption|]). constructor.
  - apply bytes_app. split.
    + unfold samples. rewrite map_map. induction (seq 0 (color_comps (col x))) as [|c l IH]; [constructor|]. cbn [map concat]. apply bytes_app. split; [|exact IH].
      unfold full. destruct (depth x =? 16)%nat; [apply be_bytes_bytes|]. constructor; [|constructor]. pose proof (sample_bound (depth x) row (i * color_comps (col x) + c)) as B.
      set (s := sample _ _ _) in *. clearbody s. assert (D : (0 < depth x)%nat) by (unfold legal in Lg; destruct (col x); cbn in Lg; lia).
      assert (P : 2 <= 2 ^ Z.of_nat (depth x)) by (change 2 with (2 ^ 1) at 1; apply Z.pow_le_mono_r; lia).
      set (m := 2 ^ Z.of_nat (depth x)) in *. clearbody m. unfold is_byte. split; [apply Z.div_pos; lia|]. apply Z.div_lt_upper_bound; nia.
    + unfold clear, opaque. destruct (seen_trns x && _); [destruct (list_eq_dec _ _ _)|destruct (adds_alpha x)]; destruct (depth x =? 16)%nat; repeat constructor; unfold is_byte; lia.
Qed.
Lemma shown_bytes x w row : supported x -> bytes (shown (look_of x) w row).
Proof.
  intros S. unfold shown. cbn [look_of l_depth l_comps]. induction (seq 0 w) as [|c l IH]; [constructor|]. cbn [map concat]. apply bytes_app. split; [now apply show_bytes|exact IH].
Qed.
Lemma concat_bytes ls : Forall bytes ls -> bytes (concat ls).
Proof. intros H. induction H; [constructor|]. cbn [concat]. apply bytes_app. auto. Qed.

(** * The pattern *)
Lemma grid_check : forallb (fun k => let '(xo, yo, xs, ys) := nth k passes (0, 0, 0, 0)%nat in
  forallb (fun a => forallb (fun b => Bool.eqb (nth a (nth b adam7 []) 0 =? S k)%nat ((a mod xs =? xo) && (b mod ys =? yo))%nat) (seq 0 8)) (seq 0 8)) (seq 0 7) = true.
Proof. vm_compute. reflexivity. Qed.
Lemma mod8 a s : In s [1; 2; 4; 8]%nat -> (a mod s = (a mod 8) mod s)%nat.
Proof. intros [<-|[<-|[<-|[<-|[]]]]]; lia. Qed.
Lemma pass_shape k xo yo xs ys : (k < 7)%nat -> nth k passes (0, 0, 0, 0)%nat = (xo, yo, xs, ys) ->
  In xs [1; 2; 4; 8]%nat /\ In ys [1; 2; 4; 8]%nat /\ (xo < xs)%nat /\ (yo < ys)%nat.
Proof.
  intros H E. destruct k as [|[|[|[|[|[|[|k]]]]]]]; [| | | | | | |lia]; cbn in E; injection E as <- <- <- <-; cbn; lia.
Qed.
Lemma pass_grid k xo yo xs ys y x : (k < 7)%nat -> nth k passes (0, 0, 0, 0)%nat = (xo, yo, xs, ys) ->
  (pass_at y x =? S k)%nat = ((x mod xs =? xo) && (y mod ys =? yo))%nat.
Proof.
  intros H E. pose proof grid_check as G. rewrite forallb_forall in G. specialize (G k ltac:(apply in_seq; lia)). rewrite E in G.
  assert (X : (x mod 8 < 8)%nat) by (apply Nat.mod_upper_bound; lia). assert (Y : (y mod 8 < 8)%nat) by (apply Nat.mod_upper_bound; lia).
  rewrite forallb_forall in G. specialize (G (x mod 8)%nat ltac:(apply in_seq; lia)). rewrite forallb_forall in G. specialize (G (y mod 8)%nat ltac:(apply in_seq; lia)).
  apply eqb_prop in G. destruct (pass_shape k xo yo xs ys H E) as (A & B & _). unfold pass_at. rewrite G, <- !mod8 by auto. reflexivity.
Qed.
Lemma filter_mod n s o : In s [1; 2; 4; 8]%nat -> (o < s)%nat ->
  List.filter (fun x => (x mod s =? o)%nat) (seq 0 n) = map (fun i => (i * s + o)%nat) (seq 0 (pass_size n o s)).
Proof.
  intros Hs Ho. induction n as [|n IH].
  - unfold pass_size. rewrite Nat.div_small by lia. reflexivity.
  - rewrite seq_S, filter_app, IH. cbn [List.filter Nat.add].
    destruct (Nat.eqb_spec (n mod s) o) as [E|E].
    + assert (A : pass_size (S n) o s = S (pass_size n o s) /\ (pass_size n o s * s + o = n)%nat).
      { unfold pass_size. clear IH. destruct Hs as [<-|[<-|[<-|[<-|[]]]]]; lia. }
      destruct A as [-> A]. rewrite seq_S, map_app. cbn [map Nat.add]. now rewrite A.
    + assert (A : pass_size (S n) o s = pass_size n o s) by (unfold pass_size; clear IH; destruct Hs as [<-|[<-|[<-|[<-|[]]]]]; lia).
      now rewrite A, app_nil_r.
Qed.
Lemma existsb_mod n s o : In s [1; 2; 4; 8]%nat -> (o < s)%nat -> existsb (fun x => (x mod s =? o)%nat) (seq 0 n) = negb (pass_size n o s =? 0)%nat.
Proof.
  intros Hs Ho. assert (E : pass_size n o s = 0%nat <-> (n <= o)%nat) by (unfold pass_size; destruct Hs as [<-|[<-|[<-|[<-|[]]]]]; lia).
  destruct (Nat.eqb_spec (pass_size n o s) 0) as [Z|Z]; cbn [negb].
  - apply E in Z. apply not_true_iff_false. rewrite existsb_exists. intros (x & Hx & H). apply in_seq in Hx. apply Nat.eqb_eq in H. rewrite Nat.mod_small in H by lia. lia.
  - apply existsb_exists. exists o. split; [apply in_seq; lia|]. apply Nat.eqb_eq, Nat.mod_small. lia.
Qed.
Lemma existsb_and_l {A} (f : A -> bool) b l : existsb (fun y => b && f y) l = b && existsb f l.
Proof. induction l as [|y l IH]; cbn [existsb]; [now rewrite andb_false_r|]. rewrite IH. destruct b, (f y); reflexivity. Qed.
Lemma existsb_ext' {A} (f g : A -> bool) l : (forall y, f y = g y) -> existsb f l = existsb g l.
Proof. intros H. induction l as [|y l IH]; [reflexivity|]. cbn [existsb]. now rewrite H, IH. Qed.

Lemma pass_cols_eq k xo yo xs ys w h : (k < 7)%nat -> nth k passes (0, 0, 0, 0)%nat = (xo, yo, xs, ys) ->
  pass_cols (S k) w h = if (pass_size h yo ys =? 0)%nat then [] else map (fun i => (i * xs + xo)%nat) (seq 0 (pass_size w xo xs)).
Proof.
  intros H E. destruct (pass_shape k xo yo xs ys H E) as (A & B & C & D). unfold pass_cols.
  rewrite (filter_ext _ (fun x => (x mod xs =? xo)%nat && negb (pass_size h yo ys =? 0)%nat)).
  - destruct (pass_size h yo ys =? 0)%nat; cbn [negb].
    + induction (seq 0 w) as [|y l IH]; [reflexivity|]. cbn [List.filter]. now rewrite andb_false_r.
    + rewrite <- (filter_mod w xs xo) by auto. apply filter_ext. intros x. apply andb_true_r.
  - intros x. rewrite (existsb_ext' _ (fun y => (x mod xs =? xo)%nat && (y mod ys =? yo)%nat)) by (intros y; now apply pass_grid).
    rewrite existsb_and_l. now rewrite existsb_mod.
Qed.
Lemma pass_rows_eq k xo yo xs ys w h : (k < 7)%nat -> nth k passes (0, 0, 0, 0)%nat = (xo, yo, xs, ys) ->
  pass_rows (S k) w h = if (pass_size w xo xs =? 0)%nat then [] else map (fun i => (i * ys + yo)%nat) (seq 0 (pass_size h yo ys)).
Proof.
  intros H E. destruct (pass_shape k xo yo xs ys H E) as (A & B & C & D). unfold pass_rows.
  rewrite (filter_ext _ (fun y => (y mod ys =? yo)%nat && negb (pass_size w xo xs =? 0)%nat)).
  - destruct (pass_size w xo xs =? 0)%nat; cbn [negb].
    + induction (seq 0 h) as [|y l IH]; [reflexivity|]. cbn [List.filter]. now rewrite andb_false_r.
    + rewrite <- (filter_mod h ys yo) by auto. apply filter_ext. intros x. apply andb_true_r.
  - intros y. rewrite (existsb_ext' _ (fun x => (y mod ys =? yo)%nat && (x mod xs =? xo)%nat)) by (intros x; rewrite (pass_grid k xo yo xs ys) by auto; apply andb_comm).
    rewrite existsb_and_l. now rewrite existsb_mod.
Qed.
Lemma pass_at_range y x : (1 <= pass_at y x <= 7)%nat.
Proof.
  unfold pass_at. assert (X : (x mod 8 < 8)%nat) by (apply Nat.mod_upper_bound; lia). assert (Y : (y mod 8 < 8)%nat) by (apply Nat.mod_upper_bound; lia).
  set (a := (x mod 8)%nat) in *. set (b := (y mod 8)%nat) in *. clearbody a b.
  assert (F : forallb (fun b => forallb (fun a => ((1 <=? nth a (nth b adam7 []) 0) && (nth a (nth b adam7 []) 0 <=? 7))%nat) (seq 0 8)) (seq 0 8) = true) by reflexivity.
  rewrite forallb_forall in F. specialize (F b ltac:(apply in_seq; lia)). rewrite forallb_forall in F. specialize (F a ltac:(apply in_seq; lia)). lia.
Qed.

(** * Copying a pass into the image *)
Definition block (ob : nat) (l : list Z) (k : nat) : list Z := slice l (k * ob) ob.
Lemma block_put ob l k px k' : length px = ob -> (k * ob + ob <= length l)%nat -> (k' * ob + ob <= length l)%nat ->
  block ob (put l (k * ob) px) k' = if (k' =? k)%nat then px else block ob l k'.
Proof.
  intros L H H'. unfold block. apply (list_eq_nth 0).
  - rewrite slice_length by (rewrite put_length; lia). destruct (k' =? k)%nat; [auto|]. now rewrite slice_length.
  - rewrite slice_length by (rewrite put_length; lia). intros j Hj. rewrite slice_nth by lia. rewrite put_nth by lia.
    destruct (Nat.eqb_spec k' k) as [->|N].
    + replace ((k * ob <=? k * ob + j) && (k * ob + j <? k * ob + length px))%nat with true by lia. f_equal. lia.
    + replace ((k * ob <=? k' * ob + j) && (k' * ob + j <? k * ob + length px))%nat with false; [now rewrite slice_nth|].
      rewrite L. assert (k' < k \/ k < k')%nat as [G|G] by lia.
      * assert ((k' + 1) * ob <= k * ob)%nat by (apply Nat.mul_le_mono_r; lia). lia.
      * assert ((k + 1) * ob <= k' * ob)%nat by (apply Nat.mul_le_mono_r; lia). lia.
Qed.
Lemma col_in n o s i : In s [1; 2; 4; 8]%nat -> (o < s)%nat -> (i < pass_size n o s)%nat -> (i * s + o < n)%nat.
Proof. unfold pass_size. intros [<-|[<-|[<-|[<-|[]]]]] Ho H; lia. Qed.
Lemma row_major_inj w y x y' x' : (x < w)%nat -> (x' < w)%nat -> (y * w + x = y' * w + x')%nat -> y = y' /\ x = x'.
Proof.
  intros H H' E. assert (y < y' \/ y' < y \/ y = y')%nat as [G|[G|G]] by lia.
  - assert ((y + 1) * w <= y' * w)%nat by (apply Nat.mul_le_mono_r; lia). lia.
  - assert ((y' + 1) * w <= y * w)%nat by (apply Nat.mul_le_mono_r; lia). lia.
  - subst. lia.
Qed.
Lemma row_major_lt w h y x : (x < w)%nat -> (y < h)%nat -> (y * w + x < w * h)%nat.
Proof. intros H H'. assert ((y + 1) * w <= h * w)%nat by (apply Nat.mul_le_mono_r; lia). lia. Qed.

Section Place.
Variables (w h ob xo yo xs ys : nat).
Hypothesis (Xs : In xs [1; 2; 4; 8]%nat) (Ys : In ys [1; 2; 4; 8]%nat) (Xo : (xo < xs)%nat) (Yo : (yo < ys)%nat).
Let pw := pass_size w xo xs.
Let ph := pass_size h yo ys.
Definition pix_at (j i : nat) : nat := ((j * ys + yo) * w + (i * xs + xo))%nat.
Lemma pix_at_lt j i : (j < ph)%nat -> (i < pw)%nat -> (pix_at j i < w * h)%nat.
Proof. intros Hj Hi. apply row_major_lt; now apply col_in. Qed.
Lemma pix_at_inj j i j' i' : (i < pw)%nat -> (i' < pw)%nat -> pix_at j i = pix_at j' i' -> j = j' /\ i = i'.
Proof.
  intros Hi Hi' E. apply row_major_inj in E; [|now apply col_in..]. destruct E as [A B].
  assert (0 < xs /\ 0 < ys)%nat as [? ?] by lia. split; [apply (proj1 (Nat.mul_cancel_r j j' ys ltac:(lia))); lia|apply (proj1 (Nat.mul_cancel_r i i' xs ltac:(lia))); lia].
Qed.
Definition copied (tmp out out' : list Z) (Q : nat -> nat -> Prop) : Prop :=
  length out' = length out /\
  (forall j i, (j < ph)%nat -> (i < pw)%nat -> Q j i -> block ob out' (pix_at j i) = block ob tmp (j * pw + i)) /\
  (forall k, (k < w * h)%nat -> (forall j i, (j < ph)%nat -> (i < pw)%nat -> Q j i -> k <> pix_at j i) -> block ob out' k = block ob out k).
Lemma block_bound (l : list Z) k : length l = (w * h * ob)%nat -> (k < w * h)%nat -> (k * ob + ob <= length l)%nat.
Proof. intros -> H. assert ((k + 1) * ob <= w * h * ob)%nat by (apply Nat.mul_le_mono_r; lia). lia. Qed.
Lemma place_px_ok tmp out out' Q j i : length out = (w * h * ob)%nat -> (pw * ph * ob <= length tmp)%nat -> copied tmp out out' Q -> (j < ph)%nat -> (i < pw)%nat ->
  exists out2, place_px w ob pw (xo, yo, xs, ys) tmp j i out' = Ok out2 /\ copied tmp out out2 (fun j' i' => Q j' i' \/ (j' = j /\ i' = i)).
Proof.
  intros Lo Lt (L & C1 & C2) Hj Hi. pose proof (pix_at_lt j i Hj Hi) as P.
  assert (T : ((j * pw + i) * ob + ob <= length tmp)%nat).
  { pose proof (row_major_lt pw ph j i Hi Hj) as R. assert ((j * pw + i + 1) * ob <= pw * ph * ob)%nat by (apply Nat.mul_le_mono_r; lia). lia. }
  pose proof (block_bound out' (pix_at j i) ltac:(congruence) P) as B.
  unfold place_px. replace ((j * ys + yo) * w * ob + (i * xs + xo) * ob)%nat with (pix_at j i * ob)%nat by (unfold pix_at; lia).
  replace (pix_at j i * ob + ob <=? length out')%nat with true by lia. rewrite get_slice_ok by exact T. cbn [bind].
  assert (SL : length (slice tmp ((j * pw + i) * ob) ob) = ob) by (now apply slice_length).
  rewrite put_slice_ok by (rewrite SL; exact B). eexists. split; [reflexivity|]. split; [rewrite put_length; [exact L|now rewrite SL]|]. split.
  - intros j' i' Hj' Hi' H. rewrite block_put; [|exact SL|exact B|apply block_bound; [congruence|now apply pix_at_lt]].
    destruct (Nat.eqb_spec (pix_at j' i') (pix_at j i)) as [E|N].
    + apply pix_at_inj in E; [|auto..]. destruct E as [-> ->]. reflexivity.
    + destruct H as [H|[-> ->]]; [now apply C1|congruence].
  - intros k Hk H. rewrite block_put; [|exact SL|exact B|apply block_bound; [congruence|exact Hk]].
    rewrite (proj2 (Nat.eqb_neq k (pix_at j i))) by (apply H; auto). apply C2; [exact Hk|]. intros j' i' A1 A2 A3. apply H; auto.
Qed.
Lemma copied_impl tmp out out' (Q Q' : nat -> nat -> Prop) : (forall j i, (j < ph)%nat -> (i < pw)%nat -> Q j i <-> Q' j i) -> copied tmp out out' Q -> copied tmp out out' Q'.
Proof.
  intros H (L & C1 & C2). split; [exact L|]. split.
  - intros j i Hj Hi q. apply C1; auto. now apply H.
  - intros k Hk F. apply C2; [exact Hk|]. intros j i Hj Hi q. apply F; auto. now apply H.
Qed.
Lemma place_ok tmp out : length out = (w * h * ob)%nat -> (pw * ph * ob <= length tmp)%nat ->
  exists out', place w ob pw ph (xo, yo, xs, ys) tmp out = Ok out' /\ copied tmp out out' (fun _ _ => True).
Proof.
  intros Lo Lt. unfold place.
  destruct (for_range_inv (fun j o => copied tmp out o (fun j' _ => (j' < j)%nat)) 0 ph (fun j => for_range 0 pw (fun i => place_px w ob pw (xo, yo, xs, ys) tmp j i)) out) as (o' & E & C).
  - lia.
  - split; [reflexivity|]. split; [intros; lia|reflexivity].
  - intros j o Hj C.
    destruct (for_range_inv (fun i o => copied tmp out o (fun j' i' => (j' < j)%nat \/ (j' = j /\ (i' < i)%nat))) 0 pw (fun i => place_px w ob pw (xo, yo, xs, ys) tmp j i) o) as (o' & E & C').
    + lia.
    + eapply copied_impl; [|exact C]. intros j' i' _ _. cbn beta. lia.
    + intros i o1 Hi C1. destruct (place_px_ok tmp out o1 _ j i Lo Lt C1) as (o2 & E2 & C2); [lia..|].
      exists o2. split; [exact E2|]. eapply copied_impl; [|exact C2]. intros j' i' _ _. cbn beta. lia.
    + exists o'. split; [exact E|]. eapply copied_impl; [|exact C']. intros j' i' A B. cbn beta. lia.
  - exists o'. split; [exact E|]. eapply copied_impl; [|exact C]. intros j i A B. cbn beta. split; auto.
Qed.
End Place.

Lemma slice_concat {A} (f : nat -> list A) n m k a b r : (forall i, (i < n)%nat -> length (f i) = m) -> (k < n)%nat -> (a + b <= m)%nat ->
  slice (concat (map f (seq 0 n)) ++ r) (k * m + a) b = slice (f k) a b.
Proof.
  intros F Hk Hab. replace n with (k + S (n - S k))%nat by lia. rewrite seq_app, map_app, concat_app. cbn [Nat.add seq map concat].
  assert (L : length (concat (map f (seq 0 k))) = (k * m)%nat).
  { rewrite (concat_length_const m); [now rewrite map_length, seq_length|]. apply Forall_forall. intros l Hl. apply in_map_iff in Hl. destruct Hl as (i & <- & Hi). apply in_seq in Hi. apply F. lia. }
  rewrite <- !app_assoc. unfold slice. rewrite <- skipn_skipn', skipn_app_exact by exact L.
  rewrite skipn_app, firstn_app, skipn_length, (F k Hk). replace (b - (m - a))%nat with 0%nat by lia. cbn [firstn]. apply app_nil_r.
Qed.
Lemma row_show_length x w f : supported x -> (forall i, (i < w)%nat -> length (f i) = color_comps (col x)) ->
  length (concat (map (fun i => show (look_of x) (f i)) (seq 0 w))) = (w * (out_comps x * sample_bytes x))%nat.
Proof.
  intros S L. rewrite (concat_length_const (out_comps x * sample_bytes x)); [now rewrite map_length, seq_length|].
  apply Forall_forall. intros l Hl. apply in_map_iff in Hl. destruct Hl as (i & <- & Hi). apply in_seq in Hi. apply show_length; [exact S|]. apply L. lia.
Qed.
Lemma block_picture x w h px r y i : supported x -> (forall y i, (y < h)%nat -> (i < w)%nat -> length (px y i) = color_comps (col x)) ->
  (y < h)%nat -> (i < w)%nat ->
  block (out_comps x * sample_bytes x) (picture (look_of x) w h px ++ r) (y * w + i) = show (look_of x) (px y i).
Proof.
  intros S L Hy Hi. set (ob := (out_comps x * sample_bytes x)%nat). unfold block, picture.
  replace ((y * w + i) * ob)%nat with (y * (w * ob) + i * ob)%nat by lia.
  rewrite slice_concat; [|intros y' Hy'; apply row_show_length; auto|exact Hy|].
  - rewrite <- (app_nil_r (concat _)), <- (Nat.add_0_r (i * ob)), slice_concat; [|intros i' Hi'; apply show_length; auto|exact Hi|unfold ob; lia].
    unfold slice. cbn [skipn]. apply firstn_all2. rewrite show_length; auto.
  - assert ((i + 1) * ob <= w * ob)%nat by (apply Nat.mul_le_mono_r; lia). lia.
Qed.
Lemma picture_length x w h px : supported x -> (forall y i, (y < h)%nat -> (i < w)%nat -> length (px y i) = color_comps (col x)) ->
  length (picture (look_of x) w h px) = (w * h * (out_comps x * sample_bytes x))%nat.
Proof.
  intros S L. unfold picture. rewrite (concat_length_const (w * (out_comps x * sample_bytes x))); [rewrite map_length, seq_length; lia|].
  apply Forall_forall. intros l Hl. apply in_map_iff in Hl. destruct Hl as (y & <- & Hy). apply in_seq in Hy. apply row_show_length; [exact S|]. intros i Hi. apply L; [lia|exact Hi].
Qed.
Lemma blocks_eq ob n (a b : list Z) : (0 < ob)%nat -> length a = (n * ob)%nat -> length b = (n * ob)%nat -> (forall k, (k < n)%nat -> block ob a k = block ob b k) -> a = b.
Proof.
  intros O La Lb H. rewrite <- (concat_slices a ob n), <- (concat_slices b ob n) by auto. apply concat_ext. exact H.
Qed.
Lemma out_pos x : supported x -> (0 < out_comps x * sample_bytes x)%nat.
Proof.
  intros (Lg & _). apply Nat.mul_pos_pos; [unfold out_comps; destruct (want_alpha x), (seen_trns x), (col x); cbn [color_comps]; lia|]. unfold sample_bytes, legal in *. destruct (col x); cbn [In] in Lg; repeat destruct Lg as [<-|Lg]; try destruct Lg; cbn; lia.
Qed.
Lemma pass_size_le n o s : In s [1; 2; 4; 8]%nat -> (o < s)%nat -> (pass_size n o s <= n)%nat.
Proof. unfold pass_size. intros [<-|[<-|[<-|[<-|[]]]]] Ho; lia. Qed.
Lemma skipn_nth {A} (l : list A) k d : (k < length l)%nat -> skipn k l = nth k l d :: skipn (S k) l.
Proof. revert k. induction l as [|a l IH]; intros k H; [cbn in H; lia|]. destruct k; [reflexivity|]. cbn [skipn nth]. rewrite IH by (cbn in H; lia). reflexivity. Qed.

Section Passes.
Variables (x : pix) (w h : nat) (px : nat -> nat -> list Z) (ps : list (list (filter * list Z))) (rest : list Z).
Hypothesis (Sup : supported x) (Lpx : forall y i, (y < h)%nat -> (i < w)%nat -> length (px y i) = color_comps (col x)).
Hypothesis (H : holds_interlaced (depth x) (color_comps (col x)) w h px ps).
Let ob := (out_comps x * sample_bytes x)%nat.
Let l := look_of x.
Definition drawn (k : nat) (out : list Z) : Prop :=
  length out = (w * h * ob)%nat /\ forall y i, (y < h)%nat -> (i < w)%nat -> (pass_at y i <= k)%nat -> block ob out (y * w + i) = show l (px y i).
Lemma pass_step k xo yo xs ys tmp stride out pre post : (k < 7)%nat -> nth k passes (0, 0, 0, 0)%nat = (xo, yo, xs, ys) ->
  drawn k out -> length tmp = (w * h * ob)%nat -> bytes tmp ->
  let pw := pass_size w xo xs in let ph := pass_size h yo ys in
  let f := filtered (filter_comps x) (nth k ps []) in
  if ((pw =? 0) || (ph =? 0))%nat then f = [] /\ drawn (S k) out else
  length f = ((packed_len x pw + 1) * ph)%nat /\
  exists tmp' stride' out', create_raw x (slice (pre ++ f ++ post) (length pre) ((packed_len x pw + 1) * ph)) pw ph tmp stride = Ok (tmp', stride') /\
    place w ob pw ph (xo, yo, xs, ys) tmp' out = Ok out' /\ drawn (S k) out' /\ length tmp' = (w * h * ob)%nat /\ bytes tmp'.
Proof.
  intros Hk E [Do Dp] Lt Bt pw ph f. destruct (pass_shape k xo yo xs ys Hk E) as (A & B & C & D).
  destruct H as [_ HP]. specialize (HP (S k) ltac:(lia)). replace (S k - 1)%nat with k in HP by lia.
  rewrite (pass_cols_eq k xo yo xs ys), (pass_rows_eq k xo yo xs ys) in HP by auto. fold pw ph in HP.
  set (rows := nth k ps []) in *.
  assert (New : forall y i, pass_at y i = S k <-> (i mod xs = xo /\ y mod ys = yo)%nat).
  { intros y i. pose proof (pass_grid k xo yo xs ys y i Hk E) as G. destruct (Nat.eqb_spec (pass_at y i) (S k)); destruct (Nat.eqb_spec (i mod xs) xo); destruct (Nat.eqb_spec (y mod ys) yo); cbn in G; try discriminate; tauto. }
  destruct ((pw =? 0) || (ph =? 0))%nat eqn:Z0.
  - assert (R : rows = []).
    { destruct HP as (HL & _). rewrite map_length in HL. apply length_zero_iff_nil. rewrite HL. destruct (pw =? 0)%nat eqn:Zp; [reflexivity|].
      rewrite map_length, seq_length. cbn in Z0. now apply Nat.eqb_eq. }
    split; [unfold f; rewrite R; reflexivity|]. split; [exact Do|]. intros y i Hy Hi Hp. apply Dp; auto.
    enough (pass_at y i <> S k) by lia. intros P. apply New in P. destruct P as [P1 P2].
    apply orb_true_iff in Z0. rewrite !Nat.eqb_eq in Z0. unfold pw, ph, pass_size in Z0. clear -Z0 P1 P2 A B C D Hy Hi.
    destruct Z0 as [Z0|Z0]; [destruct A as [<-|[<-|[<-|[<-|[]]]]]; lia|destruct B as [<-|[<-|[<-|[<-|[]]]]]; lia].
  - apply orb_false_iff in Z0. destruct Z0 as [Zw Zh]. rewrite Zw, Zh in HP. rewrite !map_length, !seq_length in HP. apply Nat.eqb_neq in Zw, Zh.
    set (sub := fun j i : nat => px (j * ys + yo)%nat (i * xs + xo)%nat).
    assert (HS : holds (depth x) (color_comps (col x)) pw ph sub (map snd rows)).
    { destruct HP as (H1 & H2 & H3 & H4). split; [exact H1|]. split; [exact H2|]. split; [exact H3|]. intros j i Hj Hi. rewrite H4 by auto. unfold sub.
      rewrite (map_nth_in _ _ _ 0%nat), (map_nth_in _ _ _ 0%nat), !seq_nth by (rewrite ?seq_length; auto). reflexivity. }
    pose proof HS as (HL & HB & HR & HX). rewrite map_length in HL.
    assert (Good : Forall (fun q : filter * list Z => bytes (snd q) /\ length (snd q) = packed_len x pw) rows).
    { apply Forall_forall. intros q Hq. rewrite Forall_forall in HB, HR. split; [apply HB|apply HR]; now apply in_map. }
    assert (FL : length f = ((packed_len x pw + 1) * ph)%nat).
    { unfold f, filtered. rewrite (lines_length x pw) by (auto; lia). rewrite HL. lia. }
    split; [exact FL|]. rewrite <- FL, slice_app_exact.
    assert (PW : (pw <= w)%nat) by now apply pass_size_le. assert (PH : (ph <= h)%nat) by now apply pass_size_le.
    assert (PP : (pw * ph * ob <= w * h * ob)%nat) by (apply Nat.mul_le_mono_r; now apply Nat.mul_le_mono).
    destruct (create_raw_ok x pw Sup ltac:(lia) rows [] tmp stride Good) as (stride' & CR).
    { intros ->. cbn in HL. lia. } { exact Bt. } { rewrite HL, Lt. unfold row_len. fold ob. rewrite <- Nat.mul_assoc. fold ob. lia. }
    rewrite app_nil_r, HL in CR. fold f l in CR.
    set (tmp' := concat (map (shown l pw) (map snd rows)) ++ skipn (ph * row_len x pw) tmp) in *.
    assert (SubL : forall y i, (y < ph)%nat -> (i < pw)%nat -> length (sub y i) = color_comps (col x)).
    { intros j i Hj Hi. apply Lpx; now apply col_in. }
    assert (TP : tmp' = picture l pw ph sub ++ skipn (ph * row_len x pw) tmp) by (unfold tmp'; f_equal; now apply rows_picture).
    assert (RL : (ph * row_len x pw = pw * ph * ob)%nat) by (unfold row_len, ob; lia).
    assert (TL : length tmp' = (w * h * ob)%nat).
    { rewrite TP, app_length, skipn_length. unfold l. rewrite picture_length by auto. fold ob. lia. }
    assert (TB : bytes tmp').
    { unfold tmp'. apply bytes_app. split; [|now apply Forall_skipn']. apply concat_bytes. apply Forall_forall. intros r Hr. apply in_map_iff in Hr. destruct Hr as (r' & <- & _). now apply shown_bytes. }
    destruct (place_ok w h ob xo yo xs ys A B C D tmp' out Do) as (out' & PO & (L' & C1 & C2)). { fold pw ph. rewrite TL. exact PP. }
    exists tmp', stride', out'. split; [exact CR|]. split; [exact PO|]. split; [|split; [exact TL|exact TB]].
    split; [congruence|]. intros y i Hy Hi Hp. destruct (Nat.eq_dec (pass_at y i) (S k)) as [P|P].
    + apply New in P. destruct P as [P1 P2].
      assert (Xi : (i = (i / xs) * xs + xo)%nat /\ (i / xs < pw)%nat).
      { clear -P1 A C Hi. unfold pw, pass_size. destruct A as [<-|[<-|[<-|[<-|[]]]]]; lia. }
      assert (Yi : (y = (y / ys) * ys + yo)%nat /\ (y / ys < ph)%nat).
      { clear -P2 B D Hy. unfold ph, pass_size. destruct B as [<-|[<-|[<-|[<-|[]]]]]; lia. }
      destruct Xi as [Xi1 Xi2], Yi as [Yi1 Yi2].
      specialize (C1 (y / ys)%nat (i / xs)%nat Yi2 Xi2 I). unfold pix_at in C1. rewrite <- Xi1, <- Yi1 in C1. rewrite C1, TP. fold pw.
      unfold ob, l. rewrite block_picture by auto. unfold sub. now rewrite <- Xi1, <- Yi1.
    + rewrite C2; [apply Dp; auto; lia|now apply row_major_lt|]. intros j i' Hj Hi' _ EE. unfold pix_at in EE.
      apply row_major_inj in EE; [|exact Hi|now apply col_in]. destruct EE as [-> ->]. apply P. apply New. clear -C D.
      rewrite !(Nat.add_comm (_ * _)), !Nat.mod_add, !Nat.mod_small by lia. auto.
Qed.
Lemma interlaced_ok n : forall k pre tmp stride out, (k + n = 7)%nat -> drawn k out -> length tmp = (w * h * ob)%nat -> bytes tmp ->
  exists stride', interlaced x w h (skipn k passes) (pre ++ concat (map (filtered (filter_comps x)) (skipn k ps)) ++ rest) (length pre) tmp stride out =
    Ok (picture l w h px, stride').
Proof.
  induction n as [|n IH]; intros k pre tmp stride out Hn D Lt Bt.
  - replace k with 7%nat by lia. cbn [skipn passes interlaced]. exists stride. do 2 f_equal. destruct D as [Lo D].
    apply (blocks_eq ob (w * h)); [now apply out_pos|exact Lo|unfold l; rewrite picture_length by auto; reflexivity|].
    intros k' Hk'. assert (W : (w <> 0)%nat) by (intros ->; cbn in Hk'; lia).
    pose proof (Nat.mod_upper_bound k' w W) as M. pose proof (Nat.div_mod k' w W) as E. assert (Q : (k' / w < h)%nat) by (apply Nat.div_lt_upper_bound; lia).
    replace k' with (k' / w * w + k' mod w)%nat by lia. pose proof (pass_at_range (k' / w) (k' mod w)) as PR. rewrite D by (auto; clear -PR Hn; lia).
    rewrite <- (app_nil_r (picture _ _ _ _)). unfold ob, l. now rewrite block_picture by auto.
  - assert (Lps : length ps = 7%nat) by apply H.
    rewrite (skipn_nth passes k (0, 0, 0, 0)%nat) by (cbn; lia). rewrite (skipn_nth ps k []) by lia.
    destruct (nth k passes (0, 0, 0, 0)%nat) as [[[xo yo] xs] ys] eqn:E. cbn [interlaced map concat].
    pose proof (pass_step k xo yo xs ys tmp stride out pre (concat (map (filtered (filter_comps x)) (skipn (S k) ps)) ++ rest) ltac:(lia) E D Lt Bt) as ST. cbv zeta in ST.
    set (pw := pass_size w xo xs) in *. set (ph := pass_size h yo ys) in *.
    destruct ((pw =? 0) || (ph =? 0))%nat.
    + destruct ST as [F D']. rewrite F. cbn [app]. apply IH; auto. lia.
    + destruct ST as (FL & tmp' & stride' & out' & CR & PO & D' & TL & TB). rewrite <- !app_assoc.
      set (f := filtered (filter_comps x) (nth k ps [])) in *.
      set (post := concat (map (filtered (filter_comps x)) (skipn (S k) ps)) ++ rest) in *.
      match goal with |- context [(?a <? ?b)%nat] => replace (a <? b)%nat with false by (rewrite !app_length, FL; lia) end.
      rewrite CR. cbn [bind]. fold ob. rewrite PO. cbn [bind].
      specialize (IH (S k) (pre ++ f) tmp' stride' out' ltac:(lia) D' TL TB). rewrite app_length, FL, <- app_assoc in IH. exact IH.
Qed.
End Passes.

Lemma holds_interlaced_comps d n w h px ps y i : holds_interlaced d n w h px ps -> (y < h)%nat -> (i < w)%nat -> length (px y i) = n.
Proof.
  intros [_ H] Hy Hi. pose proof (pass_at_range y i) as R. set (p := pass_at y i) in *.
  assert (IX : In i (pass_cols p w h)).
  { unfold pass_cols. apply filter_In. split; [apply in_seq; lia|]. apply existsb_exists. exists y. split; [apply in_seq; lia|]. now apply Nat.eqb_eq. }
  assert (IY : In y (pass_rows p w h)).
  { unfold pass_rows. apply filter_In. split; [apply in_seq; lia|]. apply existsb_exists. exists i. split; [apply in_seq; lia|]. now apply Nat.eqb_eq. }
  apply (In_nth _ _ 0%nat) in IX, IY. destruct IX as (a & La & Ea), IY as (b & Lb & Eb).
  destruct (H p R) as (_ & _ & _ & HX). specialize (HX b a Lb La). cbn beta in HX. rewrite Ea, Eb in HX. rewrite <- HX. unfold samples. now rewrite map_length, seq_length.
Qed.
Lemma decode_interlaced_ok x w h px ps rest out stride : supported x -> holds_interlaced (depth x) (color_comps (col x)) w h px ps ->
  length out = (w * h * (out_comps x * sample_bytes x))%nat ->
  exists stride', decode_interlaced x (filtered_interlaced (filter_comps x) ps ++ rest) w h out stride = Ok (picture (look_of x) w h px, stride').
Proof.
  intros S H L. unfold decode_interlaced.
  apply (interlaced_ok x w h px ps rest S (fun y i => holds_interlaced_comps _ _ _ _ _ _ y i H) H 7 0 []); [reflexivity| |rewrite repeat_length; lia|].
  - split; [exact L|]. intros y i _ _ P. pose proof (pass_at_range y i). lia.
  - apply Forall_forall. intros z Hz. apply repeat_spec in Hz. subst. unfold is_byte. lia.
Qed.
Lemma create_raw_picture x w h px rows rest out stride : supported x -> (0 < w)%nat -> (0 < h)%nat ->
  holds (depth x) (color_comps (col x)) w h px (map snd rows) -> bytes out -> length out = (w * h * (out_comps x * sample_bytes x))%nat ->
  exists stride', create_raw x (filtered (filter_comps x) rows ++ rest) w h out stride = Ok (picture (look_of x) w h px, stride').
Proof.
  intros S W Hh H Bo Lo. pose proof H as (HL & HB & HR & _). rewrite map_length in HL.
  assert (RL : (h * row_len x w = w * h * (out_comps x * sample_bytes x))%nat) by (unfold row_len; lia).
  destruct (create_raw_ok x w S W rows rest out stride) as (s' & E).
  - apply Forall_forall. intros q Hq. rewrite Forall_forall in HB, HR. split; [apply HB|apply HR]; now apply in_map.
  - intros ->. cbn in HL. lia.
  - exact Bo.
  - rewrite HL. lia.
  - exists s'. rewrite HL in E. rewrite E. rewrite skipn_all2 by lia. rewrite app_nil_r, (rows_picture (look_of x) w h px) by exact H. reflexivity.
Qed.
