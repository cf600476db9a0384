From Verif Require Import Base BaseProof Loops Slices PngFilterModel PngFilterSpec PngFilterProof PngFilterProps PngRowModel PngSpec PngRowProof.

Lemma filter_comps_step x : legal (depth x) (col x) -> filter_comps x = filter_step (depth x) (color_comps (col x)).
Proof.
  intros L. unfold filter_comps, filter_step, sample_bytes. destruct (col x); cbn [legal color_comps] in *; cbn [In] in L.
  all: repeat destruct L as [<-|L]; try reflexivity; easy.
Qed.
Lemma packed_multiple x w : legal (depth x) (col x) -> vector_size (filter_comps x) = true -> packed_len x w = (w * filter_comps x)%nat.
Proof.
  intros L V. unfold filter_comps in *. destruct (depth x <? 8)%nat eqn:D; [discriminate|]. apply Nat.ltb_ge in D.
  apply packed_wide. unfold legal in L. destruct (col x); cbn in *; lia.
Qed.
Lemma packed_ge x w : legal (depth x) (col x) -> (0 < w)%nat -> (filter_comps x <= packed_len x w)%nat /\ (0 < filter_comps x <= 8)%nat.
Proof.
  intros L W. unfold filter_comps. destruct (depth x <? 8)%nat eqn:D.
  - apply Nat.ltb_lt in D. split; [|lia]. unfold packed_len.
    assert (1 <= w * color_comps (col x) * depth x)%nat.
    { unfold legal in L. destruct (col x); cbn in *; try lia. all: destruct (depth x); cbn in *; lia. }
    set (a := (w * color_comps (col x) * depth x)%nat) in *. clearbody a. lia.
  - apply Nat.ltb_ge in D. rewrite packed_wide by (unfold legal in L; destruct (col x); cbn in *; lia). split.
    + rewrite <- (Nat.mul_1_l (color_comps (col x) * sample_bytes x)) at 1. apply Nat.mul_le_mono_r. lia.
    + unfold sample_bytes. destruct (_ =? _)%nat, (col x); cbn; lia.
Qed.

Lemma unfilter_ok x w t first prev row cur : legal (depth x) (col x) -> (0 < w)%nat -> length row = packed_len x w -> bytes row -> bytes prev ->
  (length row <= length cur)%nat -> (first = false -> (length row <= length prev)%nat) ->
  unfilter x (filter_code t) first prev (filter_row t (filter_comps x) (above first prev) row) cur (filter_comps x) = Ok (row ++ skipn (length row) cur).
Proof.
  intros Lg W L Hb Hp Lc Lpr. destruct (packed_ge x w Lg W) as [G0 G1].
  assert (BF : bytes (filter_row t (filter_comps x) (above first prev) row)) by (unfold filter_row; apply Forall_forall; intros v Hv; apply in_map_iff in Hv as (i & <- & _); apply mod256_byte).
  pose proof (png_unfilter_inverts_filter t first prev row cur (filter_comps x) G1 ltac:(lia) Lpr Hb Hp) as I.
  set (f := filter_row t (filter_comps x) (above first prev) row) in *.
  assert (LF : length f = length row) by apply filter_row_length.
  assert (SH : ((length f <? filter_comps x)%nat || (length cur <? filter_comps x)%nat) = false) by (apply orb_false_iff; split; apply Nat.ltb_ge; lia).
  assert (V : forall b, b && vector_size (filter_comps x) = true -> In (filter_comps x) [3; 4; 6; 8]%nat /\ length f = (w * filter_comps x)%nat).
  { intros b H. apply andb_true_iff in H as [_ H]. split; [unfold vector_size in H; cbn; lia|]. rewrite LF, L. now apply packed_multiple. }
  unfold unfilter. rewrite SH. cbn [negb andb].
  destruct t; cbn [filter_code Z.eqb Pos.eqb unfilter_scalar] in *; auto.
  - destruct (sse2 x && vector_size (filter_comps x)) eqn:E; [|exact I]. apply V in E as [E1 E2].
    destruct (png_sse_equals_scalar (filter_comps x) w f f cur E1 W E2) as [-> _] in I; auto. lia.
  - destruct first; [exact I|]. destruct (sse4 x && vector_size (filter_comps x)) eqn:E; [|exact I]. apply V in E as [E1 E2]. specialize (Lpr eq_refl).
    destruct (png_sse_equals_scalar (filter_comps x) w prev f cur E1 W E2) as (_ & A & _); auto; try lia. now rewrite A in I.
  - destruct first; [exact I|]. destruct (sse4 x && vector_size (filter_comps x)) eqn:E; [|exact I]. apply V in E as [E1 E2]. specialize (Lpr eq_refl).
    destruct (png_sse_equals_scalar (filter_comps x) w prev f cur E1 W E2) as (_ & _ & A); auto; try lia. now rewrite A in I.
Qed.

(** Only the part of the row above that belongs to the row counts *)
Lemma filter_row_above t bpp p junk row : (length row <= length p)%nat -> filter_row t bpp (p ++ junk) row = filter_row t bpp p row.
Proof.
  intros L. unfold filter_row. apply map_ext_in. intros i Hi. apply in_seq in Hi. f_equal. f_equal. unfold left.
  assert (forall k, (k < length p)%nat -> nth k (p ++ junk) 0 = nth k p 0) as N by (intros; now apply app_nth1).
  rewrite N by lia. destruct (i <? bpp)%nat eqn:E; [reflexivity|]. rewrite N by lia. reflexivity.
Qed.

Lemma concat_full_length d s : length (concat (map (full d) s)) = (length s * (if (d =? 16)%nat then 2 else 1))%nat.
Proof.
  rewrite (concat_length_const (if (d =? 16)%nat then 2 else 1)%nat); [now rewrite map_length|]. apply Forall_forall. intros c Hc. apply in_map_iff in Hc as (v & <- & _).
  unfold full. destruct (d =? 16)%nat; [apply be_bytes_length|reflexivity].
Qed.
Lemma show_length x s : supported x -> length s = color_comps (col x) -> length (show (look_of x) s) = (out_comps x * sample_bytes x)%nat.
Proof.
  intros (Lg & _ & _ & ST & _) L. unfold show, look_of, out_comps, sample_bytes, adds_alpha. cbn [l_pal l_key l_depth l_add l_pal_alpha].
  destruct (is_palette (col x)) eqn:P.
  - destruct (col x); try discriminate. assert (D : (depth x =? 16)%nat = false) by (apply Nat.eqb_neq; cbn in Lg; lia). rewrite D.
    destruct (@nth colour_entry _ _ _) as [[[r g] b] a]. destruct (seen_trns x), (want_alpha x); reflexivity.
  - cbn [negb]. rewrite andb_true_r, app_length, concat_full_length, L. unfold clear, opaque.
    destruct (seen_trns x) eqn:T.
    + destruct (ST eq_refl) as (C & _ & WA); [intros C; now rewrite C in P|]. rewrite WA. cbn [andb].
      destruct C as [C|C]; rewrite C; destruct (list_eq_dec Z.eq_dec _ _), (depth x =? 16)%nat; reflexivity.
    + destruct (want_alpha x), (col x), (depth x =? 16)%nat; cbn [color_alpha andb negb]; try discriminate; reflexivity.
Qed.
Lemma shown_length x w p : supported x -> length (shown (look_of x) w p) = row_len x w.
Proof.
  intros H. unfold shown, row_len. rewrite (concat_length_const (out_comps x * sample_bytes x)); [rewrite map_length, seq_length; lia|].
  apply Forall_forall. intros c Hc. apply in_map_iff in Hc as (i & <- & _). apply show_length; [exact H|]. unfold samples. rewrite map_length, seq_length. reflexivity.
Qed.
Lemma Forall_skipn' {A} (P : A -> Prop) n l : Forall P l -> Forall P (skipn n l).
Proof. intros H. rewrite <- (firstn_skipn n l) in H. now apply Forall_app in H as [_ H]. Qed.

(** * The loop over the rows *)
Section Loop.
Variable x : pix.
Variable w : nat.
Hypothesis Sup : supported x.
Hypothesis W : (0 < w)%nat.
Let oc := row_len x w.
Let ws := packed_len x w.
Let bpp := filter_comps x.
Let good (q : filter * list Z) : Prop := bytes (snd q) /\ length (snd q) = ws.

Lemma post_step p junk stride : bytes p -> length p = ws -> length (p ++ junk) = oc -> (post_processes x = true -> (oc <= length stride)%nat) ->
  exists stride', length stride' = length stride /\
    (if post_processes x then post_row x false w (p ++ junk) stride else Ok (p ++ junk, stride)) = Ok (shown (look_of x) w p, stride').
Proof.
  intros Hb L1 L2 Ls. destruct (post_processes x) eqn:P.
  - destruct (post_row_ok x false w p junk stride Sup Hb L1 L2 (Ls eq_refl)) as (s' & -> & L). eauto.
  - exists stride. split; [reflexivity|]. do 2 f_equal. now apply no_post.
Qed.

Lemma get_mid {A} (a b c : list A) n : length a = n -> get_slice (a ++ b ++ c) n (length b) = Ok b.
Proof. intros <-. rewrite get_slice_ok by (rewrite !app_length; lia). f_equal. apply slice_app_exact. Qed.
Lemma put_mid {A} (a b c d : list A) n : length a = n -> length b = length d -> put_slice (a ++ b ++ c) n d = Ok (a ++ d ++ c).
Proof. intros <- L. rewrite put_slice_ok by (rewrite !app_length; lia). f_equal. now apply put_at. Qed.

(** After the first row: [a] finished rows, [p ++ junk] the last un-filtered one, [b] the rest of the buffer *)
Lemma rows_loop todo : forall a p junk b stride i, Forall good todo -> length a = (i * oc)%nat -> bytes p -> length p = ws -> bytes junk -> length (p ++ junk) = oc ->
  bytes b -> (length todo * oc <= length b)%nat -> (post_processes x = true -> (oc <= length stride)%nat) ->
  exists q junk' stride', raw_rows x w (scanlines bpp p todo) (1 + i) (a ++ (p ++ junk) ++ b) stride =
      Ok (a ++ concat (map (shown (look_of x) w) (removelast (p :: map snd todo))) ++ (q ++ junk') ++ skipn (length todo * oc) b, stride') /\
    q = last (p :: map snd todo) [] /\ length (q ++ junk') = oc /\ length stride' = length stride.
Proof.
  assert (WSOC : (ws <= oc)%nat) by now apply row_len_ge.
  induction todo as [|[t row] todo IH]; intros a p junk b stride i G La Hb Lp Hj Lpj Hbb Lb Ls.
  - exists p, junk, stride. repeat split; auto.
  - inversion G as [|? ? [Gb Gl] G']; subst. cbn [snd] in Gb, Gl. cbn [length] in Lb.
    cbn [scanlines raw_rows]. fold oc.
    assert (Eb : b = firstn oc b ++ skipn oc b) by now rewrite firstn_skipn.
    assert (Lf : length (firstn oc b) = oc) by (rewrite firstn_length; lia).
    set (cur := firstn oc b) in *. set (b' := skipn oc b) in *.
    assert (Bc : bytes cur /\ bytes b') by (rewrite Eb in Hbb; now apply bytes_app in Hbb).
    assert (G1 : get_slice (a ++ (p ++ junk) ++ b) ((1 + i) * oc) oc = Ok cur).
    { rewrite Eb. rewrite app_assoc. rewrite <- Lf at 2. apply get_mid. rewrite app_length, La, Lpj. cbn [Nat.add]. lia. }
    rewrite G1. cbn [bind]. cbn [Nat.add Nat.eqb]. replace (S i - 1)%nat with i by lia.
    assert (G2 : get_slice (a ++ (p ++ junk) ++ b) (i * oc) oc = Ok (p ++ junk)) by (rewrite <- Lpj at 2; now apply get_mid).
    rewrite G2. cbn [bind get_at nth_error skipn].
    assert (U : unfilter x (filter_code t) false (p ++ junk) (filter_row t bpp p row) cur (filter_comps x) = Ok (row ++ skipn ws cur)).
    { rewrite <- (filter_row_above t bpp p junk row) by lia. rewrite <- Gl. apply (unfilter_ok x w t false (p ++ junk)); auto; try lia.
      - apply Sup.
      - now apply bytes_app. }
    fold bpp in U |- *. rewrite U. cbn [bind].
    assert (Lr : length (row ++ skipn ws cur) = oc) by (rewrite app_length, skipn_length; lia).
    assert (P1 : put_slice (a ++ (p ++ junk) ++ b) (oc + i * oc) (row ++ skipn ws cur) = Ok (a ++ (p ++ junk) ++ (row ++ skipn ws cur) ++ b')).
    { rewrite Eb at 1. rewrite (app_assoc a (p ++ junk) (cur ++ b')), (app_assoc a (p ++ junk) (_ ++ b')). apply put_mid; [rewrite app_length, La, Lpj; lia|lia]. }
    change (S i * oc)%nat with (oc + i * oc)%nat. rewrite P1. cbn [bind Nat.ltb Nat.leb]. rewrite andb_true_r.
    destruct (post_step p junk stride Hb Lp Lpj Ls) as (s' & Ls' & PS).
    assert (LS : length (shown (look_of x) w p) = oc) by now apply shown_length.
    assert (PP : put_slice (a ++ (p ++ junk) ++ (row ++ skipn ws cur) ++ b') (i * oc) (shown (look_of x) w p) =
                 Ok (a ++ shown (look_of x) w p ++ (row ++ skipn ws cur) ++ b')) by (apply put_mid; [exact La|lia]).
    assert (Go : (if post_processes x then
                    do (prev, stride0) <- post_row x false w (p ++ junk) stride;
                    do out <- put_slice (a ++ (p ++ junk) ++ (row ++ skipn ws cur) ++ b') (i * oc) prev;
                    raw_rows x w (scanlines bpp row todo) (S (S i)) out stride0
                  else raw_rows x w (scanlines bpp row todo) (S (S i)) (a ++ (p ++ junk) ++ (row ++ skipn ws cur) ++ b') stride) =
                 raw_rows x w (scanlines bpp row todo) (1 + S i) ((a ++ shown (look_of x) w p) ++ (row ++ skipn ws cur) ++ b') s').
    { rewrite <- (app_assoc a). destruct (post_processes x).
      - rewrite PS. cbn [bind]. rewrite PP. reflexivity.
      - injection PS as E1 E2. rewrite E1, E2. reflexivity. }
    rewrite Go. clear Go.
    destruct (IH (a ++ shown (look_of x) w p) row (skipn ws cur) b' s' (S i)) as (q & junk' & s2 & E & Eq & Lq & Ls2); auto.
    + rewrite app_length, La, LS. cbn [Nat.mul]. lia.
    + apply Forall_skipn'. apply Bc.
    + apply Bc.
    + unfold b'. rewrite skipn_length. lia.
    + intros P. rewrite Ls'. auto.
    + exists q, junk', s2. rewrite E. repeat split; auto; [|lia]. do 2 f_equal. rewrite <- app_assoc. f_equal.
      change (removelast (p :: map snd ((t, row) :: todo))) with (p :: removelast (row :: map snd todo)). cbn [map concat]. rewrite <- !app_assoc. do 4 f_equal.
      unfold b'. now rewrite skipn_skipn'.
Qed.

Lemma lines_take todo : forall p rest, Forall good todo ->
  firstn (length todo) (chunks_exact (ws + 1) (concat (scanlines bpp p todo) ++ rest)) = scanlines bpp p todo.
Proof.
  induction todo as [|[t row] todo IH]; intros p rest G; [reflexivity|]. inversion G as [|? ? [Gb Gl] G']; subst. cbn [snd] in *. cbn [scanlines concat length].
  rewrite <- app_assoc. rewrite chunks_exact_cons by (cbn [length]; rewrite ?filter_row_length; lia). cbn [firstn]. f_equal. now apply IH.
Qed.
Lemma lines_length todo : forall p, Forall good todo -> length (concat (scanlines bpp p todo)) = (ws * length todo + length todo)%nat.
Proof.
  induction todo as [|[t row] todo IH]; intros p G; [cbn; lia|]. inversion G as [|? ? [Gb Gl] G']; subst. cbn [snd] in *. cbn [scanlines concat length app].
  rewrite app_length, filter_row_length, IH by auto. rewrite Gl. lia.
Qed.

Lemma create_raw_ok rows rest out stride : Forall good rows -> rows <> [] -> bytes out -> (length rows * oc <= length out)%nat ->
  exists stride', create_raw x (filtered bpp rows ++ rest) w (length rows) out stride =
    Ok (concat (map (shown (look_of x) w) (map snd rows)) ++ skipn (length rows * oc) out, stride').
Proof.
  intros G NE Hb Lo. assert (WSOC : (ws <= oc)%nat) by now apply row_len_ge.
  unfold create_raw. fold ws oc. unfold filtered. rewrite app_length, lines_length by exact G.
  assert (E0 : (ws * length rows + length rows + length rest <? ws * length rows + length rows)%nat = false) by (apply Nat.ltb_ge; lia). rewrite E0.
  rewrite lines_take by exact G.
  set (stride1 := if post_processes x && _ then _ else _).
  assert (Ls : post_processes x = true -> (oc <= length stride1)%nat).
  { intros P. unfold stride1. rewrite P. cbn [andb]. destruct (length stride <? oc)%nat eqn:E; [rewrite resize_length; lia|apply Nat.ltb_ge in E; lia]. }
  clearbody stride1. clear E0. destruct rows as [|[t row] rows]; [congruence|]. inversion G as [|? ? [Gb Gl] G']; subst. cbn [snd] in Gb, Gl.
  cbn [length] in Lo. cbn [scanlines raw_rows]. fold oc. cbn [Nat.mul Nat.eqb bind get_at nth_error skipn].
  assert (Eb : out = firstn oc out ++ skipn oc out) by now rewrite firstn_skipn.
  assert (Lf : length (firstn oc out) = oc) by (rewrite firstn_length; lia).
  set (cur := firstn oc out) in *. set (b := skipn oc out) in *.
  assert (Bc : bytes cur /\ bytes b) by (rewrite Eb in Hb; now apply bytes_app in Hb).
  assert (G1 : get_slice out 0 oc = Ok cur) by (rewrite get_slice_ok by lia; reflexivity). rewrite G1. cbn [bind].
  assert (U : unfilter x (filter_code t) true [0] (filter_row t bpp [] row) cur (filter_comps x) = Ok (row ++ skipn ws cur)).
  { rewrite <- Gl. apply (unfilter_ok x w t true [0]); auto; try lia; try easy. apply Sup. repeat constructor; unfold is_byte; lia. }
  fold bpp in U |- *. rewrite U. cbn [bind].
  assert (Lr : length (row ++ skipn ws cur) = oc) by (rewrite app_length, skipn_length; lia).
  assert (P1 : put_slice out 0 (row ++ skipn ws cur) = Ok ((row ++ skipn ws cur) ++ b)).
  { rewrite Eb at 1. apply (put_mid [] cur b (row ++ skipn ws cur) 0); [reflexivity|lia]. }
  rewrite P1. cbn [bind Nat.ltb Nat.leb]. rewrite andb_false_r.
  destruct (rows_loop rows [] row (skipn ws cur) b stride1 0) as (q & junk' & s2 & E & Eq & Lq & Ls2); auto.
  { apply Forall_skipn'. apply Bc. } { apply Bc. } { unfold b. rewrite skipn_length. lia. }
  cbn [Nat.add app] in E. rewrite E. cbn [bind].
  change (row :: map snd rows) with (map snd ((t, row) :: rows)) in Eq |- *. rewrite andb_true_r.
  set (all := map snd ((t, row) :: rows)) in *.
  assert (Lall : length all = S (length rows)) by (unfold all; now rewrite map_length).
  assert (Ga : Forall (fun r => bytes r /\ length r = ws) all).
  { unfold all. apply Forall_forall. intros r Hr. apply in_map_iff in Hr as (z & <- & Hz). rewrite Forall_forall in G. now apply G. }
  assert (Sp : all = removelast all ++ [q]) by (rewrite Eq; apply app_removelast_last; intros A; now rewrite A in Lall).
  assert (Gq : bytes q /\ length q = ws) by (rewrite Sp in Ga; apply Forall_app in Ga as [_ Ga]; now inversion Ga).
  destruct Gq as [Bq Lq'].
  assert (Lfront : length (concat (map (shown (look_of x) w) (removelast all))) = (length rows * oc)%nat).
  { rewrite (concat_length_const oc).
    - rewrite map_length. f_equal. rewrite Sp, app_length in Lall. cbn [length] in Lall. lia.
    - apply Forall_forall. intros z Hz. apply in_map_iff in Hz as (r & <- & Hr). apply shown_length; auto. }
  assert (Lsh : length (shown (look_of x) w q) = oc) by now apply shown_length.
  assert (Fin : concat (map (shown (look_of x) w) all) = concat (map (shown (look_of x) w) (removelast all)) ++ shown (look_of x) w q).
  { rewrite Sp at 1. rewrite map_app, concat_app. cbn [map concat]. now rewrite app_nil_r. }
  assert (SK : skipn (length rows * oc) b = skipn (oc + length rows * oc) out) by (unfold b; now rewrite skipn_skipn').
  change (length ((t, row) :: rows) * oc)%nat with (oc + length rows * oc)%nat. rewrite Fin, <- (app_assoc _ (shown (look_of x) w q)), <- SK. cbn [length]. replace (S (length rows) - 1)%nat with (length rows) by lia.
  destruct (post_processes x) eqn:P.
  - set (F := concat (map (shown (look_of x) w) (removelast all))) in *. set (R := skipn (length rows * oc) b) in *. clearbody F R.
    replace (get_slice (F ++ (q ++ junk') ++ R) (length rows * oc) oc) with (Ok (q ++ junk')) by (symmetry; rewrite <- Lq at 2; now apply get_mid). cbn [bind].
    destruct (post_row_ok x true w q junk' s2 Sup Bq Lq' Lq) as (s3 & -> & _). { specialize (Ls eq_refl). lia. }
    cbn [bind]. rewrite put_mid by (auto; lia). cbn [bind]. eauto.
  - exists s2. do 2 f_equal. f_equal. f_equal. now apply no_post.
Qed.
End Loop.
