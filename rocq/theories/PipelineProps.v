(** Theorems about pipelines: what is left in them after running to the end. *)
From Verif Require Import Base OrientModel.

(** Applying operations one after the other, all of them successful. *)
Inductive processed {I : Type} : list (operation I) -> I -> I -> Prop :=
| processed_nil i : processed [] i i
| processed_cons o os i j k : o i = (j, true) -> processed os j k -> processed (o :: os) i k.

(** A pipeline as its constructors leave it. *)
Definition fresh {I} (d : option (option I)) (is : list I) (os : list (operation I)) : pipeline I := Pipe I (Some Initialized) d is os.

Lemma fresh_reached {I} d (is : list I) os :
  fresh d is os = fold_left (fun p o => chain_operation I o p) os (match d with None => (fun p => p) | Some x => chain_decoder I x end (fold_left (fun p i => chain_image I i p) is (new_pipeline I))).
Proof.
  assert (A : forall is js, fold_left (fun p i => chain_image I i p) is (Pipe I (Some Initialized) None js []) = Pipe I (Some Initialized) None (js ++ is) []).
  { intros l. induction l as [|i l IH]; intros js; cbn [fold_left]; [now rewrite app_nil_r|]. unfold chain_image at 2. cbn. rewrite IH, <- app_assoc. reflexivity. }
  assert (B : forall os d is qs, fold_left (fun p o => chain_operation I o p) os (Pipe I (Some Initialized) d is qs) = Pipe I (Some Initialized) d is (qs ++ os)).
  { intros l. induction l as [|o l IH]; intros e js qs; cbn [fold_left]; [now rewrite app_nil_r|]. unfold chain_operation at 2. cbn. rewrite IH, <- app_assoc. reflexivity. }
  unfold new_pipeline. rewrite A. cbn [app]. destruct d as [x|]; unfold chain_decoder; cbn [state images operations]; rewrite B; reflexivity.
Qed.

Lemma run_operations_spec {I} os (i j : I) : run_operations I os i = (j, true) <-> processed os i j.
Proof.
  split.
  - revert i. induction os as [|o os IH]; intros i; cbn [run_operations].
    + intros E. inversion E. constructor.
    + destruct (o i) as [k ok] eqn:Eo. destruct ok; [|easy]. intros E. econstructor; [exact Eo|now apply IH].
  - induction 1 as [i|o os i k l E _ IH]; cbn [run_operations]; [reflexivity|]. now rewrite E.
Qed.
Lemma run_images_spec {I} os (is js : list I) s : run_images I os s is = (js, (match is with [] => s | _ => Some Encode end), true) <-> Forall2 (processed os) is js.
Proof.
  revert js s. induction is as [|i is IH]; intros js s; cbn [run_images].
  - split; [intros E; inversion E; constructor|intros F; now inversion_clear F].
  - destruct (run_operations I os i) as [k ok] eqn:E. destruct ok.
    + apply run_operations_spec in E. destruct (run_images I os (next Operations) is) as [[ks s'] ok'] eqn:R. split.
      * intros H. inversion H. subst. constructor; [exact E|]. apply (IH ks (next Operations)). rewrite R. now destruct is.
      * intros F. inversion_clear F as [|? ? ? ? Hk F']. apply (IH _ (next Operations)) in F'. rewrite R in F'. inversion F'. apply run_operations_spec in Hk. apply run_operations_spec in E.
        rewrite E in Hk. inversion Hk. now destruct is.
    + split; [discriminate|]. intros F. inversion_clear F as [|? ? ? ? Hk F']. apply run_operations_spec in Hk. rewrite E in Hk. discriminate.
Qed.
Lemma run_images_ok {I} os (is js : list I) s s' : run_images I os s is = (js, s', true) -> s' = match is with [] => s | _ => Some Encode end.
Proof.
  revert js s. induction is as [|i is IH]; intros js s; cbn [run_images].
  - intros E. now inversion E.
  - destruct (run_operations I os i) as [k ok]. destruct ok; [|easy]. destruct (run_images I os (next Operations) is) as [[ks s1] ok'] eqn:R.
    intros E. inversion E. subst. rewrite (IH _ _ R). now destruct is.
Qed.

(** Running always comes to an end. *)
Theorem pipeline_ends I (p : pipeline I) : snd (advance_to_end I p) <> None.
Proof.
  unfold advance_to_end.
  assert (R : forall q s, state I q = Some s -> snd (advance I q) = true -> match s with Initialized => state I (fst (advance I q)) = Some Decode
     | Decode => state I (fst (advance I q)) = Some Operations | Operations => state I (fst (advance I q)) = Some Encode
     | Encode => state I (fst (advance I q)) = Some Finished | Finished => state I (fst (advance I q)) = None end).
  { intros [st d is os] s. cbn [state]. intros ->. unfold advance. cbn [state decoder images operations]. destruct s; try reflexivity.
    - destruct d as [[i|]|]; try easy. destruct is; easy.
    - destruct is as [|i is]; [easy|]. destruct (run_images I os (Some Operations) (i :: is)) as [[js s'] ok] eqn:E. cbn [fst snd state]. intros ->. apply run_images_ok in E. exact E. }
  assert (L : forall n q, (match state I q with None => 0 | Some Finished => 1 | Some Encode => 2 | Some Operations => 3 | Some Decode => 4 | Some Initialized => 5 end <= n)%nat -> snd (advance_loop I n q) <> None).
  { induction n as [|n IH]; intros q H; cbn [advance_loop]; destruct (state I q) as [s|] eqn:E; try discriminate.
    - destruct s; lia.
    - specialize (R q s E). destruct (advance I q) as [q' ok]. cbn [fst snd] in R. destruct ok; [|discriminate]. specialize (R eq_refl). apply IH. destruct s; rewrite R; lia. }
  apply L. destruct (state I p) as [[]|]; lia.
Qed.
Print Assumptions pipeline_ends.
Example pipeline_ends_ex : advance_to_end nat (fresh (Some (Some 3%nat)) [1%nat] [fun n => (n + 1, true)%nat]) =
  (Pipe nat None None [2; 4]%nat [fun n => (n + 1, true)%nat], Some true).
Proof. reflexivity. Qed.

(** With a decoder that succeeds: all images, the decoded one last, went through all operations in order, exactly when
    no error is reported. With one that fails, or with no image at all: an error, and the images are untouched. *)
Theorem pipeline_processes_partial I d (is : list I) os :
  (forall js, (exists p, advance_to_end I (fresh (Some (Some d)) is os) = (p, Some true) /\ images I p = js /\ state I p = None) <-> Forall2 (processed os) (is ++ [d]) js) /\
  (exists p, advance_to_end I (fresh (Some None) is os) = (p, Some false) /\ images I p = is) /\
  (exists p, advance_to_end I (fresh None [] os) = (p, Some false) /\ images I p = []).
Proof.
  split; [|split; [eexists; split; reflexivity|eexists; split; reflexivity]].
  intros js. assert (E : advance_to_end I (fresh (Some (Some d)) is os) =
    let '(p, ok) := advance I (Pipe I (Some Operations) None (is ++ [d]) os) in if ok then advance_loop I 2 p else (p, Some false)) by reflexivity.
  rewrite E. clear E. unfold advance. cbn [state images operations decoder]. rewrite <- (run_images_spec os (is ++ [d]) js (Some Operations)).
  destruct (is ++ [d]) as [|i l] eqn:El; [now destruct is|]. destruct (run_images I os (Some Operations) (i :: l)) as [[ks s] ok] eqn:R. destruct ok.
  - pose proof (run_images_ok _ _ _ _ _ R) as ->. split.
    + intros (p & E & Hi & _). cbn in E. inversion E. subst p. cbn in Hi. now subst.
    + intros E. inversion E. eexists. cbn. split; [reflexivity|]. split; reflexivity.
  - split; [intros (p & E & _); discriminate E|discriminate].
Qed.
Print Assumptions pipeline_processes_partial.
Example pipeline_processes_partial_ex :
  Forall2 (processed [(fun n => (n + 1, true)); (fun n => (n * 2, negb (n =? 9)))]%nat) ([1; 5] ++ [3])%nat [4; 12; 8]%nat.
Proof. repeat constructor; repeat (eapply processed_cons; [reflexivity|]); apply processed_nil. Qed.

(** Chained images without a decoder are never processed: the run reports that there is no image. *)
Theorem pipeline_images_refuted I (is : list I) os : is <> [] ->
  exists p, advance_to_end I (fresh None is os) = (p, Some false) /\ images I p = is /\ state I p = Some Decode.
Proof. intros H. destruct is; [easy|]. eexists. split; [reflexivity|]. split; reflexivity. Qed.
Print Assumptions pipeline_images_refuted.

(** After an error in a later image a second run reports success although that image was not processed. *)
Theorem pipeline_retry_refuted : exists (is : list nat) d os p q, advance_to_end nat (fresh (Some (Some d)) is os) = (p, Some false) /\
  advance_to_end nat p = (q, Some true) /\ images nat q = is ++ [d] /\ ~ Forall2 (processed os) (is ++ [d]) (images nat q) /\
  Forall (fun i => forall o, In o os -> snd (o i) = true) is.
Proof.
  exists [1%nat], 7%nat, [fun n => (n, n =? 1)%nat]. eexists _, _. split; [reflexivity|]. split; [reflexivity|]. split; [reflexivity|]. split.
  - intros F. inversion_clear F as [|? ? ? ? _ F']. inversion_clear F' as [|? ? ? ? P _]. inversion P. discriminate.
  - repeat constructor. intros o [<-|[]]. reflexivity.
Qed.
Print Assumptions pipeline_retry_refuted.
Example pipeline_images_refuted_ex : snd (advance_to_end nat (fresh None [1; 2]%nat [])) = Some false.
Proof. reflexivity. Qed.
