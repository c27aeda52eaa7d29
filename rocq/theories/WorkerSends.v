(** What a worker sends is a value it has stored, to a rank that has asked for it. *)
From Verif Require Import Lib ShmModel ShmRaceProofs ValModel WorkerModel WorkerSpec WorkerProofs WorkerLog WorkerReady WorkerTrace WorkerAnswer WorkerOrder.

Record SV (w : wst) : Prop := {
  sv_put : forall s d v b, In (EvPut s d v b) (log w) -> stored (log w) d v /\ In (d, s) (asked (log w));
  sv_gets : forall p, In p (gets w) \/ In p (bgets w) -> In p (asked (log w));
  sv_store : forall d v, store w d = Some v -> stored (log w) d v
}.

Lemma sv_mute w w' l : SV w -> (forall p, In p (gets w') \/ In p (bgets w') -> In p (gets w) \/ In p (bgets w)) ->
  (forall d v, store w' d = Some v -> store w d = Some v \/ stored l d v) ->
  log w' = log w ++ l -> (forall s d v b, ~ In (EvPut s d v b) l) -> SV w'.
Proof.
  intros [S1 S2 S3] G St L N. split.
  - intros s d v b. rewrite L, in_app_iff, stored_app, asked_app, in_app_iff.
    intros [X|X]; [apply S1 in X; tauto | exfalso; eapply N; eauto].
  - intros p P. apply G, S2 in P. rewrite L, asked_app, in_app_iff. auto.
  - intros d v X. rewrite L, stored_app. apply St in X as [X|X]; auto.
Qed.

Lemma sv_asks self w w' : Asks self w w' -> SV w -> SV w'.
Proof.
  induction 1; auto. intros G. apply IHAsks. apply (sv_mute w _ [EvGet o d]); auto.
  simpl. intros ? ? ? ? [X|[]]. discriminate.
Qed.

Lemma sv_get w s d b : SV w -> In (d, s) (asked (log w)) -> SV (process_get w s d b) /\
  asked (log (process_get w s d b)) = asked (log w).
Proof.
  intros G A. unfold process_get. destruct (store w d) as [v|] eqn:S.
  - destruct (pair_in (d, s) (sent w)); [auto|]. destruct G as [S1 S2 S3]. split.
    + split; simpl.
      * intros s' d' v' b'. rewrite in_app_iff, stored_app, asked_app, in_app_iff. simpl.
        intros [X|[X|[]]]; [apply S1 in X; tauto|]. injection X as <- <- <- _. auto.
      * intros p P. rewrite asked_app, in_app_iff. auto.
      * intros x y X. rewrite stored_app. auto.
    + simpl. rewrite asked_app. simpl. apply app_nil_r.
  - destruct G as [S1 S2 S3]. split; [|destruct b; auto].
    destruct b; split; simpl; auto; intros p; rewrite add_pair_in; intros [P|P]; auto;
      destruct P as [->|P]; auto.
Qed.

Lemma sv_fold d b rs : forall w, SV w -> (forall r, In r rs -> In (d, r) (asked (log w))) ->
  SV (fold_left (fun w r => process_get w r d b) rs w) /\
  asked (log (fold_left (fun w r => process_get w r d b) rs w)) = asked (log w).
Proof.
  induction rs as [|r rs IH]; intros w G A; simpl; auto.
  destruct (sv_get w r d b G) as [G1 A1]; [apply A; simpl; auto|].
  destruct (IH _ G1) as [G2 A2]; [intros x X; rewrite A1; apply A; simpl; auto|]. split; auto. congruence.
Qed.

Lemma sv_request w d : SV w -> SV (check_request w d).
Proof.
  intros G. unfold check_request.
  destruct (sv_fold d false (ranks_of d (gets w)) w G) as [G1 A1].
  { intros r R. apply ranks_of_in in R. apply (sv_gets _ G); auto. }
  set (w1 := fold_left (fun w r => process_get w r d false) (ranks_of d (gets w)) w) in *.
  set (w2 := set_gets w1 (without d (gets w1)) (bgets w1)).
  assert (G2 : SV w2).
  { apply (sv_mute w1 _ []); auto.
    - intros p [P|P]; [left; apply (without_in (fun _ => True) d _ p), P | auto].
    - simpl. rewrite app_nil_r. auto. }
  destruct (sv_fold d true (ranks_of d (bgets w2)) w2 G2) as [G3 A3].
  { intros r R. apply ranks_of_in in R. apply (sv_gets _ G2); auto. }
  set (w3 := fold_left (fun w r => process_get w r d true) (ranks_of d (bgets w2)) w2) in *.
  apply (sv_mute w3 _ []); auto.
  - intros p [P|P]; [auto | right; apply (without_in (fun _ => True) d _ p), P].
  - simpl. rewrite app_nil_r. auto.
Qed.

Lemma sv_check ds : forall w, SV w -> SV (check_gets w ds).
Proof.
  unfold check_gets. induction ds as [|d ds IH]; intros w G; simpl; auto. apply IH, sv_request, G.
Qed.

Section Sends.
Variable self : rank.
Variable body : val -> val -> val -> result.
Variable mbody : list call -> call -> result.
Variable is_async : callee -> bool.
Hypothesis body_ok : forall f a k, no_refs_returned (body f a k).
Hypothesis mbody_ok : forall h c, no_refs_returned (mbody h c).

Lemma sv_evaluated w n c args kwargs st : WI body mbody w -> SV w ->
  SV (put_all (fst (evaluate body mbody w n c args kwargs)) st).
Proof.
  intros I G.
  destruct (evaluate_spec body mbody w n c args kwargs (wi_calls _ _ _ I))
    as (Er & El & E1 & E2 & E3 & E4 & E5 & E6 & _).
  set (w3 := fst (evaluate body mbody w n c args kwargs)) in *.
  destruct (put_all_fields st w3) as (P1&_&_&_&P5&P6&_&_&_&_&_&P12).
  eapply (sv_mute w _ ((ev_run n c args kwargs ++
     [EvEnd n (result_of body mbody (log w) c args kwargs)]) ++ ev_stores st)); auto.
  - rewrite P5, P6, E5, E6. auto.
  - intros d v X. rewrite P1 in X. apply dput_all_spec in X as [X|X].
    + rewrite E1 in X. auto.
    + right. apply stored_app. right. apply stored_stores. auto.
  - rewrite P12, El, <- !app_assoc. auto.
  - intros s d v b X. apply in_app_or in X as [X|X].
    + apply in_app_or in X as [X|[X|[]]]; [|discriminate]. unfold ev_run in X.
      destruct (failed_arg args kwargs); [destruct X | destruct X as [X|[]]; discriminate].
    + apply in_map_iff in X as (y & X & _). discriminate.
Qed.

Lemma sv_done w ds : SV w -> SV (emit w (EvDone ds)).
Proof.
  clear. intros G. apply (sv_mute w _ [EvDone ds]); auto. simpl. intros s d v b [X|[]]. discriminate.
Qed.

Lemma sv_process w q w' kept : WI body mbody w -> SV w ->
  process_task self body mbody is_async w q = Some (w', kept) -> SV w'.
Proof.
  intros I G H. apply process_task_spec in H; [|eapply wi_clean'; eauto].
  destruct H as [args kwargs As _ _ _ _ | c args kwargs w2 As _ _ _ _ _ _ _ Y
                | c args kwargs w2 st done As _ _ _ _ _ _ _ R ->].
  - eapply sv_asks; eauto.
  - subst w'. apply sv_check. eapply (sv_mute w2 _ []); auto; [eapply sv_asks; eauto | simpl; rewrite app_nil_r; auto].
  - assert (G2 : SV w2) by (eapply sv_asks; eauto).
    assert (I2 : WI body mbody w2) by (eapply wi_quietly; eauto; eapply quietly_asks; eauto).
    apply sv_check, sv_done, sv_check, sv_evaluated; auto.
Qed.

Lemma sv_recheck l : forall w w' l', WI body mbody w -> (forall q, In q l -> From (log w) q) ->
  SV w -> recheck self body mbody is_async w l = Some (w', l') -> SV w'.
Proof.
  induction l as [|q l IH]; intros w w' l' I F G H; simpl in H.
  - apply Some_inj in H; apply pair_inj in H as [<- <-]. auto.
  - destruct (process_task self body mbody is_async w q) as [[w1 kept]|] eqn:E; [|discriminate].
    destruct (recheck self body mbody is_async w1 l) as [[w2 l2]|] eqn:E2; [|discriminate].
    apply Some_inj in H; apply pair_inj in H as [<- <-].
    assert (G1 := sv_process _ _ _ _ I G E).
    apply process_task_wi in E as (I1 & K1 & _); auto; [|apply F; simpl; auto].
    apply (IH w1 w2 l2); auto. intros x X. destruct (k_log _ _ K1) as [t ->]. apply from_app, F. simpl; auto.
Qed.

Lemma sv_set_pend w p a : SV w -> SV (set_pend w p a).
Proof. intros [S1 S2 S3]. split; auto. Qed.

Lemma sv_tasks w w' : WI body mbody w -> SV w ->
  check_tasks self body mbody is_async w = Some w' -> SV w'.
Proof.
  intros I G H. unfold check_tasks in H.
  destruct (recheck self body mbody is_async w (pend w)) as [[w1 l]|] eqn:E; [|discriminate].
  apply Some_inj in H as <-. apply sv_set_pend. apply sv_recheck in E; auto. intros q Q; apply I; auto.
Qed.

Lemma sv_actor_tasks w w' : WI body mbody w -> SV w ->
  check_actor_tasks self body mbody is_async w = Some w' -> SV w'.
Proof.
  intros I G H. unfold check_actor_tasks in H.
  destruct (recheck self body mbody is_async w (apend w)) as [[w1 l]|] eqn:E; [|discriminate].
  apply Some_inj in H as <-. apply sv_set_pend. apply sv_recheck in E; auto. intros q Q; apply I; auto.
Qed.

Lemma sv_step w m w' : WI body mbody w -> (forall d v, m = WPut d v -> refs v = []) -> SV w ->
  wstep self body mbody is_async w m = Some w' -> SV w'.
Proof.
  intros I N G H. unfold wstep in H. destruct (ready w); [apply Some_inj in H as <-; auto|].
  assert (I0 := emit_in_wi body mbody body_ok mbody_ok w m I N).
  assert (G0 : SV (emit w (EvIn m))).
  { apply (sv_mute w _ [EvIn m]); auto. simpl. intros s d v b [X|[]]. discriminate. }
  destruct m.
  - assert (Fq : From (log (emit w (EvIn (WExec q)))) q) by apply (from_new w q false).
    set (w0 := emit w (EvIn (WExec q))) in *.
    destruct (process_task self body mbody is_async w0 q) as [[w1 [q'|]]|] eqn:E; [| |discriminate].
    + apply Some_inj in H as <-. apply sv_set_pend. eapply sv_process; eauto.
    + assert (G1 := sv_process _ _ _ _ I0 G0 E). apply process_task_wi in E as (I1 & _); auto.
      apply (sv_tasks w1 w'); auto.
  - assert (Fq : From (log (emit w (EvIn (WActor q)))) q) by apply (from_new w q true).
    set (w0 := emit w (EvIn (WActor q))) in *.
    destruct (process_task self body mbody is_async w0 q) as [[w1 [q'|]]|] eqn:E; [| |discriminate].
    + apply Some_inj in H as <-. apply sv_set_pend. eapply sv_process; eauto.
    + assert (G1 := sv_process _ _ _ _ I0 G0 E). apply process_task_wi in E as (I1 & _); auto.
      apply (sv_actor_tasks w1 w'); auto.
  - apply Some_inj in H as <-. apply sv_get; auto. simpl. rewrite asked_app. apply in_or_app. simpl; auto.
  - set (w0 := emit w (EvIn (WPut d v))) in *.
    set (w2 := set_reqs (set_store w0 (dput (store w0) d v))
                 (filter (fun x => negb (did_eqb x d)) (reqs (set_store w0 (dput (store w0) d v))))) in H.
    assert (I2 : WI body mbody w2).
    { destruct I0 as [J1 J2 J3 J4 J5 J6]. split; auto. intros a x. unfold w2. simpl.
      destruct (did_dec d a) as [<-|Na].
      - rewrite dput_same. intros X. apply Some_inj in X as <-. left. apply in_or_app. simpl; auto.
      - rewrite dput_other by auto. intros X. apply J2. exact X. }
    assert (G2 : SV w2).
    { destruct G0 as [S1 S2 S3]. split; auto. intros a x. apply (wi_store _ _ _ I2). }
    destruct (check_tasks self body mbody is_async w2) as [w3|] eqn:E; [|discriminate].
    assert (G3 := sv_tasks _ _ I2 G2 E). apply check_tasks_wi in E as (I3 & _); auto.
    apply (sv_actor_tasks w3 w'); auto.
  - apply Some_inj in H as <-. destruct G0 as [S1 S2 S3]. split; auto.
  - apply Some_inj in H as <-. destruct G0 as [S1 S2 S3]. split; auto. intros x y. simpl.
    unfold forget. destruct (did_in x ds); [discriminate|]. intros X. apply S3. exact X.
  - set (w0 := emit w (EvIn (WFinish i))) in *.
    destruct (nth_error (running w0) i) as [[q c]|]; [|apply Some_inj in H as <-; auto].
    apply Some_inj in H as <-. set (w1 := set_running w0 (remove_at i (running w0))).
    assert (I1 : WI body mbody w1).
    { destruct I0 as [J1 J2 J3 J4 J5 J6]. split; auto. intros q' c' X. apply J6.
      unfold w1 in X. simpl in X. apply remove_at_in in X. exact X. }
    assert (G1 : SV w1) by (destruct G0 as [S1 S2 S3]; split; auto).
    unfold finish_async.
    assert (G2 := fun st => sv_evaluated w1 (q_id q) c (q_args q) (q_kwargs q) st I1 G1).
    destruct (evaluate body mbody w1 (q_id q) c (q_args q) (q_kwargs q)) as [we re]. simpl in G2.
    rewrite store_result_eqn. destruct (results (q_out q) re) as [[st done]|]; [|apply (G2 [])].
    assert (G3 := sv_check (out_ids (q_out q)) _ (G2 st)).
    destruct re; [destruct (q_out q)|]; auto; apply sv_done; auto.
  - apply Some_inj in H as <-. destruct G0 as [S1 S2 S3]. split; auto. simpl. intros p [[]|[]].
Qed.

Lemma sv_run ms : forall w w', WI body mbody w -> no_refs_received ms -> SV w -> wrun self body mbody is_async w ms = Some w' -> SV w'.
Proof.
  induction ms as [|m ms IH]; intros w w' I N G H; simpl in H.
  - apply Some_inj in H as <-. auto.
  - destruct (wstep self body mbody is_async w m) as [w1|] eqn:E; [|discriminate].
    assert (Nm : forall d v, m = WPut d v -> refs v = []) by (intros d v ->; apply (N d); simpl; auto).
    assert (G1 : SV w1) by (eapply sv_step; eauto).
    apply wstep_wi in E as (I1 & _); auto. apply (IH w1); auto.
    intros d v X. apply (N d); simpl; auto.
Qed.

(** The messages taken are those of the log. *)
Definition inputs (l : list wev) : list wmsg := flat_map (fun e => match e with EvIn m => [m] | _ => [] end) l.

Lemma inputs_app a b : inputs (a ++ b) = inputs a ++ inputs b.
Proof. clear. apply flat_map_app. Qed.

Lemma inputs_own l : Forall own_ev l -> inputs l = [].
Proof. clear. induction 1 as [|e l E F IH]; auto. simpl. rewrite IH. destruct e; simpl in *; tauto. Qed.

Lemma in_inputs l m : In m (inputs l) <-> In (EvIn m) l.
Proof.
  clear. unfold inputs. rewrite in_flat_map. split.
  - intros (e & I & H). destruct e; simpl in H; try tauto. destruct H as [->|[]]. auto.
  - intros I. exists (EvIn m). simpl; auto.
Qed.

Lemma received_inputs l : received l = requests (inputs l).
Proof.
  clear. induction l as [|e l IH]; auto. simpl. rewrite IH. destruct e; auto; destruct m; auto.
Qed.

Lemma asked_inputs l : asked l = flat_map (fun m => match m with WGet s d _ => [(d, s)] | _ => [] end) (inputs l).
Proof.
  clear. induction l as [|e l IH]; auto. simpl. rewrite IH. destruct e; auto; destruct m; auto.
Qed.

Lemma step_ready w m w' : WI body mbody w -> (forall d v, m = WPut d v -> refs v = []) -> m <> WCancel ->
  ready w = false -> wstep self body mbody is_async w m = Some w' -> ready w' = false.
Proof.
  intros I N NC R H. unfold wstep in H. rewrite R in H.
  assert (I0 := emit_in_wi body mbody body_ok mbody_ok w m I N).
  assert (R0 : ready (emit w (EvIn m)) = false) by auto.
  destruct m; try congruence.
  - assert (Fq : From (log (emit w (EvIn (WExec q)))) q) by apply (from_new w q false).
    set (w0 := emit w (EvIn (WExec q))) in *.
    destruct (process_task self body mbody is_async w0 q) as [[w1 [q'|]]|] eqn:E; [| |discriminate];
      apply process_task_wi in E as (I1 & K & _); auto.
    + apply Some_inj in H as <-. simpl. rewrite (k_ready _ _ K). auto.
    + apply check_tasks_wi in H as (_ & _ & ->); auto. rewrite (k_ready _ _ K). auto.
  - assert (Fq : From (log (emit w (EvIn (WActor q)))) q) by apply (from_new w q true).
    set (w0 := emit w (EvIn (WActor q))) in *.
    destruct (process_task self body mbody is_async w0 q) as [[w1 [q'|]]|] eqn:E; [| |discriminate];
      apply process_task_wi in E as (I1 & K & _); auto.
    + apply Some_inj in H as <-. simpl. rewrite (k_ready _ _ K). auto.
    + apply check_actor_tasks_wi in H as (_ & _ & ->); auto. rewrite (k_ready _ _ K). auto.
  - apply Some_inj in H as <-. rewrite (qu_ready _ _ (quietly_get _ _ _ _)). auto.
  - set (w0 := emit w (EvIn (WPut d v))) in *.
    set (w2 := set_reqs (set_store w0 (dput (store w0) d v))
                 (filter (fun x => negb (did_eqb x d)) (reqs (set_store w0 (dput (store w0) d v))))) in H.
    assert (I2 : WI body mbody w2).
    { destruct I0 as [J1 J2 J3 J4 J5 J6]. split; auto. intros a x. unfold w2. simpl.
      destruct (did_dec d a) as [<-|Na].
      - rewrite dput_same. intros X. apply Some_inj in X as <-. left. apply in_or_app. simpl; auto.
      - rewrite dput_other by auto. intros X. apply J2. exact X. }
    destruct (check_tasks self body mbody is_async w2) as [w3|] eqn:E; [|discriminate].
    apply check_tasks_wi in E as (I3 & _ & E); auto.
    apply check_actor_tasks_wi in H as (_ & _ & ->); auto. rewrite E. auto.
  - apply Some_inj in H as <-. auto.
  - apply Some_inj in H as <-. auto.
  - destruct (nth_error _ _) as [[q c]|]; apply Some_inj in H as <-; auto.
    destruct (finish_keeps body mbody (set_running (emit w (EvIn (WFinish i)))
      (remove_at i (running (emit w (EvIn (WFinish i)))))) q c) as (_ & _ & _ & _ & _ & ->). auto.
Qed.

Lemma step_inputs w m w' : WI body mbody w -> (forall d v, m = WPut d v -> refs v = []) -> ready w = false ->
  wstep self body mbody is_async w m = Some w' -> inputs (log w') = inputs (log w) ++ [m].
Proof.
  intros I N R H.
  destruct (step_own self body mbody is_async body_ok mbody_ok w m w' I N R H) as (t & L & F).
  rewrite L, inputs_app. change (EvIn m :: t) with ([EvIn m] ++ t). rewrite inputs_app, (inputs_own t F). auto.
Qed.

Lemma run_inputs ms : forall w w', WI body mbody w -> no_refs_received ms ->
  ~ In WCancel ms -> ready w = false -> wrun self body mbody is_async w ms = Some w' ->
  inputs (log w') = inputs (log w) ++ ms /\ ready w' = false.
Proof.
  induction ms as [|m ms IH]; intros w w' I N NC R H; simpl in H.
  - apply Some_inj in H as <-. rewrite app_nil_r. auto.
  - destruct (wstep self body mbody is_async w m) as [w1|] eqn:E; [|discriminate].
    assert (Nm : forall d v, m = WPut d v -> refs v = []) by (intros d v ->; apply (N d); simpl; auto).
    assert (In1 := step_inputs w m w1 I Nm R E).
    assert (R1 : ready w1 = false).
    { apply (step_ready w m w1); auto. intros ->. apply NC. simpl; auto. }
    apply wstep_wi in E as (I1 & _); auto.
    destruct (IH w1 w') as [A B]; auto.
    + intros d v X. apply (N d); simpl; auto.
    + intros X. apply NC. simpl; auto.
    + split; auto. rewrite A, In1, <- app_assoc. auto.
Qed.

Lemma wrun_app a : forall w b, wrun self body mbody is_async w (a ++ b) =
  match wrun self body mbody is_async w a with Some w' => wrun self body mbody is_async w' b | None => None end.
Proof.
  clear. induction a as [|m a IH]; intros w b; simpl; auto.
  destruct (wstep self body mbody is_async w m); auto.
Qed.

Lemma sv_init : SV winit.
Proof. split; simpl; try tauto. discriminate. Qed.

End Sends.
