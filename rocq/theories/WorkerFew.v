(** A worker never reports more tasks than have ended, only what it has stored, and all outputs of tasks that
    returned enough values, whatever is a coroutine. *)
From Verif Require Import Lib ShmModel ShmRaceProofs ValModel WorkerModel WorkerSpec WorkerProofs
  WorkerLog WorkerTrace WorkerReady WorkerAnswer WorkerOrder WorkerThms WorkerDone.

Definition Few (w w' : wst) : Prop :=
  exists t, log w' = log w ++ t /\ length (reports t) <= length (ended t) /\
    (forall ds d, In ds (reports t) -> In d ds -> exists v, In (EvStore d v) t) /\
    (forall n v, In (EvEnd n (RVal v)) t -> exists q, In q (received (log w')) /\ q_id q = n /\
       (enough (q_out q) (RVal v) -> forall d, In d (out_ids (q_out q)) -> exists ds, In ds (reports t) /\ In d ds)).

Lemma none_ended t n r : ended t = [] -> ~ In (EvEnd n r) t.
Proof.
  intros E I. assert (X : In n (ended t)); [|rewrite E in X; destruct X].
  unfold ended. apply in_flat_map. exists (EvEnd n r). simpl. auto.
Qed.

Lemma few_none w w' t : log w' = log w ++ t -> reports t = [] -> ended t = [] -> Few w w'.
Proof.
  intros L R N. exists t. rewrite R. split; auto. split; [simpl; lia|]. split; [intros ds d []|].
  intros n v I. exfalso. eapply none_ended; eauto.
Qed.

Lemma few_refl w : Few w w.
Proof. apply (few_none w w []); auto. rewrite app_nil_r. auto. Qed.

Lemma few_trans a b c : Few a b -> Few b c -> Few a c.
Proof.
  intros (t1 & L1 & F1 & T1 & S1) (t2 & L2 & F2 & T2 & S2). exists (t1 ++ t2).
  split; [rewrite L2, L1, app_assoc; auto|].
  rewrite reports_app, ended_app, !app_length. split; [lia|]. split.
  { intros ds d I D. apply in_app_or in I as [I|I]; [destruct (T1 _ _ I D) as [v V] | destruct (T2 _ _ I D) as [v V]];
      exists v; apply in_or_app; auto. }
  intros n v I. apply in_app_or in I as [I|I].
  - destruct (S1 _ _ I) as (q & Q & Id & X). exists q. split; [rewrite L2, received_app; apply in_or_app; auto|].
    split; auto. intros En d D. destruct (X En d D) as (ds & Y & Z). exists ds. split; auto. apply in_or_app; auto.
  - destruct (S2 _ _ I) as (q & Q & Id & X). exists q. split; auto. split; auto.
    intros En d D. destruct (X En d D) as (ds & Y & Z). exists ds. split; auto. apply in_or_app; auto.
Qed.

Lemma few_calmly w w' : Calmly w w' -> Few w w'.
Proof. intros (_ & t & L & F). apply (few_none w w' t); auto; apply (calm_none _ F). Qed.

Lemma few_same w w' : log w' = log w -> Few w w'.
Proof. intros L. apply (few_none w w' []); auto. rewrite app_nil_r. auto. Qed.

Lemma results_told o r st done : results o r = Some (st, done) -> incl done (map fst st).
Proof.
  unfold results. destruct r as [v|e], o as [|d|ds]; try discriminate;
    try (intros E; apply Some_inj in E; apply pair_inj in E as [<- <-]; intros x X; destruct X; simpl; auto; fail).
  destruct (iterate v) as [vs|]; [|discriminate]. intros E. apply Some_inj in E; apply pair_inj in E as [<- <-]. intros x X. exact X.
Qed.

Section Few.
Variable self : rank.
Variable body : val -> val -> val -> result.
Variable mbody : list call -> call -> result.
Variable is_async : callee -> bool.
Hypothesis body_ok : forall f a k, no_refs_returned (body f a k).
Hypothesis mbody_ok : forall h c, no_refs_returned (mbody h c).

Lemma results_all o v st done : results o (RVal v) = Some (st, done) -> enough o (RVal v) -> incl (out_ids o) done.
Proof.
  clear. unfold results. destruct o as [|d|ds]; simpl.
  - intros _ _ x [].
  - intros E _. apply Some_inj in E; apply pair_inj in E as [_ <-]. intros x X; auto.
  - intros E (vs & It & Le). rewrite It in E. apply Some_inj in E; apply pair_inj in E as [_ <-]. intros x X. apply fst_combine; auto.
Qed.

(** A result, and at most one report. *)
Lemma few_end w q c args kwargs st w' l : WI body mbody w -> From (log w) q ->
  Calmly (put_all (fst (evaluate body mbody w (q_id q) c args kwargs)) st) w' ->
  (l = [] \/ exists ds, l = [EvDone ds] /\ incl ds (map fst st)) ->
  (forall v, snd (evaluate body mbody w (q_id q) c args kwargs) = RVal v -> enough (q_out q) (RVal v) ->
    forall d, In d (out_ids (q_out q)) -> exists ds, l = [EvDone ds] /\ In d ds) ->
  forall w'', log w'' = log w' ++ l -> Few w w''.
Proof.
  clear. intros I (q0 & Q0 & Q1 & _ & Q3 & _) (_ & t & L & F) Hl Hs w'' L2.
  destruct (evaluate_spec body mbody w (q_id q) c args kwargs (wi_calls _ _ _ I)) as (Er & El & _).
  rewrite Er in Hs. clear Er.
  set (w3 := fst (evaluate body mbody w (q_id q) c args kwargs)) in *.
  destruct (put_all_fields st w3) as (_&_&_&_&_&_&_&_&_&_&_&P12).
  unfold Few. rewrite L2, L, P12, El, <- !app_assoc. eexists. split; [reflexivity|].
  rewrite !reports_app, !ended_app. destruct (calm_none _ F) as [Cr Ce]. rewrite Cr, Ce.
  assert (R : reports (ev_run (q_id q) c args kwargs) = []).
  { unfold ev_run. destruct (failed_arg args kwargs); auto. }
  rewrite R, reports_stores. simpl. rewrite ended_run. simpl. rewrite !app_length. split.
  { destruct Hl as [->|(ds & -> & Inc)]; simpl; lia. }
  split.
  - destruct Hl as [->|(ds & -> & Inc)]; intros x d Ix D; [destruct Ix|].
    destruct Ix as [<-|[]]. apply Inc, in_map_iff in D as ([k v] & <- & D). exists v.
    apply in_or_app. right. simpl. right. apply in_or_app. left. apply in_map_iff. exists (k, v). auto.
  - intros n v X. exists q0. split; [rewrite received_app; apply in_or_app; auto|].
    assert (Y : n = q_id q /\ result_of body mbody (log w) c args kwargs = RVal v).
    { apply in_app_or in X as [X|X]; [exfalso; eapply none_ended; [apply ended_run | eauto]|].
      simpl in X. destruct X as [X|X]; [inversion X; auto|]. exfalso. apply in_app_or in X as [X|X].
      - apply in_map_iff in X as (? & X & _). discriminate.
      - apply in_app_or in X as [X|X]; [eapply none_ended; eauto|].
        destruct Hl as [->|(ds & -> & _)]; simpl in X; [|destruct X as [X|[]]; discriminate]. destruct X. }
    destruct Y as [-> Er]. split; auto. rewrite <- Q3. intros En d D. destruct (Hs v Er En d D) as (ds & -> & Di).
    exists ds. simpl. auto.
Qed.

Lemma few_process w q w' kept : WI body mbody w -> From (log w) q ->
  process_task self body mbody is_async w q = Some (w', kept) -> Few w w'.
Proof.
  intros I Fq H. apply process_task_spec in H; [|eapply wi_clean'; eauto].
  destruct H as [args kwargs As _ _ _ _ | c args kwargs w2 As _ _ _ _ _ _ _ Y
                | c args kwargs w2 st done As _ _ _ _ _ _ _ R ->].
  - apply few_calmly, (calmly_asks self), As.
  - subst w'. eapply few_trans; [apply few_calmly, (calmly_asks self), As|].
    eapply few_trans; [|apply few_calmly, (calmly_gets (out_ids (q_out q)))]. apply few_same. auto.
  - eapply few_trans; [apply few_calmly, (calmly_asks self), As|].
    eapply few_trans; [|apply few_calmly, (calmly_gets (out_ids (q_out q)))].
    assert (Qu := quietly_asks self _ _ As).
    apply (few_end w2 q c args kwargs st
             (check_gets (put_all (fst (evaluate body mbody w2 (q_id q) c args kwargs)) st) (out_ids (q_out q))) [EvDone done]); eauto using results_told.
    + eapply wi_quietly; eauto.
    + destruct Qu as [_ _ _ _ _ _ _ [l [-> _]]]. apply from_app; auto.
    + apply calmly_gets.
    + intros v Ev En d D. rewrite Ev in R. exists done. split; auto. eapply results_all; eauto.
Qed.

Lemma few_recheck l : forall w w' l', WI body mbody w -> (forall q, In q l -> From (log w) q) ->
  recheck self body mbody is_async w l = Some (w', l') -> Few w w'.
Proof.
  induction l as [|q l IH]; intros w w' l' I F H; simpl in H.
  - apply Some_inj in H; apply pair_inj in H as [<- <-]. apply few_refl.
  - destruct (process_task self body mbody is_async w q) as [[w1 kept]|] eqn:E; [|discriminate].
    destruct (recheck self body mbody is_async w1 l) as [[w2 l2]|] eqn:E2; [|discriminate].
    apply Some_inj in H; apply pair_inj in H as [<- <-].
    eapply few_trans; [eapply few_process; eauto; apply F; simpl; auto|].
    apply process_task_wi in E as (I1 & K1 & _); auto; [|apply F; simpl; auto].
    apply (IH w1 w2 l2); auto. intros x X. destruct (k_log _ _ K1) as [t ->]. apply from_app, F. simpl; auto.
Qed.

Lemma few_tasks w w' : WI body mbody w -> check_tasks self body mbody is_async w = Some w' -> Few w w'.
Proof.
  intros I H. unfold check_tasks in H.
  destruct (recheck self body mbody is_async w (pend w)) as [[w1 l]|] eqn:E; [|discriminate].
  apply Some_inj in H as <-. apply few_recheck in E; auto. intros q Q; apply I; auto.
Qed.

Lemma few_actor_tasks w w' : WI body mbody w -> check_actor_tasks self body mbody is_async w = Some w' -> Few w w'.
Proof.
  intros I H. unfold check_actor_tasks in H.
  destruct (recheck self body mbody is_async w (apend w)) as [[w1 l]|] eqn:E; [|discriminate].
  apply Some_inj in H as <-. apply few_recheck in E; auto. intros q Q; apply I; auto.
Qed.

Lemma few_step w m w' : WI body mbody w -> (forall d v, m = WPut d v -> refs v = []) ->
  wstep self body mbody is_async w m = Some w' -> Few w w'.
Proof.
  intros I N H. unfold wstep in H. destruct (ready w); [apply Some_inj in H as <-; apply few_refl|].
  assert (I0 := emit_in_wi body mbody body_ok mbody_ok w m I N).
  assert (G0 : Few w (emit w (EvIn m))).
  { apply (few_none _ _ [EvIn m]); auto. }
  eapply few_trans; [exact G0|]. clear G0.
  destruct m.
  - assert (Fq : From (log (emit w (EvIn (WExec q)))) q) by apply (from_new w q false).
    set (w0 := emit w (EvIn (WExec q))) in *.
    destruct (process_task self body mbody is_async w0 q) as [[w1 [q'|]]|] eqn:E; [| |discriminate].
    + apply Some_inj in H as <-. eapply few_trans; [eapply few_process; eauto | apply few_same; auto].
    + eapply few_trans; [eapply few_process; eauto|]. apply process_task_wi in E as (I1 & _); auto.
      apply (few_tasks w1 w'); auto.
  - assert (Fq : From (log (emit w (EvIn (WActor q)))) q) by apply (from_new w q true).
    set (w0 := emit w (EvIn (WActor q))) in *.
    destruct (process_task self body mbody is_async w0 q) as [[w1 [q'|]]|] eqn:E; [| |discriminate].
    + apply Some_inj in H as <-. eapply few_trans; [eapply few_process; eauto | apply few_same; auto].
    + eapply few_trans; [eapply few_process; eauto|]. apply process_task_wi in E as (I1 & _); auto.
      apply (few_actor_tasks w1 w'); auto.
  - apply Some_inj in H as <-. apply few_calmly, calmly_get.
  - set (w0 := emit w (EvIn (WPut d v))) in *.
    set (w2 := set_reqs (set_store w0 (dput (store w0) d v))
                 (filter (fun x => negb (did_eqb x d)) (reqs (set_store w0 (dput (store w0) d v))))) in H.
    assert (I2 : WI body mbody w2).
    { destruct I0 as [J1 J2 J3 J4 J5 J6]. split; auto. intros a x. unfold w2. simpl.
      destruct (did_dec d a) as [<-|Na].
      - rewrite dput_same. intros X. apply Some_inj in X as <-. left. apply in_or_app. simpl; auto.
      - rewrite dput_other by auto. intros X. apply J2. exact X. }
    eapply few_trans; [apply (few_same w0 w2); auto|].
    destruct (check_tasks self body mbody is_async w2) as [w3|] eqn:E; [|discriminate].
    eapply few_trans; [eapply few_tasks; eauto|]. apply check_tasks_wi in E as (I3 & _); auto.
    apply (few_actor_tasks w3 w'); auto.
  - apply Some_inj in H as <-. apply few_same; auto.
  - apply Some_inj in H as <-. apply few_same; auto.
  - set (w0 := emit w (EvIn (WFinish i))) in *.
    destruct (nth_error (running w0) i) as [[q c]|] eqn:Nt; [|apply Some_inj in H as <-; apply few_refl].
    apply Some_inj in H as <-. set (w1 := set_running w0 (remove_at i (running w0))).
    assert (I1 : WI body mbody w1).
    { destruct I0 as [J1 J2 J3 J4 J5 J6]. split; auto. intros q' c' X. apply J6.
      unfold w1 in X. simpl in X. apply remove_at_in in X. exact X. }
    eapply few_trans; [apply (few_same w0 w1); auto|].
    assert (Fq : From (log w1) q) by (eapply (wi_run _ _ _ I0), nth_error_In; eauto).
    unfold finish_async.
    assert (G2 := fun st w' l => few_end w1 q c (q_args q) (q_kwargs q) st w' l I1 Fq).
    destruct (evaluate body mbody w1 (q_id q) c (q_args q) (q_kwargs q)) as [we re]. simpl in G2.
    rewrite store_result_eqn. destruct (results (q_out q) re) as [[st done]|] eqn:Re.
    2: { apply (G2 [] we []); auto; [apply calmly_refl | | rewrite app_nil_r; auto].
         intros v -> En d D. exfalso. unfold results in Re. destruct (q_out q) as [|d0|ds]; try discriminate.
         destruct En as (vs & It & _). rewrite It in Re. discriminate. }
    assert (Cg := calmly_gets (out_ids (q_out q)) (put_all we st)).
    assert (G3 := fun l H => G2 st _ l Cg H).
    assert (Tl := results_told _ _ _ _ Re).
    destruct re as [v|e].
    + assert (G4 : forall v', RVal v = RVal v' -> enough (q_out q) (RVal v') ->
        forall d, In d (out_ids (q_out q)) -> In d done).
      { intros v' X En d D. inversion X. subst v'. eapply results_all; eauto. }
      destruct (q_out q) eqn:Eo; [apply (G3 []); [auto | intros ? ? ? ? [] | rewrite app_nil_r; reflexivity]| |];
        (apply (G3 [EvDone done]); [eauto | intros v' X En x D; exists done; split; auto; eapply G4; eauto | reflexivity]).
    + assert (X : forall l v', RExc e = RVal v' -> enough (q_out q) (RVal v') ->
        forall d, In d (out_ids (q_out q)) -> exists ds, l = [EvDone ds] /\ In d ds) by discriminate.
      destruct (q_out q); (apply (G3 []); [auto | exact (X []) | rewrite app_nil_r; reflexivity]).
  - apply Some_inj in H as <-. apply few_same; auto.
Qed.

Lemma few_run ms : forall w w', WI body mbody w -> no_refs_received ms ->
  wrun self body mbody is_async w ms = Some w' -> Few w w'.
Proof.
  induction ms as [|m ms IH]; intros w w' I N H; simpl in H.
  - apply Some_inj in H as <-. apply few_refl.
  - destruct (wstep self body mbody is_async w m) as [w1|] eqn:E; [|discriminate].
    assert (Nm : forall d v, m = WPut d v -> refs v = []) by (intros d v ->; apply (N d); simpl; auto).
    eapply few_trans; [eapply few_step; eauto|].
    apply wstep_wi in E as (I1 & _); auto. apply (IH w1); auto. intros d v X. apply (N d); simpl; auto.
Qed.

Lemma few_reports ms w : no_refs_received ms -> wrun self body mbody is_async winit ms = Some w ->
  length (reports (log w)) <= length (ended (log w)).
Proof. intros N R. destruct (few_run ms winit w (wi_init _ _) N R) as (t & L & F & _ & _). rewrite L. exact F. Qed.

Lemma told_stored ms w : no_refs_received ms -> wrun self body mbody is_async winit ms = Some w ->
  forall ds d, In ds (reports (log w)) -> In d ds -> exists v, In (EvStore d v) (log w).
Proof. intros N R. destruct (few_run ms winit w (wi_init _ _) N R) as (t & L & _ & F & _). rewrite L. exact F. Qed.

Lemma success_told ms w : no_refs_received ms -> wrun self body mbody is_async winit ms = Some w ->
  forall n v, In (EvEnd n (RVal v)) (log w) -> exists q, In q (received (log w)) /\ q_id q = n /\
    (enough (q_out q) (RVal v) -> forall d, In d (out_ids (q_out q)) -> exists ds, In ds (reports (log w)) /\ In d ds).
Proof.
  intros N R n v I. destruct (few_run ms winit w (wi_init _ _) N R) as (t & L & _ & _ & F). simpl in L. rewrite L in I.
  destruct (F n v I) as (q & Q & X). exists q. rewrite L in *. auto.
Qed.
End Few.
