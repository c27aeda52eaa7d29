(** Where what a worker stores comes from: in one turn, only from what is stored in that turn. *)
From Verif Require Import Lib ShmModel ShmRaceProofs ValModel WorkerModel WorkerSpec WorkerProofs WorkerLog WorkerReady WorkerTrace WorkerAnswer WorkerOrder WorkerSends.

Definition Grow (w w' : wst) : Prop := exists t, log w' = log w ++ t /\
  forall d v, store w' d = Some v -> store w d = Some v \/ stored t d v.

Lemma grow_refl w : Grow w w.
Proof. exists []. rewrite app_nil_r. auto. Qed.

Lemma grow_trans a b c : Grow a b -> Grow b c -> Grow a c.
Proof.
  intros (t & E & H) (t' & E' & H'). exists (t ++ t'). rewrite E', E, app_assoc. split; auto.
  intros d v S. rewrite stored_app. apply H' in S as [S|S]; auto. apply H in S as [S|S]; auto.
Qed.

Lemma grow_quietly w w' : Quietly w w' -> Grow w w'.
Proof. intros [Q _ _ _ _ _ _ (l & E & _)]. exists l. rewrite Q. auto. Qed.

Lemma grow_same w w' : store w' = store w -> log w' = log w -> Grow w w'.
Proof. intros S L. exists []. rewrite S, L, app_nil_r. auto. Qed.

Lemma grow_emit w e : Grow w (emit w e).
Proof. exists [e]. simpl. auto. Qed.

Section Kept.
Variable self : rank.
Variable body : val -> val -> val -> result.
Variable mbody : list call -> call -> result.
Variable is_async : callee -> bool.
Hypothesis body_ok : forall f a k, no_refs_returned (body f a k).
Hypothesis mbody_ok : forall h c, no_refs_returned (mbody h c).

Lemma grow_evaluated w n c args kwargs st : WI body mbody w ->
  Grow w (put_all (fst (evaluate body mbody w n c args kwargs)) st).
Proof using.
  intros I.
  destruct (evaluate_spec body mbody w n c args kwargs (wi_calls _ _ _ I))
    as (Er & El & E1 & E2 & E3 & E4 & E5 & E6 & _).
  set (w3 := fst (evaluate body mbody w n c args kwargs)) in *.
  destruct (put_all_fields st w3) as (P1&_&_&_&P5&P6&_&_&_&_&_&P12).
  exists ((ev_run n c args kwargs ++
     [EvEnd n (result_of body mbody (log w) c args kwargs)]) ++ ev_stores st). split.
  - rewrite P12, El, <- !app_assoc. auto.
  - intros d v X. rewrite P1 in X. apply dput_all_spec in X as [X|X].
    + rewrite E1 in X. auto.
    + right. apply stored_app. right. apply stored_stores. auto.
Qed.

Lemma grow_process w q w' kept : WI body mbody w ->
  process_task self body mbody is_async w q = Some (w', kept) -> Grow w w'.
Proof using body_ok mbody_ok.
  intros I H. apply process_task_spec in H; [|eapply wi_clean'; eauto].
  destruct H as [args kwargs As _ _ _ _ | c args kwargs w2 As _ _ _ _ _ _ _ Y
                | c args kwargs w2 st done As _ _ _ _ _ _ _ R ->].
  - eapply grow_quietly, quietly_asks; eauto.
  - subst w'. eapply grow_trans; [eapply grow_quietly, quietly_asks; eauto|].
    eapply grow_trans; [|eapply grow_quietly, quietly_gets]. apply grow_same; reflexivity.
  - assert (I2 : WI body mbody w2) by (eapply wi_quietly; eauto; eapply quietly_asks; eauto).
    eapply grow_trans; [eapply grow_quietly, quietly_asks; eauto|].
    eapply grow_trans; [|eapply grow_quietly, quietly_gets].
    eapply grow_trans; [|apply grow_emit].
    eapply grow_trans; [|eapply grow_quietly, quietly_gets].
    apply grow_evaluated; auto.
Qed.

Lemma grow_recheck l : forall w w' l', WI body mbody w -> (forall q, In q l -> From (log w) q) ->
  recheck self body mbody is_async w l = Some (w', l') -> Grow w w'.
Proof using body_ok mbody_ok.
  induction l as [|q l IH]; intros w w' l' I F H; simpl in H.
  - apply Some_inj in H; apply pair_inj in H as [<- <-]. apply grow_refl.
  - destruct (process_task self body mbody is_async w q) as [[w1 kept]|] eqn:E; [|discriminate].
    destruct (recheck self body mbody is_async w1 l) as [[w2 l2]|] eqn:E2; [|discriminate].
    apply Some_inj in H; apply pair_inj in H as [<- <-].
    eapply grow_trans; [eapply grow_process; eauto|].
    apply process_task_wi in E as (I1 & K1 & _); auto; [|apply F; simpl; auto].
    apply (IH w1 w2 l2); auto. intros x X. destruct (k_log _ _ K1) as [t ->]. apply from_app, F. simpl; auto.
Qed.

Lemma grow_tasks w w' : WI body mbody w ->
  check_tasks self body mbody is_async w = Some w' -> Grow w w'.
Proof using body_ok mbody_ok.
  intros I H. unfold check_tasks in H.
  destruct (recheck self body mbody is_async w (pend w)) as [[w1 l]|] eqn:E; [|discriminate].
  apply Some_inj in H as <-. apply (grow_trans _ w1); [|apply grow_same; reflexivity].
  apply grow_recheck in E; auto. intros q Q; apply I; auto.
Qed.

Lemma grow_actor_tasks w w' : WI body mbody w ->
  check_actor_tasks self body mbody is_async w = Some w' -> Grow w w'.
Proof using body_ok mbody_ok.
  intros I H. unfold check_actor_tasks in H.
  destruct (recheck self body mbody is_async w (apend w)) as [[w1 l]|] eqn:E; [|discriminate].
  apply Some_inj in H as <-. apply (grow_trans _ w1); [|apply grow_same; reflexivity].
  apply grow_recheck in E; auto. intros q Q; apply I; auto.
Qed.

(** What is stored after a turn was stored before, or it was stored in this turn, and it is none of what a cleanup
    names. *)
Lemma grow_step w m w' : WI body mbody w -> (forall d v, m = WPut d v -> refs v = []) ->
  wstep self body mbody is_async w m = Some w' ->
  Grow w w' /\ forall ds d, m = WClean ds -> ready w = false -> In d ds -> store w' d = None.
Proof using body_ok mbody_ok.
  intros I N H. unfold wstep in H. destruct (ready w); [apply Some_inj in H as <-; split; [apply grow_refl|discriminate]|].
  assert (I0 := emit_in_wi body mbody body_ok mbody_ok w m I N).
  assert (G0 := grow_emit w (EvIn m)).
  destruct m.
  - split; [|discriminate]. eapply grow_trans; [exact G0|].
    assert (Fq : From (log (emit w (EvIn (WExec q)))) q) by apply (from_new w q false).
    set (w0 := emit w (EvIn (WExec q))) in *.
    destruct (process_task self body mbody is_async w0 q) as [[w1 [q'|]]|] eqn:E; [| |discriminate].
    + apply Some_inj in H as <-. apply (grow_trans _ w1); [|apply grow_same; reflexivity]. eapply grow_process; eauto.
    + assert (G1 := grow_process _ _ _ _ I0 E). apply process_task_wi in E as (I1 & _); auto.
      eapply grow_trans; [exact G1|]. apply (grow_tasks w1 w'); auto.
  - split; [|discriminate]. eapply grow_trans; [exact G0|].
    assert (Fq : From (log (emit w (EvIn (WActor q)))) q) by apply (from_new w q true).
    set (w0 := emit w (EvIn (WActor q))) in *.
    destruct (process_task self body mbody is_async w0 q) as [[w1 [q'|]]|] eqn:E; [| |discriminate].
    + apply Some_inj in H as <-. apply (grow_trans _ w1); [|apply grow_same; reflexivity]. eapply grow_process; eauto.
    + assert (G1 := grow_process _ _ _ _ I0 E). apply process_task_wi in E as (I1 & _); auto.
      eapply grow_trans; [exact G1|]. apply (grow_actor_tasks w1 w'); auto.
  - split; [|discriminate]. eapply grow_trans; [exact G0|]. apply Some_inj in H as <-. apply grow_quietly, quietly_get.
  - split; [|discriminate]. set (w0 := emit w (EvIn (WPut d v))) in *.
    set (w2 := set_reqs (set_store w0 (dput (store w0) d v))
                 (filter (fun x => negb (did_eqb x d)) (reqs (set_store w0 (dput (store w0) d v))))) in H.
    assert (I2 : WI body mbody w2).
    { destruct I0 as [J1 J2 J3 J4 J5 J6]. split; auto. intros a x. unfold w2. simpl.
      destruct (did_dec d a) as [<-|Na].
      - rewrite dput_same. intros X. apply Some_inj in X as <-. left. apply in_or_app. simpl; auto.
      - rewrite dput_other by auto. intros X. apply J2. exact X. }
    assert (G2 : Grow w w2).
    { exists [EvIn (WPut d v)]. split; [reflexivity|]. intros a x. unfold w2. simpl.
      destruct (did_dec d a) as [<-|Na].
      - rewrite dput_same. intros X. apply Some_inj in X as <-. right. left. simpl. auto.
      - rewrite dput_other by auto. auto. }
    destruct (check_tasks self body mbody is_async w2) as [w3|] eqn:E; [|discriminate].
    assert (G3 := grow_tasks _ _ I2 E). apply check_tasks_wi in E as (I3 & _); auto.
    eapply grow_trans; [exact G2|]. eapply grow_trans; [exact G3|]. apply (grow_actor_tasks w3 w'); auto.
  - split; [|discriminate]. apply Some_inj in H as <-. eapply grow_trans; [exact G0|]. apply grow_same; reflexivity.
  - apply Some_inj in H as <-. split.
    + exists [EvIn (WClean ds)]. split; [reflexivity|]. intros d v. simpl. unfold forget.
      destruct (did_in d ds); [discriminate|]. auto.
    + intros ds' d E _ D. injection E as <-. simpl. unfold forget. apply did_in_In in D. rewrite D. reflexivity.
  - split; [|discriminate]. eapply grow_trans; [exact G0|]. set (w0 := emit w (EvIn (WFinish i))) in *.
    destruct (nth_error (running w0) i) as [[q c]|]; [|apply Some_inj in H as <-; apply grow_refl].
    apply Some_inj in H as <-. set (w1 := set_running w0 (remove_at i (running w0))).
    assert (I1 : WI body mbody w1).
    { destruct I0 as [J1 J2 J3 J4 J5 J6]. split; auto. intros q' c' X. apply J6.
      unfold w1 in X. simpl in X. apply remove_at_in in X. exact X. }
    eapply grow_trans; [apply (grow_same w0 w1); reflexivity|].
    unfold finish_async.
    assert (G2 := fun st => grow_evaluated w1 (q_id q) c (q_args q) (q_kwargs q) st I1).
    destruct (evaluate body mbody w1 (q_id q) c (q_args q) (q_kwargs q)) as [we re]. simpl in G2.
    rewrite store_result_eqn. destruct (results (q_out q) re) as [[st done]|]; [|apply (G2 [])].
    assert (G3 : Grow w1 (check_gets (put_all we st) (out_ids (q_out q)))).
    { eapply grow_trans; [apply G2|]. apply grow_quietly, quietly_gets. }
    destruct re; [destruct (q_out q)|]; auto; (eapply grow_trans; [exact G3|]; apply grow_emit).
  - split; [|discriminate]. eapply grow_trans; [exact G0|]. apply Some_inj in H as <-. apply grow_same; reflexivity.
Qed.
End Kept.
