(** A step of a worker depends on the bodies only at the methods it knows of. *)
From Verif Require Import Lib ValModel WorkerModel WorkerSpec WorkerProofs WorkerLog.
From Verif Require NestOnce.

Section Ext.
Variable self : rank.
Variable body : val -> val -> val -> result.
Variables mb mb' : list call -> call -> result.
Variables as1 as2 : callee -> bool.
Variable N : nat.
Definition few (l : list call) : Prop := Forall (fun c => c_method c < N) l.
Definition ok_callee (c : callee) : Prop := match c with CFun _ => True | CMethod m => m < N end.
Definition ok_q (q : request) : Prop := match q_fn q with FRef _ => True | FMethod m => m < N end.
Hypothesis mb_eq : forall h c, few h -> c_method c < N -> mb h c = mb' h c.
Hypothesis as_eq : forall c, ok_callee c -> as1 c = as2 c.

Record OKw (w : wst) : Prop := {
  ok_pend : Forall ok_q (pend w);
  ok_apend : Forall ok_q (apend w);
  ok_run : Forall (fun p => ok_q (fst p) /\ ok_callee (snd p)) (running w);
  ok_calls : few (calls w)
}.

Lemma ok_same w w' : pend w' = pend w -> apend w' = apend w -> running w' = running w -> calls w' = calls w -> OKw w -> OKw w'.
Proof using Type. intros A B C D [E F G H]. split; rewrite ?A, ?B, ?C, ?D; auto. Qed.

Lemma ok_quietly w w' : Quietly w w' -> OKw w -> OKw w'.
Proof using Type. intros Q. apply ok_same; apply Q. Qed.

Lemma ok_asks w w' : Asks self w w' -> OKw w -> OKw w'.
Proof using Type. intros A. apply ok_quietly. eapply quietly_asks; eauto. Qed.

Lemma evaluate_ext w n c a k : few (calls w) -> ok_callee c ->
  evaluate body mb w n c a k = evaluate body mb' w n c a k.
Proof using mb_eq.
  intros F O. unfold evaluate, run_body. destruct (failed_arg a k); auto. destruct c; auto.
  simpl in O. rewrite (mb_eq (calls w) {| c_method := m; c_args := a; c_kwargs := k |}); auto.
Qed.

Lemma evaluate_ok m w n c a k : OKw w -> ok_callee c -> OKw (fst (evaluate body m w n c a k)).
Proof using Type.
  intros O H. unfold evaluate, run_body. destruct (failed_arg a k); simpl.
  - eapply ok_same; [..|exact O]; auto.
  - destruct c; simpl; [eapply ok_same; [..|exact O]; auto|].
    destruct O as [A B Cc D]. split; simpl; auto. apply Forall_app. split; auto.
Qed.

Lemma put_all_ok w l : OKw w -> OKw (put_all w l).
Proof using Type.
  intros O. destruct (put_all_fields l w) as (_ & H). apply ok_same with w; auto; tauto.
Qed.

Lemma store_result_ok w o r w' d : store_result w o r = Some (w', d) -> OKw w -> OKw w'.
Proof using Type.
  rewrite store_result_eqn. destruct (results o r) as [[st dn]|]; [|discriminate].
  intros H O. apply Some_inj in H. apply pair_inj in H as [<- _]. apply put_all_ok; auto.
Qed.

Lemma process_ext w q : OKw w -> ok_q q ->
  process_task self body mb as1 w q = process_task self body mb' as2 w q.
Proof using mb_eq as_eq.
  intros O Hq. unfold process_task.
  assert (X : forall c, match q_fn q with FRef d => match store w d with Some f => Some (CFun f) | None => None end
                        | FMethod m => Some (CMethod m) end = Some c -> ok_callee c).
  { intros c. unfold ok_q in Hq. destruct (q_fn q); [destruct (store w d); [|discriminate]|];
      intros H; apply Some_inj in H; subst; simpl; auto. }
  destruct (match q_fn q with FRef d => match store w d with Some f => Some (CFun f) | None => None end
            | FMethod m => Some (CMethod m) end) as [c|]; auto. specialize (X c eq_refl).
  destruct (materialize self w (q_args q) false) as [[[w1 a] p1]|] eqn:E1; auto.
  destruct (materialize self w1 (q_kwargs q) false) as [[[w2 k] p2]|] eqn:E2; auto.
  apply NestOnce.mat_asks in E1. apply NestOnce.mat_asks in E2.
  assert (O2 : OKw w2) by (eapply ok_asks; [exact E2|]; eapply ok_asks; eauto).
  rewrite (as_eq c X). destruct (p1 || p2); auto. destruct (as2 c); auto.
  unfold execute_sync. simpl. rewrite evaluate_ext; auto. apply O2.
Qed.

Lemma process_ok m as0 w q w' kept : OKw w -> ok_q q ->
  process_task self body m as0 w q = Some (w', kept) -> OKw w' /\ match kept with Some q' => ok_q q' | None => True end.
Proof using Type.
  intros O Hq H. unfold process_task in H.
  assert (X : forall c, match q_fn q with FRef d => match store w d with Some f => Some (CFun f) | None => None end
                        | FMethod m => Some (CMethod m) end = Some c -> ok_callee c).
  { intros c. unfold ok_q in Hq. destruct (q_fn q); [destruct (store w d); [|discriminate]|];
      intros E; apply Some_inj in E; subst; simpl; auto. }
  destruct (match q_fn q with FRef d => match store w d with Some f => Some (CFun f) | None => None end
            | FMethod m => Some (CMethod m) end) as [c|]; [|discriminate]. specialize (X c eq_refl).
  destruct (materialize self w (q_args q) false) as [[[w1 a] p1]|] eqn:E1; [|discriminate].
  destruct (materialize self w1 (q_kwargs q) false) as [[[w2 k] p2]|] eqn:E2; [|discriminate].
  apply NestOnce.mat_asks in E1. apply NestOnce.mat_asks in E2.
  assert (O2 : OKw w2) by (eapply ok_asks; [exact E2|]; eapply ok_asks; eauto).
  destruct (p1 || p2); [apply Some_inj in H; apply pair_inj in H as [<- <-]; split; auto|].
  destruct (as0 c).
  - apply Some_inj in H; apply pair_inj in H as [<- <-]. split; auto.
    eapply ok_quietly; [apply quietly_gets|]. destruct O2 as [A B Cc D]. split; simpl; auto.
    apply Forall_app. split; auto.
  - unfold execute_sync in H. cbn [q_id q_out] in H.
    assert (O3 := evaluate_ok m w2 (q_id q) c a k O2 X).
    destruct (evaluate body m w2 (q_id q) c a k) as [w3 r]. simpl in O3.
    destruct (store_result w3 (q_out q) r) as [[w4 dn]|] eqn:Es; [|discriminate].
    apply Some_inj in H; apply pair_inj in H as [<- <-]. split; auto.
    apply store_result_ok in Es; auto.
    eapply ok_quietly; [apply quietly_gets|]. eapply ok_same with (check_gets w4 (out_ids (q_out q))); auto.
    eapply ok_quietly; [apply quietly_gets|]. auto.
Qed.

Lemma recheck_ext l : forall w, OKw w -> Forall ok_q l ->
  recheck self body mb as1 w l = recheck self body mb' as2 w l.
Proof using mb_eq as_eq.
  induction l as [|q l IH]; intros w O F; simpl; auto. inversion F; subst.
  rewrite process_ext; auto. destruct (process_task self body mb' as2 w q) as [[w1 kept]|] eqn:E; auto.
  apply process_ok in E as [O1 _]; auto. rewrite IH; auto.
Qed.

Lemma recheck_ok m as0 l : forall w w' l', OKw w -> Forall ok_q l ->
  recheck self body m as0 w l = Some (w', l') -> OKw w' /\ Forall ok_q l'.
Proof using Type.
  induction l as [|q l IH]; intros w w' l' O F H; simpl in H.
  - apply Some_inj in H; apply pair_inj in H as [<- <-]; auto.
  - inversion F; subst.
    destruct (process_task self body m as0 w q) as [[w1 kept]|] eqn:E; [|discriminate].
    apply process_ok in E as [O1 K]; auto.
    destruct (recheck self body m as0 w1 l) as [[w2 r2]|] eqn:E2; [|discriminate].
    apply IH in E2 as [O2 K2]; auto. apply Some_inj in H; apply pair_inj in H as [<- <-].
    split; auto. destruct kept; auto.
Qed.

Lemma check_ext w : OKw w -> check_tasks self body mb as1 w = check_tasks self body mb' as2 w.
Proof using mb_eq as_eq. intros O. unfold check_tasks. rewrite recheck_ext; auto. apply O. Qed.
Lemma check_actor_ext w : OKw w -> check_actor_tasks self body mb as1 w = check_actor_tasks self body mb' as2 w.
Proof using mb_eq as_eq. intros O. unfold check_actor_tasks. rewrite recheck_ext; auto. apply O. Qed.

Lemma check_ok m as0 w w' : OKw w -> check_tasks self body m as0 w = Some w' -> OKw w'.
Proof using Type.
  intros O. unfold check_tasks. destruct (recheck self body m as0 w (pend w)) as [[w1 l]|] eqn:E; [|discriminate].
  intros H. apply Some_inj in H as <-. apply recheck_ok in E as [O1 F]; auto; [|apply O].
  destruct O1. split; simpl; auto.
Qed.
Lemma check_actor_ok m as0 w w' : OKw w -> check_actor_tasks self body m as0 w = Some w' -> OKw w'.
Proof using Type.
  intros O. unfold check_actor_tasks. destruct (recheck self body m as0 w (apend w)) as [[w1 l]|] eqn:E; [|discriminate].
  intros H. apply Some_inj in H as <-. apply recheck_ok in E as [O1 F]; auto; [|apply O].
  destruct O1. split; simpl; auto.
Qed.

Definition ok_msg (m : wmsg) : Prop := match m with WExec q | WActor q => ok_q q | _ => True end.

Lemma ok_emit w e : OKw w -> OKw (emit w e).
Proof using Type. apply ok_same; auto. Qed.

Lemma finish_ext w q c : OKw w -> ok_callee c -> finish_async body mb w q c = finish_async body mb' w q c.
Proof using mb_eq. intros O H. unfold finish_async. rewrite evaluate_ext; auto. apply O. Qed.

Lemma finish_ok m w q c : OKw w -> ok_callee c -> OKw (finish_async body m w q c).
Proof using Type.
  intros O H. unfold finish_async. assert (O1 := evaluate_ok m w (q_id q) c (q_args q) (q_kwargs q) O H).
  destruct (evaluate body m w (q_id q) c (q_args q) (q_kwargs q)) as [w1 r]. simpl in O1.
  destruct (store_result w1 (q_out q) r) as [[w2 dn]|] eqn:E; auto. apply store_result_ok in E; auto.
  assert (O3 : OKw (check_gets w2 (out_ids (q_out q)))) by (eapply ok_quietly; [apply quietly_gets|]; auto).
  destruct r, (q_out q); auto; apply ok_emit; auto.
Qed.

Lemma running_ok w i q c : OKw w -> nth_error (running w) i = Some (q, c) -> ok_callee c.
Proof using Type.
  intros O H. apply nth_error_In in H. assert (F := ok_run _ O). rewrite Forall_forall in F. apply F in H. apply H.
Qed.

Lemma remove_ok w i : OKw w -> OKw (set_running w (remove_at i (running w))).
Proof using Type.
  intros [A B R D]. split; simpl; auto. rewrite Forall_forall in *. intros x H. apply R. eapply remove_at_in; eauto.
Qed.

Lemma wstep_ext w m : OKw w -> ok_msg m -> wstep self body mb as1 w m = wstep self body mb' as2 w m.
Proof using mb_eq as_eq.
  intros O M. unfold wstep. destruct (ready w); auto. assert (O1 := ok_emit w (EvIn m) O). destruct m; auto; simpl in M.
  - rewrite process_ext; auto. destruct (process_task self body mb' as2 (emit w (EvIn (WExec q))) q) as [[w1 [q'|]]|] eqn:E; auto.
    apply process_ok in E as [O2 _]; auto. apply check_ext; auto.
  - rewrite process_ext; auto. destruct (process_task self body mb' as2 (emit w (EvIn (WActor q))) q) as [[w1 [q'|]]|] eqn:E; auto.
    apply process_ok in E as [O2 _]; auto. apply check_actor_ext; auto.
  - set (w2 := set_reqs _ _).
    assert (O2 : OKw w2) by (apply ok_same with (emit w (EvIn (WPut d v))); auto).
    rewrite check_ext; auto.
    destruct (check_tasks self body mb' as2 w2) as [w3|] eqn:E; auto. apply check_actor_ext. eapply check_ok; eauto.
  - destruct (nth_error (running (emit w (EvIn (WFinish i)))) i) as [[q c]|] eqn:E; auto.
    rewrite finish_ext; auto; [apply remove_ok; auto|eapply running_ok; eauto].
Qed.

Lemma wstep_ok mm as0 w m w' : OKw w -> ok_msg m -> wstep self body mm as0 w m = Some w' -> OKw w'.
Proof using Type.
  intros O M. unfold wstep. destruct (ready w); [intros H; apply Some_inj in H as <-; auto|].
  assert (O1 := ok_emit w (EvIn m) O). destruct m; simpl in M.
  - destruct (process_task self body mm as0 (emit w (EvIn (WExec q))) q) as [[w1 [q'|]]|] eqn:E; [| |discriminate];
      apply process_ok in E as [O2 K]; auto; intros H.
    + apply Some_inj in H as <-. destruct O2. split; simpl; auto. apply Forall_app; auto.
    + eapply check_ok; eauto.
  - destruct (process_task self body mm as0 (emit w (EvIn (WActor q))) q) as [[w1 [q'|]]|] eqn:E; [| |discriminate];
      apply process_ok in E as [O2 K]; auto; intros H.
    + apply Some_inj in H as <-. destruct O2. split; simpl; auto. apply Forall_app; auto.
    + eapply check_actor_ok; eauto.
  - intros H. apply Some_inj in H as <-. eapply ok_quietly; [apply quietly_get|]. auto.
  - set (w2 := set_reqs _ _).
    assert (O2 : OKw w2) by (apply ok_same with (emit w (EvIn (WPut d v))); auto).
    destruct (check_tasks self body mm as0 w2) as [w3|] eqn:E; [|discriminate].
    intros H. eapply check_actor_ok; [|exact H]. eapply check_ok; eauto.
  - intros H. apply Some_inj in H as <-. eapply ok_same; [..|exact O1]; auto.
  - intros H. apply Some_inj in H as <-. eapply ok_same; [..|exact O1]; auto.
  - destruct (nth_error (running (emit w (EvIn (WFinish i)))) i) as [[q c]|] eqn:E; intros H; apply Some_inj in H as <-; auto.
    apply finish_ok; [apply remove_ok; auto|eapply running_ok; eauto].
  - intros H. apply Some_inj in H as <-. destruct O1. split; simpl; auto.
Qed.
End Ext.

Lemma okw_mono N N' w : N <= N' -> OKw N w -> OKw N' w.
Proof.
  assert (Q : forall q, N <= N' -> ok_q N q -> ok_q N' q) by (intros q; unfold ok_q; destruct (q_fn q); auto; lia).
  assert (Cc : forall c, N <= N' -> ok_callee N c -> ok_callee N' c) by (intros c; unfold ok_callee; destruct c; auto; lia).
  intros L [A B R D]. split.
  - eapply Forall_impl; [|exact A]. auto.
  - eapply Forall_impl; [|exact B]. auto.
  - eapply Forall_impl; [|exact R]. intros x [? ?]; auto.
  - eapply Forall_impl; [|exact D]. simpl. intros; lia.
Qed.
