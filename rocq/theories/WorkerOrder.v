(** The order of actor calls (C32), and the worker's survival (C53). *)
From Verif Require Import Lib ShmModel ShmRaceProofs ValModel WorkerModel WorkerSpec WorkerProofs
  WorkerLog WorkerTrace WorkerReady WorkerAnswer.
From Coq Require Import Permutation.

Section Order.
Variable self : rank.
Variable body : val -> val -> val -> result.
Variable mbody : list call -> call -> result.
Variable is_async : callee -> bool.
Hypothesis body_ok : forall f a k, no_refs_returned (body f a k).
Hypothesis mbody_ok : forall h c, no_refs_returned (mbody h c).
Hypothesis all_sync : forall c, is_async c = false.

(** A request all of whose data is there is executed at once. *)
Lemma process_now w q w' kept : WI body mbody w -> From (log w) q ->
  (forall d, In d (qrefs q) -> store w d <> None) ->
  process_task self body mbody is_async w q = Some (w', kept) ->
  kept = None /\ exists t r t', log w' = log w ++ t ++ EvEnd (q_id q) r :: t' /\ Forall own_ev t.
Proof.
  intros I F AV H. assert (H0 := H). apply process_task_spec in H; [|eapply wi_clean'; eauto].
  inversion H as [args kwargs As F1 F2 R N | c args kwargs w2 As Ca F1 F2 N1 N2 _ Asy E
                 | c args kwargs w2 st done As Ca F1 F2 N1 N2 _ Asy Rs E]; subst kept.
  - exfalso. destruct (refs args ++ refs kwargs) as [|d l] eqn:X; [congruence|].
    destruct (R d) as [Rd _]. destruct Rd as [D S]; [simpl; auto|]. apply (AV d); auto.
  - rewrite all_sync in Asy. discriminate.
  - split; auto. destruct (qu_log _ _ (quietly_asks _ _ _ As)) as (t0 & T0 & F0).
    assert (I2 : WI body mbody w2) by (eapply wi_quietly; eauto; eapply quietly_asks; eauto).
    destruct (evaluate_spec body mbody w2 (q_id q) c args kwargs (wi_calls _ _ _ I2)) as (Er & El & _).
    set (w3 := fst (evaluate body mbody w2 (q_id q) c args kwargs)) in *.
    destruct (put_all_fields st w3) as (_&_&_&_&_&_&_&_&_&_&_&P12).
    destruct (log_quietly _ _ (quietly_gets (out_ids (q_out q)) (put_all w3 st))) as [t1 T1].
    destruct (log_quietly _ _ (quietly_gets (out_ids (q_out q))
      (emit (check_gets (put_all w3 st) (out_ids (q_out q))) (EvDone done)))) as [t2 T2].
    eexists (t0 ++ ev_run (q_id q) c args kwargs), _, _. split.
    + rewrite E, T2. simpl. rewrite T1, P12, El, T0. rewrite <- !app_assoc. simpl. reflexivity.
    + apply Forall_app. split; [apply own_quiet; auto|].
      assert (O := own_run (q_id q) c args kwargs (RExc 0) []). apply Forall_app in O. apply O.
Qed.

Definition at_once (l : list wev) : Prop :=
  forall l1 q l2, l = l1 ++ EvIn (WActor q) :: l2 ->
  (forall d, In d (qrefs q) -> available l1 d = true) ->
  exists t r t', l2 = t ++ EvEnd (q_id q) r :: t' /\ Forall own_ev t.

Lemma at_once_own l t : at_once l -> Forall own_ev t -> at_once (l ++ t).
Proof.
  clear. intros A F l1 q l2 H AV. symmetry in H. apply app_split in H as [(u & H & ->) | (u & -> & H)].
  - destruct (A _ _ _ H AV) as (x & r & y & -> & Fx). exists x, r, (y ++ t).
    split; auto. rewrite <- app_assoc. reflexivity.
  - exfalso. subst t. apply Forall_app in F as [_ F]. inversion F as [|? ? X _]. exact X.
Qed.

(** Everything after the arrival of the message. *)
Lemma step_own w m w' : WI body mbody w -> (forall d v, m = WPut d v -> refs v = []) -> ready w = false ->
  wstep self body mbody is_async w m = Some w' ->
  exists t, log w' = log w ++ EvIn m :: t /\ Forall own_ev t.
Proof using Type body_ok mbody_ok.
  clear all_sync. intros I N Rd H. unfold wstep in H. rewrite Rd in H.
  assert (I0 := emit_in_wi body mbody body_ok mbody_ok w m I N).
  assert (L0 : log (emit w (EvIn m)) = log w ++ [EvIn m]) by reflexivity.
  assert (Gl : forall x, (exists t, log x = log (emit w (EvIn m)) ++ t /\ Forall own_ev t) ->
    exists t, log x = log w ++ EvIn m :: t /\ Forall own_ev t).
  { intros x (t & T & F). exists t. split; auto. rewrite T, L0, <- app_assoc. reflexivity. }
  assert (Hc : forall x y, WI body mbody x -> check_tasks self body mbody is_async x = Some y ->
    exists t, log y = log x ++ t /\ Forall own_ev t).
  { intros x y Ix Hx. unfold check_tasks in Hx.
    destruct (recheck self body mbody is_async x (pend x)) as [[w2 l]|] eqn:E2; [|discriminate].
    apply Some_inj in Hx as <-. apply recheck_wi in E2 as (_ & K2 & _); auto; [|intros z Z; apply Ix; auto].
    apply K2. }
  assert (Ha : forall x y, WI body mbody x -> check_actor_tasks self body mbody is_async x = Some y ->
    exists t, log y = log x ++ t /\ Forall own_ev t).
  { intros x y Ix Hx. unfold check_actor_tasks in Hx.
    destruct (recheck self body mbody is_async x (apend x)) as [[w2 l]|] eqn:E2; [|discriminate].
    apply Some_inj in Hx as <-. apply recheck_wi in E2 as (_ & K2 & _); auto; [|intros z Z; apply Ix; auto].
    apply K2. }
  apply Gl. clear Gl L0.
  destruct m.
  - assert (Fq : From (log (emit w (EvIn (WExec q)))) q) by apply (from_new w q false).
    set (w0 := emit w (EvIn (WExec q))) in *.
    destruct (process_task self body mbody is_async w0 q) as [[w1 [q'|]]|] eqn:E; [| |discriminate].
    + apply Some_inj in H as <-. apply process_task_wi in E as (_ & K & _); auto. apply K.
    + apply process_task_wi in E as (I1 & K & _); auto.
      destruct (k_own _ _ K) as (t & T & Ft). destruct (Hc _ _ I1 H) as (u & U & Fu).
      exists (t ++ u). rewrite U, T, app_assoc. split; auto. apply Forall_app; auto.
  - assert (Fq : From (log (emit w (EvIn (WActor q)))) q) by apply (from_new w q true).
    set (w0 := emit w (EvIn (WActor q))) in *.
    destruct (process_task self body mbody is_async w0 q) as [[w1 [q'|]]|] eqn:E; [| |discriminate].
    + apply Some_inj in H as <-. apply process_task_wi in E as (_ & K & _); auto. apply K.
    + apply process_task_wi in E as (I1 & K & _); auto.
      destruct (k_own _ _ K) as (t & T & Ft). destruct (Ha _ _ I1 H) as (u & U & Fu).
      exists (t ++ u). rewrite U, T, app_assoc. split; auto. apply Forall_app; auto.
  - apply Some_inj in H as <-.
    destruct (qu_log _ _ (quietly_get (emit w (EvIn (WGet src d blocking))) src d blocking)) as (t & T & F).
    exists t. split; auto. apply own_quiet; auto.
  - set (w0 := emit w (EvIn (WPut d v))) in *. 
    set (w2 := set_reqs (set_store w0 (dput (store w0) d v))
                 (filter (fun x => negb (did_eqb x d)) (reqs (set_store w0 (dput (store w0) d v))))) in H.
    assert (I2 : WI body mbody w2).
    { destruct I0 as [J1 J2 J3 J4 J5 J6]. split; auto. intros a x. unfold w2. simpl.
      destruct (did_dec d a) as [<-|Na].
      - rewrite dput_same. intros X. apply Some_inj in X as <-. left. apply in_or_app. simpl; auto.
      - rewrite dput_other by auto. intros X. apply J2. exact X. }
    destruct (check_tasks self body mbody is_async w2) as [w3|] eqn:E; [|discriminate].
    destruct (Hc _ _ I2 E) as (t & T & Ft).
    apply check_tasks_wi in E as (I3 & _); auto. destruct (Ha _ _ I3 H) as (u & U & Fu).
    exists (t ++ u). rewrite U, T. unfold w2. simpl. rewrite <- !app_assoc. split; auto. apply Forall_app; auto.
  - apply Some_inj in H as <-. exists []. rewrite app_nil_r. auto.
  - apply Some_inj in H as <-. exists []. rewrite app_nil_r. auto.
  - destruct (nth_error (running (emit w (EvIn (WFinish i)))) i) as [[q c]|] eqn:E;
      [|apply Some_inj in H as <-; exists []; rewrite app_nil_r; auto].
    apply Some_inj in H as <-. set (w1 := set_running _ _). unfold finish_async.
    assert (Hc1 : calls w1 = calls_of (log w1)) by apply (wi_calls _ _ _ I0).
    destruct (evaluate_spec body mbody w1 (q_id q) c (q_args q) (q_kwargs q) Hc1) as (Er & El & _).
    destruct (evaluate body mbody w1 (q_id q) c (q_args q) (q_kwargs q)) as [we re]. simpl in Er, El.
    rewrite <- Er in El. rewrite store_result_eqn.
    destruct (results (q_out q) re) as [[st done]|].
    2:{ eexists. split; [exact El|]. apply (own_run (q_id q) c (q_args q) (q_kwargs q) re []). }
    destruct (put_all_fields st we) as (_&_&_&_&_&_&_&_&_&_&_&P12).
    destruct (qu_log _ _ (quietly_gets (out_ids (q_out q)) (put_all we st))) as (t1 & T1 & F1).
    set (w5 := check_gets _ _) in *.
    assert (L5 : log w5 = log (emit w (EvIn (WFinish i))) ++
        ((ev_run (q_id q) c (q_args q) (q_kwargs q) ++ EvEnd (q_id q) re :: ev_stores st) ++ t1)).
    { rewrite T1, P12, El. unfold w1. simpl. rewrite <- ?app_assoc. simpl. rewrite <- ?app_assoc. reflexivity. }
    assert (F5 : Forall own_ev ((ev_run (q_id q) c (q_args q) (q_kwargs q) ++ EvEnd (q_id q) re :: ev_stores st) ++ t1)).
    { apply Forall_app. split; [apply own_run | apply own_quiet; auto]. }
    assert (Fd : exists t, log (emit w5 (EvDone done)) = log (emit w (EvIn (WFinish i))) ++ t /\ Forall own_ev t).
    { eexists. split; [simpl; rewrite L5, <- app_assoc; reflexivity|].
      apply Forall_app. split; auto. repeat constructor. }
    destruct re; [destruct (q_out q)|]; auto; eexists; split; eauto.
  - apply Some_inj in H as <-. exists []. rewrite app_nil_r. auto.
Qed.

Lemma at_once_step w m w' : WI body mbody w -> AI self w -> (forall d v, m = WPut d v -> refs v = []) ->
  (match m with WFinish _ => False | _ => True end) ->
  at_once (log w) -> wstep self body mbody is_async w m = Some w' -> at_once (log w').
Proof.
  intros I Ai N NF A H. destruct (ready w) eqn:Rd.
  { unfold wstep in H. rewrite Rd in H. apply Some_inj in H as <-. auto. }
  destruct (step_own w m w' I N Rd H) as (t & T & F). rewrite T.
  intros l1 q l2 E AV. symmetry in E. apply app_split in E as [(u & E & ->) | (u & -> & E)].
  { destruct (A _ _ _ E AV) as (x & r & y & -> & Fx). exists x, r, (y ++ EvIn m :: t).
    split; auto. rewrite <- app_assoc. reflexivity. }
  destruct u as [|e u].
  2:{ exfalso. simpl in E. injection E as <- ->. apply Forall_app in F as [_ F].
      inversion F as [|? ? X _]. exact X. }
  simpl in E. injection E as -> ->. rewrite app_nil_r in AV. clear N NF.
  assert (I0 : WI body mbody (emit w (EvIn (WActor q)))).
  { apply emit_in_wi; auto. intros; discriminate. }
  assert (AV' : forall d, In d (qrefs q) -> store (emit w (EvIn (WActor q))) d <> None).
  { intros d D. apply (ai_store _ _ Ai). auto. }
  assert (Fq : From (log (emit w (EvIn (WActor q)))) q) by apply (from_new w q true).
  unfold wstep in H. rewrite Rd in H. set (w0 := emit w (EvIn (WActor q))) in *.
  destruct (process_task self body mbody is_async w0 q) as [[w1 kept]|] eqn:P; [|discriminate].
  assert (P' := P). apply process_now in P as (-> & t1 & r & t2 & L & F1); auto.
  apply process_task_wi in P' as (I1 & _); auto.
  destruct (check_actor_log self body mbody is_async body_ok mbody_ok _ _ I1 H) as [t3 L3].
  exists t1, r, (t2 ++ t3). split; auto.
  rewrite L3, L in T. unfold w0 in T. simpl in T. rewrite <- !app_assoc in T. apply app_inv_head in T.
  simpl in T. injection T as T. auto.
Qed.

Lemma at_once_run ms : forall w w', WI body mbody w -> AI self w -> no_refs_received ms ->
  (forall i, ~ In (WFinish i) ms) ->
  at_once (log w) -> wrun self body mbody is_async w ms = Some w' -> at_once (log w').
Proof.
  induction ms as [|m ms IH]; intros w w' I Ai N NF A H; simpl in H.
  - apply Some_inj in H as <-. auto.
  - destruct (wstep self body mbody is_async w m) as [w1|] eqn:E; [|discriminate].
    assert (Nm : forall d v, m = WPut d v -> refs v = []) by (intros d v ->; apply (N d); simpl; auto).
    assert (A1 : at_once (log w1)).
    { apply (at_once_step w m w1); auto. destruct m; auto. apply (NF i). simpl; auto. }
    assert (Ai1 := E). apply ai_step in Ai1; auto.
    apply wstep_wi in E as (I1 & _); auto.
    apply (IH w1); auto.
    + intros d v X. apply (N d); simpl; auto.
    + intros i X. apply (NF i). simpl; auto.
Qed.

(** ** Survival *)

Lemma deliverable_results o r : deliverable o r -> results o r <> None.
Proof using Type. clear. destruct o, r; simpl; try discriminate; try tauto. destruct (iterate v); congruence. Qed.

Definition equipped (w : wst) (q : request) : Prop :=
  (forall d, In d (qrefs q) -> known w d) /\
  (match q_fn q with FRef d => store w d <> None | FMethod _ => True end).

(** Whatever can become of the request, it can be stored. *)
Definition harmless (l : list wev) (q : request) : Prop :=
  forall c a k h, callee_of l q c -> deliverable (q_out q) (result_of body mbody h c a k).

Lemma process_survives w q : WI body mbody w -> equipped w q -> harmless (log w) q ->
  process_task self body mbody is_async w q <> None.
Proof using Type body_ok mbody_ok.
  clear all_sync. intros I [K Fn] Hs. unfold process_task.
  set (cc := match q_fn q with
             | FRef d => match store w d with Some f => Some (CFun f) | None => None end
             | FMethod m => Some (CMethod m) end).
  assert (Cc : exists c, cc = Some c /\ callee_of (log w) q c).
  { unfold cc, callee_of. destruct (q_fn q); [|eauto].
    destruct (store w d) as [f|] eqn:S; [|congruence]. exists (CFun f). split; auto. exists f. split; auto.
    apply I; auto. }
  destruct Cc as (c & -> & Ca).
  assert (C : clean w) by (eapply wi_clean'; eauto).
  destruct (materialize self w (q_args q) false) as [[[w1 args] p1]|] eqn:E1.
  2:{ apply mat_known in E1; auto. intros d D. apply K. apply in_or_app; auto. }
  assert (M1 := E1). apply mat_ok in M1 as (_ & A1 & _); auto.
  assert (C1 : clean w1) by (eapply clean_asks; eauto).
  destruct (materialize self w1 (q_kwargs q) false) as [[[w2 kwargs] p2]|] eqn:E2.
  2:{ apply mat_known in E2; auto. intros d D. eapply known_asks; eauto. apply K. apply in_or_app; auto. }
  assert (M2 := E2). apply mat_ok in M2 as (_ & A2 & _); auto.
  destruct (p1 || p2); [discriminate|]. destruct (is_async c); [discriminate|].
  unfold execute_sync. simpl.
  assert (I2 : WI body mbody w2).
  { eapply wi_quietly; [exact I|]. apply (quietly_asks self). eapply asks_trans; eauto. }
  destruct (evaluate_spec body mbody w2 (q_id q) c args kwargs (wi_calls _ _ _ I2)) as (Er & _).
  destruct (evaluate body mbody w2 (q_id q) c args kwargs) as [w3 r]. simpl in Er.
  rewrite store_result_eqn.
  assert (D : results (q_out q) r <> None) by (apply deliverable_results; rewrite Er; apply Hs; auto).
  destruct (results (q_out q) r) as [[st done]|]; [discriminate | congruence].
Qed.

Lemma equipped_kept w w' q : Kept w w' -> equipped w q -> equipped w' q.
Proof using Type.
  clear. intros K [E1 E2]. split.
  - intros d D. destruct (E1 d D) as [X|X]; [left; apply (k_store _ _ K), X | right].
    rewrite (k_owner _ _ K). auto.
  - destruct (q_fn q); auto. apply (k_store _ _ K), E2.
Qed.

(** What is left of a request still has what it needs. *)
Lemma equipped_pending w q w' q' : WI body mbody w -> From (log w) q -> equipped w q ->
  process_task self body mbody is_async w q = Some (w', Some q') ->
  equipped w' q' /\ q_fn q' = q_fn q /\ q_out q' = q_out q.
Proof using Type body_ok mbody_ok.
  clear all_sync. intros I F Eq H. assert (K := H). apply process_task_wi in K as (_ & K & _); auto.
  assert (E' := equipped_kept _ _ _ K Eq). destruct E' as [E1 E2].
  apply process_task_spec in H; [|eapply wi_clean'; eauto].
  inversion H as [args kwargs As F1 F2 R N | |]; subst. split; auto. split; auto.
  intros d D. apply E1. apply R, D.
Qed.

(** Only requests' outputs are stored by execution. *)
Lemma good_store l : Good body mbody l -> forall d v, In (EvStore d v) l ->
  exists q, In q (received l) /\ In d (out_ids (q_out q)).
Proof using Type.
  clear. induction 1 as [|l e O G IH | l q c args kwargs st G IH Iq Ca F1 F2 R1 R2 St]; intros d v H.
  - destruct H.
  - apply in_app_or in H as [H|[H|[]]]; [|subst e; destruct O].
    destruct (IH _ _ H) as (q & Q & D). exists q. rewrite received_app. split; auto. apply in_or_app; auto.
  - apply in_app_or in H as [H|H].
    + destruct (IH _ _ H) as (q' & Q & D). exists q'. rewrite received_app. split; auto. apply in_or_app; auto.
    + apply in_app_or in H as [H|H].
      { unfold ev_run in H. destruct (failed_arg args kwargs); [destruct H|].
        destruct H as [H|[]]; discriminate. }
      destruct H as [H|H]; [discriminate|]. apply in_map_iff in H as ([d' v'] & E & X). injection E as -> ->.
      exists q. rewrite received_app. split; [apply in_or_app; auto|].
      destruct St as [[done R]|[_ ->]]; [|destruct X].
      apply (results_outs' _ _ _ _ d R). apply in_map_iff. exists (d, v). auto.
Qed.

Lemma requests_received l ms : (forall m, In (EvIn m) l -> In m ms) ->
  forall q, In q (received l) -> In q (requests ms).
Proof using Type.
  clear. intros S q Q. apply in_flat_map in Q as (e & E & Q). apply in_flat_map.
  destruct e as [m| | | | | |]; simpl in Q; try tauto. exists m. split; [apply S, E|].
  destruct m; simpl in Q; auto.
Qed.

Lemma safe_harmless ms w q : safe body mbody ms -> WI body mbody w -> (forall m, In (EvIn m) (log w) -> In m ms) ->
  From (log w) q -> harmless (log w) q.
Proof using Type.
  clear. intros S I T (q0 & Q0 & _ & Ef & Eo & _) c a k h Ca.
  assert (R0 := requests_received _ _ T _ Q0). rewrite Eo.
  assert (Ex : forall e, deliverable (q_out q0) (RExc e)).
  { intros e. assert (X := safe_out body mbody ms S _ R0). destruct (q_out q0); simpl; auto. }
  unfold result_of. destruct (failed_arg a k); auto.
  unfold callee_of in Ca. rewrite Ef in Ca. destruct (q_fn q0) as [d|m] eqn:E0.
  - destruct Ca as (f & St & ->). destruct St as [St|St].
    + eapply safe_fun; eauto.
    + exfalso. destruct (good_store _ (wi_good _ _ _ I) _ _ St) as (q' & Q' & D).
      apply (safe_ids body mbody ms S q0 q' d); auto. eapply requests_received; eauto.
  - subst c. eapply safe_meth; eauto.
Qed.

Record SI (ms a : list wmsg) (w : wst) : Prop := {
  si_taken : forall m, In (EvIn m) (log w) -> In m ms;
  si_put : ready w = false -> forall d v, In (WPut d v) a -> store w d <> None;
  si_owner : ready w = false -> forall d r, In (WOwner d r) a -> owner w d <> None;
  si_pend : forall q, In q (pend w) \/ In q (apend w) -> equipped w q
}.

Lemma recheck_survives ms l : safe body mbody ms -> forall w, WI body mbody w -> (forall m, In (EvIn m) (log w) -> In m ms) ->
  (forall q, In q l -> From (log w) q) -> (forall q, In q l -> equipped w q) ->
  exists w' l', recheck self body mbody is_async w l = Some (w', l') /\ forall q, In q l' -> equipped w' q.
Proof using Type body_ok mbody_ok.
  clear all_sync. intros S. induction l as [|q l IH]; intros w I T F E; simpl.
  - exists w, []. split; auto.
  - assert (Fq : From (log w) q) by (apply F; simpl; auto).
    assert (Eq : equipped w q) by (apply E; simpl; auto).
    destruct (process_task self body mbody is_async w q) as [[w1 kept]|] eqn:P.
    2:{ exfalso. revert P. apply process_survives; auto. eapply safe_harmless; eauto. }
    assert (P' := P). apply process_task_wi in P' as (I1 & K1 & _); auto.
    destruct (k_own _ _ K1) as (t & L & Fo).
    assert (F1 : forall x, In x l -> From (log w1) x).
    { intros x X. rewrite L. apply from_app, F. simpl; auto. }
    destruct (IH w1) as (w2 & l2 & R & E2); auto.
    { intros m M. rewrite L in M. apply in_app_or in M as [M|M]; auto.
      rewrite Forall_forall in Fo. apply Fo in M. destruct M. }
    { intros x X. eapply equipped_kept; eauto. apply E. simpl; auto. }
    rewrite R. assert (R' := R). apply recheck_wi in R' as (_ & K2 & _); auto.
    exists w2. eexists. split; [reflexivity|]. destruct kept as [q'|]; auto.
    intros x [<-|X]; auto. eapply equipped_kept; eauto.
    apply equipped_pending in P as (P & _); auto.
Qed.

Lemma taken_own ms w w' t : (forall m, In (EvIn m) (log w) -> In m ms) -> log w' = log w ++ t ->
  Forall own_ev t -> forall m, In (EvIn m) (log w') -> In m ms.
Proof using Type.
  clear. intros T -> F m M. apply in_app_or in M as [M|M]; auto.
  rewrite Forall_forall in F. apply F in M. destruct M.
Qed.

Lemma check_survives ms w : safe body mbody ms -> WI body mbody w -> (forall m, In (EvIn m) (log w) -> In m ms) ->
  (forall q, In q (pend w) \/ In q (apend w) -> equipped w q) ->
  exists w', check_tasks self body mbody is_async w = Some w' /\ owner w' = owner w /\ ready w' = ready w /\
    (forall d, store w d <> None -> store w' d <> None) /\ (forall m, In (EvIn m) (log w') -> In m ms) /\
    (forall q, In q (pend w') \/ In q (apend w') -> equipped w' q).
Proof using Type body_ok mbody_ok.
  clear all_sync. intros S I T E. unfold check_tasks.
  destruct (recheck_survives ms (pend w) S w I T) as (w1 & l & R & E1); auto.
  { intros q Q. apply I; auto. }
  rewrite R. apply recheck_wi in R as (_ & K & _); auto; [|intros q Q; apply I; auto].
  eexists. split; [reflexivity|]. simpl. destruct (k_own _ _ K) as (t & L & F).
  split; [apply K|]. split; [apply K|]. split; [apply K|]. split; [eapply taken_own; eauto|].
  rewrite (k_apend _ _ K). intros q [Q|Q].
  - destruct (E1 q Q) as [X Y]. split; auto.
  - destruct (equipped_kept w w1 q K (E q ltac:(auto))) as [X Y]. split; auto.
Qed.

Lemma check_actor_survives ms w : safe body mbody ms -> WI body mbody w -> (forall m, In (EvIn m) (log w) -> In m ms) ->
  (forall q, In q (pend w) \/ In q (apend w) -> equipped w q) ->
  exists w', check_actor_tasks self body mbody is_async w = Some w' /\ owner w' = owner w /\ ready w' = ready w /\
    (forall d, store w d <> None -> store w' d <> None) /\ (forall m, In (EvIn m) (log w') -> In m ms) /\
    (forall q, In q (pend w') \/ In q (apend w') -> equipped w' q).
Proof using Type body_ok mbody_ok.
  clear all_sync. intros S I T E. unfold check_actor_tasks.
  destruct (recheck_survives ms (apend w) S w I T) as (w1 & l & R & E1); auto.
  { intros q Q. apply I; auto. }
  rewrite R. apply recheck_wi in R as (_ & K & _); auto; [|intros q Q; apply I; auto].
  eexists. split; [reflexivity|]. simpl. destruct (k_own _ _ K) as (t & L & F).
  split; [apply K|]. split; [apply K|]. split; [apply K|]. split; [eapply taken_own; eauto|].
  rewrite (k_pend _ _ K). intros q [Q|Q].
  - destruct (equipped_kept w w1 q K (E q ltac:(auto))) as [X Y]. split; auto.
  - destruct (E1 q Q) as [X Y]. split; auto.
Qed.

Lemma finish_keeps w q c : store (finish_async body mbody w q c) = store (finish_async body mbody w q c) /\
  (forall d, store w d <> None -> store (finish_async body mbody w q c) d <> None) /\
  owner (finish_async body mbody w q c) = owner w /\ pend (finish_async body mbody w q c) = pend w /\
  apend (finish_async body mbody w q c) = apend w /\ ready (finish_async body mbody w q c) = ready w.
Proof using Type.
  clear. split; auto. unfold finish_async.
  assert (Ev : let we := fst (evaluate body mbody w (q_id q) c (q_args q) (q_kwargs q)) in
    store we = store w /\ owner we = owner w /\ pend we = pend w /\ apend we = apend w /\ ready we = ready w).
  { unfold evaluate. destruct (failed_arg (q_args q) (q_kwargs q)); simpl; auto.
    unfold run_body. destruct c; simpl; auto. }
  destruct (evaluate body mbody w (q_id q) c (q_args q) (q_kwargs q)) as [we re]. simpl in Ev.
  destruct Ev as (V1 & V2 & V3 & V4 & V5).
  rewrite store_result_eqn. destruct (results (q_out q) re) as [[st done]|].
  2:{ rewrite V1. auto. }
  destruct (put_all_fields st we) as (P1&P2&_&_&_&_&P7&P8&_&_&P11&_).
  assert (Q := quietly_gets (out_ids (q_out q)) (put_all we st)).
  set (w5 := check_gets _ _) in *.
  assert (G : (forall d, store w d <> None -> store w5 d <> None) /\ owner w5 = owner w /\ pend w5 = pend w /\
    apend w5 = apend w /\ ready w5 = ready w).
  { rewrite (qu_store _ _ Q), (qu_owner _ _ Q), (qu_pend _ _ Q), (qu_apend _ _ Q), (qu_ready _ _ Q).
    rewrite P1, P2, P7, P8, P11. repeat split; auto. intros d D. apply dput_all_mono. rewrite V1; auto. }
  destruct re; [destruct (q_out q)|]; simpl; auto.
Qed.

Lemma step_survives ms a m b w : safe body mbody ms -> announced ms -> no_refs_received ms ->
  (forall ds, ~ In (WClean ds) ms) -> ms = a ++ m :: b -> WI body mbody w -> SI ms a w ->
  exists w', wstep self body mbody is_async w m = Some w' /\ SI ms (a ++ [m]) w'.
Proof using Type body_ok mbody_ok.
  clear all_sync. intros S An N NC E I [T Pu Ow Pe].
  assert (Im : In m ms) by (rewrite E; apply in_or_app; simpl; auto).
  assert (Nm : forall d v, m = WPut d v -> refs v = []) by (intros d v ->; eapply N; eauto).
  unfold wstep. destruct (ready w) eqn:Rd.
  { exists w. split; auto. split; auto; rewrite Rd; discriminate. }
  assert (I0 := emit_in_wi body mbody body_ok mbody_ok w m I Nm).
  assert (T0 : forall m', In (EvIn m') (log (emit w (EvIn m))) -> In m' ms).
  { intros m' M. simpl in M. apply in_app_or in M as [M|[M|[]]]; auto. injection M as <-. auto. }
  specialize (Pu eq_refl). specialize (Ow eq_refl).
  (* what remains true of the announcements *)
  assert (Mono : forall w', (forall d, store w d <> None -> store w' d <> None) -> owner w' = owner w ->
    (forall d v, m <> WPut d v) -> (forall d r, m <> WOwner d r) ->
    (forall m', In (EvIn m') (log w') -> In m' ms) ->
    (forall q, In q (pend w') \/ In q (apend w') -> equipped w' q) -> SI ms (a ++ [m]) w').
  { intros w' St O NP NO T' P'. split; auto.
    - intros _ d v D. apply in_app_or in D as [D|[D|[]]]; [apply St; eauto | exfalso; eapply NP; eauto].
    - intros _ d r D. rewrite O. apply in_app_or in D as [D|[D|[]]]; [eauto | exfalso; eapply NO; eauto]. }
  assert (Eq : forall q, m = WExec q \/ m = WActor q -> equipped (emit w (EvIn m)) q).
  { intros q Q. destruct (An a m b q E Q) as [A1 A2]. split.
    - intros d D. destruct (A1 d D) as [[v V]|[r R]]; [left | right]; simpl; eauto.
    - destruct (q_fn q); auto. destruct (A2 d eq_refl) as [f Fd]. simpl. eauto. }
  assert (Eo : forall q, In q (pend w) \/ In q (apend w) -> equipped (emit w (EvIn m)) q).
  { intros q Q. apply Pe in Q. exact Q. }
  destruct m.
  - assert (Fq : From (log (emit w (EvIn (WExec q)))) q) by apply (from_new w q false).
    set (w0 := emit w (EvIn (WExec q))) in *.
    destruct (process_task self body mbody is_async w0 q) as [[w1 kept]|] eqn:P.
    2:{ exfalso. revert P. apply process_survives; auto. eapply safe_harmless; eauto. }
    assert (P' := P). apply process_task_wi in P' as (I1 & K & _); auto.
    destruct (k_own _ _ K) as (t & L & F).
    assert (T1 : forall m, In (EvIn m) (log w1) -> In m ms) by (eapply taken_own; eauto).
    assert (E1 : forall x, In x (pend w1) \/ In x (apend w1) -> equipped w1 x).
    { intros x. rewrite (k_pend _ _ K), (k_apend _ _ K). intros X. apply (equipped_kept w0 w1 x K). auto. }
    destruct kept as [q'|].
    + eexists. split; [reflexivity|]. apply Mono; try discriminate; simpl; auto; try apply K.
      intros x [X|X]; [|destruct (E1 x) as [Y Z]; auto; split; auto].
      apply in_app_or in X as [X|[<-|[]]]; [destruct (E1 x) as [Y Z]; auto; split; auto|].
      apply equipped_pending in P as (P & _); auto.
    + destruct (check_survives ms w1 S I1 T1 E1) as (w2 & C & O & R & St & T2 & E2).
      exists w2. split; auto. apply Mono; try discriminate; auto; [|rewrite O; apply K].
      intros d D. apply St, (k_store _ _ K), D.
  - assert (Fq : From (log (emit w (EvIn (WActor q)))) q) by apply (from_new w q true).
    set (w0 := emit w (EvIn (WActor q))) in *.
    destruct (process_task self body mbody is_async w0 q) as [[w1 kept]|] eqn:P.
    2:{ exfalso. revert P. apply process_survives; auto. eapply safe_harmless; eauto. }
    assert (P' := P). apply process_task_wi in P' as (I1 & K & _); auto.
    destruct (k_own _ _ K) as (t & L & F).
    assert (T1 : forall m, In (EvIn m) (log w1) -> In m ms) by (eapply taken_own; eauto).
    assert (E1 : forall x, In x (pend w1) \/ In x (apend w1) -> equipped w1 x).
    { intros x. rewrite (k_pend _ _ K), (k_apend _ _ K). intros X. apply (equipped_kept w0 w1 x K). auto. }
    destruct kept as [q'|].
    + eexists. split; [reflexivity|]. apply Mono; try discriminate; simpl; auto; try apply K.
      intros x [X|X]; [destruct (E1 x) as [Y Z]; auto; split; auto|].
      apply in_app_or in X as [X|[<-|[]]]; [destruct (E1 x) as [Y Z]; auto; split; auto|].
      apply equipped_pending in P as (P & _); auto.
    + destruct (check_actor_survives ms w1 S I1 T1 E1) as (w2 & C & O & R & St & T2 & E2).
      exists w2. split; auto. apply Mono; try discriminate; auto; [|rewrite O; apply K].
      intros d D. apply St, (k_store _ _ K), D.
  - eexists. split; [reflexivity|].
    assert (Q := quietly_get (emit w (EvIn (WGet src d blocking))) src d blocking).
    destruct (k_own _ _ (kept_quietly _ _ Q)) as (t & L & F).
    apply Mono; try discriminate.
    + intros x X. apply (k_store _ _ (kept_quietly _ _ Q)), X.
    + rewrite (qu_owner _ _ Q). reflexivity.
    + eapply taken_own; eauto.
    + intros x. rewrite (qu_pend _ _ Q), (qu_apend _ _ Q). intros X.
      eapply equipped_kept; [apply kept_quietly, Q|]. apply Eo, X.
  - set (w0 := emit w (EvIn (WPut d v))) in *. 
    set (w2 := set_reqs (set_store w0 (dput (store w0) d v))
                 (filter (fun x => negb (did_eqb x d)) (reqs (set_store w0 (dput (store w0) d v))))).
    assert (I2 : WI body mbody w2).
    { destruct I0 as [J1 J2 J3 J4 J5 J6]. split; auto. intros x y. unfold w2. simpl.
      destruct (did_dec d x) as [<-|Na].
      - rewrite dput_same. intros X. apply Some_inj in X as <-. left. apply in_or_app. simpl; auto.
      - rewrite dput_other by auto. intros X. apply J2. exact X. }
    assert (St2 : forall x, store w x <> None -> store w2 x <> None).
    { intros x X. unfold w2. simpl. destruct (did_dec d x) as [<-|Na];
        [rewrite dput_same; discriminate | rewrite dput_other; auto]. }
    assert (E2 : forall q, In q (pend w2) \/ In q (apend w2) -> equipped w2 q).
    { intros q Q. destruct (Eo q Q) as [X Y]. split.
      - intros x Hx. destruct (X x Hx) as [Z|Z]; [left; apply St2, Z | right; exact Z].
      - destruct (q_fn q); auto. }
    destruct (check_survives ms w2 S I2 T0 E2) as (w3 & C & O & R & St & T3 & E3).
    rewrite C. apply check_tasks_wi in C as (I3 & _); auto.
    destruct (check_actor_survives ms w3 S I3 T3 E3) as (w4 & C4 & O4 & R4 & St4 & T4 & E4).
    exists w4. split; auto. split; auto.
    + intros _ x y X. apply in_app_or in X as [X|[X|[]]].
      * apply St4, St, St2. eauto.
      * injection X as <- <-. apply St4, St. unfold w2. simpl. rewrite dput_same. discriminate.
    + intros _ x y X. rewrite O4, O. apply in_app_or in X as [X|[X|[]]]; [|discriminate].
      unfold w2. simpl. eauto.
  - eexists. split; [reflexivity|]. split; simpl; auto.
    + intros _ x y X. apply in_app_or in X as [X|[X|[]]]; [eauto | discriminate].
    + intros _ x y X. destruct (did_dec d x) as [<-|Nx]; [rewrite dput_same; discriminate|].
      rewrite dput_other by auto. apply in_app_or in X as [X|[X|[]]]; [eauto | injection X; congruence].
    + intros q Q. destruct (Eo q Q) as [X Y]. split; auto. intros x Hx. destruct (X x Hx) as [Z|Z]; [left; exact Z|].
      right. simpl. destruct (did_dec d x) as [<-|Nx]; [rewrite dput_same; discriminate | rewrite dput_other; auto].
  - exfalso. eapply NC; eauto.
  - set (w0 := emit w (EvIn (WFinish i))) in *.
    destruct (nth_error (running w0) i) as [[q c]|] eqn:Ei.
    + eexists. split; [reflexivity|].
      destruct (finish_keeps (set_running w0 (remove_at i (running w0))) q c) as (_ & F1 & F2 & F3 & F4 & F5).
      assert (Hs : wstep self body mbody is_async w (WFinish i) =
        Some (finish_async body mbody (set_running w0 (remove_at i (running w0))) q c)).
      { unfold wstep. rewrite Rd. fold w0. rewrite Ei. reflexivity. }
      destruct (step_own w _ _ I Nm Rd Hs) as (t & L & F).
      apply Mono; try discriminate; auto.
      * intros m M. rewrite L in M. apply in_app_or in M as [M|[M|M]]; auto; [injection M as <-; auto|].
        rewrite Forall_forall in F. apply F in M. destruct M.
      * rewrite F3, F4. intros x X. destruct (Eo x X) as [Y Z]. split.
        -- intros d D. destruct (Y d D) as [U|U]; [left; apply F1, U | right; rewrite F2; exact U].
        -- destruct (q_fn x); auto.
    + eexists. split; [reflexivity|]. apply Mono; try discriminate; auto.
  - eexists. split; [reflexivity|]. split; simpl; auto; try discriminate. tauto.
Qed.

Lemma run_survives ms : safe body mbody ms -> announced ms -> no_refs_received ms ->
  (forall ds, ~ In (WClean ds) ms) -> forall b a w, ms = a ++ b -> WI body mbody w -> SI ms a w ->
  wrun self body mbody is_async w b <> None.
Proof using Type body_ok mbody_ok.
  clear all_sync. intros S An N NC. induction b as [|m b IH]; intros a w E I Si; simpl; [discriminate|].
  destruct (step_survives ms a m b w S An N NC E I Si) as (w' & H & Si'). rewrite H.
  apply (IH (a ++ [m])); auto; [rewrite <- app_assoc; auto|].
  apply wstep_wi in H; auto; [tauto|]. intros d v ->. apply (N d). rewrite E. apply in_or_app; simpl; auto.
Qed.

Lemma si_init ms : SI ms [] winit.
Proof using Type. clear. split; simpl; tauto. Qed.

End Order.
