(** TASK_DONE: one per executed task, naming what was stored (plain functions only). *)
From Verif Require Import Lib ShmModel ShmRaceProofs ValModel WorkerModel WorkerSpec WorkerProofs
  WorkerLog WorkerTrace WorkerReady WorkerAnswer WorkerOrder WorkerThms.
From Coq Require Import Permutation.

(** Events other than results and reports. *)
Definition calm (e : wev) : Prop :=
  match e with EvIn _ | EvRun _ _ _ _ | EvPut _ _ _ _ | EvGet _ _ => True | _ => False end.

Inductive Blocks : list wev -> Prop :=
| bl_nil : Blocks []
| bl_calm e t : calm e -> Blocks t -> Blocks (e :: t)
| bl_exec n r st sends t :
    Forall calm sends -> Blocks t ->
    Blocks (EvEnd n r :: ev_stores st ++ sends ++
            EvDone (match r with RVal _ => map fst st | RExc _ => [] end) :: t).

Lemma blocks_app a b : Blocks a -> Blocks b -> Blocks (a ++ b).
Proof.
  induction 1 as [|e t C B IH | n r st sends t F B IH]; intros H; simpl; auto.
  - apply bl_calm; auto.
  - rewrite <- !app_assoc. simpl. apply bl_exec; auto.
Qed.

Lemma blocks_calm t : Forall calm t -> Blocks t.
Proof. induction 1; constructor; auto. Qed.

Definition Calmly (w w' : wst) : Prop :=
  running w' = running w /\ exists t, log w' = log w ++ t /\ Forall calm t.

Lemma calmly_refl w : Calmly w w.
Proof. split; auto. exists []. rewrite app_nil_r. auto. Qed.

Lemma calmly_trans a b c : Calmly a b -> Calmly b c -> Calmly a c.
Proof.
  intros (R1 & t1 & L1 & F1) (R2 & t2 & L2 & F2). split; [congruence|].
  exists (t1 ++ t2). rewrite L2, L1, app_assoc. split; auto. apply Forall_app; auto.
Qed.

Lemma calmly_asks self w w' : Asks self w w' -> Calmly w w'.
Proof.
  induction 1; [apply calmly_refl|]. eapply calmly_trans; [|eassumption]. split; auto.
  eexists. split; [reflexivity|]. repeat constructor.
Qed.

Lemma calmly_get w s d b : Calmly w (process_get w s d b).
Proof.
  unfold process_get. destruct (store w d).
  - destruct (pair_in (d, s) (sent w)); [apply calmly_refl|]. split; auto. eexists. split; [reflexivity|]. repeat constructor.
  - destruct b; (split; auto; exists []; rewrite app_nil_r; auto).
Qed.

Lemma calmly_fold d b l : forall w, Calmly w (fold_left (fun w r => process_get w r d b) l w).
Proof.
  induction l as [|r l IH]; intros w; simpl; [apply calmly_refl|].
  eapply calmly_trans; [apply calmly_get | apply IH].
Qed.

Lemma calmly_set w g b : Calmly w (set_gets w g b).
Proof. split; auto. exists []. rewrite app_nil_r. auto. Qed.

Lemma calmly_gets ds : forall w, Calmly w (check_gets w ds).
Proof.
  unfold check_gets. induction ds as [|d ds IH]; intros w; simpl; [apply calmly_refl|].
  eapply calmly_trans; [|apply IH]. unfold check_request.
  eapply calmly_trans; [apply calmly_fold|]. eapply calmly_trans; [apply calmly_set|].
  eapply calmly_trans; [apply calmly_fold|]. apply calmly_set.
Qed.

Definition Done (w w' : wst) : Prop :=
  running w' = running w /\ exists t, log w' = log w ++ t /\ Blocks t.

Lemma done_refl w : Done w w.
Proof. split; auto. exists []. rewrite app_nil_r. split; constructor. Qed.

Lemma done_trans a b c : Done a b -> Done b c -> Done a c.
Proof.
  intros (R1 & t1 & L1 & F1) (R2 & t2 & L2 & F2). split; [congruence|].
  exists (t1 ++ t2). rewrite L2, L1, app_assoc. split; auto. apply blocks_app; auto.
Qed.

Lemma done_calmly w w' : Calmly w w' -> Done w w'.
Proof. intros (R & t & L & F). split; auto. exists t. split; auto. apply blocks_calm; auto. Qed.

Lemma done_of_results o r st done : results o r = Some (st, done) ->
  done = match r with RVal _ => map fst st | RExc _ => [] end.
Proof.
  destruct r, o; simpl; intros H; try discriminate.
  - apply Some_inj in H; apply pair_inj in H as [<- <-]. auto.
  - apply Some_inj in H; apply pair_inj in H as [<- <-]. auto.
  - destruct (iterate v); [|discriminate]. apply Some_inj in H; apply pair_inj in H as [<- <-]. auto.
  - apply Some_inj in H; apply pair_inj in H as [<- <-]. auto.
  - apply Some_inj in H; apply pair_inj in H as [<- <-]. auto.
Qed.

Lemma reports_app a b : reports (a ++ b) = reports a ++ reports b.
Proof. apply flat_map_app. Qed.

Lemma calm_none t : Forall calm t -> reports t = [] /\ ended t = [].
Proof.
  induction 1 as [|e t C F [A B]]; auto. simpl. rewrite A, B. destruct e; simpl in *; try tauto; auto.
Qed.

Lemma reports_stores st : reports (ev_stores st) = [].
Proof. induction st; simpl; auto. Qed.

Lemma blocks_count t : Blocks t -> length (reports t) = length (ended t).
Proof.
  induction 1 as [|e t C B IH | n r st sends t F B IH]; auto.
  - destruct e; simpl in *; try tauto; auto.
  - change (EvEnd n r :: ev_stores st ++ ?x) with ([EvEnd n r] ++ ev_stores st ++ x).
    rewrite !reports_app, !ended_app. destruct (calm_none _ F) as [R E]. rewrite R, E.
    rewrite reports_stores, ended_stores. simpl. rewrite IH. reflexivity.
Qed.

Lemma blocks_split l : Blocks l -> forall l1 n r l2, l = l1 ++ EvEnd n r :: l2 ->
  exists st sends l3, l2 = ev_stores st ++ sends ++
    EvDone (match r with RVal _ => map fst st | RExc _ => [] end) :: l3 /\ Forall calm sends.
Proof.
  induction 1 as [|e t C B IH | m s st sends t F B IH]; intros l1 n r l2 E.
  - destruct l1; discriminate.
  - destruct l1 as [|x l1]; simpl in E; injection E as -> E; [destruct C|]. eauto.
  - destruct l1 as [|x l1]; simpl in E.
    + injection E as <- <- <-. eauto 6.
    + injection E as <- E. symmetry in E. apply app_split in E as [(u & E & _)|(u & -> & E)].
      { exfalso. assert (X : In (EvEnd n r) (ev_stores st)) by (rewrite E; apply in_or_app; simpl; auto).
        apply in_map_iff in X as (y & X & _). discriminate. }
      symmetry in E. apply app_split in E as [(v & E & _)|(v & -> & E)].
      { exfalso. rewrite Forall_forall in F. assert (calm (EvEnd n r)); [|auto].
        apply F. rewrite E. apply in_or_app; simpl; auto. }
      destruct v as [|y v]; simpl in E; injection E as X E; [discriminate|]. eauto.
Qed.

Lemma stores_eq st' : forall st a b, ev_stores st' ++ a = ev_stores st ++ b ->
  (forall d v l, a <> EvStore d v :: l) -> (forall d v l, b <> EvStore d v :: l) -> st' = st.
Proof.
  induction st' as [|[d x] st' IH]; intros [|[d' x'] st] a b H Na Nb; simpl in H; auto.
  - exfalso. eapply Na, H.
  - exfalso. symmetry in H. eapply Nb, H.
  - injection H as -> -> H. f_equal. eapply IH; eauto.
Qed.

Lemma fst_combine {A B} (ds : list A) : forall (vs : list B) d,
  In d ds -> length ds <= length vs -> In d (map fst (combine ds vs)).
Proof.
  induction ds as [|y ds IH]; intros [|x vs] d D Le; simpl in *; try lia; auto.
  destruct D as [<-|D]; auto. right. apply IH; auto. lia.
Qed.

Section Done.
Variable self : rank.
Variable body : val -> val -> val -> result.
Variable mbody : list call -> call -> result.
Variable is_async : callee -> bool.
Hypothesis body_ok : forall f a k, no_refs_returned (body f a k).
Hypothesis mbody_ok : forall h c, no_refs_returned (mbody h c).
Hypothesis all_sync : forall c, is_async c = false.

Lemma done_process w q w' kept : WI body mbody w ->
  process_task self body mbody is_async w q = Some (w', kept) -> Done w w'.
Proof.
  intros I H. apply process_task_spec in H; [|eapply wi_clean'; eauto].
  destruct H as [args kwargs As _ _ _ _ | c args kwargs w2 As _ _ _ _ _ _ Y _
                | c args kwargs w2 st done As _ _ _ _ _ _ _ R ->].
  - apply done_calmly, (calmly_asks self), As.
  - rewrite all_sync in Y. discriminate.
  - assert (C2 := calmly_asks _ _ _ As). assert (Q2 : WI body mbody w2).
    { eapply wi_quietly; [exact I | apply (quietly_asks self), As]. }
    destruct (evaluate_spec body mbody w2 (q_id q) c args kwargs (wi_calls _ _ _ Q2))
      as (Er & El & _ & _ & _ & _ & _ & _ & _ & _ & Eu & _).
    destruct (evaluate body mbody w2 (q_id q) c args kwargs) as [we r]. cbn [fst snd] in *.
    subst r. set (r := result_of body mbody (log w2) c args kwargs) in *. clearbody r.
    eapply done_trans; [apply done_calmly, C2|]. eapply done_trans; [|apply done_calmly, calmly_gets].
    destruct (calmly_gets (out_ids (q_out q)) (put_all we st)) as (Rg & t & Lg & Ft).
    destruct (put_all_fields st we) as (_&_&_&_&_&_&_&_&P9&_&_&P12).
    split; [simpl; rewrite Rg, P9; exact Eu|]. simpl. rewrite Lg, P12, El.
    eexists. rewrite <- !app_assoc. split; [reflexivity|].
    apply blocks_app.
    + unfold ev_run. destruct (failed_arg args kwargs); repeat constructor.
    + simpl. rewrite (done_of_results _ _ _ _ R). apply bl_exec; auto. constructor.
Qed.

Lemma done_recheck l : forall w w' l', WI body mbody w -> (forall q, In q l -> From (log w) q) ->
  recheck self body mbody is_async w l = Some (w', l') -> Done w w'.
Proof.
  induction l as [|q l IH]; intros w w' l' I F H; simpl in H.
  - apply Some_inj in H. apply pair_inj in H as [<- _]. apply done_refl.
  - destruct (process_task self body mbody is_async w q) as [[w1 kept]|] eqn:E; [|discriminate].
    destruct (recheck self body mbody is_async w1 l) as [[w2 r2]|] eqn:E2; [|discriminate].
    apply Some_inj in H. apply pair_inj in H as [<- _].
    assert (D := done_process _ _ _ _ I E).
    apply process_task_wi in E as (I1 & K & _); auto; [|apply F; simpl; auto].
    eapply done_trans; [exact D|]. apply (IH w1 w2 r2); auto.
    intros x X. destruct (k_log _ _ K) as [t ->]. apply from_app, F. simpl; auto.
Qed.

Lemma done_check w w' : WI body mbody w -> check_tasks self body mbody is_async w = Some w' -> Done w w'.
Proof.
  intros I H. unfold check_tasks in H.
  destruct (recheck self body mbody is_async w (pend w)) as [[w1 l]|] eqn:E; [|discriminate].
  apply Some_inj in H as <-. apply done_recheck in E; [exact E | exact I | intros q Q; apply I; auto].
Qed.

Lemma done_check_actor w w' : WI body mbody w -> check_actor_tasks self body mbody is_async w = Some w' -> Done w w'.
Proof.
  intros I H. unfold check_actor_tasks in H.
  destruct (recheck self body mbody is_async w (apend w)) as [[w1 l]|] eqn:E; [|discriminate].
  apply Some_inj in H as <-. apply done_recheck in E; [exact E | exact I | intros q Q; apply I; auto].
Qed.

Lemma done_step w m w' : WI body mbody w -> (forall d v, m = WPut d v -> refs v = []) -> running w = [] ->
  wstep self body mbody is_async w m = Some w' -> Done w w'.
Proof.
  intros I N Rn H. unfold wstep in H. destruct (ready w); [apply Some_inj in H as <-; apply done_refl|].
  assert (I0 := emit_in_wi body mbody body_ok mbody_ok w m I N).
  assert (D0 : Done w (emit w (EvIn m))).
  { split; auto. exists [EvIn m]. split; auto. repeat constructor. }
  eapply done_trans; [exact D0|]. clear D0. destruct m.
  - assert (Fq : From (log (emit w (EvIn (WExec q)))) q) by apply (from_new w q false).
    set (w0 := emit w (EvIn (WExec q))) in *.
    destruct (process_task self body mbody is_async w0 q) as [[w1 [q'|]]|] eqn:E; [| |discriminate].
    + apply Some_inj in H as <-. apply done_process in E; auto.
    + assert (D := done_process _ _ _ _ I0 E). apply process_task_wi in E as (I1 & _); auto.
      eapply done_trans; [exact D|]. apply done_check; auto.
  - assert (Fq : From (log (emit w (EvIn (WActor q)))) q) by apply (from_new w q true).
    set (w0 := emit w (EvIn (WActor q))) in *.
    destruct (process_task self body mbody is_async w0 q) as [[w1 [q'|]]|] eqn:E; [| |discriminate].
    + apply Some_inj in H as <-. apply done_process in E; auto.
    + assert (D := done_process _ _ _ _ I0 E). apply process_task_wi in E as (I1 & _); auto.
      eapply done_trans; [exact D|]. apply done_check_actor; auto.
  - apply Some_inj in H as <-. apply done_calmly, calmly_get.
  - set (w0 := emit w (EvIn (WPut d v))) in *.
    set (w2 := set_reqs (set_store w0 (dput (store w0) d v))
                 (filter (fun x => negb (did_eqb x d)) (reqs (set_store w0 (dput (store w0) d v))))) in H.
    assert (I2 : WI body mbody w2).
    { destruct I0 as [J1 J2 J3 J4 J5 J6]. split; auto. intros a x. unfold w2. simpl.
      destruct (did_dec d a) as [<-|Na].
      - rewrite dput_same. intros X. apply Some_inj in X as <-. left. apply in_or_app. simpl; auto.
      - rewrite dput_other by auto. intros X. apply J2. exact X. }
    assert (D2 : Done w0 w2) by (split; auto; exists []; rewrite app_nil_r; split; auto; constructor).
    eapply done_trans; [exact D2|].
    destruct (check_tasks self body mbody is_async w2) as [w3|] eqn:E; [|discriminate].
    eapply done_trans; [apply done_check; eauto|]. apply check_tasks_wi in E as (I3 & _); auto.
    apply done_check_actor; auto.
  - apply Some_inj in H as <-. split; auto. exists []. rewrite app_nil_r. split; auto; constructor.
  - apply Some_inj in H as <-. split; auto. exists []. rewrite app_nil_r. split; auto; constructor.
  - simpl in H. rewrite Rn in H. destruct i; simpl in H; apply Some_inj in H as <-; apply done_refl.
  - apply Some_inj in H as <-. split; auto. exists []. rewrite app_nil_r. split; auto; constructor.
Qed.

Lemma done_run ms : forall w w', WI body mbody w -> no_refs_received ms -> running w = [] ->
  wrun self body mbody is_async w ms = Some w' -> Done w w'.
Proof.
  induction ms as [|m ms IH]; intros w w' I N Rn H; simpl in H.
  - apply Some_inj in H as <-. apply done_refl.
  - destruct (wstep self body mbody is_async w m) as [w1|] eqn:E; [|discriminate].
    assert (Nm : forall d v, m = WPut d v -> refs v = []) by (intros d v ->; apply (N d); simpl; auto).
    assert (D := done_step _ _ _ I Nm Rn E). apply wstep_wi in E as (I1 & _); auto.
    eapply done_trans; [exact D|]. apply IH; auto; [|destruct D; congruence].
    intros d v X. apply (N d); simpl; auto.
Qed.

Variable ms : list wmsg.
Variable w : wst.
Hypothesis clean_ms : no_refs_received ms.
Hypothesis run : wrun self body mbody is_async winit ms = Some w.

Lemma run_blocks : Blocks (log w) /\ running w = [].
Proof.
  destruct (done_run ms winit w (wi_init body mbody) clean_ms eq_refl run) as (R & t & L & B).
  simpl in *. rewrite L. auto.
Qed.

Lemma one_report : length (reports (log w)) = length (ended (log w)).
Proof. apply blocks_count, run_blocks. Qed.

(** The outputs of a task that returned enough values are reported. *)
Lemma success_reported l1 n v l2 : log w = l1 ++ EvEnd n (RVal v) :: l2 ->
  exists q, In q (received l1) /\ q_id q = n /\
  (enough (q_out q) (RVal v) -> exists ds, In ds (reports (log w)) /\ incl (out_ids (q_out q)) ds).
Proof.
  intros E. destruct (blocks_split _ (proj1 run_blocks) _ _ _ _ E) as (st & sends & l3 & L2 & F).
  destruct (good_end body mbody _ (wi_good _ _ _ (run_wi self body mbody is_async body_ok mbody_ok ms w clean_ms run)) _ _ _ _ E)
    as (l0 & q & c & a & k & st' & Id & X & _ & R & L1 & S & l4 & L2' & Z).
  exists q. split; [subst l1; rewrite received_app; apply in_or_app; left; apply X|]. split; auto.
  intros En. assert (S' : st' = st).
  { rewrite L2' in L2. apply (stores_eq _ _ _ _ L2 Z). intros d x l5 Y.
    destruct sends as [|y sends]; [discriminate|]. injection Y as -> _.
    inversion F as [|? ? C _]. exact C. }
  subst st'. exists (map fst st). split.
  - rewrite E, L2. unfold reports. apply in_flat_map. exists (EvDone (map fst st)). split; [|left; reflexivity].
    apply in_or_app. right. right. apply in_or_app. right. apply in_or_app. right. left. reflexivity.
  - destruct S as [(done & S)|(S & ->)].
    + intros d D. destruct (q_out q) as [|d0|ds]; simpl in *.
      * contradiction.
      * apply Some_inj in S; apply pair_inj in S as [<- _]. exact D.
      * destruct En as (vs & It & Le). rewrite It in S. apply Some_inj in S; apply pair_inj in S as [<- _].
        apply fst_combine; auto.
    + exfalso. destruct (q_out q); simpl in *; try discriminate. destruct En as (vs & It & _). rewrite It in S. discriminate.
Qed.

(** Nothing of a failed task is reported by it. *)
Lemma failure_reported l1 n e l2 : log w = l1 ++ EvEnd n (RExc e) :: l2 ->
  exists st sends l3, l2 = ev_stores st ++ sends ++ EvDone [] :: l3 /\ Forall calm sends.
Proof.
  intros E. destruct (blocks_split _ (proj1 run_blocks) _ _ _ _ E) as (st & sends & l3 & L2 & F). eauto.
Qed.
End Done.
