(** What follows from the shape of a worker's log; outstanding requests; answers. *)
From Verif Require Import Lib ShmModel ShmRaceProofs ValModel WorkerModel WorkerSpec WorkerProofs WorkerLog.
From Coq Require Import Permutation.

Lemma app_split {A} (l1 l2 a b : list A) e : l1 ++ e :: l2 = a ++ b ->
  (exists t, a = l1 ++ e :: t /\ l2 = t ++ b) \/ (exists t, l1 = a ++ t /\ b = t ++ e :: l2).
Proof.
  revert l1. induction a as [|x a IH]; intros l1 H.
  - right. exists l1. simpl in H. auto.
  - destruct l1 as [|y l1].
    + left. simpl in H. injection H as -> ->. exists a. auto.
    + simpl in H. injection H as -> H. apply IH in H as [(t & -> & ->) | (t & -> & ->)].
      * left. exists t. auto.
      * right. exists t. auto.
Qed.

Lemma no_event_in (P : wev -> Prop) l1 e l2 l : l = l1 ++ e :: l2 -> Forall P l -> P e.
Proof. intros -> F. apply Forall_app in F as [_ F]. inversion F; auto. Qed.

Section Trace.
Variable self : rank.
Variable body : val -> val -> val -> result.
Variable mbody : list call -> call -> result.
Variable is_async : callee -> bool.
Notation Good := (Good body mbody).
Notation result_of := (result_of body mbody).

Lemma stores_shape st l1 e l2 : ev_stores st = l1 ++ e :: l2 -> exists d v, e = EvStore d v.
Proof.
  intros H. assert (I : In e (ev_stores st)) by (rewrite H; apply in_or_app; simpl; auto).
  apply in_map_iff in I as ([d v] & <- & _). eauto.
Qed.

(** One execution in the log. *)
Definition exec_at (l : list wev) (q : request) (c : callee) (args kwargs : val) : Prop :=
  In q (received l) /\ callee_of l q c /\
  fill (stored l) (q_args q) args /\ fill (stored l) (q_kwargs q) kwargs /\
  refs args = [] /\ refs kwargs = [].

Lemma good_run l : Good l -> forall l1 n c a k l2, l = l1 ++ EvRun n c a k :: l2 ->
  exists q, q_id q = n /\ exec_at l1 q c a k /\ failed_arg a k = None /\
  exists l3, l2 = EvEnd n (result_of l1 c a k) :: l3.
Proof.
  induction 1 as [|l e O G IH | l q c args kwargs st G IH Iq Ca F1 F2 R1 R2 St];
    intros l1 n c0 a k l2 H.
  - destruct l1; discriminate.
  - symmetry in H. apply app_split in H as [(t & H & ->) | (t & -> & H)].
    + destruct (IH _ _ _ _ _ _ H) as (q & E & X & Y & l3 & ->). exists q. repeat split; auto; try apply X.
      exists (l3 ++ [e]). auto.
    + destruct t as [|? [|? ?]]; simpl in H; try discriminate. injection H as ->. destruct O.
  - symmetry in H. apply app_split in H as [(t & H & ->) | (t & -> & H)].
    + destruct (IH _ _ _ _ _ _ H) as (q' & E & X & Y & l3 & ->). exists q'. repeat split; auto; try apply X.
      eexists. simpl. reflexivity.
    + unfold ev_run in H. destruct (failed_arg args kwargs) eqn:Fa.
      * destruct t as [|x t]; [discriminate|]. simpl in H. injection H as <- H.
        apply stores_shape in H as (d & v & H). discriminate.
      * destruct t as [|x t].
        -- simpl in H. injection H as E -> -> -> <-; subst n. rewrite app_nil_r.
           exists q. split; auto. repeat split; auto. eauto.
        -- simpl in H. injection H as <- H. destruct t as [|y t]; [discriminate|].
           simpl in H. injection H as <- H. apply stores_shape in H as (d & v & H). discriminate.
Qed.

Lemma good_end l : Good l -> forall l1 n r l2, l = l1 ++ EvEnd n r :: l2 ->
  exists l0 q c a k st, q_id q = n /\ exec_at l0 q c a k /\ Good l0 /\ r = result_of l0 c a k /\
  l1 = l0 ++ ev_run n c a k /\
  ((exists done, results (q_out q) r = Some (st, done)) \/ (results (q_out q) r = None /\ st = [])) /\
  exists l3, l2 = ev_stores st ++ l3 /\ (forall d v l4, l3 <> EvStore d v :: l4).
Proof.
  induction 1 as [|l e O G IH | l q c args kwargs st G IH Iq Ca F1 F2 R1 R2 St];
    intros l1 n r l2 H.
  - destruct l1; discriminate.
  - symmetry in H. apply app_split in H as [(t & H & ->) | (t & -> & H)].
    + destruct (IH _ _ _ _ H) as (l0 & q & c & a & k & st & E & X & G0 & R & L & S & l3 & -> & Z).
      exists l0, q, c, a, k, st. do 6 (split; auto).
      exists (l3 ++ [e]). rewrite app_assoc. split; auto.
      destruct l3 as [|y l3]; simpl; intros d v l4 Y; [|injection Y as -> _; eapply Z; eauto].
      injection Y as -> _. destruct O.
    + destruct t as [|? [|? ?]]; simpl in H; try discriminate. injection H as ->. destruct O.
  - symmetry in H. apply app_split in H as [(t & H & ->) | (t & -> & H)].
    + destruct (IH _ _ _ _ H) as (l0 & q' & c' & a & k & st' & E & X & G0 & R & L & S & l3 & -> & Z).
      exists l0, q', c', a, k, st'. do 6 (split; auto).
      eexists. rewrite <- app_assoc. split; [reflexivity|].
      destruct l3 as [|y l3]; simpl; intros d v l4 Y; [|injection Y as -> _; eapply Z; eauto].
      unfold ev_run in Y. destruct (failed_arg args kwargs); discriminate.
    + symmetry in H. apply app_split in H as [(u & H & _) | (u & -> & H)].
      * exfalso. unfold ev_run in H. destruct (failed_arg args kwargs); destruct t as [|? [|? ?]]; discriminate.
      * destruct u as [|x u].
        -- simpl in H. injection H as E <- <-; subst n. rewrite app_nil_r.
           exists l, q, c, args, kwargs, st. repeat split; auto. exists []. rewrite app_nil_r. split; auto.
           discriminate.
        -- simpl in H. injection H as <- H. apply stores_shape in H as (d & v & H). discriminate.
Qed.

End Trace.

(** ** Requests for data a worker makes (C31) *)

Lemma told_app l l' d : told_owner (l ++ l') d =
  fold_left (fun o e => match e with
                        | EvIn (WOwner x r) => if did_eqb x d then Some r else o
                        | EvIn (WClean ds) => if did_in d ds then None else o
                        | _ => o end) l' (told_owner l d).
Proof. unfold told_owner. apply fold_left_app. Qed.

Lemma avail_app l l' d : available (l ++ l') d =
  fold_left (fun b e => match e with
                        | EvIn (WPut x _) | EvStore x _ => if did_eqb x d then true else b
                        | EvIn (WClean ds) => if did_in d ds then false else b
                        | _ => b end) l' (available l d).
Proof. unfold available. apply fold_left_app. Qed.

Lemma outst_app l l' d : outstanding (l ++ l') d =
  fold_left (fun b e => match e with
                        | EvGet _ x => if did_eqb x d then true else b
                        | EvIn (WPut x _) => if did_eqb x d then false else b
                        | _ => b end) l' (outstanding l d).
Proof. unfold outstanding. apply fold_left_app. Qed.

(** Events of no interest to C31. *)
Definition inert (e : wev) : Prop :=
  match e with
  | EvGet _ _ | EvStore _ _ => False
  | EvIn (WPut _ _) | EvIn (WOwner _ _) | EvIn (WClean _) => False
  | _ => True
  end.

Lemma inert_folds l d : Forall inert l -> forall l0,
  told_owner (l0 ++ l) d = told_owner l0 d /\ available (l0 ++ l) d = available l0 d /\
  outstanding (l0 ++ l) d = outstanding l0 d.
Proof.
  induction 1 as [|e l E F IH]; intros l0; [rewrite app_nil_r; auto|].
  change (e :: l) with ([e] ++ l). rewrite app_assoc.
  destruct (IH (l0 ++ [e])) as (A & B & C). rewrite A, B, C, told_app, avail_app, outst_app. simpl.
  destruct e as [m| | | | | |]; simpl in E; try tauto; auto. destruct m; simpl in E; try tauto; auto.
Qed.

Section Asking.
Variable self : rank.
Variable body : val -> val -> val -> result.
Variable mbody : list call -> call -> result.
Variable is_async : callee -> bool.

Definition ok_get (l1 : list wev) (o : rank) (d : dataid) : Prop :=
  outstanding l1 d = false /\ told_owner l1 d = Some o /\ o <> self /\ available l1 d = false.

Record AI (w : wst) : Prop := {
  ai_reqs : forall d, In d (reqs w) <-> outstanding (log w) d = true;
  ai_owner : forall d, owner w d = told_owner (log w) d;
  ai_store : forall d, store w d <> None <-> available (log w) d = true;
  ai_gets : forall l1 o d l2, log w = l1 ++ EvGet o d :: l2 -> ok_get l1 o d
}.

Lemma split_last {A} (l1 l2 l : list A) e e' : l1 ++ e :: l2 = l ++ [e'] ->
  (e = e' /\ l1 = l) \/ (exists t, l = l1 ++ e :: t).
Proof.
  intros H. apply app_split in H as [(t & -> & _) | (t & -> & H)]; eauto.
  destruct t as [|? [|? ?]]; simpl in H; try discriminate. injection H as ->. rewrite app_nil_r. auto.
Qed.

Lemma ai_inert w w' l : AI w -> reqs w' = reqs w -> owner w' = owner w -> store w' = store w ->
  log w' = log w ++ l -> Forall inert l -> AI w'.
Proof.
  intros [A1 A2 A3 A4] E1 E2 E3 E4 F. split.
  - intros d. destruct (inert_folds l d F (log w)) as (X & Y & Z). rewrite E1, E4, Z. auto.
  - intros d. destruct (inert_folds l d F (log w)) as (X & Y & Z). rewrite E2, E4, X. auto.
  - intros d. destruct (inert_folds l d F (log w)) as (X & Y & Z). rewrite E3, E4, Y. auto.
  - intros l1 o d l2. rewrite E4. intros H. symmetry in H.
    apply app_split in H as [(t & H & _) | (t & _ & H)]; eauto.
    exfalso. apply (no_event_in inert) in H; auto.
Qed.

Lemma ai_asks w w' : Asks self w w' -> AI w -> AI w'.
Proof.
  induction 1 as [|w o d w' S O R N A IH]; auto. intros [A1 A2 A3 A4]. apply IH. split; simpl.
  - intros x. rewrite outst_app. simpl. destruct (did_eqb d x) eqn:E.
    + apply did_eqb_eq in E as <-. tauto.
    + rewrite <- A1. split; auto. intros [<-|X]; auto. rewrite did_eqb_refl in E. discriminate.
  - intros x. rewrite told_app. simpl. auto.
  - intros x. rewrite avail_app. simpl. auto.
  - intros l1 o' d' l2 H. symmetry in H; apply split_last in H as [[E ->] | (t & H)]; eauto.
    injection E as -> ->. repeat split; auto.
    + destruct (outstanding (log w) d) eqn:X; auto. apply A1 in X. tauto.
    + rewrite <- A2. auto.
    + destruct (available (log w) d) eqn:X; auto. apply A3 in X. tauto.
Qed.

Lemma ai_put w d v : AI w -> AI (put w d v).
Proof.
  intros [A1 A2 A3 A4]. split; simpl.
  - intros x. rewrite outst_app. simpl. auto.
  - intros x. rewrite told_app. simpl. auto.
  - intros x. rewrite avail_app. simpl. destruct (did_eqb d x) eqn:E.
    + apply did_eqb_eq in E as <-. rewrite dput_same. split; [auto | discriminate].
    + apply did_eqb_neq in E. rewrite dput_other; auto.
  - intros l1 o d' l2 H. symmetry in H; apply split_last in H as [[E _] | (t & H)]; eauto. discriminate.
Qed.

Lemma ai_put_all st : forall w, AI w -> AI (put_all w st).
Proof. induction st as [|[d v] st IH]; intros w A; simpl; auto. apply IH, ai_put, A. Qed.

(** Sending changes nothing else. *)
Definition is_put (e : wev) : Prop := match e with EvPut _ _ _ _ => True | _ => False end.

Record Sends (w w' : wst) : Prop := {
  se_store : store w' = store w;
  se_owner : owner w' = owner w;
  se_reqs : reqs w' = reqs w;
  se_log : exists l, log w' = log w ++ l /\ Forall is_put l
}.

Lemma sends_refl w : Sends w w.
Proof. split; auto. exists []. rewrite app_nil_r. auto. Qed.

Lemma sends_trans w1 w2 w3 : Sends w1 w2 -> Sends w2 w3 -> Sends w1 w3.
Proof.
  intros [A1 A2 A3 [l [A4 F]]] [B1 B2 B3 [l' [B4 F']]]. split; try congruence.
  exists (l ++ l'). rewrite B4, A4, app_assoc. split; auto. apply Forall_app; auto.
Qed.

Lemma sends_get w src d b : Sends w (process_get w src d b).
Proof.
  unfold process_get. destruct (store w d).
  - destruct (pair_in (d, src) (sent w)); [apply sends_refl|].
    split; auto. eexists. simpl. split; eauto. constructor; simpl; auto.
  - destruct b; (split; auto; exists []; rewrite app_nil_r; auto).
Qed.

Lemma sends_fold d b l : forall w, Sends w (fold_left (fun w r => process_get w r d b) l w).
Proof.
  induction l as [|r l IH]; intros w; simpl; [apply sends_refl|].
  eapply sends_trans; [apply sends_get|apply IH].
Qed.

Lemma sends_set w g b : Sends w (set_gets w g b).
Proof. split; auto. exists []. rewrite app_nil_r. auto. Qed.

Lemma sends_gets ds : forall w, Sends w (check_gets w ds).
Proof.
  unfold check_gets. induction ds as [|d ds IH]; intros w; simpl; [apply sends_refl|].
  eapply sends_trans; [|apply IH]. unfold check_request.
  eapply sends_trans; [apply sends_fold|]. eapply sends_trans; [apply sends_set|].
  eapply sends_trans; [apply sends_fold|]. apply sends_set.
Qed.

Lemma ai_sends w w' : AI w -> Sends w w' -> AI w'.
Proof.
  intros A [S1 S2 S3 [l [S4 F]]]. eapply ai_inert; eauto.
  eapply Forall_impl; [|exact F]. intros []; simpl; tauto.
Qed.

Lemma ai_emit w e : inert e -> AI w -> AI (emit w e).
Proof. intros E A. apply (ai_inert w _ [e]); auto. Qed.

Lemma ai_evaluate w n c a k : AI w -> AI (fst (evaluate body mbody w n c a k)).
Proof.
  intros A. unfold evaluate, run_body. destruct (failed_arg a k); simpl.
  - apply ai_emit; simpl; auto.
  - destruct c; simpl; apply ai_emit; simpl; auto; try (apply ai_emit; simpl; auto).
    eapply (ai_inert w _ [EvRun n (CMethod m) a k]); eauto. constructor; simpl; auto.
Qed.

Lemma ai_process w q w' kept : clean w -> AI w ->
  process_task self body mbody is_async w q = Some (w', kept) -> AI w'.
Proof.
  intros C A H. apply process_task_spec in H; auto.
  inversion H as [args kwargs As F1 F2 R N | c args kwargs w2 As Ca F1 F2 N1 N2 AV Asy E
                 | c args kwargs w2 st done As Ca F1 F2 N1 N2 AV Asy Rs E]; subst.
  - eapply ai_asks; eauto.
  - eapply ai_sends; [|apply sends_gets]. apply (ai_inert w2 _ []); auto.
    + eapply ai_asks; eauto.
    + simpl. rewrite app_nil_r. auto.
  - eapply ai_sends; [|apply sends_gets]. apply ai_emit; [exact I|].
    eapply ai_sends; [|apply sends_gets]. apply ai_put_all, ai_evaluate. eapply ai_asks; eauto.
Qed.

Hypothesis body_ok : forall f a k, no_refs_returned (body f a k).
Hypothesis mbody_ok : forall h c, no_refs_returned (mbody h c).

Lemma ai_recheck l : forall w w' l', WI body mbody w -> (forall q, In q l -> From (log w) q) -> AI w ->
  recheck self body mbody is_async w l = Some (w', l') -> AI w'.
Proof.
  induction l as [|q l IH]; intros w w' l' I F A H; simpl in H.
  - apply Some_inj in H; apply pair_inj in H as [<- <-]. auto.
  - destruct (process_task self body mbody is_async w q) as [[w1 kept]|] eqn:E; [|discriminate].
    destruct (recheck self body mbody is_async w1 l) as [[w2 l2]|] eqn:E2; [|discriminate].
    apply Some_inj in H; apply pair_inj in H as [<- <-].
    assert (A1 : AI w1) by (apply (ai_process w q w1 kept); auto; apply (wi_clean' body mbody); auto).
    apply process_task_wi in E as (I1 & K1 & _); auto; [|apply F; simpl; auto].
    apply (IH w1 w2 l2); auto.
    intros x X. destruct (k_log _ _ K1) as [t ->]. apply from_app, F. simpl; auto.
Qed.

Lemma ai_check w w' : WI body mbody w -> AI w -> check_tasks self body mbody is_async w = Some w' -> AI w'.
Proof.
  intros I A H. unfold check_tasks in H.
  destruct (recheck self body mbody is_async w (pend w)) as [[w1 l]|] eqn:E; [|discriminate].
  apply Some_inj in H as <-. apply (ai_inert w1 _ []); auto; [|simpl; rewrite app_nil_r; auto].
  eapply ai_recheck; [exact I| |exact A|exact E]. intros q Q. apply I; auto.
Qed.

Lemma ai_check_actor w w' : WI body mbody w -> AI w ->
  check_actor_tasks self body mbody is_async w = Some w' -> AI w'.
Proof.
  intros I A H. unfold check_actor_tasks in H.
  destruct (recheck self body mbody is_async w (apend w)) as [[w1 l]|] eqn:E; [|discriminate].
  apply Some_inj in H as <-. apply (ai_inert w1 _ []); auto; [|simpl; rewrite app_nil_r; auto].
  eapply ai_recheck; [exact I| |exact A|exact E]. intros q Q. apply I; auto.
Qed.

Lemma from_new w q (actor : bool) :
  From (log (emit w (EvIn (if actor then WActor q else WExec q)))) q.
Proof.
  exists q. simpl. rewrite received_app. split; [apply in_or_app; right; destruct actor; simpl; auto|].
  repeat split; auto; apply fill_refl.
Qed.

Lemma ai_step w m w' : WI body mbody w -> (forall d v, m = WPut d v -> refs v = []) -> AI w ->
  wstep self body mbody is_async w m = Some w' -> AI w'.
Proof.
  intros I N A H. unfold wstep in H. destruct (ready w); [apply Some_inj in H as <-; auto|].
  assert (I0 := emit_in_wi body mbody body_ok mbody_ok w m I N).
  destruct m.
  - assert (A0 : AI (emit w (EvIn (WExec q)))) by (apply ai_emit; simpl; auto).
    destruct (process_task self body mbody is_async (emit w (EvIn (WExec q))) q) as [[w1 [q'|]]|] eqn:E;
      [| |discriminate].
    + apply ai_process in E; auto; [|eapply wi_clean'; eauto]. apply Some_inj in H as <-.
      apply (ai_inert w1 _ []); auto. simpl; rewrite app_nil_r; auto.
    + assert (A1 := E). apply ai_process in A1; auto; [|eapply wi_clean'; eauto].
      apply process_task_wi in E as (I1 & _); auto; [apply (ai_check w1); auto | apply (from_new w q false)].
  - assert (A0 : AI (emit w (EvIn (WActor q)))) by (apply ai_emit; simpl; auto).
    destruct (process_task self body mbody is_async (emit w (EvIn (WActor q))) q) as [[w1 [q'|]]|] eqn:E;
      [| |discriminate].
    + apply ai_process in E; auto; [|eapply wi_clean'; eauto]. apply Some_inj in H as <-.
      apply (ai_inert w1 _ []); auto. simpl; rewrite app_nil_r; auto.
    + assert (A1 := E). apply ai_process in A1; auto; [|eapply wi_clean'; eauto].
      apply process_task_wi in E as (I1 & _); auto; [apply (ai_check_actor w1); auto | apply (from_new w q true)].
  - apply Some_inj in H as <-. eapply ai_sends; [|apply sends_get]. apply ai_emit; simpl; auto.
  - set (w2 := set_reqs (set_store (emit w (EvIn (WPut d v))) (dput (store (emit w (EvIn (WPut d v)))) d v))
                 (filter (fun x => negb (did_eqb x d)) (reqs (set_store (emit w (EvIn (WPut d v))) (dput (store (emit w (EvIn (WPut d v)))) d v))))) in H.
    assert (A2 : AI w2).
    { destruct A as [A1 A2 A3 A4]. unfold w2. split; simpl.
      - intros x. rewrite outst_app, filter_In, A1. simpl. rewrite (did_eqb_sym x d).
        destruct (did_eqb d x); simpl; [|tauto]. split; [intros [_ X] | intros X]; discriminate.
      - intros x. rewrite told_app. simpl. auto.
      - intros x. rewrite avail_app. simpl. destruct (did_eqb d x) eqn:E.
        + apply did_eqb_eq in E as <-. rewrite dput_same. split; [auto | discriminate].
        + apply did_eqb_neq in E. rewrite dput_other; auto.
      - intros l1 o d' l2 X. symmetry in X; apply split_last in X as [[E _] | (t & X)]; eauto. discriminate. }
    assert (I2 : WI body mbody w2).
    { destruct I0 as [J1 J2 J3 J4 J5 J6]. split; auto. intros a x. unfold w2. simpl.
      destruct (did_dec d a) as [<-|Na].
      - rewrite dput_same. intros X. apply Some_inj in X as <-. left. apply in_or_app. simpl; auto.
      - rewrite dput_other by auto. intros X. apply J2. exact X. }
    destruct (check_tasks self body mbody is_async w2) as [w3|] eqn:E; [|discriminate].
    assert (A3 := E). apply ai_check in A3; auto.
    apply check_tasks_wi in E as (I3 & _); auto. apply (ai_check_actor w3); auto.
  - apply Some_inj in H as <-. destruct A as [A1 A2 A3 A4]. split; simpl.
    + intros x. rewrite outst_app. simpl. auto.
    + intros x. rewrite told_app. simpl. destruct (did_eqb d x) eqn:E.
      * apply did_eqb_eq in E as <-. apply dput_same.
      * apply did_eqb_neq in E. rewrite dput_other; auto.
    + intros x. rewrite avail_app. simpl. auto.
    + intros l1 o d' l2 X. symmetry in X; apply split_last in X as [[E _] | (t & X)]; eauto. discriminate.
  - apply Some_inj in H as <-. destruct A as [A1 A2 A3 A4]. split; simpl.
    + intros x. rewrite outst_app. simpl. auto.
    + intros x. rewrite told_app. simpl. unfold forget. destruct (did_in x ds); auto.
    + intros x. rewrite avail_app. simpl. unfold forget. destruct (did_in x ds); auto.
      split; [tauto | discriminate].
    + intros l1 o d' l2 X. symmetry in X; apply split_last in X as [[E _] | (t & X)]; eauto. discriminate.
  - assert (A0 : AI (emit w (EvIn (WFinish i)))) by (apply ai_emit; simpl; auto).
    destruct (nth_error (running (emit w (EvIn (WFinish i)))) i) as [[q c]|] eqn:E;
      [|apply Some_inj in H as <-; auto].
    apply Some_inj in H as <-. set (w1 := set_running _ _).
    assert (A1 : AI w1).
    { eapply (ai_inert _ _ []); [exact A0 | | | | |]; auto. simpl. rewrite app_nil_r. auto. }
    unfold finish_async. assert (A2 := ai_evaluate w1 (q_id q) c (q_args q) (q_kwargs q) A1).
    destruct (evaluate body mbody w1 (q_id q) c (q_args q) (q_kwargs q)) as [we re]. simpl in A2.
    rewrite store_result_eqn. destruct (results (q_out q) re) as [[st done]|]; auto.
    assert (A3 : AI (check_gets (put_all we st) (out_ids (q_out q)))).
    { eapply ai_sends; [|apply sends_gets]. apply ai_put_all; auto. }
    destruct re; [destruct (q_out q)|]; auto; apply ai_emit; simpl; auto.
  - apply Some_inj in H as <-. apply (ai_inert w _ [EvIn WCancel]); auto. constructor; simpl; auto.
Qed.

Lemma ai_run ms : forall w w', WI body mbody w -> AI w -> no_refs_received ms ->
  wrun self body mbody is_async w ms = Some w' -> AI w'.
Proof.
  induction ms as [|m ms IH]; intros w w' I A N H; simpl in H.
  - apply Some_inj in H as <-. auto.
  - destruct (wstep self body mbody is_async w m) as [w1|] eqn:E; [|discriminate].
    assert (Nm : forall d v, m = WPut d v -> refs v = []) by (intros d v ->; apply (N d); simpl; auto).
    assert (A1 := E). apply ai_step in A1; auto.
    apply wstep_wi in E as (I1 & _); auto.
    eapply IH; eauto. intros d v X. apply (N d). simpl; auto.
Qed.

Lemma ai_init : AI winit.
Proof.
  split; simpl; auto.
  - intros d; split; [tauto | discriminate].
  - intros d; split; [tauto | discriminate].
  - intros l1 o d l2 H. destruct l1; discriminate.
Qed.

End Asking.
