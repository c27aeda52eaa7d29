(** Pending tasks, answers to requests, order of calls, survival of the worker. *)
From Verif Require Import Lib ShmModel ShmRaceProofs ValModel WorkerModel WorkerSpec WorkerProofs
  WorkerLog WorkerTrace.
From Coq Require Import Permutation.

(** ** No pending task is ready (C27) *)

(** l' is l with some requests left out and others with fewer references. *)
Inductive Thin : list request -> list request -> Prop :=
| thin_nil : Thin [] []
| thin_drop q l l' : Thin l l' -> Thin (q :: l) l'
| thin_keep q q' l l' : incl (qrefs q') (qrefs q) -> q_out q' = q_out q -> Thin l l' ->
    Thin (q :: l) (q' :: l').

Definition less (q' q : request) : Prop := incl (qrefs q') (qrefs q) /\ q_out q' = q_out q.

Lemma thin_refl l : Thin l l.
Proof. induction l; [constructor|]. apply thin_keep; auto. apply incl_refl. Qed.

Lemma thin_app a a' b b' : Thin a a' -> Thin b b' -> Thin (a ++ b) (a' ++ b').
Proof. induction 1; intros; simpl; auto; [apply thin_drop | apply thin_keep]; auto. Qed.

Lemma thin_in l l' q' : Thin l l' -> In q' l' -> exists q, In q l /\ less q' q.
Proof.
  induction 1; simpl; intros I; [tauto | |].
  - destruct (IHThin I) as (x & ? & ?). eauto.
  - destruct I as [<-|I]; [exists q; split; [|split]; auto|]. destruct (IHThin I) as (x & ? & ?). eauto.
Qed.

Lemma less_independent q q' p p' : less q' q -> less p' p -> independent q p -> independent q' p'.
Proof. intros [A _] [_ B] I d D. rewrite B. apply I, A, D. Qed.

Lemma thin_ordered l l' : Thin l l' -> ForallOrdPairs independent l -> ForallOrdPairs independent l'.
Proof.
  induction 1; intros O; inversion O; subst; auto; constructor; auto.
  rewrite Forall_forall in *. intros x X. destruct (thin_in _ _ _ H1 X) as (y & Y & L).
  eapply less_independent; [|exact L|apply H4, Y]. split; auto.
Qed.

Definition waits (w : wst) (q : request) : Prop := exists d, In d (qrefs q) /\ store w d = None.

Section Ready.
Variable self : rank.
Variable body : val -> val -> val -> result.
Variable mbody : list call -> call -> result.
Variable is_async : callee -> bool.
Hypothesis body_ok : forall f a k, no_refs_returned (body f a k).
Hypothesis mbody_ok : forall h c, no_refs_returned (mbody h c).
Hypothesis all_sync : forall c, is_async c = false.

Lemma results_outs o r st done : results o r = Some (st, done) -> incl (map fst st) (out_ids o).
Proof using Type.
  clear. intros H. destruct r, o; simpl in H; try discriminate.
  - apply Some_inj in H; apply pair_inj in H as [<- <-]. simpl. intros x [].
  - apply Some_inj in H; apply pair_inj in H as [<- <-]. simpl. apply incl_refl.
  - destruct (iterate v); [|discriminate]. apply Some_inj in H; apply pair_inj in H as [<- <-].
    intros x X. apply in_map_iff in X as ([a b] & <- & X). apply in_combine_l in X. auto.
  - apply Some_inj in H; apply pair_inj in H as [<- <-]. simpl. apply incl_refl.
  - apply Some_inj in H; apply pair_inj in H as [<- <-]. rewrite map_map. simpl. rewrite map_id. apply incl_refl.
Qed.

(** What one request does to the store. *)
Lemma process_ready w q w' kept : WI body mbody w -> From (log w) q ->
  process_task self body mbody is_async w q = Some (w', kept) ->
  (forall d, store w d <> None -> store w' d <> None) /\
  match kept with
  | Some q' => less q' q /\ waits w' q' /\ store w' = store w
  | None => (forall d, In d (qrefs q) -> store w d <> None) /\
            forall d, store w d = None -> ~ In d (out_ids (q_out q)) -> store w' d = None
  end.
Proof using Type body_ok mbody_ok all_sync.
  intros I F H. split; [apply process_task_wi in H as (_ & K & _); auto; apply K|].
  apply process_task_spec in H; [|eapply wi_clean'; eauto].
  inversion H as [args kwargs As F1 F2 R N | c args kwargs w2 As Ca F1 F2 N1 N2 AV Asy E
                 | c args kwargs w2 st done As Ca F1 F2 N1 N2 AV Asy Rs E]; subst.
  - assert (S := asks_store _ _ _ As). split; [|split; auto].
    + split; auto. intros d D. apply R, D.
    + destruct (refs args ++ refs kwargs) as [|d l] eqn:X; [congruence|].
      exists d. unfold qrefs. simpl. rewrite X. split; [simpl; auto|]. rewrite S. apply R. simpl; auto.
  - rewrite all_sync in Asy. discriminate.
  - split; auto. intros d D ND. assert (S := asks_store _ _ _ As).
    rewrite (qu_store _ _ (quietly_gets _ _)). cbn [emit store].
    rewrite (qu_store _ _ (quietly_gets _ _)).
    destruct (put_all_fields st (fst (evaluate body mbody w2 (q_id q) c args kwargs))) as (P & _). rewrite P.
    assert (I2 : WI body mbody w2) by (eapply wi_quietly; eauto; eapply quietly_asks; eauto).
    destruct (evaluate_spec body mbody w2 (q_id q) c args kwargs (wi_calls _ _ _ I2)) as (_ & _ & E1 & _).
    rewrite dput_all_not; [rewrite E1, S; auto|].
    intros X. apply ND. eapply results_outs; eauto.
Qed.

Lemma recheck_ready l : forall w w' l', WI body mbody w -> (forall q, In q l -> From (log w) q) ->
  ForallOrdPairs independent l ->
  recheck self body mbody is_async w l = Some (w', l') ->
  Thin l l' /\ (forall q, In q l' -> waits w' q) /\
  (forall d, store w d = None -> (forall q, In q l -> ~ In d (out_ids (q_out q))) -> store w' d = None).
Proof using Type body_ok mbody_ok all_sync.
  induction l as [|q l IH]; intros w w' l' I F O H; simpl in H.
  - apply Some_inj in H; apply pair_inj in H as [<- <-]. split; [constructor|]. split; auto.
    intros q [].
  - destruct (process_task self body mbody is_async w q) as [[w1 kept]|] eqn:E; [|discriminate].
    destruct (recheck self body mbody is_async w1 l) as [[w2 l2]|] eqn:E2; [|discriminate].
    apply Some_inj in H; apply pair_inj in H as [<- <-].
    assert (P := E). apply process_ready in P as [M P]; auto; [|apply F; simpl; auto].
    apply process_task_wi in E as (I1 & K1 & _); auto; [|apply F; simpl; auto].
    inversion O as [|? ? Oq Ol]; subst.
    apply IH in E2 as (T & W & S); auto.
    2:{ intros x X. destruct (k_log _ _ K1) as [t ->]. apply from_app, F. simpl; auto. }
    destruct kept as [q'|].
    + destruct P as (L & (d & D & Sd) & Se). split; [apply thin_keep; auto; apply L|]. split.
      * intros x [<-|X]; auto. exists d. split; auto. apply S; auto.
        intros y Y. rewrite Forall_forall in Oq. apply (Oq y Y). apply L, D.
      * intros x X N. apply S; [rewrite Se; auto|]. intros y Y. apply N. simpl; auto.
    + destruct P as (AV & Se). split; [constructor; auto|]. split; auto.
      intros x X N. apply S; [apply Se; auto; apply N; simpl; auto|]. intros y Y. apply N. simpl; auto.
Qed.

Lemma thin_apart l l' k k' : Thin l l' -> Thin k k' -> apart l k -> apart l' k'.
Proof using Type.
  clear. intros T U A q q' Q Q'. destruct (thin_in _ _ _ T Q) as (x & X & Lx).
  destruct (thin_in _ _ _ U Q') as (y & Y & Ly). eapply less_independent; eauto.
Qed.

Record RI (w : wst) (ms : list wmsg) : Prop := {
  ri_pend : ForallOrdPairs independent (pend w ++ execs ms);
  ri_apend : ForallOrdPairs independent (apend w ++ actors ms);
  ri_pa : apart (pend w ++ execs ms) (apend w ++ actors ms);
  ri_ap : apart (apend w ++ actors ms) (pend w ++ execs ms);
  ri_ready : forall q, In q (pend w) \/ In q (apend w) -> waits w q
}.

Lemma ford_app {A} (P : A -> A -> Prop) a b : ForallOrdPairs P (a ++ b) -> ForallOrdPairs P a.
Proof using Type.
  clear. induction a; intros H; [constructor|]. inversion H; subst. constructor; auto.
  apply Forall_app in H2. tauto.
Qed.

Lemma ri_check w w' ms : WI body mbody w -> 
  ForallOrdPairs independent (pend w ++ execs ms) -> ForallOrdPairs independent (apend w ++ actors ms) ->
  apart (pend w ++ execs ms) (apend w ++ actors ms) -> apart (apend w ++ actors ms) (pend w ++ execs ms) ->
  check_tasks self body mbody is_async w = Some w' ->
  ForallOrdPairs independent (pend w' ++ execs ms) /\ ForallOrdPairs independent (apend w' ++ actors ms) /\
  apart (pend w' ++ execs ms) (apend w' ++ actors ms) /\ apart (apend w' ++ actors ms) (pend w' ++ execs ms) /\
  (forall q, In q (pend w') -> waits w' q) /\
  (forall q, In q (apend w) -> waits w q -> In q (apend w') /\ waits w' q) /\ apend w' = apend w.
Proof using Type body_ok mbody_ok all_sync.
  intros I O1 O2 A1 A2 H. unfold check_tasks in H.
  destruct (recheck self body mbody is_async w (pend w)) as [[w1 l]|] eqn:E; [|discriminate].
  apply Some_inj in H as <-. assert (R := E).
  apply recheck_ready in R as (T & W & S); auto; [| intros q Q; apply I; auto | eapply ford_app; eauto].
  apply recheck_wi in E as (I1 & K & _); auto; [|intros q Q; apply I; auto].
  simpl. rewrite (k_apend _ _ K).
  assert (TT : Thin (pend w ++ execs ms) (l ++ execs ms)) by (apply thin_app; auto; apply thin_refl).
  repeat split; auto.
  - eapply thin_ordered; eauto.
  - eapply thin_apart; eauto. apply thin_refl.
  - eapply thin_apart; eauto. apply thin_refl.
  - destruct H0 as (d & D & Sd). exists d. split; auto. simpl. apply S; auto.
    intros y Y. apply (A2 q y); [apply in_or_app; auto | apply in_or_app; auto | auto].
Qed.

Lemma ri_check_actor w w' ms : WI body mbody w -> 
  ForallOrdPairs independent (pend w ++ execs ms) -> ForallOrdPairs independent (apend w ++ actors ms) ->
  apart (pend w ++ execs ms) (apend w ++ actors ms) -> apart (apend w ++ actors ms) (pend w ++ execs ms) ->
  (forall q, In q (pend w) -> waits w q) ->
  check_actor_tasks self body mbody is_async w = Some w' -> RI w' ms.
Proof using Type body_ok mbody_ok all_sync.
  intros I O1 O2 A1 A2 Wp H. unfold check_actor_tasks in H.
  destruct (recheck self body mbody is_async w (apend w)) as [[w1 l]|] eqn:E; [|discriminate].
  apply Some_inj in H as <-. assert (R := E).
  apply recheck_ready in R as (T & W & S); auto; [| intros q Q; apply I; auto | eapply ford_app; eauto].
  apply recheck_wi in E as (I1 & K & _); auto; [|intros q Q; apply I; auto].
  assert (TT : Thin (apend w ++ actors ms) (l ++ actors ms)) by (apply thin_app; auto; apply thin_refl).
  split; simpl; rewrite ?(k_pend _ _ K); auto.
  - eapply thin_ordered; eauto.
  - eapply thin_apart; eauto. apply thin_refl.
  - eapply thin_apart; eauto. apply thin_refl.
  - intros q [Q|Q]; [|apply W; auto]. destruct (Wp q Q) as (d & D & Sd).
    exists d. split; auto. simpl. apply S; auto.
    intros y Y. apply (A1 q y); [apply in_or_app; auto | apply in_or_app; auto | auto].
Qed.

Lemma waits_store w w' q : (forall d, store w d = None -> store w' d = None) -> waits w q -> waits w' q.
Proof using Type. clear. intros S (d & D & E). exists d. auto. Qed.

Lemma ri_step w m ms w' : WI body mbody w -> (forall d v, m = WPut d v -> refs v = []) ->
  (match m with WFinish _ => False | _ => True end) ->
  RI w (m :: ms) -> wstep self body mbody is_async w m = Some w' -> RI w' ms.
Proof using Type body_ok mbody_ok all_sync.
  intros I N NF [O1 O2 A1 A2 Wr] H. unfold wstep in H.
  assert (Tl : forall m', Thin (execs (m' :: ms)) (execs ms)).
  { intros []; simpl; try apply thin_refl. constructor. apply thin_refl. }
  assert (Ta : forall m', Thin (actors (m' :: ms)) (actors ms)).
  { intros []; simpl; try apply thin_refl. constructor. apply thin_refl. }
  assert (P1 : Thin (pend w ++ execs (m :: ms)) (pend w ++ execs ms)) by (apply thin_app; auto; apply thin_refl).
  assert (P2 : Thin (apend w ++ actors (m :: ms)) (apend w ++ actors ms)) by (apply thin_app; auto; apply thin_refl).
  assert (O1' := thin_ordered _ _ P1 O1). assert (O2' := thin_ordered _ _ P2 O2).
  assert (A1' := thin_apart _ _ _ _ P1 P2 A1). assert (A2' := thin_apart _ _ _ _ P2 P1 A2).
  destruct (ready w); [apply Some_inj in H as <-; split; auto|].
  assert (I0 := emit_in_wi body mbody body_ok mbody_ok w m I N).
  destruct m.
  - (* WExec *)
    set (w0 := emit w (EvIn (WExec q))) in *. assert (Fq := from_new w q false).
    destruct (process_task self body mbody is_async w0 q) as [[w1 [q'|]]|] eqn:E; [| |discriminate].
    + apply Some_inj in H as <-. assert (P := E). apply process_ready in P as (M & L & Wq & S); auto.
      apply process_task_wi in E as (I1 & K & _); auto.
      assert (TT : Thin (pend w ++ execs (WExec q :: ms)) ((pend w ++ [q']) ++ execs ms)).
      { rewrite <- app_assoc. apply thin_app; [apply thin_refl|]. simpl. apply thin_keep; try apply L. apply thin_refl. }
      split; simpl; rewrite ?(k_pend _ _ K), ?(k_apend _ _ K).
      * eapply thin_ordered; [exact TT|]; auto.
      * exact O2'.
      * eapply thin_apart; [exact TT|exact P2|]; auto.
      * eapply thin_apart; [exact P2|exact TT|]; auto.
      * intros x X. assert (S' : forall d, store w d = None -> store w1 d = None) by (rewrite S; auto).
        destruct X as [X|X].
        -- apply in_app_or in X as [X|[<-|[]]]; [|exact Wq]. apply (waits_store w); auto.
        -- apply (waits_store w); auto.
    + assert (P := E). apply process_ready in P as (M & AV & S); auto.
      apply process_task_wi in E as (I1 & K & _); auto.
      assert (Pe : pend w1 = pend w) by apply K. assert (Ae : apend w1 = apend w) by apply K.
      assert (H' := H).
      apply (ri_check w1 w' ms) in H' as (B1 & B2 & B3 & B4 & B5 & B6 & B7); auto; rewrite ?Pe, ?Ae; auto.
      split; auto. intros x [X|X]; auto. rewrite B7, Ae in X.
      apply B6; [rewrite Ae; auto|]. destruct (Wr x (or_intror X)) as (d & D & Sd).
      exists d. split; auto. apply S; auto.
      apply (A2 x q); [apply in_or_app; auto | apply in_or_app; simpl; auto | auto].
  - (* WActor *)
    set (w0 := emit w (EvIn (WActor q))) in *. assert (Fq := from_new w q true).
    destruct (process_task self body mbody is_async w0 q) as [[w1 [q'|]]|] eqn:E; [| |discriminate].
    + apply Some_inj in H as <-. assert (P := E). apply process_ready in P as (M & L & Wq & S); auto.
      apply process_task_wi in E as (I1 & K & _); auto.
      assert (TT : Thin (apend w ++ actors (WActor q :: ms)) ((apend w ++ [q']) ++ actors ms)).
      { rewrite <- app_assoc. apply thin_app; [apply thin_refl|]. simpl. apply thin_keep; try apply L. apply thin_refl. }
      split; simpl; rewrite ?(k_pend _ _ K), ?(k_apend _ _ K).
      * exact O1'.
      * eapply thin_ordered; [exact TT|]; auto.
      * eapply thin_apart; [exact P1|exact TT|]; auto.
      * eapply thin_apart; [exact TT|exact P1|]; auto.
      * intros x X. assert (S' : forall d, store w d = None -> store w1 d = None) by (rewrite S; auto).
        destruct X as [X|X].
        -- apply (waits_store w); auto.
        -- apply in_app_or in X as [X|[<-|[]]]; [|exact Wq]. apply (waits_store w); auto.
    + assert (P := E). apply process_ready in P as (M & AV & S); auto.
      apply process_task_wi in E as (I1 & K & _); auto.
      assert (Pe : pend w1 = pend w) by apply K. assert (Ae : apend w1 = apend w) by apply K.
      apply (ri_check_actor w1 w' ms) in H; auto; rewrite ?Pe, ?Ae; auto.
      intros x X. destruct (Wr x (or_introl X)) as (d & D & Sd).
      exists d. split; auto. apply S; auto.
      apply (A1 x q); [apply in_or_app; auto | apply in_or_app; simpl; auto | auto].
  - (* WGet *)
    apply Some_inj in H as <-. assert (Q := quietly_get (emit w (EvIn (WGet src d blocking))) src d blocking).
    split; rewrite ?(qu_pend _ _ Q), ?(qu_apend _ _ Q); auto.
    intros x X. apply (waits_store w); [rewrite (qu_store _ _ Q); auto | apply Wr, X].
  - (* WPut *)
    set (w0 := emit w (EvIn (WPut d v))) in *. 
    set (w2 := set_reqs (set_store w0 (dput (store w0) d v))
                 (filter (fun x => negb (did_eqb x d)) (reqs (set_store w0 (dput (store w0) d v))))) in H.
    assert (I2 : WI body mbody w2).
    { destruct I0 as [J1 J2 J3 J4 J5 J6]. split; auto. intros a x. unfold w2. simpl.
      destruct (did_dec d a) as [<-|Na].
      - rewrite dput_same. intros X. apply Some_inj in X as <-. left. apply in_or_app. simpl; auto.
      - rewrite dput_other by auto. intros X. apply J2. exact X. }
    destruct (check_tasks self body mbody is_async w2) as [w3|] eqn:E; [|discriminate].
    assert (R := E). apply (ri_check w2 w3 ms) in R as (B1 & B2 & B3 & B4 & B5 & B6 & B7); auto.
    apply check_tasks_wi in E as (I3 & _); auto.
    apply (ri_check_actor w3 w' ms) in H; auto.
  - (* WOwner *)
    apply Some_inj in H as <-. split; auto.
  - (* WClean *)
    apply Some_inj in H as <-. split; auto. intros x X. apply (waits_store w); [|apply Wr, X].
    intros d D. simpl. unfold forget. destruct (did_in d ds); auto.
  - destruct NF.
  - (* WCancel *)
    apply Some_inj in H as <-. split; simpl.
    + eapply thin_ordered; [|exact O1]. change (execs ms) with ([] ++ execs ms).
      apply thin_app; [|apply thin_refl]. clear. induction (pend w); constructor; auto.
    + eapply thin_ordered; [|exact O2]. change (actors ms) with ([] ++ actors ms).
      apply thin_app; [|apply thin_refl]. clear. induction (apend w); constructor; auto.
    + intros x y X Y. apply A1; apply in_or_app; auto.
    + intros x y X Y. apply A2; apply in_or_app; auto.
    + tauto.
Qed.

Lemma ri_run ms : forall w w', WI body mbody w -> no_refs_received ms -> (forall i, ~ In (WFinish i) ms) ->
  RI w ms -> wrun self body mbody is_async w ms = Some w' -> RI w' [].
Proof using Type body_ok mbody_ok all_sync.
  induction ms as [|m ms IH]; intros w w' I N NF R H; simpl in H.
  - apply Some_inj in H as <-. auto.
  - destruct (wstep self body mbody is_async w m) as [w1|] eqn:E; [|discriminate].
    assert (Nm : forall d v, m = WPut d v -> refs v = []) by (intros d v ->; apply (N d); simpl; auto).
    assert (R1 := E). apply (ri_step w m ms) in R1; auto.
    2:{ destruct m; auto. apply (NF i). simpl; auto. }
    apply wstep_wi in E as (I1 & _); auto.
    apply (IH w1); auto.
    + intros d v X. apply (N d). simpl; auto.
    + intros i X. apply (NF i). simpl; auto.
Qed.

End Ready.
