(** What has been asked for and is not there is needed by a pending request. *)
From Verif Require Import Lib ShmModel ShmRaceProofs ValModel WorkerModel WorkerSpec WorkerProofs
  WorkerLog WorkerTrace WorkerReady WorkerAnswer WorkerOrder WorkerThms WorkerWant.

Section Need.
Variable self : rank.

Lemma unwrap_reqs w v w' v' p d : clean w -> unwrap self w v = Some (w', v', p) -> In d (reqs w') -> In d (reqs w) \/ In d (refs v').
Proof.
  intros C H I. destruct v; simpl in H; try (apply Some_inj in H; apply pair_inj in H as [H _]; apply pair_inj in H as [<- _]; auto).
  destruct (store w d0) as [x|] eqn:S.
  - apply Some_inj in H; apply pair_inj in H as [H _]; apply pair_inj in H as [<- _]. auto.
  - destruct (owner w d0) as [o|] eqn:O; [|discriminate].
    destruct (did_in d0 (reqs w)) eqn:R.
    + apply Some_inj in H; apply pair_inj in H as [H _]; apply pair_inj in H as [<- <-]. auto.
    + destruct (Nat.eqb o self) eqn:Q.
      * apply Some_inj in H; apply pair_inj in H as [H _]; apply pair_inj in H as [<- <-]. auto.
      * apply Some_inj in H; apply pair_inj in H as [H _]; apply pair_inj in H as [<- <-].
        simpl in I. destruct I as [<-|I]; auto. simpl. auto.
Qed.

Definition MatReq (v : val) : Prop := forall w p w' v' p', clean w ->
  materialize self w v p = Some (w', v', p') -> forall d, In d (reqs w') -> In d (reqs w) \/ In d (refs v').

Lemma mat_list_req l : Forall MatReq l -> forall w p w' l' p', clean w ->
  mat_list self (materialize self) w l p = Some (w', l', p') ->
  forall d, In d (reqs w') -> In d (reqs w) \/ In d (flat_map refs l').
Proof.
  induction 1 as [|x l Hx Hl IH]; intros w p w' l' p' C H; cbn [mat_list] in H.
  - apply Some_inj in H; apply pair_inj in H as [H <-]; apply pair_inj in H as [<- <-]. auto.
  - destruct (materialize self w x p) as [[[w1 x1] p1]|] eqn:E1; [|discriminate].
    destruct (unwrap self w1 x1) as [[[w2 x2] p2]|] eqn:E2; [|discriminate].
    destruct (mat_list self (materialize self) w2 l (p1 || p2)) as [[[w3 r3] p3]|] eqn:E3; [|discriminate].
    apply Some_inj in H; apply pair_inj in H as [H <-]; apply pair_inj in H as [<- <-].
    assert (Cv := Hx _ _ _ _ _ C E1).
    apply mat_ok in E1 as [F1 [A1 [P1 R1]]]; auto.
    assert (C1 : clean w1) by (eapply clean_asks; eauto).
    assert (S1 := asks_store _ _ _ A1). assert (U := fun d => unwrap_reqs _ _ _ _ _ d C1 E2).
    apply unwrap_again in E2 as [A2 [-> P2]]; [| exact [] | auto |].
    2:{ intros d D. rewrite S1. apply R1, D. }
    assert (Cr := IH _ _ _ _ _ (clean_asks _ _ _ A2 C1) E3).
    simpl. intros d D. rewrite in_app_iff. destruct (Cr d D) as [D2|D2]; auto.
    destruct (U d D2) as [D3|D3]; auto. destruct (Cv d D3); auto.
Qed.

Lemma mat_dict_req l : Forall (fun kv => MatReq (snd kv)) l -> forall w p w' l' p', clean w ->
  mat_dict self (materialize self) w l p = Some (w', l', p') ->
  forall d, In d (reqs w') -> In d (reqs w) \/ In d (flat_map (fun kv => refs (snd kv)) l').
Proof.
  induction 1 as [|x l Hx Hl IH]; intros w p w' l' p' C H; cbn [mat_dict] in H.
  - apply Some_inj in H; apply pair_inj in H as [H <-]; apply pair_inj in H as [<- <-]. auto.
  - destruct (materialize self w (snd x) p) as [[[w1 x1] p1]|] eqn:E1; [|discriminate].
    destruct (unwrap self w1 x1) as [[[w2 x2] p2]|] eqn:E2; [|discriminate].
    destruct (mat_dict self (materialize self) w2 l (p1 || p2)) as [[[w3 r3] p3]|] eqn:E3; [|discriminate].
    apply Some_inj in H; apply pair_inj in H as [H <-]; apply pair_inj in H as [<- <-].
    assert (Cv := Hx _ _ _ _ _ C E1).
    apply mat_ok in E1 as [F1 [A1 [P1 R1]]]; auto.
    assert (C1 : clean w1) by (eapply clean_asks; eauto).
    assert (S1 := asks_store _ _ _ A1). assert (U := fun d => unwrap_reqs _ _ _ _ _ d C1 E2).
    apply unwrap_again in E2 as [A2 [-> P2]]; [| exact [] | auto |].
    2:{ intros d D. rewrite S1. apply R1, D. }
    assert (Cr := IH _ _ _ _ _ (clean_asks _ _ _ A2 C1) E3).
    simpl. intros d D. rewrite in_app_iff. destruct (Cr d D) as [D2|D2]; auto.
    destruct (U d D2) as [D3|D3]; auto. destruct (Cv d D3); auto.
Qed.

Lemma mat_req v : MatReq v.
Proof.
  induction v using val_ind'; intros w p w' v' p' C H0.
  - simpl in H0. apply Some_inj in H0; apply pair_inj in H0 as [H0 <-]; apply pair_inj in H0 as [<- <-]. auto.
  - simpl in H0. apply Some_inj in H0; apply pair_inj in H0 as [H0 <-]; apply pair_inj in H0 as [<- <-]. auto.
  - cbn [materialize] in H0. destruct (unwrap self w (VRef d)) as [[[w1 x] q]|] eqn:U; [|discriminate].
    apply Some_inj in H0; apply pair_inj in H0 as [H0 <-]; apply pair_inj in H0 as [<- <-].
    intros y. eapply unwrap_reqs; eauto.
  - rewrite mat_list_eqn in H0.
    destruct (mat_list self (materialize self) w l p) as [[[w1 l1] p1]|] eqn:E; [|discriminate].
    apply Some_inj in H0; apply pair_inj in H0 as [H0 <-]; apply pair_inj in H0 as [<- <-].
    apply (mat_list_req l H _ _ _ _ _ C E).
  - rewrite mat_tuple_eqn in H0.
    destruct (mat_list self (materialize self) w l p) as [[[w1 l1] p1]|] eqn:E; [|discriminate].
    apply Some_inj in H0; apply pair_inj in H0 as [H0 <-]; apply pair_inj in H0 as [<- <-].
    apply (mat_list_req l H _ _ _ _ _ C E).
  - rewrite mat_dict_eqn in H0.
    destruct (mat_dict self (materialize self) w l p) as [[[w1 l1] p1]|] eqn:E; [|discriminate].
    apply Some_inj in H0; apply pair_inj in H0 as [H0 <-]; apply pair_inj in H0 as [<- <-].
    apply (mat_dict_req l H _ _ _ _ _ C E).
Qed.

Variable body : val -> val -> val -> result.
Variable mbody : list call -> call -> result.
Variable is_async : callee -> bool.
Hypothesis body_ok : forall f a k, no_refs_returned (body f a k).
Hypothesis mbody_ok : forall h c, no_refs_returned (mbody h c).

(** Processing a request asks for what it keeps, and keeps what has no value. *)
Lemma process_needs w q w' kept : WI body mbody w ->
  process_task self body mbody is_async w q = Some (w', kept) ->
  match kept with
  | Some q' => (forall d, In d (reqs w') -> In d (reqs w) \/ In d (qrefs q')) /\
               (forall d, In d (qrefs q) -> store w d = None -> In d (qrefs q'))
  | None => (forall d, In d (reqs w') -> In d (reqs w)) /\ (forall d, In d (qrefs q) -> store w d <> None)
  end.
Proof.
  intros I H. assert (C := wi_clean' _ _ _ I). unfold process_task in H.
  destruct (match q_fn q with FRef d => match store w d with Some f => Some (CFun f) | None => None end
            | FMethod m => Some (CMethod m) end) as [c|]; [|discriminate].
  destruct (materialize self w (q_args q) false) as [[[w1 args] p1]|] eqn:E1; [|discriminate].
  destruct (materialize self w1 (q_kwargs q) false) as [[[w2 kwargs] p2]|] eqn:E2; [|discriminate].
  assert (C1 := mat_req _ _ _ _ _ _ C E1).
  apply mat_ok in E1 as [_ [A1 [P1 R1]]]; auto.
  assert (Cw : clean w1) by (eapply clean_asks; eauto).
  assert (C2 := mat_req _ _ _ _ _ _ Cw E2).
  apply mat_ok in E2 as [_ [A2 [P2 R2]]]; auto.
  assert (S1 := asks_store _ _ _ A1).
  assert (Rq : forall d, In d (reqs w2) -> In d (reqs w) \/ In d (refs args ++ refs kwargs)).
  { intros d D. rewrite in_app_iff. destruct (C2 d D) as [X|X]; auto. destruct (C1 d X); auto. }
  assert (RR : forall d, In d (refs args ++ refs kwargs) <-> In d (qrefs q) /\ store w d = None).
  { intros d. unfold qrefs. rewrite !in_app_iff, R1, R2, S1. tauto. }
  destruct (p1 || p2) eqn:P.
  - apply Some_inj in H; apply pair_inj in H as [<- <-]. unfold qrefs at 1 3. cbn [q_args q_kwargs]. split; auto.
    intros d D S. apply RR; auto.
  - apply Bool.orb_false_iff in P as [Pa Pb]; subst.
    assert (N1 : refs args = []).
    { destruct (refs args) eqn:N; auto. destruct P1 as [_ P1]. discriminate P1. right; discriminate. }
    assert (N2 : refs kwargs = []).
    { destruct (refs kwargs) eqn:N; auto. destruct P2 as [_ P2]. discriminate P2. right; discriminate. }
    rewrite N1, N2 in Rq, RR. simpl in Rq, RR.
    assert (AV : forall d, In d (qrefs q) -> store w d <> None) by (intros d D S; apply (RR d); auto).
    assert (Rq' : forall d, In d (reqs w2) -> In d (reqs w)) by (intros d D; destruct (Rq d D); tauto).
    destruct (is_async c) eqn:As.
    + apply Some_inj in H; apply pair_inj in H as [<- <-]. split; auto. intros d.
      rewrite (se_reqs _ _ (sends_gets _ _)). auto.
    + unfold execute_sync in H. cbn [q_id q_out] in H.
      destruct (evaluate body mbody w2 (q_id q) c args kwargs) as [w3 r] eqn:Ev.
      rewrite store_result_eqn in H.
      destruct (results (q_out q) r) as [[st done]|] eqn:Rs; [|discriminate].
      apply Some_inj in H; apply pair_inj in H as [<- <-]. split; auto. intros d.
      rewrite (se_reqs _ _ (sends_gets _ _)). cbn [emit reqs]. rewrite (se_reqs _ _ (sends_gets _ _)).
      assert (Q : Asks self w w2) by (eapply asks_trans; eauto).
      assert (I2 : WI body mbody w2) by (eapply wi_quietly; eauto; eapply quietly_asks; eauto).
      destruct (evaluate_spec body mbody w2 (q_id q) c args kwargs (wi_calls _ _ _ I2)) as (_ & _ & _ & _ & E3 & _).
      rewrite Ev in E3. simpl in E3.
      destruct (put_all_fields st w3) as (_ & _ & P & _). rewrite P, E3. auto.
Qed.

(** Every reference asked for that has no value is mentioned. *)
Definition needy (w : wst) (l : list request) : Prop :=
  forall d, In d (reqs w) -> store w d = None -> exists q, In q l /\ In d (qrefs q).

Lemma recheck_needs l : forall w w' l' more, WI body mbody w -> (forall q, In q l -> From (log w) q) ->
  needy w (l ++ more) -> recheck self body mbody is_async w l = Some (w', l') -> needy w' (l' ++ more).
Proof.
  induction l as [|q l IH]; intros w w' l' more I F Nd H; simpl in H.
  - apply Some_inj in H; apply pair_inj in H as [<- <-]. auto.
  - destruct (process_task self body mbody is_async w q) as [[w1 kept]|] eqn:E; [|discriminate].
    destruct (recheck self body mbody is_async w1 l) as [[w2 l2]|] eqn:E2; [|discriminate].
    apply Some_inj in H; apply pair_inj in H as [<- <-].
    destruct (process_covers self body mbody is_async w q w1 kept I E) as (_ & _ & S1 & _).
    assert (Pn := process_needs w q w1 kept I E).
    apply process_task_wi in E as (I1 & K & _); auto; [|apply F; simpl; auto].
    assert (F1 : forall x, In x l -> From (log w1) x).
    { intros x X. destruct (k_log _ _ K) as [t ->]. apply from_app, F. simpl; auto. }
    assert (Sn : forall d, store w1 d = None -> store w d = None).
    { intros d D. destruct (store w d) eqn:X; auto. exfalso. apply (S1 d); congruence. }
    destruct kept as [q'|]; destruct Pn as [P1 P2].
    + apply (IH w1 w2 l2 (q' :: more)) in E2; auto.
      * intros d D S. destruct (E2 d D S) as (x & X & Y). exists x. split; auto. simpl.
        apply in_app_or in X as [X|[X|X]]; rewrite ?in_app_iff; auto.
      * intros d D S. destruct (P1 d D) as [X|X].
        -- destruct (Nd d X (Sn d S)) as (x & [<-|Y] & Z).
           ++ exists q'. split; [apply in_or_app; simpl; auto | apply P2; auto].
           ++ exists x. split; auto. apply in_app_or in Y as [Y|Y]; apply in_or_app; simpl; auto.
        -- exists q'. split; auto. apply in_or_app; simpl; auto.
    + apply (IH w1 w2 l2 more) in E2; auto.
      intros d D S. destruct (Nd d (P1 d D) (Sn d S)) as (x & [<-|Y] & Z).
      * exfalso. apply (P2 d Z); auto.
      * eauto.
Qed.

Lemma needy_check w w' : WI body mbody w -> needy w (pend w ++ apend w) ->
  check_tasks self body mbody is_async w = Some w' -> needy w' (pend w' ++ apend w').
Proof.
  intros I N H. unfold check_tasks in H.
  destruct (recheck self body mbody is_async w (pend w)) as [[w1 l]|] eqn:E; [|discriminate].
  apply Some_inj in H as <-. assert (E' := E).
  apply (recheck_needs _ _ _ _ (apend w)) in E; auto; [|intros q Q; apply I; auto].
  apply recheck_wi in E' as (_ & K & _); auto; [|intros q Q; apply I; auto].
  simpl. rewrite (k_apend _ _ K). exact E.
Qed.

Lemma needy_swap w a b : needy w (a ++ b) -> needy w (b ++ a).
Proof.
  intros N d D S. destruct (N d D S) as (q & Q & X). exists q. split; auto. rewrite in_app_iff in *. tauto.
Qed.

Lemma needy_check_actor w w' : WI body mbody w -> needy w (pend w ++ apend w) ->
  check_actor_tasks self body mbody is_async w = Some w' -> needy w' (pend w' ++ apend w').
Proof.
  intros I N H. unfold check_actor_tasks in H.
  destruct (recheck self body mbody is_async w (apend w)) as [[w1 l]|] eqn:E; [|discriminate].
  apply Some_inj in H as <-. assert (E' := E).
  apply (recheck_needs _ _ _ _ (pend w)) in E; auto; [|intros q Q; apply I; auto|apply needy_swap; auto].
  apply recheck_wi in E' as (_ & K & _); auto; [|intros q Q; apply I; auto].
  simpl. rewrite (k_pend _ _ K). apply needy_swap. exact E.
Qed.

Definition keeps (m : wmsg) : Prop := match m with WClean _ | WFinish _ | WCancel => False | _ => True end.

Lemma needy_step w m w' : WI body mbody w -> (forall d v, m = WPut d v -> refs v = []) -> keeps m ->
  needy w (pend w ++ apend w) -> wstep self body mbody is_async w m = Some w' -> needy w' (pend w' ++ apend w').
Proof.
  intros I N SO W H. unfold wstep in H. destruct (ready w); [apply Some_inj in H as <-; auto|].
  assert (I0 := emit_in_wi body mbody body_ok mbody_ok w m I N).
  destruct m; simpl in SO; try tauto.
  - set (w0 := emit w (EvIn (WExec q))) in *.
    assert (Fq : From (log w0) q) by apply (from_new w q false).
    destruct (process_task self body mbody is_async w0 q) as [[w1 kept]|] eqn:E; [|discriminate].
    destruct (process_covers self body mbody is_async w0 q w1 kept I0 E) as (_ & _ & S1 & _).
    assert (Pn := process_needs w0 q w1 kept I0 E).
    apply process_task_wi in E as (I1 & K & _); auto.
    assert (Sn : forall d, store w1 d = None -> store w0 d = None).
    { intros d D. destruct (store w0 d) eqn:X; auto. exfalso. apply (S1 d); congruence. }
    destruct kept as [q'|]; destruct Pn as [P1 P2].
    + apply Some_inj in H as <-. simpl. rewrite (k_pend _ _ K), (k_apend _ _ K). intros d D S.
      destruct (P1 d D) as [X|X].
      * destruct (W d X (Sn d S)) as (x & Y & Z). exists x. split; auto. rewrite !in_app_iff in *. simpl. tauto.
      * exists q'. split; auto. rewrite !in_app_iff. simpl. auto.
    + apply needy_check in H; auto. rewrite (k_pend _ _ K), (k_apend _ _ K). intros d D S. apply (W d (P1 d D) (Sn d S)).
  - set (w0 := emit w (EvIn (WActor q))) in *.
    assert (Fq : From (log w0) q) by apply (from_new w q true).
    destruct (process_task self body mbody is_async w0 q) as [[w1 kept]|] eqn:E; [|discriminate].
    destruct (process_covers self body mbody is_async w0 q w1 kept I0 E) as (_ & _ & S1 & _).
    assert (Pn := process_needs w0 q w1 kept I0 E).
    apply process_task_wi in E as (I1 & K & _); auto.
    assert (Sn : forall d, store w1 d = None -> store w0 d = None).
    { intros d D. destruct (store w0 d) eqn:X; auto. exfalso. apply (S1 d); congruence. }
    destruct kept as [q'|]; destruct Pn as [P1 P2].
    + apply Some_inj in H as <-. simpl. rewrite (k_pend _ _ K), (k_apend _ _ K). intros d D S.
      destruct (P1 d D) as [X|X].
      * destruct (W d X (Sn d S)) as (x & Y & Z). exists x. split; auto. rewrite !in_app_iff in *. simpl. tauto.
      * exists q'. split; auto. rewrite !in_app_iff. simpl. auto.
    + apply needy_check_actor in H; auto. rewrite (k_pend _ _ K), (k_apend _ _ K). intros d D S. apply (W d (P1 d D) (Sn d S)).
  - apply Some_inj in H as <-. set (w0 := emit w (EvIn (WGet src d blocking))) in *.
    assert (Q := quietly_get w0 src d blocking). assert (Sd := sends_get w0 src d blocking).
    rewrite (qu_pend _ _ Q), (qu_apend _ _ Q). intros x. rewrite (se_reqs _ _ Sd), (se_store _ _ Sd). apply W.
  - set (w0 := emit w (EvIn (WPut d v))) in *.
    set (w2 := set_reqs (set_store w0 (dput (store w0) d v))
                 (filter (fun x => negb (did_eqb x d)) (reqs (set_store w0 (dput (store w0) d v))))) in H.
    assert (I2 : WI body mbody w2).
    { destruct I0 as [J1 J2 J3 J4 J5 J6]. split; auto. intros a x. unfold w2. simpl.
      destruct (did_dec d a) as [<-|Na].
      - rewrite dput_same. intros X. apply Some_inj in X as <-. left. apply in_or_app. simpl; auto.
      - rewrite dput_other by auto. intros X. apply J2. exact X. }
    assert (W2 : needy w2 (pend w2 ++ apend w2)).
    { intros x X S. unfold w2 in X, S. simpl in X, S. apply filter_In in X as [X _].
      destruct (did_dec d x) as [<-|Nd]; [rewrite dput_same in S; discriminate|]. rewrite dput_other in S by auto.
      apply W; auto. }
    destruct (check_tasks self body mbody is_async w2) as [w3|] eqn:E; [|discriminate].
    assert (E' := E). apply check_tasks_wi in E' as (I3 & _); auto.
    apply needy_check in E; auto. apply needy_check_actor in H; auto.
  - apply Some_inj in H as <-. exact W.
Qed.

Lemma needy_run ms : forall w w', WI body mbody w -> no_refs_received ms -> Forall keeps ms ->
  needy w (pend w ++ apend w) -> wrun self body mbody is_async w ms = Some w' -> needy w' (pend w' ++ apend w').
Proof.
  induction ms as [|m ms IH]; intros w w' I N S W H; simpl in H.
  - apply Some_inj in H as <-. auto.
  - destruct (wstep self body mbody is_async w m) as [w1|] eqn:E; [|discriminate].
    assert (Nm : forall d v, m = WPut d v -> refs v = []) by (intros d v ->; apply (N d); simpl; auto).
    inversion S; subst.
    assert (T1 : needy w1 (pend w1 ++ apend w1)) by (apply (needy_step w m w1); auto).
    apply wstep_wi in E as (I1 & _); auto.
    apply (IH w1); auto. intros d v X. apply (N d); simpl; auto.
Qed.

End Need.
