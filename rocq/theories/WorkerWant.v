(** A pending request's missing values have been asked for, unless they are to be computed here. *)
From Verif Require Import Lib ShmModel ShmRaceProofs ValModel WorkerModel WorkerSpec WorkerProofs
  WorkerLog WorkerTrace WorkerReady WorkerAnswer WorkerOrder WorkerThms.

Section Want.
Variable self : rank.

(** Asked for, or owned. *)
Definition covered (w : wst) (d : dataid) : Prop := owner w d = Some self \/ In d (reqs w).

Lemma covered_asks w w' d : Asks self w w' -> covered w d -> covered w' d.
Proof.
  induction 1; auto. intros C. apply IHAsks. destruct C as [C|C]; [left|right]; simpl; auto.
Qed.

Lemma unwrap_covered w v w' v' p d : clean w -> unwrap self w v = Some (w', v', p) -> v' = VRef d -> covered w' d.
Proof.
  intros C H E. destruct v; simpl in H; try (apply Some_inj in H; apply pair_inj in H as [H _]; apply pair_inj in H as [_ H]; congruence).
  destruct (store w d0) as [x|] eqn:S.
  - apply Some_inj in H; apply pair_inj in H as [H _]; apply pair_inj in H as [_ <-].
    apply C in S. rewrite E in S. discriminate.
  - destruct (owner w d0) as [o|] eqn:O; [|discriminate].
    destruct (did_in d0 (reqs w)) eqn:R.
    + apply Some_inj in H; apply pair_inj in H as [H _]; apply pair_inj in H as [<- <-].
      injection E as <-. right. apply did_in_In; auto.
    + destruct (Nat.eqb o self) eqn:Q.
      * apply Some_inj in H; apply pair_inj in H as [H _]; apply pair_inj in H as [<- <-].
        injection E as <-. left. apply Nat.eqb_eq in Q. congruence.
      * apply Some_inj in H; apply pair_inj in H as [H _]; apply pair_inj in H as [<- <-].
        injection E as <-. right. simpl; auto.
Qed.

Definition MatCov (v : val) : Prop := forall w p w' v' p', clean w ->
  materialize self w v p = Some (w', v', p') -> forall d, In d (refs v') -> covered w' d.

Lemma mat_list_cov l : Forall MatCov l -> forall w p w' l' p', clean w ->
  mat_list self (materialize self) w l p = Some (w', l', p') ->
  Asks self w w' /\ forall d, In d (flat_map refs l') -> covered w' d.
Proof.
  induction 1 as [|x l Hx Hl IH]; intros w p w' l' p' C H; cbn [mat_list] in H.
  - apply Some_inj in H; apply pair_inj in H as [H <-]; apply pair_inj in H as [<- <-].
    split; [constructor|]. simpl. tauto.
  - destruct (materialize self w x p) as [[[w1 x1] p1]|] eqn:E1; [|discriminate].
    destruct (unwrap self w1 x1) as [[[w2 x2] p2]|] eqn:E2; [|discriminate].
    destruct (mat_list self (materialize self) w2 l (p1 || p2)) as [[[w3 r3] p3]|] eqn:E3; [|discriminate].
    apply Some_inj in H; apply pair_inj in H as [H <-]; apply pair_inj in H as [<- <-].
    assert (Cv := Hx _ _ _ _ _ C E1).
    apply mat_ok in E1 as [F1 [A1 [P1 R1]]]; auto.
    assert (S1 := asks_store _ _ _ A1).
    apply unwrap_again in E2 as [A2 [-> P2]]; [| exact [] | eapply clean_asks; eauto |].
    2:{ intros d D. rewrite S1. apply R1, D. }
    apply IH in E3 as [A3 Cr]; [| eapply clean_asks; eauto; eapply clean_asks; eauto].
    split; [eapply asks_trans; eauto; eapply asks_trans; eauto|].
    simpl. intros d D. apply in_app_or in D as [D|D]; auto.
    eapply covered_asks; eauto. eapply covered_asks; eauto.
Qed.

Lemma mat_dict_cov l : Forall (fun kv => MatCov (snd kv)) l -> forall w p w' l' p', clean w ->
  mat_dict self (materialize self) w l p = Some (w', l', p') ->
  Asks self w w' /\ forall d, In d (flat_map (fun kv => refs (snd kv)) l') -> covered w' d.
Proof.
  induction 1 as [|x l Hx Hl IH]; intros w p w' l' p' C H; cbn [mat_dict] in H.
  - apply Some_inj in H; apply pair_inj in H as [H <-]; apply pair_inj in H as [<- <-].
    split; [constructor|]. simpl. tauto.
  - destruct (materialize self w (snd x) p) as [[[w1 x1] p1]|] eqn:E1; [|discriminate].
    destruct (unwrap self w1 x1) as [[[w2 x2] p2]|] eqn:E2; [|discriminate].
    destruct (mat_dict self (materialize self) w2 l (p1 || p2)) as [[[w3 r3] p3]|] eqn:E3; [|discriminate].
    apply Some_inj in H; apply pair_inj in H as [H <-]; apply pair_inj in H as [<- <-].
    assert (Cv := Hx _ _ _ _ _ C E1).
    apply mat_ok in E1 as [F1 [A1 [P1 R1]]]; auto.
    assert (S1 := asks_store _ _ _ A1).
    apply unwrap_again in E2 as [A2 [-> P2]]; [| exact [] | eapply clean_asks; eauto |].
    2:{ intros d D. rewrite S1. apply R1, D. }
    apply IH in E3 as [A3 Cr]; [| eapply clean_asks; eauto; eapply clean_asks; eauto].
    split; [eapply asks_trans; eauto; eapply asks_trans; eauto|].
    simpl. intros d D. apply in_app_or in D as [D|D]; auto.
    eapply covered_asks; eauto. eapply covered_asks; eauto.
Qed.

Lemma mat_cov v : MatCov v.
Proof.
  induction v using val_ind'; intros w p w' v' p' C H0.
  - simpl in H0. apply Some_inj in H0; apply pair_inj in H0 as [H0 <-]; apply pair_inj in H0 as [<- <-].
    simpl. tauto.
  - simpl in H0. apply Some_inj in H0; apply pair_inj in H0 as [H0 <-]; apply pair_inj in H0 as [<- <-].
    simpl. tauto.
  - cbn [materialize] in H0. destruct (unwrap self w (VRef d)) as [[[w1 x] q]|] eqn:U; [|discriminate].
    apply Some_inj in H0; apply pair_inj in H0 as [H0 <-]; apply pair_inj in H0 as [<- <-].
    assert (U' := U). apply unwrap_spec in U as [A U]; auto. destruct U as [[-> E] | [-> [-> E]]].
    + rewrite (C _ _ E). simpl. tauto.
    + simpl. intros x [<-|[]]. eapply unwrap_covered; eauto.
  - rewrite mat_list_eqn in H0.
    destruct (mat_list self (materialize self) w l p) as [[[w1 l1] p1]|] eqn:E; [|discriminate].
    apply Some_inj in H0; apply pair_inj in H0 as [H0 <-]; apply pair_inj in H0 as [<- <-].
    apply mat_list_cov in E as [_ F]; auto.
  - rewrite mat_tuple_eqn in H0.
    destruct (mat_list self (materialize self) w l p) as [[[w1 l1] p1]|] eqn:E; [|discriminate].
    apply Some_inj in H0; apply pair_inj in H0 as [H0 <-]; apply pair_inj in H0 as [<- <-].
    apply mat_list_cov in E as [_ F]; auto.
  - rewrite mat_dict_eqn in H0.
    destruct (mat_dict self (materialize self) w l p) as [[[w1 l1] p1]|] eqn:E; [|discriminate].
    apply Some_inj in H0; apply pair_inj in H0 as [H0 <-]; apply pair_inj in H0 as [<- <-].
    apply mat_dict_cov in E as [_ F]; auto.
Qed.

Variable body : val -> val -> val -> result.
Variable mbody : list call -> call -> result.
Variable is_async : callee -> bool.
Hypothesis body_ok : forall f a k, no_refs_returned (body f a k).
Hypothesis mbody_ok : forall h c, no_refs_returned (mbody h c).

(** Processing a request: what it keeps is covered, and nothing is uncovered. *)
Lemma process_covers w q w' kept : WI body mbody w ->
  process_task self body mbody is_async w q = Some (w', kept) ->
  owner w' = owner w /\ (forall d, In d (reqs w) -> In d (reqs w')) /\
  (forall d, store w d <> None -> store w' d <> None) /\
  match kept with Some q' => forall d, In d (qrefs q') -> covered w' d | None => True end.
Proof.
  intros I H. assert (C := wi_clean' _ _ _ I).
  assert (Rq : forall a b, Asks self a b -> forall d, In d (reqs a) -> In d (reqs b)).
  { clear. induction 1; auto. intros x X. apply IHAsks. simpl; auto. }
  assert (Kp : match kept with Some q' => forall d, In d (qrefs q') -> covered w' d | None => True end).
  { destruct kept as [q'|]; auto. unfold process_task in H.
    destruct (match q_fn q with FRef d => match store w d with Some f => Some (CFun f) | None => None end
              | FMethod m => Some (CMethod m) end) as [c|]; [|discriminate].
    destruct (materialize self w (q_args q) false) as [[[w1 args] p1]|] eqn:E1; [|discriminate].
    destruct (materialize self w1 (q_kwargs q) false) as [[[w2 kwargs] p2]|] eqn:E2; [|discriminate].
    assert (C1 := mat_cov _ _ _ _ _ _ C E1).
    apply mat_ok in E1 as [_ [A1 _]]; auto.
    assert (Cw : clean w1) by (eapply clean_asks; eauto).
    assert (C2 := mat_cov _ _ _ _ _ _ Cw E2).
    apply mat_ok in E2 as [_ [A2 _]]; auto.
    destruct (p1 || p2).
    - apply Some_inj in H; apply pair_inj in H as [<- H]. apply Some_inj in H as <-. unfold qrefs. simpl.
      intros d D. apply in_app_or in D as [D|D]; auto. eapply covered_asks; eauto.
    - destruct (is_async c); [discriminate|]. destruct (execute_sync _ _ _ _ _ _ _); discriminate. }
  assert (Sm : forall d, store w d <> None -> store w' d <> None).
  { assert (H' := H). apply process_task_spec in H'; auto.
    inversion H' as [args kwargs As F1 F2 R N | c args kwargs w2 As Ca F1 F2 N1 N2 AV Asy E
                 | c args kwargs w2 st done As Ca F1 F2 N1 N2 AV Asy Rs E]; subst.
    - rewrite (asks_store _ _ _ As). auto.
    - rewrite (qu_store _ _ (quietly_gets _ _)). simpl. rewrite (asks_store _ _ _ As). auto.
    - intros d D. rewrite (qu_store _ _ (quietly_gets _ _)). cbn [emit store].
      rewrite (qu_store _ _ (quietly_gets _ _)).
      destruct (put_all_fields st (fst (evaluate body mbody w2 (q_id q) c args kwargs))) as (P & _). rewrite P.
      assert (I2 : WI body mbody w2) by (eapply wi_quietly; eauto; eapply quietly_asks; eauto).
      destruct (evaluate_spec body mbody w2 (q_id q) c args kwargs (wi_calls _ _ _ I2)) as (_ & _ & E1 & _).
      destruct (in_dec did_dec d (map fst st)) as [X|X].
      + apply dput_all_in; auto.
      + rewrite dput_all_not, E1, (asks_store _ _ _ As); auto. }
  split; [|split; [|split; auto]].
  - apply process_task_spec in H; auto.
    inversion H as [args kwargs As F1 F2 R N | c args kwargs w2 As Ca F1 F2 N1 N2 AV Asy E
                 | c args kwargs w2 st done As Ca F1 F2 N1 N2 AV Asy Rs E]; subst.
    + apply (asks_owner _ _ _ As).
    + rewrite (se_owner _ _ (sends_gets _ _)). simpl. apply (asks_owner _ _ _ As).
    + rewrite (se_owner _ _ (sends_gets _ _)). cbn [emit owner]. rewrite (se_owner _ _ (sends_gets _ _)).
      destruct (put_all_fields st (fst (evaluate body mbody w2 (q_id q) c args kwargs))) as (_ & P & _). rewrite P.
      assert (I2 : WI body mbody w2) by (eapply wi_quietly; eauto; eapply quietly_asks; eauto).
      destruct (evaluate_spec body mbody w2 (q_id q) c args kwargs (wi_calls _ _ _ I2)) as (_ & _ & _ & E2 & _).
      rewrite E2. apply (asks_owner _ _ _ As).
  - apply process_task_spec in H; auto.
    inversion H as [args kwargs As F1 F2 R N | c args kwargs w2 As Ca F1 F2 N1 N2 AV Asy E
                 | c args kwargs w2 st done As Ca F1 F2 N1 N2 AV Asy Rs E]; subst; intros d D.
    + eapply Rq; eauto.
    + rewrite (se_reqs _ _ (sends_gets _ _)). simpl. eapply Rq; eauto.
    + rewrite (se_reqs _ _ (sends_gets _ _)). cbn [emit reqs]. rewrite (se_reqs _ _ (sends_gets _ _)).
      destruct (put_all_fields st (fst (evaluate body mbody w2 (q_id q) c args kwargs))) as (_ & _ & P & _). rewrite P.
      assert (I2 : WI body mbody w2) by (eapply wi_quietly; eauto; eapply quietly_asks; eauto).
      destruct (evaluate_spec body mbody w2 (q_id q) c args kwargs (wi_calls _ _ _ I2)) as (_ & _ & _ & _ & E3 & _).
      rewrite E3. eapply Rq; eauto.
Qed.

Definition wanting (w : wst) (l : list request) : Prop :=
  forall q, In q l -> forall d, In d (qrefs q) -> store w d = None -> covered w d.

Lemma wanting_more w w' l : owner w' = owner w -> (forall d, In d (reqs w) -> In d (reqs w')) ->
  (forall d, store w d <> None -> store w' d <> None) -> wanting w l -> wanting w' l.
Proof.
  clear. intros O R S W q Q d D N. assert (N0 : store w d = None).
  { destruct (store w d) eqn:X; auto. exfalso. apply (S d); congruence. }
  destruct (W q Q d D N0) as [C|C]; [left; congruence | right; auto].
Qed.

Lemma recheck_covers l : forall w w' l', WI body mbody w -> (forall q, In q l -> From (log w) q) ->
  recheck self body mbody is_async w l = Some (w', l') ->
  owner w' = owner w /\ (forall d, In d (reqs w) -> In d (reqs w')) /\
  (forall d, store w d <> None -> store w' d <> None) /\ wanting w' l'.
Proof.
  induction l as [|q l IH]; intros w w' l' I F H; simpl in H.
  - apply Some_inj in H; apply pair_inj in H as [<- <-]. split; auto. split; auto. split; auto. intros q [].
  - destruct (process_task self body mbody is_async w q) as [[w1 kept]|] eqn:E; [|discriminate].
    destruct (recheck self body mbody is_async w1 l) as [[w2 l2]|] eqn:E2; [|discriminate].
    apply Some_inj in H; apply pair_inj in H as [<- <-].
    destruct (process_covers w q w1 kept I E) as (O1 & R1 & S1 & K1).
    apply process_task_wi in E as (I1 & K & _); auto; [|apply F; simpl; auto].
    apply IH in E2 as (O2 & R2 & S2 & W2); auto.
    2:{ intros x X. destruct (k_log _ _ K) as [t ->]. apply from_app, F. simpl; auto. }
    split; [congruence|]. split; [auto|]. split; [auto|].
    destruct kept as [q'|]; auto.
    assert (Wq : wanting w2 [q']).
    { apply (wanting_more w1); auto. intros x [<-|[]] d D _. auto. }
    intros x [<-|X]; [apply Wq; simpl; auto | apply W2; auto].
Qed.

Lemma wanting_check w w' : WI body mbody w -> wanting w (apend w) ->
  check_tasks self body mbody is_async w = Some w' -> owner w' = owner w /\
  wanting w' (pend w') /\ wanting w' (apend w').
Proof.
  intros I Wa H. unfold check_tasks in H.
  destruct (recheck self body mbody is_async w (pend w)) as [[w1 l]|] eqn:E; [|discriminate].
  apply Some_inj in H as <-. assert (E' := E).
  apply recheck_covers in E as (O & R & S & W); auto; [|intros q Q; apply I; auto].
  apply recheck_wi in E' as (_ & K & _); auto; [|intros q Q; apply I; auto].
  simpl. split; auto. split; [exact W|]. rewrite (k_apend _ _ K).
  eapply wanting_more; eauto.
Qed.

Lemma wanting_check_actor w w' : WI body mbody w -> wanting w (pend w) ->
  check_actor_tasks self body mbody is_async w = Some w' -> owner w' = owner w /\
  wanting w' (pend w') /\ wanting w' (apend w').
Proof.
  intros I Wa H. unfold check_actor_tasks in H.
  destruct (recheck self body mbody is_async w (apend w)) as [[w1 l]|] eqn:E; [|discriminate].
  apply Some_inj in H as <-. assert (E' := E).
  apply recheck_covers in E as (O & R & S & W); auto; [|intros q Q; apply I; auto].
  apply recheck_wi in E' as (_ & K & _); auto; [|intros q Q; apply I; auto].
  simpl. split; auto. split; [|exact W]. rewrite (k_pend _ _ K).
  eapply wanting_more; eauto.
Qed.

Variable own : dataid -> rank.

Record WT (w : wst) : Prop := {
  wt_own : forall d o, owner w d = Some o -> o = own d;
  wt_pend : wanting w (pend w);
  wt_apend : wanting w (apend w)
}.

Lemma wt_init : WT winit.
Proof. split; simpl; try discriminate; intros q []. Qed.

Definition same_owner (m : wmsg) : Prop :=
  match m with WOwner d r => r = own d | WClean _ | WFinish _ | WCancel => False | _ => True end.

Lemma wt_step w m w' : WI body mbody w -> (forall d v, m = WPut d v -> refs v = []) -> same_owner m -> WT w ->
  wstep self body mbody is_async w m = Some w' -> WT w'.
Proof.
  intros I N SO W H. unfold wstep in H. destruct (ready w); [apply Some_inj in H as <-; auto|].
  assert (I0 := emit_in_wi body mbody body_ok mbody_ok w m I N).
  destruct W as [W1 W2 W3]. destruct m; simpl in SO; try tauto.
  - set (w0 := emit w (EvIn (WExec q))) in *.
    assert (Fq : From (log w0) q) by apply (from_new w q false).
    destruct (process_task self body mbody is_async w0 q) as [[w1 kept]|] eqn:E; [|discriminate].
    destruct (process_covers w0 q w1 kept I0 E) as (O1 & R1 & S1 & K1).
    apply process_task_wi in E as (I1 & K & _); auto.
    assert (Wp : wanting w1 (pend w1)).
    { rewrite (k_pend _ _ K). apply (wanting_more w0); auto. }
    assert (Wa : wanting w1 (apend w1)).
    { rewrite (k_apend _ _ K). apply (wanting_more w0); auto. }
    destruct kept as [q'|].
    + apply Some_inj in H as <-. split; simpl; auto.
      * intros d o. rewrite O1. apply W1.
      * intros x X d D Nd. apply in_app_or in X as [X|[<-|[]]]; [apply (Wp x X d D Nd) | apply K1; auto].
    + apply wanting_check in H as (O & A & B); auto. split; auto. intros d o. rewrite O, O1. apply W1.
  - set (w0 := emit w (EvIn (WActor q))) in *.
    assert (Fq : From (log w0) q) by apply (from_new w q true).
    destruct (process_task self body mbody is_async w0 q) as [[w1 kept]|] eqn:E; [|discriminate].
    destruct (process_covers w0 q w1 kept I0 E) as (O1 & R1 & S1 & K1).
    apply process_task_wi in E as (I1 & K & _); auto.
    assert (Wp : wanting w1 (pend w1)).
    { rewrite (k_pend _ _ K). apply (wanting_more w0); auto. }
    assert (Wa : wanting w1 (apend w1)).
    { rewrite (k_apend _ _ K). apply (wanting_more w0); auto. }
    destruct kept as [q'|].
    + apply Some_inj in H as <-. split; simpl; auto.
      * intros d o. rewrite O1. apply W1.
      * intros x X d D Nd. apply in_app_or in X as [X|[<-|[]]]; [apply (Wa x X d D Nd) | apply K1; auto].
    + apply wanting_check_actor in H as (O & A & B); auto. split; auto. intros d o. rewrite O, O1. apply W1.
  - apply Some_inj in H as <-. set (w0 := emit w (EvIn (WGet src d blocking))) in *.
    assert (Q := quietly_get w0 src d blocking). assert (Sd := sends_get w0 src d blocking).
    split.
    + intros x o. rewrite (se_owner _ _ Sd). apply W1.
    + rewrite (qu_pend _ _ Q). apply (wanting_more w0); auto.
      * apply Sd.
      * rewrite (se_reqs _ _ Sd). auto.
      * rewrite (se_store _ _ Sd). auto.
    + rewrite (qu_apend _ _ Q). apply (wanting_more w0); auto.
      * apply Sd.
      * rewrite (se_reqs _ _ Sd). auto.
      * rewrite (se_store _ _ Sd). auto.
  - set (w0 := emit w (EvIn (WPut d v))) in *.
    set (w2 := set_reqs (set_store w0 (dput (store w0) d v))
                 (filter (fun x => negb (did_eqb x d)) (reqs (set_store w0 (dput (store w0) d v))))) in H.
    assert (I2 : WI body mbody w2).
    { destruct I0 as [J1 J2 J3 J4 J5 J6]. split; auto. intros a x. unfold w2. simpl.
      destruct (did_dec d a) as [<-|Na].
      - rewrite dput_same. intros X. apply Some_inj in X as <-. left. apply in_or_app. simpl; auto.
      - rewrite dput_other by auto. intros X. apply J2. exact X. }
    assert (Wn : forall l, wanting w l -> wanting w2 l).
    { intros l Wl x X y Y Ny. unfold w2 in Ny. simpl in Ny. destruct (did_dec d y) as [<-|Nd].
      - rewrite dput_same in Ny. discriminate.
      - rewrite dput_other in Ny by auto. destruct (Wl x X y Y Ny) as [C|C]; [left; auto|right].
        unfold w2. simpl. apply filter_In. split; auto. apply Bool.negb_true_iff. apply did_eqb_neq; congruence. }
    destruct (check_tasks self body mbody is_async w2) as [w3|] eqn:E; [|discriminate].
    assert (E' := E). apply check_tasks_wi in E' as (I3 & _); auto.
    apply wanting_check in E as (O & A & B); [|auto|apply Wn; auto].
    apply wanting_check_actor in H as (O' & A' & B'); auto.
    split; auto. intros x o. rewrite O', O. apply W1.
  - apply Some_inj in H as <-. split; simpl.
    + intros x o. destruct (did_dec d x) as [<-|Nd]; [rewrite dput_same; intros X; apply Some_inj in X as <-; auto|].
      rewrite dput_other; auto.
    + intros x X y Y Ny. destruct (W2 x X y Y Ny) as [C|C]; [left|right; auto]. simpl.
      destruct (did_dec d y) as [<-|Nd]; [rewrite dput_same; apply W1 in C; congruence | rewrite dput_other; auto].
    + intros x X y Y Ny. destruct (W3 x X y Y Ny) as [C|C]; [left|right; auto]. simpl.
      destruct (did_dec d y) as [<-|Nd]; [rewrite dput_same; apply W1 in C; congruence | rewrite dput_other; auto].
Qed.

Lemma wt_run ms : forall w w', WI body mbody w -> no_refs_received ms -> Forall same_owner ms -> WT w ->
  wrun self body mbody is_async w ms = Some w' -> WT w'.
Proof.
  induction ms as [|m ms IH]; intros w w' I N S W H; simpl in H.
  - apply Some_inj in H as <-. auto.
  - destruct (wstep self body mbody is_async w m) as [w1|] eqn:E; [|discriminate].
    assert (Nm : forall d v, m = WPut d v -> refs v = []) by (intros d v ->; apply (N d); simpl; auto).
    inversion S; subst.
    assert (T1 : WT w1) by (apply (wt_step w m w1); auto).
    apply wstep_wi in E as (I1 & _); auto.
    apply (IH w1); auto. intros d v X. apply (N d); simpl; auto.
Qed.
End Want.
