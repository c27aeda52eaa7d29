(** Answers to requests for data (C30), the order of calls (C32), the worker's survival. *)
From Verif Require Import Lib ShmModel ShmRaceProofs ValModel WorkerModel WorkerSpec WorkerProofs
  WorkerLog WorkerTrace WorkerReady.
From Coq Require Import Permutation.

Lemma pair_eqb_eq p q : pair_eqb p q = true <-> p = q.
Proof.
  destruct p as [a b], q as [c d]. unfold pair_eqb. simpl.
  rewrite Bool.andb_true_iff, did_eqb_eq, Nat.eqb_eq. split; [intros [-> ->]; auto | intros E].
  apply pair_inj in E; auto.
Qed.

Lemma pair_in_In p l : pair_in p l = true <-> In p l.
Proof.
  unfold pair_in. rewrite existsb_exists. split.
  - intros (q & I & E). apply pair_eqb_eq in E as ->. auto.
  - intros I. exists p. split; auto. apply pair_eqb_eq; auto.
Qed.

Lemma pair_in_not p l : pair_in p l = false <-> ~ In p l.
Proof. rewrite <- pair_in_In. destruct (pair_in p l); split; congruence. Qed.

Lemma add_pair_in p q l : In q (add_pair p l) <-> q = p \/ In q l.
Proof.
  unfold add_pair. destruct (pair_in p l) eqn:E.
  - apply pair_in_In in E. split; auto. intros [->|]; auto.
  - rewrite in_app_iff. simpl. split; [intros [?|[?|[]]] | intros [?|?]]; auto.
Qed.

Lemma nodup_snoc {X} (x : X) l : NoDup l -> ~ In x l -> NoDup (l ++ [x]).
Proof.
  intros N I. apply (Permutation_NoDup (l := x :: l)); [apply Permutation_cons_append | constructor; auto].
Qed.

Lemma asked_app l l' : asked (l ++ l') = asked l ++ asked l'.
Proof. apply flat_map_app. Qed.
Lemma answered_app l l' : answered (l ++ l') = answered l ++ answered l'.
Proof. apply flat_map_app. Qed.

Lemma results_outs' o r st done d : results o r = Some (st, done) -> In d (map fst st) -> In d (out_ids o).
Proof.
  intros H D. destruct r, o; simpl in *; try discriminate.
  - apply Some_inj in H; apply pair_inj in H as [<- <-]. auto.
  - apply Some_inj in H; apply pair_inj in H as [<- <-]. simpl in D. auto.
  - destruct (iterate v); [|discriminate]. apply Some_inj in H; apply pair_inj in H as [<- <-].
    apply in_map_iff in D as ([a b] & <- & D). apply in_combine_l in D. auto.
  - apply Some_inj in H; apply pair_inj in H as [<- <-]. simpl in D. auto.
  - apply Some_inj in H; apply pair_inj in H as [<- <-]. rewrite map_map in D. simpl in D.
    rewrite map_id in D. auto.
Qed.

(** Events that neither ask nor answer. *)
Definition mute (e : wev) : Prop :=
  match e with EvPut _ _ _ _ | EvIn (WGet _ _ _) => False | _ => True end.

Lemma mute_asked l : Forall mute l -> asked l = [] /\ answered l = [].
Proof.
  induction 1 as [|e l E F [A B]]; auto. simpl. rewrite A, B.
  destruct e as [m| | | | | |]; simpl in *; try tauto; auto. destruct m; simpl in *; try tauto; auto.
Qed.

Lemma all_enough_app l l' : all_enough (l ++ l') -> all_enough l.
Proof.
  intros A n r q E Q. apply A; [|rewrite received_app]; apply in_or_app; auto.
Qed.

(** D: references whose value has come but whose requests have not been looked at. *)
Record GI (A : dataid -> Prop) (D : dataid -> Prop) (w : wst) : Prop := {
  gi_sent : answered (log w) = sent w;
  gi_nodup : NoDup (sent w);
  gi_none_lost : forall p, In p (asked (log w)) -> In p (sent w) \/ In p (gets w) \/ In p (bgets w);
  gi_pending : forall p, In p (gets w) \/ In p (bgets w) ->
    In p (asked (log w)) /\ A (fst p) /\ (store w (fst p) = None \/ D (fst p));
  gi_asked : forall p, In p (sent w) -> In p (asked (log w)) /\ store w (fst p) <> None;
  gi_value : forall s d v b, In (EvPut s d v b) (log w) -> stored (log w) d v;
  gi_store : forall d x, store w d = Some x -> stored (log w) d x
}.

Section Answer.
Variable A : dataid -> Prop.

Lemma gi_weaken (D D' : dataid -> Prop) w : (forall d, D d -> D' d) -> GI A D w -> GI A D' w.
Proof.
  intros S [G1 G2 G3 G4 G5 G6 G7]. split; auto. intros p P. apply G4 in P as (? & ? & [?|?]); auto.
Qed.

Lemma gi_mute D w w' l : GI A D w -> sent w' = sent w -> gets w' = gets w -> bgets w' = bgets w ->
  store w' = store w -> log w' = log w ++ l -> Forall mute l -> GI A D w'.
Proof.
  intros [G1 G2 G3 G4 G5 G6 G7] E1 E2 E3 E4 E5 F. destruct (mute_asked _ F) as [X Y]. split.
  - rewrite E5, answered_app, Y, app_nil_r, E1. auto.
  - rewrite E1; auto.
  - intros p. rewrite E5, asked_app, X, app_nil_r, E1, E2, E3. auto.
  - intros p. rewrite E5, asked_app, X, app_nil_r, E2, E3, E4. auto.
  - intros p. rewrite E5, asked_app, X, app_nil_r, E1, E4. auto.
  - intros s d v b. rewrite E5, in_app_iff, stored_app. intros [H|H]; [left; eauto|].
    exfalso. rewrite Forall_forall in F. apply F in H. exact H.
  - intros d x. rewrite E4, E5, stored_app. auto.
Qed.

Lemma gi_put D w d v : GI A D w -> GI A (fun x => D x \/ x = d) (put w d v).
Proof.
  intros [G1 G2 G3 G4 G5 G6 G7]. split; simpl.
  - rewrite answered_app. simpl. rewrite app_nil_r. auto.
  - auto.
  - intros p. rewrite asked_app. simpl. rewrite app_nil_r. auto.
  - intros p P. rewrite asked_app. simpl. rewrite app_nil_r. apply G4 in P as (P1 & P2 & P3).
    split; auto. split; auto. destruct (did_dec d (fst p)) as [<-|N]; auto.
    rewrite dput_other by auto. destruct P3; auto.
  - intros p P. rewrite asked_app. simpl. rewrite app_nil_r. apply G5 in P as (P1 & P2). split; auto.
    destruct (did_dec d (fst p)) as [<-|N]; [rewrite dput_same; discriminate | rewrite dput_other; auto].
  - intros s x y b. rewrite in_app_iff, stored_app. intros [H|[H|[]]]; [left; eauto | discriminate].
  - intros x y. rewrite stored_app. destruct (did_dec d x) as [<-|N].
    + rewrite dput_same. intros E. apply Some_inj in E as <-. right. right. simpl; auto.
    + rewrite dput_other by auto. auto.
Qed.

Lemma gi_put_all st : forall D w, GI A D w -> GI A (fun x => D x \/ In x (map fst st)) (put_all w st).
Proof.
  induction st as [|[d v] st IH]; intros D w G; simpl.
  - eapply gi_weaken; [|exact G]. auto.
  - eapply gi_weaken; [|apply IH, gi_put, G]. simpl. intros x [[X|X]|X]; auto.
Qed.

(** Answering one request for a value that is there. *)
Lemma gi_send D w s d b v : GI A D w -> store w d = Some v -> In (d, s) (asked (log w)) ->
  GI A D (process_get w s d b) /\ In (d, s) (sent (process_get w s d b)) /\
  gets (process_get w s d b) = gets w /\ bgets (process_get w s d b) = bgets w /\
  store (process_get w s d b) = store w /\ asked (log (process_get w s d b)) = asked (log w) /\
  incl (sent w) (sent (process_get w s d b)).
Proof.
  intros G S Ak. assert (G0 := G). destruct G0 as [G1 G2 G3 G4 G5 G6 G7]. unfold process_get. rewrite S.
  destruct (pair_in (d, s) (sent w)) eqn:E.
  - apply pair_in_In in E. split; [exact G|]. repeat split; auto. apply incl_refl.
  - apply pair_in_not in E. simpl. rewrite asked_app. simpl. rewrite app_nil_r.
    split; [|repeat split; auto; [apply in_or_app; simpl; auto | apply incl_appl, incl_refl]].
    split; simpl.
    + rewrite answered_app, G1. reflexivity.
    + apply nodup_snoc; auto.
    + intros p. rewrite asked_app. simpl. rewrite app_nil_r, in_app_iff. intros P. apply G3 in P. tauto.
    + intros p. rewrite asked_app. simpl. rewrite app_nil_r. auto.
    + intros p. rewrite asked_app. simpl. rewrite app_nil_r, in_app_iff. intros [P|[<-|[]]]; auto.
      split; auto. simpl. congruence.
    + intros s' x y b'. rewrite in_app_iff, stored_app. intros [H|[H|[]]]; [left; eauto|].
      injection H as <- <- <- _. left. auto.
    + intros x y H. rewrite stored_app. left. auto.
Qed.

Lemma gi_send_all b d v rs : forall D w, GI A D w -> store w d = Some v ->
  (forall r, In r rs -> In (d, r) (asked (log w))) ->
  let w' := fold_left (fun w r => process_get w r d b) rs w in
  GI A D w' /\ (forall r, In r rs -> In (d, r) (sent w')) /\
  gets w' = gets w /\ bgets w' = bgets w /\ store w' = store w /\ asked (log w') = asked (log w) /\
  incl (sent w) (sent w').
Proof.
  induction rs as [|r rs IH]; intros D w G S Ak; simpl.
  - split; [exact G|]. split; [tauto|]. repeat split; auto. apply incl_refl.
  - destruct (gi_send D w r d b v G S) as (H1 & H2 & H3 & H4 & H5 & H6 & H7); [apply Ak; simpl; auto|].
    destruct (IH D (process_get w r d b)) as (K1 & K2 & K3 & K4 & K5 & K6 & K7); auto.
    { rewrite H5; auto. } { intros x X. rewrite H6. apply Ak. simpl; auto. }
    split; auto. split; [intros x [<-|X]; auto|]. rewrite K3, K4, K5, K6.
    repeat split; auto. eapply incl_tran; eauto.
Qed.

Lemma without_in d l p : In p (without d l) <-> In p l /\ fst p <> d.
Proof.
  unfold without. rewrite filter_In. destruct (did_eqb (fst p) d) eqn:E; simpl.
  - apply did_eqb_eq in E. split; [intros [_ X]; discriminate | intros [_ X]; congruence].
  - apply did_eqb_neq in E. tauto.
Qed.

Lemma ranks_of_in d l r : In r (ranks_of d l) <-> In (d, r) l.
Proof.
  unfold ranks_of. rewrite in_map_iff. split.
  - intros ([a b] & <- & P). apply filter_In in P as [P E]. simpl in E. apply did_eqb_eq in E as <-. auto.
  - intros P. exists (d, r). split; auto. apply filter_In. split; auto. simpl. apply did_eqb_refl.
Qed.

Lemma gi_request D w d : GI A D w -> store w d <> None ->
  GI A (fun x => D x /\ x <> d) (check_request w d) /\ store (check_request w d) = store w.
Proof.
  intros G S. destruct (store w d) as [v|] eqn:Sv; [clear S|congruence]. unfold check_request.
  destruct (gi_send_all false d v (ranks_of d (gets w)) D w G Sv) as (K1 & K2 & K3 & K4 & K5 & K6 & K7).
  { intros r R. apply ranks_of_in in R. apply G. auto. }
  set (w1 := fold_left (fun w r => process_get w r d false) (ranks_of d (gets w)) w) in *.
  set (w2 := set_gets w1 (without d (gets w1)) (bgets w1)).
  assert (G2 : GI A D w2).
  { destruct K1 as [G1 G2 G3 G4 G5 G6 G7]. split; auto.
    - intros p P. simpl in P. apply G3 in P as [P|[P|P]]; auto. simpl.
      destruct (did_dec (fst p) d) as [E|N].
      + left. destruct p as [a r]. simpl in E. subst a. apply K2. apply ranks_of_in. rewrite <- K3. auto.
      + right. left. apply without_in. auto.
    - intros p P. simpl in P. apply G4. destruct P as [P|P]; auto. apply without_in in P. tauto. }
  destruct (gi_send_all true d v (ranks_of d (bgets w2)) D w2 G2) as (L1 & L2 & L3 & L4 & L5 & L6 & L7).
  { simpl. rewrite K5. auto. }
  { intros r R. apply ranks_of_in in R. apply G2. auto. }
  set (w3 := fold_left (fun w r => process_get w r d true) (ranks_of d (bgets w2)) w2) in *.
  assert (Gt : gets w3 = without d (gets w1)) by (rewrite L3; reflexivity).
  split; [|simpl; rewrite L5; simpl; auto].
  destruct L1 as [G1 G2' G3 G4 G5 G6 G7]. split; auto.
  - intros p P. simpl in *. apply G3 in P as [P|[P|P]]; auto.
    destruct (did_dec (fst p) d) as [E|N].
    + left. destruct p as [a r]. simpl in E. subst a. apply L2. apply ranks_of_in. rewrite <- L4. auto.
    + right. right. apply without_in. auto.
  - intros p P. simpl in P.
    assert (N : fst p <> d).
    { destruct P as [P|P]; [rewrite Gt in P|]; apply without_in in P; tauto. }
    destruct (G4 p) as (P1 & P2 & P3).
    { destruct P as [P|P]; auto. apply without_in in P. tauto. }
    split; auto. split; auto. destruct P3; auto.
Qed.

Lemma gi_gets ds : forall D w, GI A D w -> (forall d, In d ds -> store w d <> None) ->
  GI A (fun x => D x /\ ~ In x ds) (check_gets w ds) /\ store (check_gets w ds) = store w.
Proof.
  unfold check_gets. induction ds as [|d ds IH]; intros D w G S; simpl.
  - split; auto. eapply gi_weaken; [|exact G]. auto.
  - destruct (gi_request D w d G) as [G1 S1]; [apply S; simpl; auto|].
    destruct (IH _ _ G1) as [G2 S2]; [intros x X; rewrite S1; apply S; simpl; auto|].
    split; [|congruence]. eapply gi_weaken; [|exact G2]. simpl. intros x ((X & N) & M). split; auto.
    intros [->|Y]; auto.
Qed.

Lemma gi_asks self D w w' : Asks self w w' -> GI A D w -> GI A D w'.
Proof.
  induction 1; auto. intros G. apply IHAsks. apply (gi_mute D w _ [EvGet o d]); auto.
  constructor; simpl; auto.
Qed.

Lemma results_enough o r st done : enough o r -> results o r = Some (st, done) ->
  forall d, In d (out_ids o) -> o <> ONone -> In d (map fst st).
Proof.
  intros E H d D NO. destruct r, o; simpl in *; try discriminate; try congruence.
  - apply Some_inj in H; apply pair_inj in H as [<- <-]. simpl. auto.
  - destruct E as (vs & V & L). rewrite V in H. apply Some_inj in H; apply pair_inj in H as [<- <-].
    clear - D L. revert vs L. induction ds as [|x ds IH]; intros vs L; [destruct D|].
    destruct vs; simpl in *; [lia|]. destruct D as [<-|D]; auto. right. apply IH; auto. lia.
  - apply Some_inj in H; apply pair_inj in H as [<- <-]. simpl. auto.
  - apply Some_inj in H; apply pair_inj in H as [<- <-]. rewrite map_map. simpl. rewrite map_id. auto.
Qed.

Variable self : rank.
Variable body : val -> val -> val -> result.
Variable mbody : list call -> call -> result.
Variable is_async : callee -> bool.
Hypothesis body_ok : forall f a k, no_refs_returned (body f a k).
Hypothesis mbody_ok : forall h c, no_refs_returned (mbody h c).
Hypothesis all_sync : forall c, is_async c = false.

Let none : dataid -> Prop := fun _ => False.

Lemma gi_process w q w' kept : WI body mbody w -> From (log w) q -> GI A none w ->
  process_task self body mbody is_async w q = Some (w', kept) -> all_enough (log w') -> GI A none w'.
Proof.
  intros I F G H En. assert (Hw := H). apply process_task_spec in H; [|eapply wi_clean'; eauto].
  inversion H as [args kwargs As F1 F2 R N | c args kwargs w2 As Ca F1 F2 N1 N2 AV Asy E
                 | c args kwargs w2 st done As Ca F1 F2 N1 N2 AV Asy Rs E]; subst kept.
  - eapply gi_asks; eauto.
  - rewrite all_sync in Asy. discriminate.
  - assert (G2 : GI A none w2) by (eapply gi_asks; eauto).
    assert (I2 : WI body mbody w2) by (eapply wi_quietly; eauto; eapply quietly_asks; eauto).
    destruct (evaluate_spec body mbody w2 (q_id q) c args kwargs (wi_calls _ _ _ I2))
      as (Er & El & E1 & E2 & E3 & E4 & E5 & E6 & E7 & E8 & E9 & E10 & E11).
    set (w3 := fst (evaluate body mbody w2 (q_id q) c args kwargs)) in *.
    set (r := snd (evaluate body mbody w2 (q_id q) c args kwargs)) in *.
    assert (G3 : GI A none w3).
    { eapply (gi_mute none w2 _ _ G2); eauto.
      apply Forall_app. split; [|constructor; simpl; auto].
      unfold ev_run. destruct (failed_arg args kwargs); constructor; simpl; auto. }
    assert (G4 := gi_put_all st none w3 G3).
    destruct (put_all_fields st w3) as (P1&_&_&_&_&_&_&_&_&_&_&P12).
    assert (Enq : enough (q_out q) r).
    { destruct F as (q0 & I0 & Q1 & Q2 & Q3 & _). rewrite Q3.
      assert (Ex : exists t, log w' = (log w2 ++ ev_run (q_id q) c args kwargs ++ [EvEnd (q_id q) r]) ++ t).
      { destruct (log_quietly _ _ (quietly_gets (out_ids (q_out q)) (put_all w3 st))) as [t1 T1].
        destruct (log_quietly _ _ (quietly_gets (out_ids (q_out q)) (emit (check_gets (put_all w3 st) (out_ids (q_out q))) (EvDone done)))) as [t2 T2].
        eexists. rewrite E, T2. simpl. rewrite T1, P12, El, <- Er. rewrite <- !app_assoc. reflexivity. }
      destruct Ex as [t Ex]. apply (En (q_id q) r).
      - rewrite Ex. apply in_or_app. left. apply in_or_app. right. apply in_or_app. simpl; auto.
      - rewrite Ex, received_app, received_app. apply in_or_app. left. apply in_or_app. left.
        destruct (log_quietly _ _ (quietly_asks _ _ _ As)) as [t0 ->]. rewrite received_app.
        apply in_or_app; auto.
      - auto. }
    assert (St : forall d, In d (out_ids (q_out q)) -> store (put_all w3 st) d <> None).
    { intros d D. rewrite P1. apply dput_all_in. eapply results_enough; eauto.
      intros X. rewrite X in D. destruct D. }
    destruct (gi_gets (out_ids (q_out q)) _ _ G4 St) as [G5 S5].
    set (w4 := check_gets (put_all w3 st) (out_ids (q_out q))) in *.
    assert (G6 : GI A none (emit w4 (EvDone done))).
    { eapply (gi_mute none w4 _ [EvDone done]); auto; [|constructor; simpl; auto].
      eapply gi_weaken; [|exact G5]. intros d [[X|X] Y]; auto. apply Y.
      eapply results_outs'; eauto. }
    destruct (gi_gets (out_ids (q_out q)) _ _ G6) as [G7 S7].
    { intros d D. simpl. rewrite S5. auto. }
    subst w'. eapply gi_weaken; [|exact G7]. intros d [[] _].
Qed.

Lemma gi_recheck l : forall w w' l', WI body mbody w -> (forall q, In q l -> From (log w) q) ->
  GI A none w -> recheck self body mbody is_async w l = Some (w', l') -> all_enough (log w') -> GI A none w'.
Proof.
  induction l as [|q l IH]; intros w w' l' I F G H En; simpl in H.
  - apply Some_inj in H; apply pair_inj in H as [<- <-]. auto.
  - destruct (process_task self body mbody is_async w q) as [[w1 kept]|] eqn:E; [|discriminate].
    destruct (recheck self body mbody is_async w1 l) as [[w2 l2]|] eqn:E2; [|discriminate].
    apply Some_inj in H; apply pair_inj in H as [<- <-].
    assert (Ep := E). apply process_task_wi in E as (I1 & K1 & _); auto; [|apply F; simpl; auto].
    assert (F1 : forall x, In x l -> From (log w1) x).
    { intros x X. destruct (k_log _ _ K1) as [t ->]. apply from_app, F. simpl; auto. }
    assert (G1 : GI A none w1).
    { apply (gi_process w q w1 kept); auto; [apply F; simpl; auto|].
      assert (E2' := E2). apply recheck_wi in E2' as (_ & K2 & _); auto.
      destruct (k_log _ _ K2) as [t T]. rewrite T in En. eapply all_enough_app; eauto. }
    apply (IH w1 w2 l2); auto.
Qed.

Lemma gi_check w w' : WI body mbody w -> GI A none w ->
  check_tasks self body mbody is_async w = Some w' -> all_enough (log w') -> GI A none w'.
Proof.
  intros I G H En. unfold check_tasks in H.
  destruct (recheck self body mbody is_async w (pend w)) as [[w1 l]|] eqn:E; [|discriminate].
  apply Some_inj in H as <-. apply gi_recheck in E; auto; [|intros q Q; apply I; auto].
  apply (gi_mute none w1 _ []); auto. simpl. rewrite app_nil_r. auto.
Qed.

Lemma gi_check_actor w w' : WI body mbody w -> GI A none w ->
  check_actor_tasks self body mbody is_async w = Some w' -> all_enough (log w') -> GI A none w'.
Proof.
  intros I G H En. unfold check_actor_tasks in H.
  destruct (recheck self body mbody is_async w (apend w)) as [[w1 l]|] eqn:E; [|discriminate].
  apply Some_inj in H as <-. apply gi_recheck in E; auto; [|intros q Q; apply I; auto].
  apply (gi_mute none w1 _ []); auto. simpl. rewrite app_nil_r. auto.
Qed.

Lemma check_log w w' : WI body mbody w -> check_tasks self body mbody is_async w = Some w' ->
  exists t, log w' = log w ++ t.
Proof.
  intros I H. unfold check_tasks in H.
  destruct (recheck self body mbody is_async w (pend w)) as [[w1 l]|] eqn:E; [|discriminate].
  apply Some_inj in H as <-. apply recheck_wi in E as (_ & K & _); auto; [apply K|].
  intros q Q; apply I; auto.
Qed.

Lemma check_actor_log w w' : WI body mbody w -> check_actor_tasks self body mbody is_async w = Some w' ->
  exists t, log w' = log w ++ t.
Proof.
  intros I H. unfold check_actor_tasks in H.
  destruct (recheck self body mbody is_async w (apend w)) as [[w1 l]|] eqn:E; [|discriminate].
  apply Some_inj in H as <-. apply recheck_wi in E as (_ & K & _); auto; [apply K|].
  intros q Q; apply I; auto.
Qed.

Lemma gi_step w m w' : WI body mbody w -> (forall d v, m = WPut d v -> refs v = []) -> plain m ->
  (forall s d b, m = WGet s d b -> A d) -> (forall d v, m = WPut d v -> A d -> store w d <> None) ->
  GI A none w -> wstep self body mbody is_async w m = Some w' -> all_enough (log w') -> GI A none w'.
Proof.
  intros I N P MG MP G H En. unfold wstep in H. destruct (ready w); [apply Some_inj in H as <-; auto|].
  assert (I0 := emit_in_wi body mbody body_ok mbody_ok w m I N).
  destruct m; simpl in P; try tauto.
  - set (w0 := emit w (EvIn (WExec q))) in *.
    assert (Fq : From (log w0) q) by apply (from_new w q false).
    assert (G0 : GI A none w0).
    { apply (gi_mute none w _ [EvIn (WExec q)]); auto; repeat constructor. }
    destruct (process_task self body mbody is_async w0 q) as [[w1 [q'|]]|] eqn:E; [| |discriminate].
    + apply Some_inj in H as <-. apply gi_process in E; auto.
      apply (gi_mute none w1 _ []); auto. simpl. rewrite app_nil_r. auto.
    + assert (E' := E). apply process_task_wi in E' as (I1 & _); auto.
      destruct (check_log _ _ I1 H) as [t T].
      apply gi_process in E; auto; [|rewrite T in En; eapply all_enough_app; eauto].
      apply (gi_check w1 w'); auto.
  - set (w0 := emit w (EvIn (WActor q))) in *.
    assert (Fq : From (log w0) q) by apply (from_new w q true).
    assert (G0 : GI A none w0).
    { apply (gi_mute none w _ [EvIn (WActor q)]); auto; repeat constructor. }
    destruct (process_task self body mbody is_async w0 q) as [[w1 [q'|]]|] eqn:E; [| |discriminate].
    + apply Some_inj in H as <-. apply gi_process in E; auto.
      apply (gi_mute none w1 _ []); auto. simpl. rewrite app_nil_r. auto.
    + assert (E' := E). apply process_task_wi in E' as (I1 & _); auto.
      destruct (check_actor_log _ _ I1 H) as [t T].
      apply gi_process in E; auto; [|rewrite T in En; eapply all_enough_app; eauto].
      apply (gi_check_actor w1 w'); auto.
  - apply Some_inj in H as <-. set (w0 := emit w (EvIn (WGet src d blocking))) in *.
    destruct G as [G1 G2 G3 G4 G5 G6 G7].
    destruct (store w0 d) as [v|] eqn:S.
    + (* there *)
      unfold process_get. rewrite S.
      destruct (pair_in (d, src) (sent w0)) eqn:Pi.
      * apply pair_in_In in Pi. split; simpl; auto.
        -- rewrite answered_app. simpl. rewrite app_nil_r. auto.
        -- intros p. rewrite asked_app, in_app_iff. simpl. intros [X|[<-|[]]]; auto.
        -- intros p X. rewrite asked_app, in_app_iff. apply G4 in X as (? & ? & ?). auto.
        -- intros p X. rewrite asked_app, in_app_iff. apply G5 in X as (? & ?). auto.
        -- intros s x y b. rewrite in_app_iff, stored_app. intros [X|[X|[]]]; [left; eauto | discriminate].
        -- intros x y X. apply stored_app; auto.
      * apply pair_in_not in Pi. simpl in Pi, S. split; simpl.
        -- rewrite !answered_app. simpl. rewrite app_nil_r, G1. auto.
        -- apply nodup_snoc; auto.
        -- intros p. rewrite !asked_app, !in_app_iff. simpl. intros [[X|[<-|[]]]|[]]; auto.
           apply G3 in X. tauto.
        -- intros p X. rewrite !asked_app, !in_app_iff. apply G4 in X as (? & ? & ?). auto.
        -- intros p. rewrite !in_app_iff, !asked_app, !in_app_iff. simpl. intros [X|[<-|[]]].
           ++ apply G5 in X as (? & ?). auto.
           ++ simpl. split; auto. congruence.
        -- intros s x y b. rewrite !in_app_iff, !stored_app. simpl. intros [[X|[X|[]]]|[X|[]]].
           ++ left; left; eauto.
           ++ discriminate.
           ++ injection X as <- <- <- _. left; left. auto.
        -- intros x y X. apply stored_app; left. apply stored_app; auto.
    + (* not there *)
      assert (Ad : A d) by (eapply MG; eauto).
      assert (Cg : forall (bl : bool) p,
        In p (if bl then gets w else add_pair (d, src) (gets w)) \/
        In p (if bl then add_pair (d, src) (bgets w) else bgets w) <->
        p = (d, src) \/ In p (gets w) \/ In p (bgets w)).
      { intros bl p. destruct bl; rewrite add_pair_in; tauto. }
      assert (Gl : forall bl : bool, GI A none (set_gets w0 (if bl then gets w else add_pair (d, src) (gets w))
                                   (if bl then add_pair (d, src) (bgets w) else bgets w))).
      { intros bl. split; simpl.
        - rewrite answered_app. simpl. rewrite app_nil_r. auto.
        - auto.
        - intros p. rewrite asked_app, in_app_iff, Cg. simpl. intros [X|[X|[]]]; [|auto].
          apply G3 in X. tauto.
        - intros p. rewrite Cg, asked_app, in_app_iff. simpl. intros [->|X]; simpl.
          + split; [auto|]. split; [auto|]. left. exact S.
          + apply G4 in X as (? & ? & ?). auto.
        - intros p X. rewrite asked_app, in_app_iff. apply G5 in X as (? & ?). auto.
        - intros s x y b. rewrite in_app_iff, stored_app. intros [X|[X|[]]]; [left; eauto | discriminate].
        - intros x y X. apply stored_app; auto. }
      unfold process_get. rewrite S. destruct blocking; [apply (Gl true) | apply (Gl false)].
  - set (w0 := emit w (EvIn (WPut d v))) in *. 
    set (w2 := set_reqs (set_store w0 (dput (store w0) d v))
                 (filter (fun x => negb (did_eqb x d)) (reqs (set_store w0 (dput (store w0) d v))))) in H.
    assert (I2 : WI body mbody w2).
    { destruct I0 as [J1 J2 J3 J4 J5 J6]. split; auto. intros a x. unfold w2. simpl.
      destruct (did_dec d a) as [<-|Na].
      - rewrite dput_same. intros X. apply Some_inj in X as <-. left. apply in_or_app. simpl; auto.
      - rewrite dput_other by auto. intros X. apply J2. exact X. }
    assert (G2 : GI A none w2).
    { destruct G as [G1 G2 G3 G4 G5 G6 G7]. assert (NA : A d -> store w d <> None) by (eapply MP; eauto).
      unfold w2. split; simpl.
      - rewrite answered_app. simpl. rewrite app_nil_r. auto.
      - auto.
      - intros p. rewrite asked_app. simpl. rewrite app_nil_r. auto.
      - intros p X. rewrite asked_app. simpl. rewrite app_nil_r. apply G4 in X as (X1 & X2 & X3).
        split; auto. split; auto. rewrite dput_other; auto. intros ->. destruct X3 as [X3|[]]. apply NA; auto.
      - intros p X. rewrite asked_app. simpl. rewrite app_nil_r. apply G5 in X as (X1 & X2). split; auto.
        destruct (did_dec d (fst p)) as [<-|Na]; [rewrite dput_same; discriminate | rewrite dput_other; auto].
      - intros s x y b. rewrite in_app_iff, stored_app. intros [X|[X|[]]]; [left; eauto | discriminate].
      - intros x y. rewrite stored_app. destruct (did_dec d x) as [<-|Na].
        + rewrite dput_same. intros X. apply Some_inj in X as <-. right. left. simpl; auto.
        + rewrite dput_other by auto. auto. }
    destruct (check_tasks self body mbody is_async w2) as [w3|] eqn:E; [|discriminate].
    assert (E' := E). apply check_tasks_wi in E' as (I3 & _); auto.
    destruct (check_actor_log _ _ I3 H) as [t T].
    apply gi_check in E; auto; [|rewrite T in En; eapply all_enough_app; eauto].
    apply (gi_check_actor w3); auto.
  - apply Some_inj in H as <-. apply (gi_mute none w _ [EvIn (WOwner d r)]); auto; repeat constructor.
Qed.

Lemma wstep_log w m w' : WI body mbody w -> (forall d v, m = WPut d v -> refs v = []) ->
  wstep self body mbody is_async w m = Some w' -> exists t, log w' = log w ++ t.
Proof using Type body_ok mbody_ok.
  intros I N H. unfold wstep in H. destruct (ready w); [apply Some_inj in H as <-; exists []; rewrite app_nil_r; auto|].
  assert (I0 := emit_in_wi body mbody body_ok mbody_ok w m I N).
  assert (L0 : log (emit w (EvIn m)) = log w ++ [EvIn m]) by reflexivity.
  destruct m.
  - assert (Fq : From (log (emit w (EvIn (WExec q)))) q) by apply (from_new w q false).
    set (w0 := emit w (EvIn (WExec q))) in *.
    destruct (process_task self body mbody is_async w0 q) as [[w1 [q'|]]|] eqn:E; [| |discriminate].
    + apply Some_inj in H as <-. apply process_task_wi in E as (_ & K & _); auto.
      destruct (k_log _ _ K) as [t T]. simpl. rewrite T, L0, <- app_assoc. eauto.
    + apply process_task_wi in E as (I1 & K & _); auto. unfold check_tasks in H.
      destruct (recheck self body mbody is_async w1 (pend w1)) as [[w2 l]|] eqn:E2; [|discriminate].
      apply Some_inj in H as <-. apply recheck_wi in E2 as (_ & K2 & _); auto; [|intros x X; apply I1; auto].
      destruct (k_log _ _ K) as [t T]. destruct (k_log _ _ K2) as [t2 T2].
      simpl. rewrite T2, T, L0, <- !app_assoc. eauto.
  - assert (Fq : From (log (emit w (EvIn (WActor q)))) q) by apply (from_new w q true).
    set (w0 := emit w (EvIn (WActor q))) in *.
    destruct (process_task self body mbody is_async w0 q) as [[w1 [q'|]]|] eqn:E; [| |discriminate].
    + apply Some_inj in H as <-. apply process_task_wi in E as (_ & K & _); auto.
      destruct (k_log _ _ K) as [t T]. simpl. rewrite T, L0, <- app_assoc. eauto.
    + apply process_task_wi in E as (I1 & K & _); auto. unfold check_actor_tasks in H.
      destruct (recheck self body mbody is_async w1 (apend w1)) as [[w2 l]|] eqn:E2; [|discriminate].
      apply Some_inj in H as <-. apply recheck_wi in E2 as (_ & K2 & _); auto; [|intros x X; apply I1; auto].
      destruct (k_log _ _ K) as [t T]. destruct (k_log _ _ K2) as [t2 T2].
      simpl. rewrite T2, T, L0, <- !app_assoc. eauto.
  - apply Some_inj in H as <-.
    destruct (log_quietly _ _ (quietly_get (emit w (EvIn (WGet src d blocking))) src d blocking)) as [t T].
    rewrite T. simpl. rewrite <- app_assoc. eauto.
  - set (w0 := emit w (EvIn (WPut d v))) in *. 
    set (w2 := set_reqs (set_store w0 (dput (store w0) d v))
                 (filter (fun x => negb (did_eqb x d)) (reqs (set_store w0 (dput (store w0) d v))))) in H.
    assert (I2 : WI body mbody w2).
    { destruct I0 as [J1 J2 J3 J4 J5 J6]. split; auto. intros a x. unfold w2. simpl.
      destruct (did_dec d a) as [<-|Na].
      - rewrite dput_same. intros X. apply Some_inj in X as <-. left. apply in_or_app. simpl; auto.
      - rewrite dput_other by auto. intros X. apply J2. exact X. }
    destruct (check_tasks self body mbody is_async w2) as [w3|] eqn:E; [|discriminate].
    assert (E' := E). apply check_tasks_wi in E' as (I3 & _); auto.
    unfold check_tasks in E. destruct (recheck self body mbody is_async w2 (pend w2)) as [[w4 l]|] eqn:E2; [|discriminate].
    apply Some_inj in E as <-. apply recheck_wi in E2 as (_ & K2 & _); auto; [|intros x X; apply I2; auto].
    unfold check_actor_tasks in H.
    destruct (recheck self body mbody is_async (set_pend w4 l (apend w4)) (apend (set_pend w4 l (apend w4)))) as [[w5 l5]|] eqn:E5; [|discriminate].
    apply Some_inj in H as <-. apply recheck_wi in E5 as (_ & K5 & _); auto; [|intros x X; apply I3; auto].
    destruct (k_log _ _ K2) as [t T]. destruct (k_log _ _ K5) as [t5 T5].
    simpl. rewrite T5. simpl. rewrite T. simpl. rewrite <- !app_assoc. eauto.
  - apply Some_inj in H as <-. simpl. eauto.
  - apply Some_inj in H as <-. simpl. eauto.
  - destruct (nth_error (running (emit w (EvIn (WFinish i)))) i) as [[q c]|] eqn:E;
      [|apply Some_inj in H as <-; simpl; eauto].
    apply Some_inj in H as <-. set (w1 := set_running _ _). unfold finish_async.
    assert (Le : exists t, log (fst (evaluate body mbody w1 (q_id q) c (q_args q) (q_kwargs q))) = log w ++ t).
    { unfold evaluate. destruct (failed_arg (q_args q) (q_kwargs q)); [simpl; rewrite <- app_assoc; eauto|].
      unfold run_body. destruct c; simpl; rewrite <- !app_assoc; eauto. }
    destruct (evaluate body mbody w1 (q_id q) c (q_args q) (q_kwargs q)) as [we re]. simpl in Le.
    destruct Le as [t Le]. rewrite store_result_eqn.
    destruct (results (q_out q) re) as [[st done]|]; [|eauto].
    destruct (put_all_fields st we) as (_&_&_&_&_&_&_&_&_&_&_&P12).
    assert (Lg : exists t, log (check_gets (put_all we st) (out_ids (q_out q))) = log w ++ t).
    { destruct (log_quietly _ _ (quietly_gets (out_ids (q_out q)) (put_all we st))) as [t1 T1].
      rewrite T1, P12, Le, <- !app_assoc. eauto. }
    destruct Lg as [t1 Lg]. set (w5 := check_gets _ _) in *. clearbody w5. simpl.
    destruct re; [destruct (q_out q)|]; simpl; rewrite Lg, <- ?app_assoc; eauto.
  - apply Some_inj in H as <-. simpl. eauto.
Qed.

Lemma wrun_log ms : forall w w', WI body mbody w -> no_refs_received ms ->
  wrun self body mbody is_async w ms = Some w' -> exists t, log w' = log w ++ t.
Proof using Type body_ok mbody_ok.
  induction ms as [|m ms IH]; intros w w' I N H; simpl in H.
  - apply Some_inj in H as <-. exists []. rewrite app_nil_r. auto.
  - destruct (wstep self body mbody is_async w m) as [w1|] eqn:E; [|discriminate].
    assert (Nm : forall d v, m = WPut d v -> refs v = []) by (intros d v ->; apply (N d); simpl; auto).
    assert (E' := E). apply wstep_log in E' as [t T]; auto.
    apply wstep_wi in E as (I1 & _); auto.
    apply IH in H as [t' T']; auto; [|intros d v X; apply (N d); simpl; auto].
    rewrite T', T, <- app_assoc. eauto.
Qed.

Lemma gi_run ms : forall w w', WI body mbody w -> no_refs_received ms -> Forall plain ms ->
  (forall s d b, In (WGet s d b) ms -> A d) ->
  (forall a d v b w1, ms = a ++ WPut d v :: b -> A d ->
     wrun self body mbody is_async w a = Some w1 -> store w1 d <> None) ->
  GI A none w -> wrun self body mbody is_async w ms = Some w' -> all_enough (log w') -> GI A none w'.
Proof.
  induction ms as [|m ms IH]; intros w w' I N P MG MP G H En; simpl in H.
  - apply Some_inj in H as <-. auto.
  - destruct (wstep self body mbody is_async w m) as [w1|] eqn:E; [|discriminate].
    assert (Nm : forall d v, m = WPut d v -> refs v = []) by (intros d v ->; apply (N d); simpl; auto).
    assert (Nr : no_refs_received ms) by (intros d v X; apply (N d); simpl; auto).
    assert (I1 : WI body mbody w1) by (apply wstep_wi in E as (I1 & _); auto).
    destruct (wrun_log _ _ _ I1 Nr H) as [t T]. inversion P; subst.
    assert (E' := E). apply gi_step in E; auto.
    2:{ intros s d b ->. apply (MG s d b). simpl; auto. }
    2:{ intros d v -> Ad. apply (MP [] d v ms w); simpl; auto. }
    2:{ rewrite T in En. eapply all_enough_app; eauto. }
    apply (IH w1); auto.
    + intros s d b X. apply (MG s d b). simpl; auto.
    + intros a d v b w2 -> Ad R. apply (MP (m :: a) d v b w2); simpl; auto. rewrite E'. auto.
Qed.

Lemma gi_init : GI A none winit.
Proof. split; simpl; try tauto; auto; try constructor; discriminate. Qed.

End Answer.
