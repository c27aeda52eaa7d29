(** Calls whose arguments the program has need not be waited for. *)
From Verif Require Import Lib ValModel ShmModel PushModel WorkerModel WorkerSpec MonModel
  ClusterModel ClusterSpec ClusterSeq ActModel ActSpec ActGives ActProofs ActCount ActThms ActOrder ActWaitSpec ActWait ActWaitDirect.

Section Held.
Variable workers : list rank.
Variable body : val -> val -> val -> result.
Variable mbody : list call -> call -> result.
Variable is_async : callee -> bool.
Hypothesis body_ok : forall f a k, no_refs_returned (body f a k).
Hypothesis mbody_ok : forall h c, no_refs_returned (mbody h c).
Notation grun := (grun workers body mbody is_async).

(** A reference that the program holds when it makes a call has a value. *)
Lemma held_gives mgr ops : let g := grun mgr ops in gvalid (g_prog g) -> ~ In RError (c_seen (g_c g)) ->
  forall a p b d, g_prog g = a ++ p :: b -> held a (c_seen (g_c g)) d ->
  exists v, gives body mbody (g_prog g) (history_of g) d v.
Proof.
  cbv zeta. intros V NE a p b d E [[(v & P)|(ds & D & G & R)] _].
  - exists v. apply gives_put. rewrite E. apply in_or_app; auto.
  - destruct (moment workers body mbody is_async mgr _ _ _ ops E) as (pre & post & Eo & Pr & L). subst ops.
    assert (Sn := run_seen workers body mbody is_async mgr pre post).
    assert (O := run_ao workers body mbody is_async mgr pre).
    destruct (ao_get _ _ O ds) as [X|[[X _]|[(e & X)|(vs & X)]]].
    + rewrite Pr. exact G.
    + destruct NE. apply Sn. exact X.
    + congruence.
    + destruct (R e). apply Sn. exact X.
    + assert (F := got_values workers body mbody is_async body_ok mbody_ok mgr (pre ++ post) V ds vs (Sn _ X)).
      clear - F D. induction F as [|y v ds vs G F IH]; [destruct D|]. destruct D as [<-|D]; eauto.
Qed.

Lemma held_or_fails mgr ops : NoDup workers -> (forall c, is_async c = false) ->
  let g := grun mgr ops in gvalid (g_prog g) -> placed workers (g_prog g) -> ~ In RError (c_seen (g_c g)) ->
  forall a w nd1 q1 b nd2 q2 d, g_prog g = a ++ GC w nd1 q1 :: b ++ GC w nd2 q2 :: d ->
  (forall x, In x (qrefs q1) -> held a (c_seen (g_c g)) x) ->
  In (q_id q2) (map fst (history_of g w)) -> precedes (q_id q1) (q_id q2) (map fst (history_of g w)) \/
  exists env, (forall x, In x (qrefs q1) -> gives body mbody (g_prog g) (history_of g) x (env x)) /\
     first_failure (arguments (subst env (q_args q1)) (subst env (q_kwargs q1))) <> None.
Proof.
  cbv zeta. intros ND Sy V Pl NE a w nd1 q1 b nd2 q2 d E Hd I2.
  destruct (choose (gives body mbody (g_prog (grun mgr ops)) (history_of (grun mgr ops))) (qrefs q1)) as (env & Env).
  { intros x X. exact (held_gives mgr ops V NE _ _ _ x E (Hd x X)). }
  destruct (first_failure (arguments (subst env (q_args q1)) (subst env (q_kwargs q1)))) eqn:F.
  - right. exists env. split; auto. congruence.
  - left. eapply (held_in_order workers body mbody is_async body_ok mbody_ok mgr ops ND Sy V Pl NE); eauto.
    intros env' Env'.
    assert (NH := history_once workers body mbody is_async body_ok mbody_ok mgr ops V).
    destruct (env_same body mbody _ _ V NH env' env q1 Env' Env) as [-> ->]. exact F.
Qed.

Lemma orderly_direct mgr ops : NoDup workers -> (forall c, is_async c = false) -> let g := grun mgr ops in
  gvalid (g_prog g) -> placed workers (g_prog g) -> scoped (g_prog g) -> ~ In RError (c_seen (g_c g)) ->
  waits_or_holds (g_prog g) (c_seen (g_c g)) ->
  (forall ds vs, In (RGot ds vs) (c_seen (g_c g)) -> Forall2 (fun d v => dvals (direct body mbody (g_prog g)) d = Some v) ds vs) /\
  (forall ds e, In (RRaised ds e) (c_seen (g_c g)) -> exists d, In d ds /\ dvals (direct body mbody (g_prog g)) d = Some (VExc e)).
Proof.
  cbv zeta. intros ND Sy V Pl Sc NE Wt.
  assert (G : forall d v, gives body mbody (g_prog (grun mgr ops)) (history_of (grun mgr ops)) d v ->
    dvals (direct body mbody (g_prog (grun mgr ops))) d = Some v).
  { apply gives_direct; auto.
    - apply (history_once workers body mbody is_async body_ok mbody_ok mgr ops V).
    - apply (history_real workers body mbody is_async body_ok mbody_ok mgr ops V).
    - apply (carried_fine workers body mbody is_async body_ok mbody_ok mgr ops V).
    - intros a w nd1 q1 b nd2 q2 d E I. destruct (Wt _ _ _ _ _ _ _ _ E) as [(x & ds & X1 & X2 & X3 & X4)|Hd].
      + apply in_split in X3 as (b1 & b2 & ->). rewrite <- app_assoc in E. cbn [app] in E.
        eapply (waited workers body mbody is_async body_ok mbody_ok mgr ops V NE); eauto.
      + eapply (held_or_fails mgr ops ND Sy V Pl NE); eauto. }
  split.
  - intros ds vs I. assert (F := got_values workers body mbody is_async body_ok mbody_ok mgr ops V _ _ I).
    clear I. induction F; constructor; auto.
  - intros ds e I. destruct (raised_values workers body mbody is_async body_ok mbody_ok mgr ops V _ _ I) as (d & D & X). eauto.
Qed.
End Held.

(** Two runs of one program show the same. *)
Lemma same_results workers body mbody is_async :
  (forall f a k, no_refs_returned (body f a k)) -> (forall h c, no_refs_returned (mbody h c)) ->
  NoDup workers -> (forall c, is_async c = false) -> forall mgr ops mgr' ops',
  let g := grun workers body mbody is_async mgr ops in let g' := grun workers body mbody is_async mgr' ops' in
  g_prog g = g_prog g' -> gvalid (g_prog g) -> placed workers (g_prog g) -> scoped (g_prog g) ->
  ~ In RError (c_seen (g_c g)) -> waits_or_holds (g_prog g) (c_seen (g_c g)) ->
  ~ In RError (c_seen (g_c g')) -> waits_or_holds (g_prog g') (c_seen (g_c g')) ->
  forall ds vs vs', In (RGot ds vs) (c_seen (g_c g)) -> In (RGot ds vs') (c_seen (g_c g')) -> vs = vs'.
Proof.
  cbv zeta. intros Bo Mo ND Sy mgr ops mgr' ops' E V Pl Sc N W N' W' ds vs vs' I I'.
  destruct (orderly_direct workers body mbody is_async Bo Mo mgr ops ND Sy V Pl Sc N W) as [X _].
  rewrite E in V, Pl, Sc.
  destruct (orderly_direct workers body mbody is_async Bo Mo mgr' ops' ND Sy V Pl Sc N' W') as [Y _].
  specialize (X _ _ I). specialize (Y _ _ I'). rewrite E in X. clear - X Y. revert vs' Y.
  induction X as [|d v ds vs A X IH]; intros vs' Y; inversion Y; subst; auto. f_equal; [congruence|auto].
Qed.
