(** Every run of a program of tasks and calls that are functions can be continued to the end of the program. *)
From Verif Require Import Lib ValModel ShmModel PushModel PushProofs WorkerModel WorkerSpec MonModel ClusterModel ClusterSpec ClusterSeq ClusterProofs
  ClusterCount ClusterRoot ClusterNet ClusterEnd ActModel ActSpec ActGives ActProofs ActCount ActRoot ActNet ActEnd.
From Verif Require ClusterClean PortDoneMpi.

Section Done.
Variable workers : list rank.
Variable body : val -> val -> val -> result.
Variable mbody : list call -> call -> result.
Variable is_async : callee -> bool.
Hypothesis body_ok : forall f a k, no_refs_returned (body f a k).
Hypothesis mbody_ok : forall h c, no_refs_returned (mbody h c).
Hypothesis all_sync : forall c, is_async c = false.
Hypothesis no_root : ~ In 0 workers.
Hypothesis no_dup : NoDup workers.
Notation grun := (grun workers body mbody is_async).
Notation gstep := (gstep workers body mbody is_async).

Record fit (prog : list gprog) : Prop := {
  fit_g : gvalid prog;
  fit_v : valid workers (map as_task prog);
  fit_t : tidy (map as_task prog);
  fit_c : forall ds, ~ In (GP (RClean ds)) prog;
  fit_r : greturns_enough body mbody prog;
  fit_s : separate prog
}.

Lemma fit_prefix a b : fit (a ++ b) -> fit a.
Proof using Type.
  intros [F1 F2 F3 F4 F5 F6]. rewrite (map_app as_task) in F2, F3. split.
  - eapply gvalid_prefix; eauto.
  - eapply valid_prefix; eauto.
  - eapply ClusterClean.tidy_prefix; eauto.
  - intros ds I. apply (F4 ds). apply in_or_app; auto.
  - eapply genough_prefix; eauto.
  - intros w q nd q' I J. apply (F6 w q nd q'); apply in_or_app; auto.
Qed.

Lemma gbusy mgr ops s d m l : fit (g_prog (grun mgr ops)) -> c_chan (g_c (grun mgr ops)) s d = m :: l -> In s (0 :: workers) /\ In d (0 :: workers).
Proof using body_ok mbody_ok all_sync no_root no_dup.
  intros [F1 F2 F3 F4 F5 F6] Ch.
  destruct (act_run workers body mbody is_async body_ok mbody_ok all_sync no_root no_dup mgr ops F1 F2 F3 F4 F5) as (ndf & P & _).
  eapply (chan_ranks workers body mbody is_async body_ok mbody_ok ndf _ _ s d m P). apply in_astream; [apply P|]. rewrite Ch. simpl; auto.
Qed.

Lemma gsettle mgr ops : fit (g_prog (grun mgr ops)) ->
  exists more, idle (g_c (grun mgr (ops ++ more))) /\ g_prog (grun mgr (ops ++ more)) = g_prog (grun mgr ops).
Proof using body_ok mbody_ok all_sync no_root no_dup.
  intros F. assert (F' := F). destruct F' as [F1 F2 F3 F4 F5 F6].
  destruct (act_deliveries workers body mbody is_async body_ok mbody_ok all_sync no_root no_dup mgr ops F1 F2 F3 F4 F5) as (_ & A).
  clear F1 F2 F3 F4 F5 F6. remember (grun mgr ops) as g eqn:Eg. revert ops Eg F. induction A as [g _ IH]; intros ops Eg F.
  destruct (PortDoneMpi.busy_or (c_chan (g_c g)) (0 :: workers) (0 :: workers)) as [(s & d & m & l & E)|N].
  - set (o := if Nat.eqb d 0 then GReply s else GTake s d).
    assert (Es : gstep g o = grun mgr (ops ++ [o])) by (rewrite Eg; symmetry; apply grun_snoc).
    assert (Ep : g_prog (gstep g o) = g_prog g) by (unfold o; destruct (Nat.eqb d 0); reflexivity).
    destruct (IH (gstep g o)) with (ops := ops ++ [o]) as (more & M1 & M2).
    + exists s, d, m, l. split; [exact E|reflexivity].
    + exact Es.
    + now rewrite Ep.
    + exists (o :: more). rewrite <- app_assoc in M1, M2. cbn [app] in M1, M2. split; [exact M1|congruence].
  - exists []. rewrite app_nil_r. split; [|now rewrite Eg]. intros s d. rewrite <- Eg.
    destruct (c_chan (g_c g) s d) as [|m l] eqn:E; [reflexivity|].
    subst g. destruct (gbusy mgr ops s d m l F E) as [Is Id]. rewrite (N s d Is Id) in E. discriminate.
Qed.

Lemma goes_to_end mgr : forall r ops, fit (g_prog (grun mgr ops) ++ r) ->
  exists more, g_prog (grun mgr (ops ++ more)) = g_prog (grun mgr ops) ++ r /\ idle (g_c (grun mgr (ops ++ more))).
Proof using body_ok mbody_ok all_sync no_root no_dup.
  induction r as [|x r IH]; intros ops F.
  - rewrite app_nil_r in *. destruct (gsettle mgr ops F) as (more & I & E). exists more. auto.
  - destruct (gsettle mgr ops (fit_prefix _ _ F)) as (more & I & E).
    assert (F0 := fit_prefix _ _ F). rewrite <- E in F0. destruct F0 as [F1 F2 F3 F4 F5 F6].
    destruct (act_not_stuck workers body mbody is_async body_ok mbody_ok all_sync no_root no_dup mgr (ops ++ more) F1 F2 F3 F4 F5 F6) as (_ & _ & L).
    destruct (L I) as (L0 & _).
    assert (Ex : g_prog (grun mgr ((ops ++ more) ++ [GRoot x])) = g_prog (grun mgr ops) ++ [x]).
    { rewrite grun_snoc. cbn [ActModel.gstep]. rewrite L0. cbn [g_prog]. now rewrite E. }
    destruct (IH ((ops ++ more) ++ [GRoot x])) as (more' & M1 & M2).
    { rewrite Ex, <- app_assoc. exact F. }
    exists (more ++ GRoot x :: more').
    replace (ops ++ more ++ GRoot x :: more') with (((ops ++ more) ++ [GRoot x]) ++ more') by (rewrite <- !app_assoc; reflexivity).
    split; [|exact M2]. rewrite M1, Ex, <- app_assoc. reflexivity.
Qed.

Lemma can_be_completed mgr ops r : let prog := g_prog (grun mgr ops) ++ r in
  gvalid prog -> valid workers (map as_task prog) -> tidy (map as_task prog) -> (forall ds, ~ In (GP (RClean ds)) prog) ->
  greturns_enough body mbody prog -> separate prog ->
  exists more, let g := grun mgr (ops ++ more) in g_prog g = prog /\ idle (g_c g) /\ c_left (g_c g) = 0 /\
    ~ In RError (c_seen (g_c g)) /\ gets_over (c_seen (g_c g)) = gets_of (map as_task prog) /\
    forall dest q, In (dest, q) (gsubmitted prog) -> In (q_id q) (ended (log (c_work (g_c g) dest))).
Proof using body_ok mbody_ok all_sync no_root no_dup.
  cbv zeta. intros F1 F2 F3 F4 F5 F6. destruct (goes_to_end mgr r ops) as (more & E & I); [split; auto|].
  rewrite <- E in *. exists more. split; [reflexivity|]. split; [exact I|].
  destruct (act_not_stuck workers body mbody is_async body_ok mbody_ok all_sync no_root no_dup mgr (ops ++ more) F1 F2 F3 F4 F5 F6) as (_ & NE & L).
  destruct (L I) as (L0 & A). split; [exact L0|]. split; [exact NE|]. split; [|exact A].
  assert (X := act_gets workers body mbody is_async body_ok mbody_ok all_sync no_root no_dup mgr (ops ++ more) F1 F2 F3 F4 F5).
  cbv zeta in X. rewrite L0 in X. cbn [Nat.eqb] in X. rewrite app_nil_r in X. exact X.
Qed.
End Done.
