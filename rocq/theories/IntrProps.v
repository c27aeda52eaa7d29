(** * C104. A shutdown that is interrupted can be completed by another one (MPI) *)
From Verif Require Import Lib IntrModel IntrSpec IntrProofs.

(** Signals that arrive before the shutdown has sent anything do no harm: no worker fails, and the next
    shutdown can be completed. *)
Theorem C104_early_partial : forall n ops, 0 < n -> signals_early n ops ->
  (forall w, i_wk (irun n ops) w <> WFailed) /\
  (in_shutdown (irun n ops) -> exists more, ~ In ISignal more /\ shut_down n (irun n (ops ++ more))).
Proof. intros n ops pos S0. split; [exact (no_failure n pos ops S0)|exact (ends n pos ops S0)]. Qed.
Print Assumptions C104_early_partial.

(** It cannot be stuck on the way: as long as shutdown has not returned, some process can go on. *)
Theorem C104_no_deadlock_partial : forall n ops, 0 < n -> signals_early n ops ->
  (forall o, o <> ISignal -> o <> ICall -> istep n (irun n ops) o = None) -> ~ in_shutdown (irun n ops).
Proof. intros n ops pos. exact (final n pos ops). Qed.
Print Assumptions C104_no_deadlock_partial.

Definition once := [ICall; ISignal; ICall; IGo; IGo; ICancel 1; IGo; IReady 1].
Lemma once_early : signals_early 2 once.
Proof. intros [|a [|b pre]] post E; [discriminate| |]; unfold once in E; injection E as <-; [reflexivity|]. intros. subst. exfalso. cut (In ISignal [ICall; IGo; IGo; ICancel 1; IGo; IReady 1]); [cbn; intuition discriminate|]. rewrite H0. apply in_or_app. right. now left. Qed.
Example C104_case : signals_early 2 once /\ in_shutdown (irun 2 once) /\ i_mon (irun 2 once) = Some [1] /\ i_root (irun 2 once) = RWait /\
  shut_down 2 (irun 2 (once ++ [ICancel 0; IReady 0; IDown 0; IGo; IDown 1; IGo])).
Proof. split; [exact once_early|]. repeat split; cbn; auto. intros [|[|w]] L; try reflexivity; lia. Qed.

(** Whenever shutdown returns, every worker has left its loop. *)
Theorem C104_returns : forall n ops w, i_root (irun n ops) = RDone -> w < n -> i_wk (irun n ops) w = WLeft.
Proof. exact done_left. Qed.
Print Assumptions C104_returns.

(** Interrupted after the monitor's answer was taken: no later shutdown returns, whatever happens. *)
Theorem C104_late : forall n pre post, i_root (irun n pre) = RFin ->
  i_root (irun n (pre ++ ISignal :: post)) <> RDone /\ ~ shut_down n (irun n (pre ++ ISignal :: post)).
Proof. exact late. Qed.
Print Assumptions C104_late.

(** So "another shutdown completes it" is false. *)
Theorem C104_completed_refuted : exists ops, in_shutdown (irun 2 ops) /\ forall more, i_root (irun 2 (ops ++ more)) <> RDone.
Proof.
  exists ([ICall; IGo; IGo; IGo; ICancel 0; ICancel 1; IReady 1; IReady 0; IGo] ++ [ISignal; ICall]). split; [exact I|].
  intros more. rewrite <- app_assoc. apply (late 2 _ (ICall :: more)). reflexivity.
Qed.
Print Assumptions C104_completed_refuted.

(** A worker may fail: one that was not yet told to cancel is told to shut down, since the monitor counts
    the two answers of another one. After that no shutdown returns. *)
Theorem C104_worker_refuted : exists ops, i_wk (irun 2 ops) 1 = WFailed /\ forall more, i_root (irun 2 (ops ++ more)) <> RDone.
Proof.
  exists [ICall; IGo; ISignal; ICall; IGo; ICancel 0; ICancel 0; IReady 0; IReady 0; IDown 1]. split; [reflexivity|].
  intros more. apply (failed_stuck 2 _ more 1); [lia|reflexivity].
Qed.
Print Assumptions C104_worker_refuted.

Theorem C104_failed : forall n pre post w, w < n -> i_wk (irun n pre) w = WFailed ->
  i_wk (irun n (pre ++ post)) w = WFailed /\ i_root (irun n (pre ++ post)) <> RDone.
Proof. exact failed_stuck. Qed.
Print Assumptions C104_failed.

(** With one worker none fails, whenever the signals arrive. *)
Theorem C104_one_worker : forall ops w, i_wk (irun 1 ops) w <> WFailed.
Proof. exact alone. Qed.
Print Assumptions C104_one_worker.

Example C104_one_case : let st := irun 1 [ICall; IGo; ISignal; ICall; IGo; IGo; ICancel 0; ICancel 0; IReady 0; IGo; IDown 0; IGo] in
  shut_down 1 st /\ i_ready st 0 = 1.
Proof. repeat split. intros [|w] L; [reflexivity|lia]. Qed.
