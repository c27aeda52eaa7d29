(** C33, C34: wait requests at the monitor. *)
From Verif Require Import Lib ShmModel ValModel WorkerModel WorkerSpec WorkerCases MonModel MonSpec MonProofs MonCases.
From Coq Require Import Permutation.

(** After any history in which waits come one at a time, a wait for n of ds, and any further messages
    without a wait: nothing has been sent for the wait as long as fewer than n of ds are complete; as
    soon as n are, exactly one answer has been sent, and it is a split of ds with exactly n ready
    references, all of them complete. *)
Theorem C33_answered_once : forall c g ms1 ds n ms2 s1 s,
  orderly c (minit g) (ms1 ++ [MWait ds n]) -> waits ms2 = 0 ->
  mon_run c (minit g) ms1 = Some s1 ->
  mon_run c (minit g) (ms1 ++ MWait ds n :: ms2) = Some s -> mstopped s = false ->
  exists new, answers (mlog s) = answers (mlog s1) ++ new /\ answer_for (ms1 ++ ms2) ds n new.
Proof. exact answered_once. Qed.
Print Assumptions C33_answered_once.

(** The number of finished tasks the monitor knows of is the number of completion reports. *)
Theorem C33_counts_reports : forall c g ms s,
  mon_run c (minit g) ms = Some s -> mstopped s = false -> mcount s = dones ms.
Proof. exact mcount_dones. Qed.
Print Assumptions C33_counts_reports.

Example C33_case : orderly xc (minit xg) xmon /\
  option_map (fun s => (answers (mlog s), mcount s)) (mon_run xc (minit xg) xmon) =
  Some ([([z], [y; u; y]); ([v; y; y], [u])], 4).
Proof. exact (conj xorderly xanswers). Qed.

(** A failed task's outputs hold its exception, but its completion report names none of them, so that
    a wait for one of them is never answered. *)
Theorem C34_failed_refuted : exists w s d,
  wrun 2 xbody xmbody xsync winit xms = Some w /\ (exists e, stored (log w) d (VExc e)) /\
  mon_run xc (minit xg) (map (MDone 2) (reports (log w)) ++ [MWait [d] 1]) = Some s /\
  mstopped s = false /\ answers (mlog s) = [].
Proof. exact failed_never_answered. Qed.
Print Assumptions C34_failed_refuted.

(** If n of the awaited references belong to tasks that ended normally at some worker, and all reports
    of the workers have come, the wait is answered. Missing: references of failed tasks. *)
Theorem C34_wait_ends_partial : forall body mbody is_async,
  (forall f a k, no_refs_returned (body f a k)) -> (forall h c, no_refs_returned (mbody h c)) ->
  forall inp wk, (forall r, no_refs_received (inp r)) ->
  (forall r, wrun r body mbody is_async winit (inp r) = Some (wk r)) ->
  (forall r, NoDup (map q_id (received (log (wk r))))) ->
  forall c g ms1 ds n ms2 s1 s p,
  orderly c (minit g) (ms1 ++ [MWait ds n]) -> waits ms2 = 0 ->
  mon_run c (minit g) ms1 = Some s1 ->
  mon_run c (minit g) (ms1 ++ MWait ds n :: ms2) = Some s -> mstopped s = false ->
  (forall r, In r (c_workers c) -> forall ids, In ids (reports (log (wk r))) -> In (MDone r ids) (ms1 ++ ms2)) ->
  (forall d, p d = true -> exists r, In r (c_workers c) /\ succeeded (log (wk r)) d) ->
  (n <= Z.of_nat (length (filter p ds)))%Z ->
  exists rdy nrdy, answers (mlog s) = answers (mlog s1) ++ [(rdy, nrdy)] /\ Permutation (rdy ++ nrdy) ds /\
    Z.of_nat (length rdy) = n.
Proof. exact wait_ends. Qed.
Print Assumptions C34_wait_ends_partial.

Example C34_case : exists wk s1 s,
  (forall r, no_refs_received (xinp r)) /\ (forall r, wrun r xbody xmbody xsync winit (xinp r) = Some (wk r)) /\
  (forall r, NoDup (map q_id (received (log (wk r))))) /\
  orderly xc (minit xg) ([MDone 2 []] ++ [MWait [y; z; u] 1]) /\ waits xmon2 = 0 /\
  mon_run xc (minit xg) [MDone 2 []] = Some s1 /\
  mon_run xc (minit xg) ([MDone 2 []] ++ MWait [y; z; u] 1 :: xmon2) = Some s /\ mstopped s = false /\
  (forall r, In r (c_workers xc) -> forall ids, In ids (reports (log (wk r))) -> In (MDone r ids) ([MDone 2 []] ++ xmon2)) /\
  succeeded (log (wk 2)) z /\ answers (mlog s) = [([z], [y; u])].
Proof. exact xwait. Qed.
