(** C71: a monitor answers every request. *)
From Verif Require Import Lib ShmModel ShmSpec MonModel MonSpec SurviveSpec SurviveProofs SurviveCases.
Local Open Scope Z_scope.

(** A monitor with mem bytes and k slots keeps running whatever it receives, provided that: whenever memory for new
    data is asked for, there is a gap of that size and fewer than k data are held; and data is asked for only when it was
    reserved before and no cleanup has named it. The slots do not fragment: counting them is enough.
    Missing: requests that find no gap, or ask for unknown data. *)
Theorem C71_survives_partial : forall c mem svc, 0 < mem -> 0 < svc ->
  forall k ms, sizes_ok ms -> known_when_asked ms -> INFO_SIZE * k <= svc ->
  room c (minit (manager_init mem svc)) mem k ms ->
  exists s, mon_run c (minit (manager_init mem svc)) ms = Some s.
Proof. exact survives. Qed.
Print Assumptions C71_survives_partial.

Example C71_case : sizes_ok vms /\ known_when_asked vms /\ room vc (minit (manager_init 100 8)) 100 2 vms /\
  asked vms = 190 /\ asked (firstn 6 vms) = 140.
Proof. exact c71_case. Qed.

(** In particular when the memory is large enough for all that is ever asked for. *)
Theorem C71_ample_partial : forall c mem svc, 0 < mem -> 0 < svc ->
  forall ms, sizes_ok ms -> known_when_asked ms -> asked ms <= mem -> INFO_SIZE * requests ms <= svc ->
  mon_run c (minit (manager_init mem svc)) ms <> None.
Proof. exact survives_total. Qed.
Print Assumptions C71_ample_partial.

Example C71_ample_case : sizes_ok vms /\ known_when_asked vms /\ asked vms <= 200 /\ INFO_SIZE * requests vms <= 16 /\
  option_map (fun s => answers (mlog s)) (mon_run vc (minit (manager_init 200 16)) vms) = Some [([a3], [])].
Proof. exact c71_total_case. Qed.

(** With one datum of 20 bytes held in 100 bytes, a request for 50 bytes ends the monitor: nothing is answered any more. *)
Theorem C71_fragmented_refuted : exists ms s d, sizes_ok ms /\ known_when_asked ms /\
  mon_run vc (minit (manager_init 100 40)) ms = Some s /\
  (forall x, mem_used (mmgr s) x -> 40 <= x < 60) /\ holds_at_most (mmgr s) 1 /\
  forall more, mon_run vc (minit (manager_init 100 40)) (ms ++ MReserve 2 d 50 :: more) = None.
Proof. exact c71_fragmented. Qed.
Print Assumptions C71_fragmented_refuted.

(** A request for data that a cleanup has freed ends the monitor, however much memory is free. *)
Theorem C71_unknown_refuted : exists ms d, sizes_ok ms /\ asked ms <= 100 /\ In (MReserve 2 d 40) ms /\
  mon_run vc (minit (manager_init 100 40)) ms <> None /\
  forall more, mon_run vc (minit (manager_init 100 40)) (ms ++ MShared 5 d :: more) = None.
Proof. exact c71_unknown. Qed.
Print Assumptions C71_unknown_refuted.
