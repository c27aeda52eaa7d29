(** C91: nothing about an object is remembered after its cleanup. As for C60, [crun workers body mgr ops] is the state after
    any interleaving. A worker has, of an object, its value (store), who has it (owner), that it has asked for it (reqs), to
    whom it has sent it (sent) and who has asked for it (gets, bgets); the root has p_store, p_owner and p_sent; the monitor
    has the outputs reported to it (mcompleted). *)
From Verif Require Import Lib ValModel ShmModel PushModel WorkerModel WorkerSpec WorkerCases MonModel
  ClusterModel ClusterSpec ClusterSeq ClusterProofs ClusterCount ClusterRoot ClusterNet ClusterGhost ClusterEnd ClusterClean ClusterQuiet ClusterGone ClusterCases
  ClusterRec RecCases.

(** If no worker is handed an object from two sources (one_source, as in C60), a worker that has taken a cleanup of an
    object has no record of it, at that time and for ever. Missing: other programs, and the monitor. *)
Theorem C91_worker_keeps_nothing_partial : forall workers body, (forall f a k, no_refs_returned (body f a k)) -> ~ In 0 workers ->
  NoDup workers -> forall mgr ops, let c := crun workers body mgr ops in
  valid workers (c_prog c) -> tidy (c_prog c) -> returns_enough body (c_prog c) -> one_source (c_prog c) ->
  forall src ds d w, In (src, WClean ds) (c_in c w) -> In d ds -> w <> 0 ->
  store (c_work c w) d = None /\ owner (c_work c w) d = None /\ ~ In d (reqs (c_work c w)) /\
  forall r, ~ In (d, r) (sent (c_work c w)) /\ ~ In (d, r) (gets (c_work c w)) /\ ~ In (d, r) (bgets (c_work c w)).
Proof. exact worker_keeps_nothing. Qed.
Print Assumptions C91_worker_keeps_nothing_partial.

(** Whatever the sources: it does not know where the object is and does not wait for it. *)
Theorem C91_worker_forgets_where : forall workers body, (forall f a k, no_refs_returned (body f a k)) -> ~ In 0 workers ->
  NoDup workers -> forall mgr ops, let c := crun workers body mgr ops in
  valid workers (c_prog c) -> tidy (c_prog c) -> returns_enough body (c_prog c) ->
  forall src ds d w, In (src, WClean ds) (c_in c w) -> In d ds -> w <> 0 ->
  owner (c_work c w) d = None /\ ~ In d (reqs (c_work c w)).
Proof. exact worker_forgets_where. Qed.
Print Assumptions C91_worker_forgets_where.

(** The root has no record of an object whose last reference has died, from then on. *)
Theorem C91_root_knows_nothing : forall workers body, (forall f a k, no_refs_returned (body f a k)) -> ~ In 0 workers ->
  NoDup workers -> forall mgr ops, let c := crun workers body mgr ops in
  valid workers (c_prog c) -> tidy (c_prog c) -> returns_enough body (c_prog c) ->
  forall a d b, c_prog c = a ++ RDrop d :: b -> In d (introduced a) ->
  c_vals c d = None /\ ~ In d (p_store (c_push c)) /\ p_owner (c_push c) d = None /\ forall r, ~ In (d, r) (p_sent (c_push c)).
Proof.
  exact (fun workers body ok nr nd mgr ops V T R a d b E I =>
    conj (root_forgets workers body ok nr nd mgr ops V T R a d b E I) (root_knows_nothing workers body ok nr nd mgr ops V T R a d b E I)).
Qed.
Print Assumptions C91_root_knows_nothing.

Example C91_case : valid [2; 3] (c_prog cc5) /\ tidy (c_prog cc5) /\ returns_enough xbody (c_prog cc5) /\ one_source (c_prog cc5) /\
  In (0, WClean [y]) (c_in cc5 3) /\ In (0, WClean [y]) (c_in cc5 2) /\
  owner (c_work cc1 3) y = Some 2 /\ In (y, 3) (sent (c_work cc1 2)) /\ reqs (c_work cc2 3) = [y] /\
  p_owner (c_push cc2) y = Some 2 /\ (exists b, c_prog cc5 = (cprog1 ++ [RGet [t]]) ++ RDrop y :: b) /\ In y (introduced (cprog1 ++ [RGet [t]])).
Proof. exact c91_case. Qed.

(** The monitor remembers: everything is over, an object has been cleaned up everywhere else, and the monitor has it. *)
Theorem C91_monitor_refuted : exists workers body, (forall f a k, no_refs_returned (body f a k)) /\ ~ In 0 workers /\
  NoDup workers /\ exists mgr ops, let c := crun workers body mgr ops in
  valid workers (c_prog c) /\ tidy (c_prog c) /\ returns_enough body (c_prog c) /\ one_source (c_prog c) /\
  idle c /\ c_left c = 0 /\ (forall w, In w workers -> c_done c w = []) /\
  exists ds d, In (RCleaned ds) (c_seen c) /\ In d ds /\ In d (mcompleted (c_mon c)).
Proof. exact monitor_refuted. Qed.
Print Assumptions C91_monitor_refuted.

(** It does so in every run: what a worker has reported is under way or remembered, and what is remembered stays so
    whatever happens next. *)
Theorem C91_monitor_never_forgets : forall workers body, (forall f a k, no_refs_returned (body f a k)) -> NoDup workers ->
  forall mgr ops, let c := crun workers body mgr ops in valid workers (c_prog c) ->
  (forall w ds, In ds (reports (log (c_work c w))) -> In ds (c_done c w) \/ incl ds (mcompleted (c_mon c))) /\
  forall ops' d, In d (mcompleted (c_mon c)) -> In d (mcompleted (c_mon (crun workers body mgr (ops ++ ops')))).
Proof.
  exact (fun workers body ok nd mgr ops V => conj (heard_run workers body ok nd mgr ops V) (fun ops' d => monitor_keeps workers body mgr ops ops' d)).
Qed.
Print Assumptions C91_monitor_never_forgets.

(** A worker can remember a request for ever: one that comes after the cleanup. *)
Theorem C91_request_refuted : exists workers body, (forall f a k, no_refs_returned (body f a k)) /\ ~ In 0 workers /\
  NoDup workers /\ exists mgr ops, let c := crun workers body mgr ops in
  valid workers (c_prog c) /\ tidy (c_prog c) /\ returns_enough body (c_prog c) /\ idle c /\ c_left c = 0 /\
  exists ds d w r, In (RCleaned ds) (c_seen c) /\ In d ds /\ In w workers /\ In (d, r) (gets (c_work c w)).
Proof. exact request_refuted. Qed.
Print Assumptions C91_request_refuted.
