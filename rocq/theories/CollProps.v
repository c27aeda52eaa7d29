(** C73: cleanups that the monitors of several hosts carry out together. *)
From Verif Require Import Lib ShmModel ShmSpec CollModel CollSpec CollProofs CollCases.
Local Open Scope Z_scope.

(** Whichever processes send cleanup requests and in whatever order the monitors take them: shared memory is freed on a host only at the
    end of a collective cleanup, only if that host's monitor saw no references on its own host, and only for data that
    some request named. *)
Theorem C73_own_host :
  forall sizes ops o h d,
    let s := krun (kinit sizes) ops in
    freed_in s o h d ->
    o = KReduce /\ ~ saw_references s h d /\ exists ids, In ids (told ops) /\ In d ids.
Proof. exact own_host. Qed.
Print Assumptions C73_own_host.

(** If one process sends them all: only if no monitor saw references on any host. *)
Theorem C73_agreed_partial :
  forall src sizes ops o h d,
    one_sender src ops ->
    let s := krun (kinit sizes) ops in
    freed_in s o h d -> forall h', ~ saw_references s h' d.
Proof. exact agreed. Qed.
Print Assumptions C73_agreed_partial.

Example C73_agreed_case :
  one_sender 0%nat slow /\ freed_in (krun (kinit two_hosts) slow) KReduce 0 da /\
  freed_in (krun (kinit two_hosts) slow) KReduce 1 da /\
  map (fun x => pending_cleanup (k_mgr x)) (k_hosts (krun (kinit two_hosts) slow)) = [[da]; [da]].
Proof. exact slow_case. Qed.

(** ... and what the monitors have done, each at its own pace, is a history of cleanups handled by all at once (so that C04 holds of
    it), with the requests in the order in which they were sent; the collective calls always fit together. *)
Theorem C73_history_partial :
  forall src sizes ops,
    sizes <> [] -> one_sender src ops ->
    let s := krun (kinit sizes) ops in
    k_err s = false /\
    exists cops later, map k_mgr (k_hosts s) = crun (cluster_init sizes) cops /\ told ops = cleanups cops ++ later.
Proof. exact history. Qed.
Print Assumptions C73_history_partial.

(** Whichever processes send them: while no monitor has died, either everything is done or some monitor can go on. *)
Theorem C73_no_deadlock :
  forall sizes ops,
    let s := krun (kinit sizes) ops in
    (forall x, In x (k_hosts s) -> k_mode x <> Dead) -> drained s \/ can_go_on s.
Proof. exact goes_on. Qed.
Print Assumptions C73_no_deadlock.

Example C73_no_deadlock_case :
  let s := krun (kinit two_hosts) (stored ++ [KTell 0%nat [da]; KTake 0 0%nat none]) in
  (forall x, In x (k_hosts s) -> k_mode x <> Dead) /\ ~ drained s /\
  exists y, nth_error (k_hosts s) 1 = Some y /\ k_mode y = Running /\ k_in y 0%nat = [KClean [da]].
Proof. exact waiting_case. Qed.

(** One sender: whatever references the monitors see, they can carry out every request that was sent, unless one of them dies. *)
Theorem C73_all_done_partial :
  forall src sizes ops look,
    sizes <> [] -> one_sender src ops ->
    let s := krun (kinit sizes) ops in
    exists ops2, (forall o, In o ops2 -> monitor_step look o) /\
      let s' := krun s ops2 in
      (exists x, In x (k_hosts s') /\ k_mode x = Dead) \/
      (drained s' /\ exists cops, map k_mgr (k_hosts s') = crun (cluster_init sizes) cops /\ told ops = cleanups cops).
Proof. exact drains. Qed.
Print Assumptions C73_all_done_partial.

(** Two senders: memory is freed on a host although the monitor of another host saw references. *)
Theorem C73_two_senders_refuted :
  exists sizes ops h h' d,
    k_err (kstep (krun (kinit sizes) ops) KReduce) = false /\
    freed_in (krun (kinit sizes) ops) KReduce h d /\
    saw_references (krun (kinit sizes) ops) h' d.
Proof. exact two_senders. Qed.
Print Assumptions C73_two_senders_refuted.

(** Two senders: the monitors meet in a collective call with arrays of different lengths. *)
Theorem C73_lengths_refuted :
  exists sizes ops, k_err (krun (kinit sizes) ops) = true.
Proof. exact lengths_differ. Qed.
Print Assumptions C73_lengths_refuted.

(** One sender: once a monitor has died, another one that is in a cleanup stays in it for ever, and serves nobody. *)
Theorem C73_dead_refuted :
  exists sizes ops src h, one_sender src ops /\
    forall ops2, exists y refs ids fl,
      nth_error (k_hosts (krun (krun (kinit sizes) ops) ops2)) h = Some y /\ k_mode y = InReduce refs ids fl.
Proof. exact dead_monitor. Qed.
Print Assumptions C73_dead_refuted.
