(** C80, C81: the MPI backend with shared memory between its processes. [xrun ... ops] is the state after any interleaving [ops] of the
    steps of ClusterModel and of cleanups carried out by the monitors; [plain ops] are the steps without the monitors' cleanups,
    [crun ... (plain ops)] is the system in which every value travels in a message. x_fault is what stopped the system, if anything. *)
From Coq Require Import ZArith.
From Verif Require Import Lib ValModel ShmModel ShmStoreModel ShmStoreSpec PushModel WorkerModel WorkerSpec WorkerCases MonModel ClusterModel
  ClusterSpec ClusterCases SharedRunModel SharedRunSpec SharedRunProofs SharedRunReclaim SharedRunCases.
Local Open Scope nat_scope.

(** Unless the system has stopped, every process is in the state in which it would be without shared memory.
    Missing here and below: programs that hand an object to a worker first by reference and then by value (refuted below). *)
Theorem C80_same_as_messages_partial : forall workers body host_of sizes enc dec threshold mgr ops,
  (forall f a k, no_refs_returned (body f a k)) -> ~ In 0 workers -> NoDup workers -> memory_fine host_of sizes ->
  let prog := c_prog (crun workers body mgr (plain ops)) in
  valid workers prog -> tidy prog -> returns_enough body prog -> one_source prog -> round_trips body enc dec prog ->
  let x := xrun workers body host_of enc dec threshold mgr sizes ops in
  x_fault x = None -> x_c x = crun workers body mgr (plain ops).
Proof. exact (fun w b h s e d t m o B N D M V T R O C => proj1 (final w b h s e d t m o B N D M V T R O C)). Qed.
Print Assumptions C80_same_as_messages_partial.

(** The system stops only when a host has no room for an object that is put or received there. *)
Theorem C80_stops_only_without_memory_partial : forall workers body host_of sizes enc dec threshold mgr ops f,
  (forall f a k, no_refs_returned (body f a k)) -> ~ In 0 workers -> NoDup workers -> memory_fine host_of sizes ->
  let prog := c_prog (crun workers body mgr (plain ops)) in
  valid workers prog -> tidy prog -> returns_enough body prog -> one_source prog -> round_trips body enc dec prog ->
  x_fault (xrun workers body host_of enc dec threshold mgr sizes ops) = Some f -> for_lack_of_memory host_of f.
Proof. exact (fun w b h s e d t m o f B N D M V T R O C => proj2 (final w b h s e d t m o B N D M V T R O C) f). Qed.
Print Assumptions C80_stops_only_without_memory_partial.

(** Whatever get returned or raised, also before the system stopped, is what sequential evaluation gives. *)
Theorem C80_values_partial : forall workers body host_of sizes enc dec threshold mgr ops,
  (forall f a k, no_refs_returned (body f a k)) -> ~ In 0 workers -> NoDup workers -> memory_fine host_of sizes ->
  let prog := c_prog (crun workers body mgr (plain ops)) in
  valid workers prog -> tidy prog -> returns_enough body prog -> one_source prog -> round_trips body enc dec prog ->
  let x := xrun workers body host_of enc dec threshold mgr sizes ops in
  (forall ds vs, In (RGot ds vs) (c_seen (x_c x)) -> Forall2 (fun d v => sequential body prog d = Some v) ds vs) /\
  (forall ds e, In (RRaised ds e) (c_seen (x_c x)) -> exists d, In d ds /\ sequential body prog d = Some (VExc e)).
Proof. exact final_gets. Qed.
Print Assumptions C80_values_partial.

(** No package that points to the memory of a cleaned object is under way. *)
Theorem C80_no_stale_package_partial : forall workers body host_of sizes enc dec threshold mgr ops,
  (forall f a k, no_refs_returned (body f a k)) -> ~ In 0 workers -> NoDup workers -> memory_fine host_of sizes ->
  let prog := c_prog (crun workers body mgr (plain ops)) in
  valid workers prog -> tidy prog -> returns_enough body prog -> one_source prog -> round_trips body enc dec prog ->
  let x := xrun workers body host_of enc dec threshold mgr sizes ops in
  x_fault x = None -> forall ds p d i, In (RCleaned ds) (c_seen (x_c x)) -> In d ds -> ~ In (p, d, i) (inflight (m_s (x_m x))).
Proof. exact final_quiet. Qed.
Print Assumptions C80_no_stale_package_partial.

Example C80_case : memory_fine shost sizes2 /\
  (let prog := c_prog (crun [2; 3] xbody cmgr (plain sgood)) in
   valid [2; 3] prog /\ tidy prog /\ returns_enough xbody prog /\ one_source prog /\ round_trips xbody senc sdec prog) /\
  x_fault sx2 = None /\
  c_seen (x_c sx2) = [RGot [z; u] [VLeaf 110; VLeaf 10]; RRaised [t] 9; RCleaned [y]; RGot [(1, 0); (1, 1)] [VLeaf 87; VLeaf 77]] /\
  In (SCleanup [y]) (m_ops (x_m sx2)) /\ In (SSkip 0) (m_ops (x_m sx2)) /\
  x_fault sx3 <> None.
Proof. exact c80_case. Qed.

(** When no message is under way, no process holds an object that was cleaned up. *)
Theorem C81_cleaned_not_held_partial : forall workers body host_of sizes enc dec threshold mgr ops,
  (forall f a k, no_refs_returned (body f a k)) -> ~ In 0 workers -> NoDup workers -> memory_fine host_of sizes ->
  let prog := c_prog (crun workers body mgr (plain ops)) in
  valid workers prog -> tidy prog -> returns_enough body prog -> one_source prog -> round_trips body enc dec prog ->
  dies_after_birth prog ->
  let x := xrun workers body host_of enc dec threshold mgr sizes ops in
  x_fault x = None -> idle (x_c x) -> forall ds d, In (RCleaned ds) (c_seen (x_c x)) -> In d ds ->
  (forall p, infos (m_s (x_m x)) p d = None) /\ (forall h, holders host_of (m_s (x_m x)) h d = 0).
Proof. exact final_holders. Qed.
Print Assumptions C81_cleaned_not_held_partial.

(** Whatever the next cleanup names, it is carried out, and after it no host has memory for an object that was cleaned up, unless
    the cleanup of that object itself is still waiting to be carried out. *)
Theorem C81_memory_freed_partial : forall workers body host_of sizes enc dec threshold mgr ops,
  (forall f a k, no_refs_returned (body f a k)) -> ~ In 0 workers -> NoDup workers -> memory_fine host_of sizes ->
  let prog := c_prog (crun workers body mgr (plain ops)) in
  valid workers prog -> tidy prog -> returns_enough body prog -> one_source prog -> round_trips body enc dec prog ->
  dies_after_birth prog ->
  let x := xrun workers body host_of enc dec threshold mgr sizes ops in
  x_fault x = None -> idle (x_c x) -> forall ids, exists st,
    sstep host_of (m_s (x_m x)) (SCleanup ids) = Some (st, ODone) /\
    forall ds d, In (RCleaned ds) (c_seen (x_c x)) -> In d ds -> (In d ids \/ ~ In d (concat (x_mon x))) ->
    forall h, stored_count st h d = None.
Proof. exact final_freed. Qed.
Print Assumptions C81_memory_freed_partial.

(** Here the monitors were faster than the workers: y stays in memory, without a holder, until the next cleanup. *)
Example C81_case : (let prog := c_prog (crun [2; 3] xbody cmgr (plain sgood4)) in
   valid [2; 3] prog /\ tidy prog /\ returns_enough xbody prog /\ one_source prog /\ round_trips xbody senc sdec prog /\
   dies_after_birth prog) /\
  idle (x_c sx4) /\ c_seen (x_c sx4) = [RGot [z; u] [VLeaf 110; VLeaf 10]; RRaised [t] 9; RCleaned [y]] /\
  x_fault sx4 = None /\ x_mon sx4 = [] /\
  stored_count (m_s (x_m sx4)) 0 y = Some 0%Z /\ stored_count (m_s (x_m sx4)) 1 y = Some 0%Z /\
  exists st, sstep shost (m_s (x_m sx4)) (SCleanup []) = Some (st, ODone) /\ stored_count st 0 y = None /\ stored_count st 1 y = None.
Proof. exact c80_freed. Qed.

(** With two sources a worker that has taken the cleanup may hold the object for ever: the memory is not freed. *)
Theorem C81_two_sources_leak_refuted : exists workers body host_of enc dec threshold mgr sizes ops d,
  (forall f a k, no_refs_returned (body f a k)) /\ ~ In 0 workers /\ NoDup workers /\ memory_fine host_of sizes /\
  (let prog := c_prog (crun workers body mgr (plain ops)) in
   valid workers prog /\ tidy prog /\ returns_enough body prog /\ round_trips body enc dec prog /\ dies_after_birth prog) /\
  let x := xrun workers body host_of enc dec threshold mgr sizes ops in
  x_fault x = None /\ idle (x_c x) /\ x_mon x = [] /\ In (RCleaned [d]) (c_seen (x_c x)) /\
  exists st, sstep host_of (m_s (x_m x)) (SCleanup [d]) = Some (st, ODone) /\ stored_count st 0 d = Some 1%Z.
Proof. exact two_sources_leak. Qed.
Print Assumptions C81_two_sources_leak_refuted.

(** With two sources a worker may receive a package whose memory was freed and used again, and fails, although memory is not
    short. *)
Theorem C80_two_sources_refuted : exists workers body host_of enc dec threshold mgr sizes ops f,
  (forall f a k, no_refs_returned (body f a k)) /\ ~ In 0 workers /\ NoDup workers /\ memory_fine host_of sizes /\
  let prog := c_prog (crun workers body mgr (plain ops)) in
  valid workers prog /\ tidy prog /\ returns_enough body prog /\ round_trips body enc dec prog /\
  x_fault (xrun workers body host_of enc dec threshold mgr sizes ops) = Some f /\ ~ for_lack_of_memory host_of f.
Proof. exact two_sources. Qed.
Print Assumptions C80_two_sources_refuted.
