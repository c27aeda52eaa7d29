(** Concurrent puts, gets and drops of shared objects on one host (C08, and C09 at the level of
    single memory accesses).

    [rrun progs sched]: any number of processes, each running its list of operations, one
    memory access per step of the schedule. [all_puts] lists the objects put; [places_ok] is
    what C01 guarantees for their reservations. *)
From Verif Require Import Lib ShmModel ShmStoreModel ShmRaceModel ShmRaceSpec ShmRaceProofs ShmRaceCases.
Local Open Scope Z_scope.

(* C08: whenever the check of a get succeeds, the get reads the start index and all the bytes
   of the object that was put under that ID, for every schedule. *)
Theorem C08_found_objects_are_whole_partial :
  forall progs sched d s first bs,
    places_ok progs -> gets_ok progs -> no_delete progs ->
    In (Got d s first bs) (rlog (rrun progs sched)) ->
    exists r, In (d, r, bs) (all_puts progs) /\ p_slot r = s /\ p_first r = first.
Proof. intros progs sched d s first bs H1 H2 H3. exact (got_whole progs H1 H2 H3 sched d s first bs). Qed.
Print Assumptions C08_found_objects_are_whole_partial.

(* C08: at every point of every schedule, a slot whose first two cells name an object holds its
   start index, its bytes are all in place, and its count is one for the publisher plus the
   increments minus the decrements made so far. *)
Theorem C08_named_slots_are_published_partial :
  forall progs sched d r bs,
    places_ok progs -> gets_ok progs -> no_delete progs ->
    In (d, r, bs) (all_puts progs) ->
    let m := rmem (rrun progs sched) in
    m (CS (p_slot r)) = worker_id d -> m (CS (p_slot r + 1)) = data_number d ->
    m (CS (p_slot r + 2)) = p_first r /\
    (forall k b, nth_error bs k = Some b -> m (CD (p_first r + Z.of_nat k)) = b) /\
    m (CS (p_slot r + 3)) = 1 + incs (rlog (rrun progs sched)) d (p_slot r)
                              - decs (rlog (rrun progs sched)) d (p_slot r).
Proof. intros progs sched d r bs H1 H2 H3. exact (found_published progs H1 H2 H3 sched d r bs). Qed.
Print Assumptions C08_named_slots_are_published_partial.

Example C08_case :
  places_ok race_progs /\ gets_ok race_progs /\ no_delete race_progs /\
  rlog (rrun race_progs race_sched) =
    [Absent (1, 5)%nat 4; Inc (1, 5)%nat 4; Inc (1, 5)%nat 4;
     Got (1, 5)%nat 4 0 [10; 11; 12]; Got (1, 5)%nat 4 0 [10; 11; 12]; Dec (1, 5)%nat 4] /\
  rmem (rrun race_progs race_sched) (CS 7) = 2.
Proof. exact race_case. Qed.

(* C08 fails when a slot is freed and reused between the two unlocked reads of the check: the
   get finds an object that nobody ever put. *)
Theorem C08_torn_check_refuted :
  exists progs sched d s first bs,
    (forall r bs', ~ In (d, r, bs') (all_puts progs)) /\
    In (Got d s first bs) (rlog (rrun progs sched)).
Proof. exists torn_progs, torn_sched, (1, 5)%nat, 0, 0, [20]. exact torn_case. Qed.
Print Assumptions C08_torn_check_refuted.

(* C08 fails when the object is freed between the successful check and the increment. *)
Theorem C08_freed_after_check_refuted :
  exists progs sched d r s first bs bs',
    In (d, r, bs) (all_puts progs) /\
    (forall r' b, In (d, r', b) (all_puts progs) -> b = bs) /\
    In (Got d s first bs') (rlog (rrun progs sched)) /\ bs' <> bs.
Proof.
  exists late_progs, late_sched, (1, 5)%nat, (race_pl 0 0), 0, 0, [10], [20]. exact late_case.
Qed.
Print Assumptions C08_freed_after_check_refuted.
