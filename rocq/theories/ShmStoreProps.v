(** Shared object store: what a reader sees (C06, C07) and reference counting (C09).

    A history is a list of operations of any processes on any hosts; [host_of] places the
    processes.  [sstep] returning [None] is an exception escaping on some process. *)
From Verif Require Import Lib ShmModel ShmStoreModel ShmStoreSpec ShmStoreProofs.
From Verif Require Import ShmStoreCases.
Local Open Scope Z_scope.

(* C06: a process holding an object reads exactly the bytes that were put for it. *)
Theorem C06_holder_reads_what_was_put :
  forall host_of sizes ops st p d i,
    sizes_ok sizes -> history_ok ops -> quiet_run host_of (store_init sizes) ops ->
    srun host_of (store_init sizes) ops = Some st ->
    infos st p d = Some i ->
    exists pl, written ops d = Some pl /\ sstep host_of st (SRead p d) = Some (st, OValue pl).
Proof. exact read_returns_written. Qed.
Print Assumptions C06_holder_reads_what_was_put.

(* C06: the first read after receiving a package, on the same or another host. *)
Theorem C06_receiver_reads_what_was_put :
  forall host_of sizes ops st p k q d i st' out,
    sizes_ok sizes -> history_ok ops -> quiet_run host_of (store_init sizes) ops ->
    srun host_of (store_init sizes) ops = Some st ->
    nth_error (inflight st) k = Some (q, d, i) ->
    sstep host_of st (SRecv p k) = Some (st', out) ->
    exists pl, written ops d = Some pl /\ out = OValue pl /\ infos st' p d <> None.
Proof. exact recv_returns_written. Qed.
Print Assumptions C06_receiver_reads_what_was_put.

(* C06: with equal service buffers on all hosts, an operation can only fail for lack of
   shared memory: the reservation of a new ID is refused on some host. *)
Theorem C06_fails_only_without_memory :
  forall host_of sizes ops st o,
    sizes_ok sizes -> history_ok ops -> quiet_run host_of (store_init sizes) ops ->
    srun host_of (store_init sizes) ops = Some st ->
    (forall sz sz', In sz sizes -> In sz' sizes -> snd sz = snd sz') ->
    (forall p, (host_of p < length sizes)%nat) ->
    big_enough o -> ~ (exists d, In d (puts [o]) /\ In d (puts ops)) ->
    sstep host_of st o = None ->
    lacks_room host_of st o.
Proof. exact fails_only_without_memory. Qed.
Print Assumptions C06_fails_only_without_memory.

Example C06_case :
  sizes_ok case_sizes /\ history_ok case_ops /\ quiet_run case_host (store_init case_sizes) case_ops /\
  exists st, srun case_host (store_init case_sizes) case_ops = Some st /\
    sstep case_host st (SRead 2 (0, 0)%nat) = Some (st, OValue case_pl1) /\
    (exists st', sstep case_host st (SRecv 1 0) = Some (st', OValue case_pl2)) /\
    stored_count st 0 (0, 0)%nat = Some 2 /\ stored_count st 1 (0, 0)%nat = Some 2.
Proof. exact case_holds. Qed.

(* C06 does not survive a cleanup that overtakes a package: the receiver reads a value that was
   never written for that ID. *)
Theorem C06_stale_package_refuted :
  exists host_of sizes ops st k q d i st' pl pl',
    sizes_ok sizes /\ history_ok ops /\
    srun host_of (store_init sizes) ops = Some st /\
    nth_error (inflight st) k = Some (q, d, i) /\
    sstep host_of st (SRecv 1 k) = Some (st', OValue pl') /\
    written ops d = Some pl /\ pl' <> pl.
Proof. exact stale_package. Qed.
Print Assumptions C06_stale_package_refuted.

(* C06: with unequal service buffers a package can make its receiver fail although the
   receiving host could store the object. *)
Theorem C06_unequal_service_buffers_refuted :
  exists host_of sizes ops st q d i x,
    sizes_ok sizes /\ history_ok ops /\ quiet_run host_of (store_init sizes) ops /\
    srun host_of (store_init sizes) ops = Some st /\
    nth_error (inflight st) 0 = Some (q, d, i) /\
    nth_error (hosts st) (host_of 1%nat) = Some x /\
    snd (mgr_reserve (mgr x) d (Z.of_nat (s_data_len i + list_sum (raw_buffers_len i)))) <> None /\
    sstep host_of st (SRecv 1 0) = None.
Proof. exact unequal_service. Qed.
Print Assumptions C06_unequal_service_buffers_refuted.

(* C07: whatever any process puts, receives, drops or cleans afterwards, a process that keeps
   its object keeps reading the same value. *)
Theorem C07_other_operations_do_not_change_a_held_object :
  forall host_of sizes ops more st st2 p d,
    sizes_ok sizes -> history_ok (ops ++ more) ->
    quiet_run host_of (store_init sizes) (ops ++ more) ->
    srun host_of (store_init sizes) ops = Some st ->
    srun host_of st more = Some st2 ->
    infos st p d <> None -> ~ In (SDrop p d) more ->
    exists pl, sstep host_of st (SRead p d) = Some (st, OValue pl) /\
               sstep host_of st2 (SRead p d) = Some (st2, OValue pl).
Proof. exact other_writes_harmless. Qed.
Print Assumptions C07_other_operations_do_not_change_a_held_object.

Example C07_case :
  exists st st2, srun case_host (store_init case_sizes) case_ops = Some st /\
    srun case_host st case_more = Some st2 /\
    history_ok (case_ops ++ case_more) /\
    quiet_run case_host (store_init case_sizes) (case_ops ++ case_more) /\
    infos st 2%nat (0, 0)%nat <> None /\ ~ In (SDrop 2 (0, 0)%nat) case_more /\
    stored_count st2 0 (0, 0)%nat = Some 0.
Proof. exact case_more_holds. Qed.

(* C09: the stored reference count is the number of live holders on that host. *)
Theorem C09_count_is_number_of_holders :
  forall host_of sizes ops st h d c,
    sizes_ok sizes -> history_ok ops -> quiet_run host_of (store_init sizes) ops ->
    srun host_of (store_init sizes) ops = Some st ->
    stored_count st h d = Some c -> c = Z.of_nat (holders host_of st h d).
Proof. exact count_is_holders. Qed.
Print Assumptions C09_count_is_number_of_holders.

(* C09: an object with a live holder is stored on the holder's host. *)
Theorem C09_held_objects_are_stored :
  forall host_of sizes ops st p d s,
    sizes_ok sizes -> history_ok ops -> quiet_run host_of (store_init sizes) ops ->
    srun host_of (store_init sizes) ops = Some st ->
    In (p, d, s) (fins st) -> stored_count st (host_of p) d <> None.
Proof. exact held_is_reserved. Qed.
Print Assumptions C09_held_objects_are_stored.

(* C09: a cleanup frees an object on some host only if no process on any host holds it. *)
Theorem C09_reclaimed_only_without_holders :
  forall host_of sizes ops ids st st' out h d,
    sizes_ok sizes -> history_ok ops ->
    quiet_run host_of (store_init sizes) (ops ++ [SCleanup ids]) ->
    srun host_of (store_init sizes) ops = Some st ->
    sstep host_of st (SCleanup ids) = Some (st', out) ->
    stored_count st h d <> None -> stored_count st' h d = None ->
    forall h', holders host_of st h' d = 0%nat.
Proof. exact reclaim_only_unheld. Qed.
Print Assumptions C09_reclaimed_only_without_holders.

(* C09: a cleanup frees on every host an object without holders that it names or that an earlier cleanup has left
   in the queue of a host. *)
Theorem C09_reclaimed_when_no_holders :
  forall host_of sizes ops ids st st' out h d,
    sizes_ok sizes -> history_ok ops ->
    quiet_run host_of (store_init sizes) (ops ++ [SCleanup ids]) ->
    srun host_of (store_init sizes) ops = Some st ->
    sstep host_of st (SCleanup ids) = Some (st', out) ->
    (In d ids \/ exists x, In x (hosts st) /\ In d (pending_cleanup (mgr x))) ->
    (forall h', holders host_of st h' d = 0%nat) ->
    stored_count st' h d = None.
Proof. exact unheld_reclaimed. Qed.
Print Assumptions C09_reclaimed_when_no_holders.

(* C09: what a cleanup names is afterwards, on every host, freed or in the queue for the next cleanup. *)
Theorem C09_cleaned_or_queued :
  forall host_of sizes ops ids st st' out,
    sizes_ok sizes -> history_ok ops ->
    quiet_run host_of (store_init sizes) (ops ++ [SCleanup ids]) ->
    srun host_of (store_init sizes) ops = Some st ->
    sstep host_of st (SCleanup ids) = Some (st', out) ->
    forall n h' d, nth_error (hosts st') n = Some h' -> exists h, nth_error (hosts st) n = Some h /\
      (In d ids \/ In d (pending_cleanup (mgr h)) \/ resv (mgr h) d = None ->
       resv (mgr h') d = None \/ In d (pending_cleanup (mgr h'))).
Proof. exact cleaned_or_queued. Qed.
Print Assumptions C09_cleaned_or_queued.

Example C09_case :
  exists st st', srun case_host (store_init case_sizes) case_drop = Some st /\
    history_ok case_drop /\
    quiet_run case_host (store_init case_sizes) (case_drop ++ [SCleanup [(0, 0)%nat]]) /\
    sstep case_host st (SCleanup [(0, 0)%nat]) = Some (st', ODone) /\
    stored_count st 0 (0, 0)%nat = Some 0 /\ stored_count st 1 (0, 0)%nat = Some 0 /\
    stored_count st' 0 (0, 0)%nat = None /\ stored_count st' 0 (0, 1)%nat <> None.
Proof. exact case_drop_holds. Qed.

(* Held on host 1 when cleaned up; the cleanup of another object leaves it in place, and the cleanup after process 2 has let go
   frees it, although no one names it again. *)
Example C09_queue_case :
  exists st st' st2, srun case_host (store_init case_sizes) case_held = Some st /\
    history_ok case_held /\
    quiet_run case_host (store_init case_sizes) (case_held ++ [SCleanup [(0, 1)%nat]]) /\
    stored_count st 0 (0, 0)%nat = Some 0 /\ stored_count st 1 (0, 0)%nat = Some 2 /\
    sstep case_host st (SCleanup [(0, 1)%nat]) = Some (st', ODone) /\
    stored_count st' 0 (0, 0)%nat = Some 0 /\ stored_count st' 1 (0, 0)%nat = Some 2 /\
    srun case_host st' [SDrop 2 (0, 0)%nat; SCleanup []] = Some st2 /\
    stored_count st2 0 (0, 0)%nat = None /\ stored_count st2 1 (0, 0)%nat = None.
Proof. exact case_held_holds. Qed.
