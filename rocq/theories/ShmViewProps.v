(** Values read from shared memory do not change while their reference lives (C84).

    [view_of host_of st p d] are the buffers process [p] gets when it reads object [d] in state [st]; [look st2 v] is what these
    buffers show in a later state. *)
From Verif Require Import Lib ShmModel ShmStoreModel ShmStoreSpec ShmStoreCases ShmViewModel ShmViewSpec.
From Verif Require Import ShmViewProofs ShmViewCases.
Local Open Scope Z_scope.

(* C84: as long as the process that has read a value keeps its reference, the value shows what was put, whatever all
   processes do. Missing for the full claim: the same after the reference has gone, which is false. *)
Theorem C84_while_referenced_partial :
  forall host_of sizes ops more st st2 p d v,
    sizes_ok sizes -> history_ok (ops ++ more) -> quiet_run host_of (store_init sizes) (ops ++ more) ->
    srun host_of (store_init sizes) ops = Some st -> srun host_of st more = Some st2 ->
    view_of host_of st p d = Some v -> ~ In (SDrop p d) more ->
    exists pl, written ops d = Some pl /\
      look st v = Some (raw_buffers pl) /\ look st2 v = Some (raw_buffers pl).
Proof. exact view_while_referenced. Qed.
Print Assumptions C84_while_referenced_partial.

Example C84_referenced_case :
  exists st st2 v,
    sizes_ok case_sizes /\ history_ok (got ++ reference_kept) /\
    quiet_run case_host (store_init case_sizes) (got ++ reference_kept) /\
    srun case_host (store_init case_sizes) got = Some st /\
    srun case_host st reference_kept = Some st2 /\
    view_of case_host st 0 (1, 0)%nat = Some v /\ ~ In (SDrop 0 (1, 0)%nat) reference_kept /\
    look st v = Some [[1; 2; 3]; [4]] /\ look st2 v = Some [[1; 2; 3]; [4]].
Proof. exact kept_stays. Qed.

(* C84: without its reference the value is safe until a cleanup names the object. *)
Theorem C84_while_not_cleaned_partial :
  forall host_of sizes ops more st st2 p d v,
    sizes_ok sizes -> history_ok (ops ++ more) -> quiet_run host_of (store_init sizes) (ops ++ more) ->
    srun host_of (store_init sizes) ops = Some st -> srun host_of st more = Some st2 ->
    view_of host_of st p d = Some v -> not_queued st d -> never_cleaned d more ->
    exists pl, written ops d = Some pl /\
      look st v = Some (raw_buffers pl) /\ look st2 v = Some (raw_buffers pl).
Proof. exact view_while_not_cleaned. Qed.
Print Assumptions C84_while_not_cleaned_partial.

Example C84_not_cleaned_case :
  exists st st2 v,
    sizes_ok case_sizes /\ history_ok (got ++ deleted_not_cleaned) /\
    quiet_run case_host (store_init case_sizes) (got ++ deleted_not_cleaned) /\
    srun case_host (store_init case_sizes) got = Some st /\
    srun case_host st deleted_not_cleaned = Some st2 /\
    view_of case_host st 0 (1, 0)%nat = Some v /\
    not_queued st (1, 0)%nat /\ never_cleaned (1, 0)%nat deleted_not_cleaned /\
    look st v = Some [[1; 2; 3]; [4]] /\ look st2 v = Some [[1; 2; 3]; [4]].
Proof. exact not_cleaned_stays. Qed.

(* C84 is false once the reference has gone: a value that get returned turns into the result of another task. Process 1
   returns [[1; 2; 3]; [4]], process 0 gets it and deletes the reference; the next result is written over it. *)
Theorem C84_deleted_reference_refuted :
  exists st st2 v,
    sizes_ok case_sizes /\ history_ok (got ++ reference_deleted) /\
    quiet_run case_host (store_init case_sizes) (got ++ reference_deleted) /\
    srun case_host (store_init case_sizes) got = Some st /\
    srun case_host st reference_deleted = Some st2 /\
    view_of case_host st 0 (1, 0)%nat = Some v /\
    look st v = Some [[1; 2; 3]; [4]] /\ look st2 v = Some [[9; 9; 9]; [9]].
Proof. exact deleted_changes. Qed.
Print Assumptions C84_deleted_reference_refuted.

(* The same for the state of an actor on another host: the array it was given and keeps changes when the driver goes on. *)
Theorem C84_actor_state_refuted :
  exists st st2 v,
    sizes_ok case_sizes /\ history_ok (kept_by_actor ++ driver_goes_on) /\
    quiet_run case_host (store_init case_sizes) (kept_by_actor ++ driver_goes_on) /\
    srun case_host (store_init case_sizes) kept_by_actor = Some st /\
    srun case_host st driver_goes_on = Some st2 /\
    view_of case_host st 2 (0, 0)%nat = Some v /\ v_at v = 1%nat /\
    look st v = Some [[1; 2; 3]; [4]] /\ look st2 v = Some [[9; 9; 9]; [9]].
Proof. exact actor_changes. Qed.
Print Assumptions C84_actor_state_refuted.
