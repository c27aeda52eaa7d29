(** Properties C01-C05: shared-memory reservations. *)
From Verif Require Import Lib ShmModel ShmSpec ShmProofs ShmMgrProofs ShmClusterProofs ShmPropLemmas.
Local Open Scope Z_scope.

(** C01: reservations of different IDs never overlap (data and service part), lie inside the
    segments and have positive length, after any history. *)
Theorem C01_reservations_disjoint :
  forall mem svc ops d d' r r',
    Forall op_ok ops ->
    let m := mrun (manager_init mem svc) ops in
    resv m d = Some r -> resv m d' = Some r' -> d <> d' ->
    disjoint_regions (first_index r) (last_index r) (first_index r') (last_index r') /\
    disjoint_regions (service_index r) (service_index r + 4) (service_index r') (service_index r' + 4).
Proof. exact reservations_disjoint. Qed.
Print Assumptions C01_reservations_disjoint.

Theorem C01_reservations_in_bounds :
  forall mem svc ops d r,
    Forall op_ok ops ->
    resv (mrun (manager_init mem svc) ops) d = Some r ->
    0 <= first_index r /\ first_index r < last_index r /\ last_index r <= mem /\
    0 <= service_index r /\ service_index r + 4 <= svc.
Proof. exact reservations_in_bounds. Qed.
Print Assumptions C01_reservations_in_bounds.

(** The reply to a first request has exactly the requested length. *)
Theorem C01_reservation_length :
  forall mem svc ops d size m' r,
    Forall op_ok ops -> 0 < size ->
    mgr_reserve (mrun (manager_init mem svc) ops) d size = (m', Some (r, true)) ->
    last_index r - first_index r = size.
Proof. exact reservation_length. Qed.
Print Assumptions C01_reservation_length.

Example C01_case :
  let ops := [Reserve (2,0)%nat 10; Reserve (2,1)%nat 5; Cleanup [(2,0)%nat] [false]; Reserve (3,0)%nat 4] in
  Forall op_ok ops /\
  resv (mrun (manager_init 20 12) ops) (2,1)%nat
    = Some {| first_index := 10; last_index := 15; service_index := 4 |} /\
  resv (mrun (manager_init 20 12) ops) (3,0)%nat
    = Some {| first_index := 0; last_index := 4; service_index := 0 |}.
Proof. split; [repeat constructor | split; reflexivity]. Qed.

(** C02: a first request of [size] cells is answered iff the unreserved cells contain
    [size] consecutive ones and the unreserved service cells contain 4 consecutive ones. *)
Theorem C02_reserve_succeeds_iff_gap :
  forall mem svc ops d size,
    Forall op_ok ops -> 0 < size ->
    let m := mrun (manager_init mem svc) ops in
    no_memory_error (manager_init mem svc) ops ->
    resv m d = None ->
    (snd (mgr_reserve m d size) <> None <->
     gap_exists (mem_used m) mem size /\ gap_exists (svc_used m) svc 4).
Proof. exact reserve_succeeds_iff_gap. Qed.
Print Assumptions C02_reserve_succeeds_iff_gap.

(** After everything has been released the whole segment is available again, as at start. *)
Theorem C02_all_released_restores :
  forall mem svc ops,
    0 < mem -> 0 < svc ->
    Forall op_ok ops ->
    let m := mrun (manager_init mem svc) ops in
    no_memory_error (manager_init mem svc) ops ->
    (forall d, resv m d = None) ->
    free_memory m = free_memory (manager_init mem svc) /\
    free_service m = free_service (manager_init mem svc).
Proof. exact all_released_restores. Qed.
Print Assumptions C02_all_released_restores.

Example C02_case :
  let ops := [Reserve (2,0)%nat 10; Reserve (2,1)%nat 5; Reserve (2,2)%nat 5;
              Cleanup [(2,1)%nat] [false]; Cleanup [(2,0)%nat; (2,2)%nat] [false; false]] in
  Forall op_ok ops /\ no_memory_error (manager_init 20 12) ops /\
  (forall d, resv (mrun (manager_init 20 12) ops) d = None) /\
  free_memory (mrun (manager_init 20 12) ops) = [(0, 20)].
Proof.
  split; [repeat constructor|]. split; [vm_compute; repeat split; discriminate|]. split; [|reflexivity].
  intros d. vm_compute.
  repeat match goal with |- context [match ?x with _ => _ end] => destruct x end; reflexivity.
Qed.

(** C03: for every data ID the observable events follow the reference automaton. *)
Theorem C03_reservation_stable :
  forall mem svc ops d,
    stable_trace None (trace d (manager_init mem svc) ops).
Proof. exact reservation_stable. Qed.
Print Assumptions C03_reservation_stable.

Example C03_case :
  trace (2,0)%nat (manager_init 20 12)
    [Reserve (2,0)%nat 10; Reserve (3,1)%nat 5; Reserve (2,0)%nat 10; Query (2,0)%nat;
     Cleanup [(2,0)%nat] [false]; Reserve (2,0)%nat 12]
  = [Answered {| first_index := 0; last_index := 10; service_index := 0 |} true;
     Answered {| first_index := 0; last_index := 10; service_index := 0 |} false;
     Located (Some {| first_index := 0; last_index := 10; service_index := 0 |});
     Freed; Refused].
Proof. reflexivity. Qed.

(** C04 (a): a host's reservation disappears only if no host counts references, and only
    for an ID that was named in this or an earlier cleanup request. *)
Theorem C04_freed_only_if_unreferenced :
  forall sizes ops refs ids h m m' d,
    let ms := crun (cluster_init sizes) ops in
    nth_error ms h = Some m ->
    nth_error (cstep ms (CCleanup refs ids)) h = Some m' ->
    resv m d <> None -> resv m' d = None ->
    ~ referenced_somewhere refs ms d /\ In d (pending_cleanup m ++ ids).
Proof. exact freed_only_unreferenced. Qed.
Print Assumptions C04_freed_only_if_unreferenced.

(** C04 (b): an ID still referenced on some host stays queued on every host and all hosts
    keep its region. *)
Theorem C04_referenced_stays_queued :
  forall sizes ops refs ids d,
    let ms := crun (cluster_init sizes) ops in
    referenced_somewhere refs ms d ->
    (queued_everywhere ms d \/ In d ids) ->
    queued_everywhere (cstep ms (CCleanup refs ids)) d /\
    (forall h m m', nth_error ms h = Some m ->
       nth_error (cstep ms (CCleanup refs ids)) h = Some m' -> resv m' d = resv m d).
Proof. exact referenced_queued. Qed.
Print Assumptions C04_referenced_stays_queued.

(** C04 (c): an unreferenced ID that is queued or requested is freed on all hosts. *)
Theorem C04_unreferenced_is_freed :
  forall sizes ops refs ids d,
    let ms := crun (cluster_init sizes) ops in
    ~ referenced_somewhere refs ms d ->
    (queued_everywhere ms d \/ In d ids) ->
    freed_everywhere (cstep ms (CCleanup refs ids)) d.
Proof. exact unreferenced_freed. Qed.
Print Assumptions C04_unreferenced_is_freed.

(** ... and is then no longer queued, so it is freed once. *)
Theorem C04_freed_is_dequeued :
  forall sizes ops refs ids d,
    let ms := crun (cluster_init sizes) ops in
    ~ referenced_somewhere refs ms d ->
    forall m', In m' (cstep ms (CCleanup refs ids)) -> ~ In d (pending_cleanup m').
Proof. exact unreferenced_dequeued. Qed.
Print Assumptions C04_freed_is_dequeued.

(** C04 (d): an ID named in a cleanup request is never forgotten: whatever happens later,
    it is still queued on every host unless some cleanup freed it everywhere. *)
Theorem C04_never_forgotten :
  forall sizes ops1 refs ids ops2 d,
    let ms := crun (cluster_init sizes) ops1 in
    In d ids ->
    queued_everywhere (crun ms (CCleanup refs ids :: ops2)) d \/
    was_freed ms (CCleanup refs ids :: ops2) d.
Proof. exact never_forgotten. Qed.
Print Assumptions C04_never_forgotten.

Example C04_case :
  let ms0 := cluster_init [(20, 12); (30, 12)] in
  let ms1 := crun ms0 [CReserve 0 (2,0)%nat 10; CReserve 1 (2,0)%nat 10] in
  let busy := fun h d => if Nat.eqb h 1 then 1 else 0 in
  referenced_somewhere busy ms1 (2,0)%nat /\
  map (fun m => (resv m (2,0)%nat, pending_cleanup m)) (cstep ms1 (CCleanup busy [(2,0)%nat]))
    = [(Some {| first_index := 0; last_index := 10; service_index := 0 |}, [(2,0)%nat]);
       (Some {| first_index := 0; last_index := 10; service_index := 0 |}, [(2,0)%nat])] /\
  map (fun m => (resv m (2,0)%nat, pending_cleanup m))
      (crun ms1 [CCleanup busy [(2,0)%nat]; CCleanup (fun _ _ => 0) []])
    = [(None, []); (None, [])].
Proof.
  split; [|split; reflexivity].
  exists 1%nat. eexists. split; [reflexivity|]. split; [discriminate | reflexivity].
Qed.

(** C05 is false: a request refused for lack of service slots loses the data memory it had
    already taken, so a later request that would have been accepted is refused too. *)
Theorem C05_memory_error_leaks_refuted :
  exists mem svc ops d size d2 size2 m',
    Forall op_ok ops /\ 0 < size /\ 0 < size2 /\
    no_memory_error (manager_init mem svc) ops /\
    let m := mrun (manager_init mem svc) ops in
    (* the request is refused ... *)
    mgr_reserve m d size = (m', None) /\
    (* ... and after releasing everything a request that fits is refused, *)
    (forall x, resv (mgr_clear m' [(2,0)%nat] [false]) x = None) /\
    snd (mgr_reserve (mgr_clear m' [(2,0)%nat] [false]) d2 size2) = None /\
    (* while without the refused request it would have been accepted. *)
    snd (mgr_reserve (mgr_clear m [(2,0)%nat] [false]) d2 size2) <> None.
Proof. exact memory_error_leaks. Qed.
Print Assumptions C05_memory_error_leaks_refuted.

(** The true part: a refused request never changes what is reserved; and when neither area has room for it, it
    changes nothing at all. *)
Theorem C05_refused_keeps_reservations_partial :
  forall m d size m',
    mgr_reserve m d size = (m', None) ->
    resv m' = resv m /\ pending_cleanup m' = pending_cleanup m.
Proof. exact refused_keeps_reservations. Qed.
Print Assumptions C05_refused_keeps_reservations_partial.

Theorem C05_refused_without_gaps_partial :
  forall mem svc ops d size m',
    0 < mem -> 0 < svc -> Forall op_ok ops -> 0 < size ->
    let m := mrun (manager_init mem svc) ops in
    no_memory_error (manager_init mem svc) ops ->
    mgr_reserve m d size = (m', None) ->
    ~ gap_exists (mem_used m) mem size -> ~ gap_exists (svc_used m) svc 4 -> m' = m.
Proof. exact refused_without_gaps. Qed.
Print Assumptions C05_refused_without_gaps_partial.

Example C05_case :
  let ops := [Reserve (2,0)%nat 5; Reserve (2,1)%nat 4] in let m := mrun (manager_init 10 8) ops in
  Forall op_ok ops /\ no_memory_error (manager_init 10 8) ops /\ snd (mgr_reserve m (2,2)%nat 3) = None /\
  ~ gap_exists (mem_used m) 10 3 /\ ~ gap_exists (svc_used m) 8 4.
Proof.
  split; [repeat constructor|]. split; [vm_compute; repeat split; discriminate|]. split; [reflexivity|]. split.
  - intros (a & A1 & A2 & H). apply (H a); [unfold in_region; lia|]. unfold in_region.
    destruct (Z_lt_ge_dec a 5); [exists (2,0)%nat | exists (2,1)%nat]; (eexists; split; [vm_compute; reflexivity|]); unfold in_region; cbn; lia.
  - intros (a & A1 & A2 & H). apply (H a); [unfold in_region; lia|]. unfold in_region.
    destruct (Z_lt_ge_dec a 4); [exists (2,0)%nat | exists (2,1)%nat]; (eexists; split; [vm_compute; reflexivity|]); unfold in_region, INFO_SIZE; cbn; lia.
Qed.
