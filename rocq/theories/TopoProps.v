(** C38 to C40. [place] gives the machine of each rank, [addr] the address of each machine, [shm] says
    whether the shared object store is used. *)
From Verif Require Import Lib Dict TopoModel TopoProofs TopoCases.
From Coq Require Import Permutation.

(** C38. With at least two processes, on each machine if the shared store is used, and distinct
    addresses: the root (rank 0), the
    monitors and the workers partition the ranks. With the shared store each machine has exactly one
    monitor, which is the one every process on that machine talks to; otherwise rank 1 is the only one. *)
Theorem C38_roles_partial : forall place addr,
  (forall a b, In a place -> In b place -> addr a = addr b -> a = b) ->
  forall shm, 2 <= length place ->
  (shm = true -> forall k, In k place -> 2 <= count_occ Nat.eq_dec place k) ->
  exists monitors, monitor_processes place addr shm = Some monitors /\
    Permutation (0 :: monitors ++ workers place addr monitors) (seq 0 (length place)) /\
    (shm = false -> monitors = [1] /\ forall r, get_monitor place addr shm r = Some 1) /\
    (shm = true -> forall r, r < length place ->
       exists m, get_monitor place addr shm r = Some m /\ In m monitors /\
         nth m place 0 = nth r place 0 /\
         forall m', In m' monitors -> nth m' place 0 = nth r place 0 -> m' = m).
Proof. exact roles_any. Qed.
Print Assumptions C38_roles_partial.

(** C38. There are as many monitors as machines with the shared store. *)
Theorem C38_one_monitor_per_machine : forall place addr,
  (forall a b, In a place -> In b place -> addr a = addr b -> a = b) ->
  (forall k, In k place -> 2 <= count_occ Nat.eq_dec place k) -> place <> [] ->
  forall monitors, monitor_processes place addr true = Some monitors ->
  length monitors = length (nodup Nat.eq_dec place).
Proof. exact count_hosts. Qed.
Print Assumptions C38_one_monitor_per_machine.

(** A machine with a single process is rejected at start. *)
Theorem C38_single_process_rejected : forall place addr,
  (forall a b, In a place -> In b place -> addr a = addr b -> a = b) ->
  forall k, count_occ Nat.eq_dec place k = 1 -> monitor_processes place addr true = None.
Proof. exact too_few. Qed.
Print Assumptions C38_single_process_rejected.

(** C38 is false if the names of two machines resolve to the same address (as with 127.0.1.1): some
    ranks are neither root nor monitor nor worker, although every machine has enough processes. *)
Theorem C38_same_address_refuted : exists place addr monitors r,
  (forall k, In k place -> 2 <= count_occ Nat.eq_dec place k) /\
  monitor_processes place addr true = Some monitors /\ r < length place /\
  r <> 0 /\ ~ In r monitors /\ ~ In r (workers place addr monitors).
Proof. exact same_address. Qed.
Print Assumptions C38_same_address_refuted.

(** C39. cluster_resources lists each machine once, with its number of workers; in total all
    processes but the root and the monitors. *)
Theorem C39_cluster_resources : forall place addr,
  (forall a b, In a place -> In b place -> addr a = addr b -> a = b) ->
  forall shm, 2 <= length place ->
  (shm = true -> forall k, In k place -> 2 <= count_occ Nat.eq_dec place k) -> forall monitors, monitor_processes place addr shm = Some monitors ->
  let resources := cluster_resources place addr monitors in
  NoDup (map fst resources) /\
  (forall h, In h (map fst resources) <-> exists k, In k place /\ h = addr k) /\
  (forall k, In k place -> aget (addr k) resources =
     Some (length (filter (fun r => Nat.eqb (nth r place 0) k) (workers place addr monitors)))) /\
  list_sum (map snd resources) + 1 + length monitors = length place.
Proof. exact resources_any. Qed.
Print Assumptions C39_cluster_resources.

(** C39 on Dask: each host gets the sum of its workers' threads, those on 127.0.0.1 under the machine's
    own address, if no worker is known under both. *)
Theorem C39_dask_partial : forall ip workers, ip <> LOCALHOST ->
  (In LOCALHOST (map fst workers) -> ~ In ip (map fst workers)) ->
  let real h := if Nat.eqb h LOCALHOST then ip else h in
  let workers' := map (fun w => (real (fst w), snd w)) workers in
  forall h, aget h (dask_resources ip workers) =
    if mem h (map fst workers')
    then Some (list_sum (map snd (filter (fun w => Nat.eqb (fst w) h) workers'))) else None.
Proof. exact dask_hosts. Qed.
Print Assumptions C39_dask_partial.

(** Otherwise CPUs disappear from the report. *)
Theorem C39_dask_refuted : exists ip workers, ip <> LOCALHOST /\
  list_sum (map snd (dask_resources ip workers)) < list_sum (map snd workers).
Proof. exact dask_loses. Qed.
Print Assumptions C39_dask_refuted.

(** C39 on Ray, if no two nodes have the same address. *)
Theorem C39_ray_partial : forall nodes h cpus, NoDup (map fst nodes) -> In (h, cpus) nodes ->
  aget h (ray_resources nodes) = Some (match cpus with Some c => c | None => 1 end).
Proof. exact ray_hosts. Qed.
Print Assumptions C39_ray_partial.

Theorem C39_ray_refuted : exists nodes h c1 c2, nodes = [(h, Some c1); (h, Some c2)] /\
  list_sum (map snd (ray_resources nodes)) < c1 + c2.
Proof. exact ray_loses. Qed.
Print Assumptions C39_ray_refuted.

(** C40. The slots of the hosts add up to the spawned processes and the root, and differ by at
    most one. *)
Theorem C40_slots_sum : forall nprocs hosts, hosts <> 0 -> list_sum (slots_per_host nprocs hosts) = nprocs + 1.
Proof. exact sum_slots. Qed.
Print Assumptions C40_slots_sum.

Theorem C40_slots_even : forall nprocs hosts s s',
  In s (slots_per_host nprocs hosts) -> In s' (slots_per_host nprocs hosts) -> s <= S s'.
Proof. exact slots_fair. Qed.
Print Assumptions C40_slots_even.

(** C40. Once started on the requested number of machines there are as many workers as the configured CPU
    count. *)
Theorem C40_workers_as_configured : forall place addr shm cpu_count hosts,
  (forall a b, In a place -> In b place -> addr a = addr b -> a = b) ->
  (shm = true -> forall k, In k place -> 2 <= count_occ Nat.eq_dec place k) ->
  length place = S (nprocs_to_spawn shm cpu_count hosts) ->
  (shm = true -> length (nodup Nat.eq_dec place) = hosts) ->
  exists monitors, monitor_processes place addr shm = Some monitors /\
    length (workers place addr monitors) = cpu_count.
Proof. exact spawned_workers. Qed.
Print Assumptions C40_workers_as_configured.

(** C40. With the shared store every host gets the two processes it needs exactly if there is at
    least one CPU for each other host. *)
Theorem C40_enough_slots : forall cpu_count hosts, hosts <> 0 ->
  (forall s, In s (slots_per_host (nprocs_to_spawn true cpu_count hosts) hosts) -> 2 <= s) <->
  hosts <= cpu_count + 1.
Proof. exact slots_two. Qed.
Print Assumptions C40_enough_slots.

(** Three machines, nine processes placed in turn. *)
Example C38_case : let place := [0; 1; 2; 0; 1; 2; 0; 1; 2] in
  (forall k, In k place -> 2 <= count_occ Nat.eq_dec place k) /\
  monitor_processes place (fun k => k + 5) true = Some [3; 4; 5] /\
  workers place (fun k => k + 5) [3; 4; 5] = [6; 1; 7; 2; 8] /\
  get_monitor place (fun k => k + 5) true 8 = Some 5 /\
  cluster_resources place (fun k => k + 5) [3; 4; 5] = [(5, 1); (6, 2); (7, 2)].
Proof. exact nine. Qed.

Example C40_case : slots_per_host (nprocs_to_spawn true 5 3) 3 = [3; 3; 3] /\
  slots_per_host (nprocs_to_spawn false 5 4) 4 = [2; 2; 2; 1].
Proof. exact (conj eq_refl eq_refl). Qed.

Example C39_dask_case : dask_resources 9 [(0, 4); (7, 2); (0, 4)] = [(7, 2); (9, 8)].
Proof. exact eq_refl. Qed.
