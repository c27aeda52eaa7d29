(** C79: num_cpus is the total of the CPUs in cluster_resources. *)
From Verif Require Import Lib Dict TopoModel TopoProofs CpusModel CpusProofs CpusCases.

(** MPI, with the processes that init spawns for [cpu_count] CPUs and [hosts] hosts ([place]: the machine of each rank; the hosts are all used and
    have a root or worker beside the monitor if the shared store is on). What is missing from the property: processes started by mpiexec. *)
Theorem C79_mpi_partial :
  forall place addr shm cpu_count hosts,
    (forall a b, In a place -> In b place -> addr a = addr b -> a = b) ->
    length place = S (nprocs_to_spawn shm cpu_count hosts) ->
    (shm = true -> (forall k, In k place -> 2 <= count_occ Nat.eq_dec place k) /\ length (nodup Nat.eq_dec place) = hosts) ->
    exists monitors, monitor_processes place addr shm = Some monitors /\
      list_sum (map snd (cluster_resources place addr monitors)) = mpi_num_cpus cpu_count.
Proof. exact mpi_cpus. Qed.
Print Assumptions C79_mpi_partial.

Example C79_mpi_case :
  (forall a b, In a two_hosts -> In b two_hosts -> a + 10 = b + 10 -> a = b) /\
  length two_hosts = S (nprocs_to_spawn true 5 2) /\
  (forall k, In k two_hosts -> 2 <= count_occ Nat.eq_dec two_hosts k) /\ length (nodup Nat.eq_dec two_hosts) = 2 /\
  monitor_processes two_hosts (fun k => k + 10) true = Some [1; 5] /\
  cluster_resources two_hosts (fun k => k + 10) [1; 5] = [(10, 2); (11, 3)].
Proof. exact c79_mpi. Qed.

(** Six processes of mpiexec: four workers, num_cpus is the number of CPUs of the machine. *)
Theorem C79_mpiexec_refuted :
  exists place addr cpu_count monitors,
    monitor_processes place addr false = Some monitors /\
    list_sum (map snd (cluster_resources place addr monitors)) <> mpi_num_cpus cpu_count.
Proof. exact c79_mpiexec. Qed.
Print Assumptions C79_mpiexec_refuted.

(** Dask: cluster_resources gives the total of all threads, so the two agree exactly if every worker has one thread. [ws]: host and threads of each
    worker; not covered are hosts known both as localhost and by their address (C39_dask_refuted). *)
Theorem C79_dask_partial :
  forall ip ws, ip <> LOCALHOST -> (In LOCALHOST (map fst ws) -> ~ In ip (map fst ws)) ->
    list_sum (map snd (dask_resources ip ws)) = list_sum (map snd ws) /\
    ((forall w, In w ws -> 1 <= snd w) ->
     (list_sum (map snd (dask_resources ip ws)) = dask_num_cpus ws <-> forall w, In w ws -> snd w = 1)).
Proof. exact dask_cpus. Qed.
Print Assumptions C79_dask_partial.

(** Two workers of two threads. *)
Theorem C79_dask_refuted : dask_resources 9 [(0, 2); (0, 2)] = [(9, 4)] /\ dask_num_cpus [(0, 2); (0, 2)] = 2.
Proof. exact c79_dask. Qed.
Print Assumptions C79_dask_refuted.

(** Ray: the two agree exactly if every node has CPUs to offer, for nodes of different addresses. *)
Theorem C79_ray_partial :
  forall nodes, NoDup (map fst nodes) -> nodes <> [] ->
    (ray_num_cpus nodes = Some (list_sum (map snd (ray_resources nodes))) <-> forall n, In n nodes -> snd n <> None).
Proof. exact ray_cpus. Qed.
Print Assumptions C79_ray_partial.

(** A node without CPUs counts for one in cluster_resources; alone, it makes num_cpus raise. *)
Theorem C79_ray_refuted :
  ray_resources [(7, Some 4); (8, None)] = [(7, 4); (8, 1)] /\ ray_num_cpus [(7, Some 4); (8, None)] = Some 4 /\
  ray_num_cpus [(8, None)] = None.
Proof. exact c79_ray. Qed.
Print Assumptions C79_ray_refuted.

(** The local backends. *)
Theorem C79_local :
  forall ip cpu_count,
    list_sum (map snd (pymp_resources ip cpu_count)) = pymp_num_cpus cpu_count /\
    list_sum (map snd (pyseq_resources ip)) = pyseq_num_cpus.
Proof. exact local_cpus. Qed.
Print Assumptions C79_local.
