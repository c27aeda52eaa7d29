(** Concrete cases for C79. *)
From Verif Require Import Lib Dict TopoModel TopoProofs CpusModel.

(** Two machines, the shared store, five CPUs asked for: eight processes. *)
Definition two_hosts : list nat := [0; 0; 0; 0; 1; 1; 1; 1].

Lemma c79_mpi :
  (forall a b, In a two_hosts -> In b two_hosts -> a + 10 = b + 10 -> a = b) /\
  length two_hosts = S (nprocs_to_spawn true 5 2) /\
  (forall k, In k two_hosts -> 2 <= count_occ Nat.eq_dec two_hosts k) /\ length (nodup Nat.eq_dec two_hosts) = 2 /\
  monitor_processes two_hosts (fun k => k + 10) true = Some [1; 5] /\
  cluster_resources two_hosts (fun k => k + 10) [1; 5] = [(10, 2); (11, 3)].
Proof.
  split; [intros; lia|]. split; [reflexivity|]. split.
  - intros k I. repeat (destruct I as [<-|I]; [simpl; lia|]). destruct I.
  - repeat split; reflexivity.
Qed.

(** Six processes started by mpiexec on a machine with sixteen CPUs. *)
Lemma c79_mpiexec :
  exists place addr cpu_count monitors,
    monitor_processes place addr false = Some monitors /\
    list_sum (map snd (cluster_resources place addr monitors)) <> mpi_num_cpus cpu_count.
Proof. exists (repeat 0 6), (fun k => k + 10), 16, [1]. split; [reflexivity | discriminate]. Qed.

Lemma c79_dask : dask_resources 9 [(0, 2); (0, 2)] = [(9, 4)] /\ dask_num_cpus [(0, 2); (0, 2)] = 2.
Proof. split; reflexivity. Qed.

Lemma c79_ray : ray_resources [(7, Some 4); (8, None)] = [(7, 4); (8, 1)] /\ ray_num_cpus [(7, Some 4); (8, None)] = Some 4 /\
  ray_num_cpus [(8, None)] = None.
Proof. repeat split; reflexivity. Qed.
