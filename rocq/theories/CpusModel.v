(** num_cpus of the backends (unidist/api.py:238-247); cluster_resources is in TopoModel. *)
From Verif Require Import Lib TopoModel.

(** MPI: CpuCount.get() at the root (mpi/backend.py:139-147). *)
Definition mpi_num_cpus (cpu_count : nat) : nat := cpu_count.

(** Dask: the number of workers; host and threads of each, as in scheduler_info (dask/backend.py:147-155). *)
Definition dask_num_cpus (ws : list (nat * nat)) : nat := length ws.

(** Ray: the CPUs of all nodes; None: KeyError without any (ray/backend.py:131-139). Address and CPUs of each node; a node without CPUs has no
    such entry. *)
Definition ray_num_cpus (nodes : list (nat * option nat)) : option nat :=
  match flat_map (fun n => match snd n with Some c => [c] | None => [] end) nodes with
  | [] => None
  | l => Some (list_sum l)
  end.

(** PyMp: CpuCount.get() for both (pymp/backend.py:135-153). *)
Definition pymp_num_cpus (cpu_count : nat) : nat := cpu_count.
(** PyMp (pymp/backend.py:145-153). *)
Definition pymp_resources (ip cpu_count : nat) : list (nat * nat) := [(ip, pymp_num_cpus cpu_count)].

(** PySeq (pyseq/backend.py:138-146). *)
Definition pyseq_num_cpus : nat := 1.
(** PySeq (pyseq/backend.py:148-157). *)
Definition pyseq_resources (ip : nat) : list (nat * nat) := [(ip, pyseq_num_cpus)].
