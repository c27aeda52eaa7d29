(** Model of the cluster topology: communication.py:115-269 (MPIState), controller/api.py:208-238 (the
    numbers in init) and 343-368 (cluster_resources), dask/backend.py:156-175, ray/backend.py:140-158.

    A cluster is given by the machine of each rank; [addr] is what
    socket.gethostbyname(socket.gethostname()) gives on a machine. Split_type gives each process its
    position among the processes of its machine, in the order of ranks. allgather gives every
    process the same list, in the order of ranks. *)
From Verif Require Import Lib Dict.

(** MPIRank (communication.py:264-269). *)
Definition ROOT := 0.      (* MPIRank.ROOT *)
(** MPIRank (communication.py:264-269). *)
Definition MONITOR := 1.   (* MPIRank.MONITOR *)

Section Topo.
Variable place : list nat.        (* machine of rank 0, 1, ... *)
Variable addr : nat -> nat.       (* address of a machine *)
Variable shm : bool.              (* is_shared_memory_supported() *)

(** Position of rank [r] on its machine. host_comm.Get_rank() after Split_type(COMM_TYPE_SHARED): communication.py:127-129.
    *)
Definition host_rank (r : nat) : nat :=
  count_occ Nat.eq_dec (firstn r place) (nth r place 0).

(** (host, global_rank, host_rank) of every rank (communication.py:129-133). *)
Definition cluster_info : list (nat * nat * nat) :=
  map (fun r => (addr (nth r place 0), r, host_rank r)) (seq 0 (length place)).

(** self.topology: a dictionary by host of dictionaries by host_rank (communication.py:134, 136-137). *)
Definition topology : list (nat * list (nat * nat)) :=
  fold_left (fun t i => match i with (h, g, hr) =>
               aset h (aset hr g (match aget h t with Some m => m | None => [] end)) t end)
            cluster_info [].

(** self.host_by_rank (communication.py:135-138). *)
Definition host_by_rank (r : nat) : option nat :=
  if Nat.ltb r (length place) then Some (addr (nth r place 0)) else None.

(** The loop over the hosts (communication.py:158-166). [None]: the root raises ValueError. Other processes go on without a
    monitor for the host; as the root does not get any further, this is not followed up. *)
Fixpoint shm_monitors (t : list (nat * list (nat * nat))) : option (list nat) :=
  match t with
  | [] => Some []
  | (h, m) :: r =>
      if Nat.leb 2 (length m)
      then match aget MONITOR m, shm_monitors r with
           | Some x, Some l => Some (x :: l)
           | _, _ => None      (* KeyError or ValueError *)
           end
      else None
  end.

(** self.monitor_processes (communication.py:157-168). *)
Definition monitor_processes : option (list nat) :=
  if shm then shm_monitors topology else Some [MONITOR].

(** x in self.monitor_processes (communication.py:236). *)
Definition mem (x : nat) (l : list nat) : bool := existsb (Nat.eqb x) l.

(** self.workers (communication.py:170-179). *)
Definition workers (monitors : list nat) : list nat :=
  flat_map (fun hm => filter (fun r => negb (Nat.eqb r ROOT) && negb (mem r monitors)) (map snd (snd hm)))
           topology.

(** get_monitor_by_worker_rank (communication.py:238-261); [None]: ValueError or KeyError. *)
Definition get_monitor (r : nat) : option nat :=
  if shm then
    match host_by_rank r with
    | None => None
    | Some h => match aget h topology with Some m => aget MONITOR m | None => None end
    end
  else Some MONITOR.

(** cluster_resources (api.py:343-368). *)
Definition cluster_resources (monitors : list nat) : list (nat * nat) :=
  map (fun hm => (fst hm,
         length (filter (fun r => negb (Nat.eqb r ROOT) && negb (mem r monitors)) (map snd (snd hm)))))
      topology.
End Topo.

(** api.py:208-238: how many processes to spawn, and how many slots each host gets. int(a / b) is
    taken to be exact division (true below 2^53). *)
Definition nprocs_to_spawn (shm : bool) (cpu_count host_count : nat) : nat :=
  if shm then cpu_count + host_count else cpu_count + 1.

(** slots_per_host in init (controller/api.py:221-227). *)
Definition slots_per_host (nprocs host_count : nat) : list nat :=
  let slot_count := nprocs + 1 in
  map (fun i => slot_count / host_count + (if Nat.ltb i (slot_count mod host_count) then 1 else 0))
      (seq 0 host_count).

(** DaskBackend.cluster_resources (dask/backend.py:156-175): host and threads of each worker; [ip] is get_ip(). *)
Definition LOCALHOST := 0.
(** DaskBackend.cluster_resources (dask/backend.py:157-175): the addresses and thread counts of the workers summed,
    127.0.0.1 replaced by the address [ip] of this machine. *)
Definition dask_resources (ip : nat) (ws : list (nat * nat)) : list (nat * nat) :=
  let t := fold_left (fun t w => aset (fst w)
              (match aget (fst w) t with Some c => c | None => 0 end + snd w) t) ws [] in
  match aget LOCALHOST t with
  | Some c => aset ip c (adel LOCALHOST t)
  | None => t
  end.

(** RayBackend.cluster_resources (ray/backend.py:140-158): address and CPUs of each node. *)
Definition ray_resources (nodes : list (nat * option nat)) : list (nat * nat) :=
  fold_left (fun t n => aset (fst n) (match snd n with Some c => c | None => 1 end) t) nodes [].
