(** Shutdown of the whole MPI program: root, workers, monitors and the messages in flight.
    Models controller/api.py:305-340 (shutdown), worker/loop.py:104-112, 212-229 (CANCEL, SHUTDOWN)
    and monitor/loop.py:260-287 (through MonModel). *)
From Verif Require Import Lib ShmModel DataIdModel TopoModel MonModel.

(** CANCEL, READY_TO_SHUTDOWN, SHUTDOWN as an operation and SHUTDOWN as an object (to the root). mpi/core/common.py:77-80
    (Operation), sent in worker/loop.py:216-220, controller/api.py:322-326, monitor/loop.py:274-283. *)
Inductive smsg := SCancel | SAck | SStop | SStopObj.

(** A worker: in its loop, CANCEL processed (ready_to_shutdown_posted), left the loop, or killed by
    the ValueError of worker/loop.py:228-229. *)
Inductive wstat := WkRun | WkReady | WkGone | WkDead.

(** The root: before shutdown, sending CANCEL to the workers listed, waiting for the monitor, done.
    controller/api.py:313-340. *)
Inductive rphase := RRun | RCancel (l : list rank) | RWait | RGone.

(** Ranks of the workers and the monitors, and the monitor of the root's host: what
    get_monitor_by_worker_rank(ROOT) gives (communication.py:238-261). *)
Record scfg := { s_workers : list rank; s_monitors : list rank; s_rmon : rank }.

(** As every process finds them at start (see TopoModel). communication.py:134-179, 238-261. *)
Definition cluster (place : list nat) (addr : nat -> nat) (shm : bool) : option scfg :=
  match monitor_processes place addr shm, get_monitor place addr shm ROOT with
  | Some ms, Some m => Some {| s_workers := workers place addr ms; s_monitors := ms; s_rmon := m |}
  | _, _ => None
  end.

(** What is sent and taken. Not in the code: the log that the theorems speak about (sends in controller/api.py:322,
    worker/loop.py:216, monitor/loop.py:274-283). *)
Inductive sev :=
| SvSend (src dst : rank) (m : smsg)
| SvGot (dst : rank) (m : smsg).

(** The processes (is_mpi_shutdown of controller/api.py:314, ready_to_shutdown_posted of worker/loop.py:102,
    workers_ready_to_shutdown of monitor/loop.py:186, 261-262), the messages under way and the log. *)
Record ssys := {
  sroot : rphase;
  sworker : rank -> wstat;
  smon : rank -> mst;
  snet : list (rank * rank * smsg);
  slog : list sev
}.

(** Every process at its Barrier, before shutdown: worker/loop.py:95-102, monitor/loop.py:180-187. *)
Definition sinit (g : rank -> manager) : ssys :=
  {| sroot := RRun; sworker := fun _ => WkRun; smon := fun r => minit (g r); snet := []; slog := [] |}.

(** Change at one rank; an update of the state of one process (worker/loop.py:221, monitor/loop.py:261,
    controller/api.py:340). *)
Definition fupd {A} (f : rank -> A) (r : rank) (a : A) : rank -> A := fun x => if Nat.eqb x r then a else f x.

(** The root goes on: controller/api.py:313-340. *)
Definition set_root (s : ssys) (p : rphase) : ssys :=
  {| sroot := p; sworker := sworker s; smon := smon s; snet := snet s; slog := slog s |}.
(** A worker goes on: worker/loop.py:210-227. *)
Definition set_worker (s : ssys) (r : rank) (a : wstat) : ssys :=
  {| sroot := sroot s; sworker := fupd (sworker s) r a; smon := smon s; snet := snet s; slog := slog s |}.
(** A monitor goes on: monitor/loop.py:260-287. *)
Definition set_mon (s : ssys) (r : rank) (a : mst) : ssys :=
  {| sroot := sroot s; sworker := sworker s; smon := fupd (smon s) r a; snet := snet s; slog := slog s |}.

(** Sending puts a message into the network; the send is recorded. A send that blocks until the receiver takes the message
    allows fewer behaviours than this. mpi_send_operation, mpi_send_object: communication.py:277-316. *)
Definition send (s : ssys) (src dst : rank) (m : smsg) : ssys :=
  {| sroot := sroot s; sworker := sworker s; smon := smon s; snet := snet s ++ [(src, dst, m)];
     slog := slog s ++ [SvSend src dst m] |}.

(** Receiving message number i: mpi_recv_operation, mpi_recv_object (communication.py:375-407). *)
Definition take (s : ssys) (i : nat) (dst : rank) (m : smsg) : ssys :=
  {| sroot := sroot s; sworker := sworker s; smon := smon s; snet := remove_at i (snet s);
     slog := slog s ++ [SvGot dst m] |}.

(** What a monitor knows of the cluster: MPIState (communication.py:117, 157-179), used in monitor/loop.py:262, 272-273. *)
Definition mcfg_of (c : scfg) (r : rank) : mcfg :=
  {| c_self := r; c_workers := s_workers c; c_monitors := s_monitors c |}.

(** The messages a monitor sends in one turn, from its log. monitor/loop.py:272-283. *)
Definition sends_of (evs : list mev) : list (rank * smsg) :=
  flat_map (fun e => match e with
                     | MvStop r => [(r, SStop)]
                     | MvStopRoot => [(ROOT, SStopObj)]
                     | _ => [] end) evs.

(** One turn of the loop of monitor r on message m (None: the process died or has left). monitor/loop.py:188-287. *)
Definition mon_turn (c : scfg) (s : ssys) (r : rank) (m : mmsg) : option ssys :=
  if mstopped (smon s r) then None
  else match mon_step (mcfg_of c r) (smon s r) m with
       | None => None
       | Some t => Some (fold_left (fun s p => send s r (fst p) (snd p))
                           (sends_of (skipn (length (mlog (smon s r))) (mlog t))) (set_mon s r t))
       end.

(** rank in mpi_state.workers or monitor_processes (communication.py:236). *)
Definition mem_rank (r : rank) (l : list rank) : bool := existsb (Nat.eqb r) l.

(** What happens next: the root starts shutdown (api.py:314-317), sends the next CANCEL (319-327),
    the i-th message in flight is received, or a monitor receives some other operation. Messages
    arrive in any order (a superset of MPI's non-overtaking orders). *)
Inductive act := AStart | ACancel | ADeliver (i : nat) | AOther (r : rank) (m : mmsg).

(** The messages to a monitor that have nothing to do with shutdown: monitor/loop.py:197-259. *)
Definition other (m : mmsg) : bool := match m with MAck _ | MStop => false | _ => true end.

(** Receiving at a worker (worker/loop.py:212-229). *)
Definition worker_recv (c : scfg) (s : ssys) (r : rank) (m : smsg) : option ssys :=
  match sworker s r with
  | WkRun =>
      match m with
      | SCancel => Some (set_worker (send s r (s_rmon c) SAck) r WkReady)
      | _ => Some (set_worker s r WkDead)
      end
  | WkReady =>
      match m with
      | SCancel => Some (set_worker (send s r (s_rmon c) SAck) r WkReady)
      | SStop => Some (set_worker s r WkGone)
      | _ => Some (set_worker s r WkDead)
      end
  | WkGone | WkDead => None
  end.

(** Receiving at a monitor: READY_TO_SHUTDOWN and SHUTDOWN (monitor/loop.py:260-267). *)
Definition monitor_recv (c : scfg) (s : ssys) (r src : rank) (m : smsg) : option ssys :=
  match m with
  | SAck => mon_turn c s r (MAck src)
  | SStop => mon_turn c s r MStop
  | _ => None
  end.

(** The root receives an object from rank MONITOR only (api.py:329-334). *)
Definition root_recv (s : ssys) (src : rank) (m : smsg) : option ssys :=
  match sroot s, m with
  | RWait, SStopObj => if Nat.eqb src MONITOR then Some (set_root s RGone) else None
  | _, _ => None
  end.

(** None: not possible now. controller/api.py:305-340 (AStart, ACancel, the answer), worker/loop.py:210-233 (CANCEL,
    SHUTDOWN), monitor/loop.py:188-287. *)
Definition sstep (c : scfg) (s : ssys) (a : act) : option ssys :=
  match a with
  | AStart => match sroot s with RRun => Some (set_root s (RCancel (s_workers c))) | _ => None end
  | ACancel =>
      match sroot s with
      | RCancel (w :: l) => Some (set_root (send s ROOT w SCancel) (RCancel l))
      | RCancel [] => Some (set_root s RWait)
      | _ => None
      end
  | ADeliver i =>
      match nth_error (snet s) i with
      | None => None
      | Some (src, dst, m) =>
          let s1 := take s i dst m in
          if Nat.eqb dst ROOT then root_recv s1 src m
          else if mem_rank dst (s_workers c) then worker_recv c s1 dst m
          else if mem_rank dst (s_monitors c) then monitor_recv c s1 dst src m
          else None
      end
  | AOther r m => if mem_rank r (s_monitors c) && other m then mon_turn c s r m else None
  end.

(** Actions that are not possible are skipped. Any history of the whole: the loops of worker/loop.py:103 and
    monitor/loop.py:188 beside shutdown (controller/api.py:305-340). *)
Fixpoint srun (c : scfg) (s : ssys) (acts : list act) : ssys :=
  match acts with
  | [] => s
  | a :: r => srun c (match sstep c s a with Some s' => s' | None => s end) r
  end.
