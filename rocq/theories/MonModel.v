(** The monitor process.
    Models mpi/core/monitor/loop.py:32-287. *)
From Verif Require Import Lib ShmModel.

(** Operations a monitor receives (loop.py:188-269), with their payload and sender. MClean carries
    the reference flags agreed by all monitors (an Allreduce inside clear; see ShmModel). *)
Inductive mmsg :=
| MDone (src : rank) (ds : list dataid)
| MWait (ds : list dataid) (n : Z)
| MCount (src : rank)
| MReserve (src : rank) (d : dataid) (size : Z)
| MShared (src : rank) (d : dataid)
| MClean (ds : list dataid) (all_refs : list bool)
| MAck (src : rank)
| MStop.

(** What a monitor does, visible to others. The sends in monitor/loop.py:151-155, 216-220, 230-234, 248-253, 274-283. *)
Inductive mev :=
| MvIn (m : mmsg)
| MvAnswer (rdy nrdy : list dataid)
| MvCount (dst : rank) (c : nat)
| MvReserve (dst : rank) (i : resinfo) (first : bool)
| MvShared (dst : rank) (lo hi : Z)
| MvStop (dst : rank)
| MvStopRoot.

(** TaskCounter (32-53), DataIDTracker (56-88), WaitHandler (91-103), the SharedMemoryManager and the local variables of
    monitor_loop (174-187). The two singletons are fields; mlog is not in the code: it records what is received and sent.
    stopped: the loop was left. The lines are in monitor/loop.py. *)
Record mst := {
  mmgr : manager;
  mcount : nat;
  mcompleted : list dataid;
  mawaited : list dataid;
  mready : list dataid;
  mnum : Z;
  macks : list rank;
  mstopped : bool;
  mlog : list mev
}.

(** loop.py:174-187. *)
Definition minit (mgr : manager) : mst :=
  {| mmgr := mgr; mcount := 0; mcompleted := []; mawaited := []; mready := []; mnum := 0;
     macks := []; mstopped := false; mlog := [] |}.

(** Records an event; not code (monitor/loop.py:151-283 are the events). *)
Definition memit (s : mst) (e : mev) : mst :=
  {| mmgr := mmgr s; mcount := mcount s; mcompleted := mcompleted s; mawaited := mawaited s;
     mready := mready s; mnum := mnum s; macks := macks s; mstopped := mstopped s;
     mlog := mlog s ++ [e] |}.

(** The attributes of WaitHandler (monitor/loop.py:98-102, 128-129, 156-157). *)
Definition set_wait (s : mst) (aw rd : list dataid) (n : Z) : mst :=
  {| mmgr := mmgr s; mcount := mcount s; mcompleted := mcompleted s; mawaited := aw; mready := rd;
     mnum := n; macks := macks s; mstopped := mstopped s; mlog := mlog s |}.

(** TaskCounter.increment and DataIDTracker.add_to_completed (monitor/loop.py:51-53, 79-88). *)
Definition set_done (s : mst) (c : nat) (cp : list dataid) : mst :=
  {| mmgr := mmgr s; mcount := c; mcompleted := cp; mawaited := mawaited s; mready := mready s;
     mnum := mnum s; macks := macks s; mstopped := mstopped s; mlog := mlog s |}.

(** shm_manager (monitor/loop.py:178). *)
Definition set_mgr (s : mst) (g : manager) : mst :=
  {| mmgr := g; mcount := mcount s; mcompleted := mcompleted s; mawaited := mawaited s;
     mready := mready s; mnum := mnum s; macks := macks s; mstopped := mstopped s; mlog := mlog s |}.

(** workers_ready_to_shutdown (monitor/loop.py:186, 261). *)
Definition set_acks (s : mst) (a : list rank) : mst :=
  {| mmgr := mmgr s; mcount := mcount s; mcompleted := mcompleted s; mawaited := mawaited s;
     mready := mready s; mnum := mnum s; macks := a; mstopped := mstopped s; mlog := mlog s |}.

(** break (monitor/loop.py:267, 287). *)
Definition set_stopped (s : mst) : mst :=
  {| mmgr := mmgr s; mcount := mcount s; mcompleted := mcompleted s; mawaited := mawaited s;
     mready := mready s; mnum := mnum s; macks := macks s; mstopped := true; mlog := mlog s |}.

(** list.remove: the first occurrence. monitor/loop.py:145. *)
Fixpoint rm1 (d : dataid) (l : list dataid) : list dataid :=
  match l with [] => [] | x :: r => if did_eqb x d then r else x :: rm1 d r end.

(** The while loop of WaitHandler.process_wait_requests (loop.py:139-159), i being its index.
    Every turn either removes an element or increments i, so length of awaited minus i turns are
    enough; fuel counts them. When an answer is sent both lists are emptied and the loop ends. *)
Fixpoint scan (fuel : nat) (i : nat) (s : mst) : mst :=
  match fuel with
  | 0 => s
  | S fuel =>
      match nth_error (mawaited s) i with
      | None => s
      | Some d =>
          if did_in d (mcompleted s)
          then let rd := mready s ++ [d] in
               let aw := rm1 d (mawaited s) in
               if (Z.of_nat (length rd) =? mnum s)%Z
               then scan fuel i (set_wait (memit s (MvAnswer rd aw)) [] [] (mnum s))
               else scan fuel i (set_wait s aw rd (mnum s))
          else scan fuel (S i) s
      end
  end.

(** process_wait_requests (loop.py:130-159). *)
Definition process_waits (s : mst) : mst := scan (length (mawaited s)) 0 s.

(** Configuration of the process: its rank, and the workers and monitors of the whole cluster. MPIState
    (communication.py:115-179) as used in monitor/loop.py:262, 272-273. *)
Record mcfg := { c_self : rank; c_workers : list rank; c_monitors : list rank }.

(** The ranks SHUTDOWN goes to (loop.py:272-273). *)
Definition stop_targets (c : mcfg) : list rank :=
  filter (fun r => negb (Nat.eqb r (c_self c))) (c_workers c ++ c_monitors c).

(** loop.py:271-287: order everyone to stop, tell the root, leave. What MPI does when everyone finalises is modelled
    in StartModel. *)
Definition stop_all (c : mcfg) (s : mst) : mst :=
  set_stopped (memit (fold_left (fun s r => memit s (MvStop r)) (stop_targets c) s) MvStopRoot).

(** One turn of the loop (monitor/loop.py:188-287); None: an exception leaves the loop and kills the process. *)
Definition mon_step (c : mcfg) (s0 : mst) (m : mmsg) : option mst :=
  if mstopped s0 then Some s0
  else
    let s := memit s0 (MvIn m) in
    match m with
    | MDone _ ds => Some (process_waits (set_done s (S (mcount s)) (ds ++ mcompleted s)))
    | MWait ds n => Some (process_waits (set_wait s ds (mready s) n))
    | MCount src => Some (memit s (MvCount src (mcount s)))
    | MReserve src d size =>
        match mgr_reserve (mmgr s) d size with
        | (g, Some (i, first)) => Some (memit (set_mgr s g) (MvReserve src i first))
        | (_, None) => None
        end
    | MShared src d =>
        match mgr_get (mmgr s) d with
        | None => None
        | Some i => Some (memit s (MvShared src (first_index i) (last_index i)))
        end
    | MClean ds fl => Some (set_mgr s (mgr_clear (mmgr s) ds fl))
    | MAck src =>
        let s1 := set_acks s (macks s ++ [src]) in
        if Nat.eqb (length (macks s1)) (length (c_workers c)) then Some (stop_all c s1) else Some s1
    | MStop => Some (set_stopped s)
    end.

(** The loop (monitor/loop.py:188-287) on a list of messages, in the order in which they are received. *)
Fixpoint mon_run (c : mcfg) (s : mst) (ms : list mmsg) : option mst :=
  match ms with
  | [] => Some s
  | m :: r => match mon_step c s m with Some s' => mon_run c s' r | None => None end
  end.
