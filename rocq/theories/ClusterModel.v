(** The MPI backend as a whole: the root process running a program of plain submissions, the
    workers (WorkerModel), the monitor (MonModel) and the messages between them.

    Models /repo/unidist/core/backends/mpi/core: the root's part of controller/api.py:371-433,508-580,
    controller/common.py:113-233 and controller/garbage_collector.py:45-144, put together with
    worker/loop.py (WorkerModel), monitor/loop.py (MonModel) and push_data (PushModel).

    Messages from one process to another are taken in the order they were sent (MPI's
    non-overtaking rule); between different senders any order is possible. A message and its payload
    are one unit. Simplifications: functions are plain ones submitted by the root (no coroutines, no
    actors, bodies do not call the API); wait and shutdown are left out (MonModel, ShutModel); messages a
    worker sends in the very turn in which an exception ends its loop are not delivered; the
    thresholds in regular_cleanup are left out, so the root may try a cleanup at any time, with any
    list. *)
From Verif Require Import Lib ValModel ShmModel PushModel WorkerModel WorkerSpec MonModel.

(** What the root does. The arguments of a submission are those of a request, with the rank chosen by the scheduler. RDrop:
    the last copy of a reference in the root dies. put, submit and get of controller/api.py:371-433,508-580,
    MpiDataID.__del__ (common.py:329-334) and GarbageCollector.regular_cleanup (controller/garbage_collector.py:94-144). *)
Inductive rop :=
| RPut (d : dataid) (v : val)
| RSubmit (dest : rank) (q : request)
| RGet (ds : list dataid)
| RDrop (d : dataid)
| RClean (ds : list dataid).

(** What the program sees: results of get (also an exception raised, or an error of get itself), and cleanup requests sent.
    Returned or raised by get (controller/api.py:427-433, controller/common.py:229-233); sent by
    controller/garbage_collector.py:47-69. *)
Inductive sight :=
| RGot (ds : list dataid) (vs : list val)
| RRaised (ds : list dataid) (e : nat)
| RError
| RCleaned (ds : list dataid).

(** c_push, c_vals: the root's local store. c_tasks: GarbageCollector._task_counter. c_want, c_ids, c_left,
    c_exc: the argument of the get in progress, the IDs requested, how many replies are still to come
    and exception_raised (controller/common.py:217-233). c_dead: an exception has ended a worker's
    loop. c_chan src dst: messages under way; c_done: those from a worker to the monitor. The last
    four fields are not in the code: what the root has executed and seen, what it has sent, what every
    worker has taken. *)
Record cst := {
  c_push : pst;
  c_vals : dmap val;
  c_tasks : nat;
  c_want : list dataid;
  c_ids : list dataid;
  c_left : nat;
  c_exc : option nat;
  c_work : rank -> wst;
  c_dead : rank -> bool;
  c_chan : rank -> rank -> list wmsg;
  c_done : rank -> list (list dataid);
  c_mon : mst;
  c_prog : list rop;
  c_seen : list sight;
  c_out : list (rank * wmsg);
  c_in : rank -> list (rank * wmsg)
}.

(** Every process after unidist.init (controller/api.py:117-288, worker/loop.py:88-102, monitor/loop.py:173-187), before the
    first call. *)
Definition cinit (mgr : manager) : cst :=
  {| c_push := pinit; c_vals := dempty; c_tasks := 0; c_want := []; c_ids := []; c_left := 0;
     c_exc := None; c_work := fun _ => winit; c_dead := fun _ => false; c_chan := fun _ _ => [];
     c_done := fun _ => []; c_mon := minit mgr; c_prog := []; c_seen := []; c_out := [];
     c_in := fun _ => [] |}.

(** The messages in a list of sends that go to a rank. MPI keeps one order per pair of processes; the ranks are the
    dest_rank of controller/api.py:568-574 and controller/common.py:253-365. *)
Definition sends_to (d : rank) (l : list (rank * wmsg)) : list wmsg :=
  flat_map (fun p => if Nat.eqb (fst p) d then [snd p] else []) l.

(** The message for a push of PushModel. What push_data (controller/common.py:386-415) and isend_complex_operation
    (controller/api.py:568-574) put on the wire. *)
Definition to_wmsg (vals : dmap val) (q : request) (m : msg) : list wmsg :=
  match m with
  | MValue d => match vals d with Some v => [WPut d v] | None => [] end
  | MOwner d o => [WOwner d o]
  | MTask _ => [WExec q]
  end.

(** All messages of one submit (controller/api.py:555-574), with their receivers. *)
Definition pushed (vals : dmap val) (q : request) (l : list (rank * msg)) : list (rank * wmsg) :=
  flat_map (fun p => map (fun m => (fst p, m)) (to_wmsg vals q (snd p))) l.

(** The messages a worker sends to a rank in a list of events. PUT_DATA answers (worker/request_store.py:251-268) and GET
    requests (worker/task_store.py:146-166). *)
Definition outgoing (self : rank) (l : list wev) (dst : rank) : list wmsg :=
  flat_map (fun e => match e with
                     | EvPut x d v _ => if Nat.eqb x dst then [WPut d v] else []
                     | EvGet x d => if Nat.eqb x dst then [WGet self d false] else []
                     | _ => []
                     end) l.

(** The argument task of submit as push_data sees it (controller/api.py:555): a reference, or the name of a method (not a
    reference). *)
Definition fn_val (f : fn) : val := match f with FRef d => VRef d | FMethod m => VLeaf m end.

(** Values of references, all there. values = [object_store.get(data_id) for ...] (controller/api.py:427). *)
Fixpoint read_vals (st : dmap val) (ds : list dataid) : option (list val) :=
  match ds with
  | [] => Some []
  | d :: r => match st d, read_vals st r with Some v, Some l => Some (v :: l) | _, _ => None end
  end.

(** The owners of references; None: KeyError. get_data_owner for every ID (controller/common.py:192-193,
    local_object_store.py:131). *)
Fixpoint owners (o : dmap rank) (ds : list dataid) : option (list (rank * dataid)) :=
  match ds with
  | [] => Some []
  | d :: r => match o d, owners o r with Some x, Some l => Some ((x, d) :: l) | _, _ => None end
  end.

Section Cluster.
Variable workers : list rank.
Variable body : val -> val -> val -> result.

(** No actors here: never called (ACTOR_EXECUTE, worker/loop.py:185-201, is in ActModel). *)
Definition no_method (h : list call) (c : call) : result := RVal (VLeaf 0).
(** No coroutines here (inspect.iscoroutinefunction in worker/task_store.py:233 is false). *)
Definition plain_fn (c : callee) : bool := false.

(** The root changes: its store, counter and get in progress, and sends messages. The effect of one API call of the root on
    its stores (local_object_store.py:24-38), GarbageCollector._task_counter (controller/garbage_collector.py:45) and the
    wire. *)
Definition root_to (c : cst) (o : rop) (p : pst) (vals : dmap val) (tasks : nat) (seen : list sight)
  (out : list (rank * wmsg)) : cst :=
  {| c_push := p; c_vals := vals; c_tasks := tasks; c_want := c_want c; c_ids := c_ids c;
     c_left := c_left c; c_exc := c_exc c; c_work := c_work c; c_dead := c_dead c;
     c_chan := fun s d => if Nat.eqb s 0 then c_chan c s d ++ sends_to d out else c_chan c s d;
     c_done := c_done c; c_mon := c_mon c; c_prog := c_prog c ++ [o]; c_seen := c_seen c ++ seen;
     c_out := c_out c ++ out; c_in := c_in c |}.

(** The local variables of request_worker_data (controller/common.py:217-233). *)
Definition set_get (c : cst) (want ids : list dataid) (k : nat) (exc : option nat) : cst :=
  {| c_push := c_push c; c_vals := c_vals c; c_tasks := c_tasks c; c_want := want; c_ids := ids;
     c_left := k; c_exc := exc; c_work := c_work c; c_dead := c_dead c; c_chan := c_chan c;
     c_done := c_done c; c_mon := c_mon c; c_prog := c_prog c; c_seen := c_seen c; c_out := c_out c;
     c_in := c_in c |}.

(** The end of get (api.py:427). *)
Definition got (st : dmap val) (ds : list dataid) : list sight :=
  match read_vals st ds with Some vs => [RGot ds vs] | None => [RError] end.

(** put (controller/api.py:371-397): the value is kept here. submit (508-580): pushes and the task go out; the
    counter counts the submission if it did not raise. get (400-433): without remote references the
    values are read at once, otherwise the owners are asked and the root waits. A cleanup
    (garbage_collector.py:94-144): the monitor's count and the counter are compared. *)
Definition root_step (c : cst) (o : rop) : cst :=
  match o with
  | RPut d v => root_to c o (pstep (pstep (c_push c) (PHave d)) (POwnerIs d 0)) (dput (c_vals c) d v) (c_tasks c) [] []
  | RSubmit dest q =>
      let p' := pstep (c_push c) (PSubmit dest (q_id q) (out_ids (q_out q)) (fn_val (q_fn q)) (q_args q) (q_kwargs q)) in
      let ok := match submit (c_push c) dest (q_id q) (out_ids (q_out q)) (fn_val (q_fn q)) (q_args q) (q_kwargs q) with
                | Some _ => true | None => false end in
      root_to c o p' (c_vals c) (if ok then S (c_tasks c) else c_tasks c)
        (if ok then [] else [RError])
        (pushed (c_vals c) q (skipn (length (p_out (c_push c))) (p_out p')))
  | RGet ds =>
      match filter (fun d => negb (did_in d (p_store (c_push c)))) ds with
      | [] => root_to c o (c_push c) (c_vals c) (c_tasks c) (got (c_vals c) ds) []
      | x :: r =>
          match owners (p_owner (c_push c)) (x :: r) with
          | None => root_to c o (c_push c) (c_vals c) (c_tasks c) [RError] []
          | Some l =>
              set_get (root_to c o (c_push c) (c_vals c) (c_tasks c) []
                         (map (fun p => (fst p, WGet 0 (snd p) true)) l))
                ds (x :: r) (length (x :: r)) None
          end
      end
  | RDrop d => root_to c o (pstep (c_push c) (PForget d)) (ddel (c_vals c) d) (c_tasks c) [] []
  | RClean ds =>
      if Nat.eqb (mcount (c_mon c)) (c_tasks c)
      then root_to c o (c_push c) (c_vals c) (c_tasks c) [RCleaned ds] (map (fun w => (w, WClean ds)) workers)
      else root_to c o (c_push c) (c_vals c) (c_tasks c) [] []
  end.

(** Taking a message out of a channel. MPI delivers the earliest message of a sender (communication.py:397-407, 461). *)
Definition drop_head (ch : rank -> rank -> list wmsg) (src dst : rank) : rank -> rank -> list wmsg :=
  fun s d => if Nat.eqb s src && Nat.eqb d dst then tl (ch s d) else ch s d.

(** A worker takes the next message from src (worker/loop.py:103-233). *)
Definition take (c : cst) (src dst : rank) : cst :=
  match c_chan c src dst with
  | [] => c
  | m :: _ =>
      if Nat.eqb dst 0 || c_dead c dst then c
      else
        match wstep dst body no_method plain_fn (c_work c dst) m with
        | None =>
            {| c_push := c_push c; c_vals := c_vals c; c_tasks := c_tasks c; c_want := c_want c;
               c_ids := c_ids c; c_left := c_left c; c_exc := c_exc c; c_work := c_work c;
               c_dead := fun r => if Nat.eqb r dst then true else c_dead c r;
               c_chan := drop_head (c_chan c) src dst; c_done := c_done c; c_mon := c_mon c;
               c_prog := c_prog c; c_seen := c_seen c; c_out := c_out c; c_in := c_in c |}
        | Some w' =>
            let new := skipn (length (log (c_work c dst))) (log w') in
            let ch := drop_head (c_chan c) src dst in
            {| c_push := c_push c; c_vals := c_vals c; c_tasks := c_tasks c; c_want := c_want c;
               c_ids := c_ids c; c_left := c_left c; c_exc := c_exc c;
               c_work := fun r => if Nat.eqb r dst then w' else c_work c r;
               c_dead := c_dead c;
               c_chan := fun s d => if Nat.eqb s dst then ch s d ++ outgoing dst new d else ch s d;
               c_done := fun s => if Nat.eqb s dst then c_done c s ++ reports new else c_done c s;
               c_mon := c_mon c; c_prog := c_prog c; c_seen := c_seen c; c_out := c_out c;
               c_in := fun r => if Nat.eqb r dst then c_in c r ++ [(src, m)] else c_in c r |}
        end
  end.

(** The root, waiting in get, receives the next message of src (controller/common.py:217-233,113-171).
    When the last reply is there, get raises the first exception that came, or reads the values. *)
Definition reply (c : cst) (src : rank) : cst :=
  match c_left c, c_chan c src 0 with
  | S k, WPut d v :: _ =>
      let vals := dput (c_vals c) d v in
      let exc := match c_exc c, v with None, VExc e => Some e | x, _ => x end in
      let ok := did_in d (c_ids c) in
      let left' := if ok then k else 0 in
      let seen := if ok then match k with
                             | 0 => match exc with Some e => [RRaised (c_want c) e] | None => got vals (c_want c) end
                             | _ => []
                             end
                  else [RError] in
      {| c_push := pstep (c_push c) (PHave d); c_vals := vals; c_tasks := c_tasks c; c_want := c_want c;
         c_ids := c_ids c; c_left := left'; c_exc := exc; c_work := c_work c; c_dead := c_dead c;
         c_chan := drop_head (c_chan c) src 0; c_done := c_done c; c_mon := c_mon c;
         c_prog := c_prog c; c_seen := c_seen c ++ seen; c_out := c_out c;
         c_in := fun r => if Nat.eqb r 0 then c_in c r ++ [(src, WPut d v)] else c_in c r |}
  | _, _ => c
  end.

(** All reports go to the monitor of the root (task_store.py:308-316,396-404), here of rank 1. *)
Definition mon_cfg : mcfg := {| c_self := 1; c_workers := workers; c_monitors := [1] |}.

(** The monitor takes the next TASK_DONE of a worker (monitor/loop.py:197-203); this step never
    raises (MonModel). *)
Definition done (c : cst) (src : rank) : cst :=
  match c_done c src with
  | [] => c
  | ds :: _ =>
      {| c_push := c_push c; c_vals := c_vals c; c_tasks := c_tasks c; c_want := c_want c;
         c_ids := c_ids c; c_left := c_left c; c_exc := c_exc c; c_work := c_work c;
         c_dead := c_dead c; c_chan := c_chan c;
         c_done := fun s => if Nat.eqb s src then tl (c_done c s) else c_done c s;
         c_mon := match mon_step mon_cfg (c_mon c) (MDone src ds) with Some m => m | None => c_mon c end; c_prog := c_prog c; c_seen := c_seen c;
         c_out := c_out c; c_in := c_in c |}
  end.

(** One step of the whole system; the root executes its program only when it is not waiting. CRoot: an API call
    (controller/api.py:371-580). CTake: worker/loop.py:103-233. CReply: controller/common.py:220-231. CDone:
    monitor/loop.py:197-203. *)
Inductive cop := CRoot (o : rop) | CTake (src dst : rank) | CReply (src : rank) | CDone (src : rank).

(** As cited at root_step, take, reply and done; controller/common.py:220 is the loop in which the root waits. *)
Definition cstep (c : cst) (o : cop) : cst :=
  match o with
  | CRoot r => match c_left c with 0 => root_step c r | _ => c end
  | CTake s d => take c s d
  | CReply s => reply c s
  | CDone s => done c s
  end.

(** Any interleaving of the processes, from the state after init (controller/api.py:117-288). *)
Definition crun (mgr : manager) (ops : list cop) : cst := fold_left cstep ops (cinit mgr).

End Cluster.
