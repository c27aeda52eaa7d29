(** The processes of one host and the monitor: requests and what is taken for their answers.

    A request to the monitor is a message; its answer is the next object received from the monitor. Answers carry nothing
    that says what they answer: the receiver takes the first one in the channel (mpi_recv_object, communication.py).
    Models controller/api.py:300-345 (shutdown), 474-500 (wait), controller/garbage_collector.py:117-141, communication.py:1055-1086
    and monitor/loop.py:188-287 (MonModel). One host, whose monitor is that of the root (rank 0); the other messages between
    processes are in other models. Messages between two processes do not overtake each other. *)
From Verif Require Import Lib ShmModel MonModel.

(** A blocking request: WAIT (controller/api.py:474-492), GET_TASK_COUNT (controller/garbage_collector.py:117-132),
    RESERVE_SHARED_MEMORY (communication.py:1055-1086); ROver: shutdown awaits the monitor's SHUTDOWN, for which it sends
    the monitor nothing (controller/api.py:328-334). *)
Inductive req := RWait (ds : list dataid) (n : Z) | RCount | RReserve (d : dataid) (size : Z) | ROver.

(** The objects a monitor sends (monitor/loop.py:151-155, 216-220, 230-234, 279-283). *)
Inductive reply := PWait (rdy nrdy : list dataid) | PCount (k : nat) | PReserve (i : resinfo) (first : bool) | POver.

(** q_mon: the monitor, None when an exception has ended it. q_in: messages under way to it, by sender. q_out: objects under
    way to each process. q_busy: the request a process is blocked in. q_seen is not in the code: the requests that are over,
    with what was taken for the answer. controller/api.py:489-492 and the like. *)
Record qst := {
  q_mon : option mst;
  q_in : rank -> list mmsg;
  q_out : rank -> list reply;
  q_busy : rank -> option req;
  q_seen : list (rank * req * reply)
}.

(** Nothing under way (monitor/loop.py:173-187). *)
Definition qinit (mgr : manager) : qst :=
  {| q_mon := Some (minit mgr); q_in := fun _ => []; q_out := fun _ => []; q_busy := fun _ => None; q_seen := [] |}.

(** A function changed at one rank; not code (channels are MPI's, communication.py). *)
Definition qset {A} (f : rank -> A) (p : rank) (a : A) : rank -> A := fun r => if Nat.eqb r p then a else f r.

(** The message of a request (controller/api.py:474-488, garbage_collector.py:121-125, communication.py:1075-1085). *)
Definition req_msg (p : rank) (r : req) : list mmsg :=
  match r with
  | RWait ds n => [MWait ds n]
  | RCount => [MCount p]
  | RReserve d n => [MReserve p d n]
  | ROver => []
  end.

(** Where an object goes: the answer to a wait always to the root (monitor/loop.py:151-155), the others to the process that asked
    (216-220, 230-234), the end of the session to the root (279-283). The other events are not objects. *)
Definition sent (e : mev) : list (rank * reply) :=
  match e with
  | MvAnswer r nr => [(0, PWait r nr)]
  | MvCount dst k => [(dst, PCount k)]
  | MvReserve dst i f => [(dst, PReserve i f)]
  | MvStopRoot => [(0, POver)]
  | _ => []
  end.

(** The objects sent in a turn are appended to the channels (monitor/loop.py:188-287). *)
Definition deliver (out : rank -> list reply) (l : list (rank * reply)) : rank -> list reply :=
  fun r => out r ++ map snd (filter (fun x => Nat.eqb (fst x) r) l).

(** QAsk: process p makes a request (wait, a cleanup attempt, a value to be shared, shutdown). QTell: process p, which is not
    blocked, sends the monitor a message without an answer: a completion report (worker/task_store.py:380-404), a cleanup
    (garbage_collector.py:61-69), or that it is ready to shut down (worker/loop.py:203-215). QMon: the monitor takes the next
    message of process p. QTake: process p, which is blocked, receives. The monitor's loop is monitor/loop.py:188-287. *)
Inductive qop := QAsk (p : rank) (r : req) | QTell (p : rank) (m : mmsg) | QMon (p : rank) | QTake (p : rank).

(** The messages of QTell (monitor/loop.py:197-203, 254-262). *)
Definition tells (m : mmsg) : bool :=
  match m with MDone _ _ | MClean _ _ | MAck _ => true | _ => false end.

(** A worker says it is ready to shut down after the root's CANCEL, which shutdown sends before it blocks
    (controller/api.py:317-334; nothing comes between the two). *)
Definition may_tell (s : qst) (m : mmsg) : bool :=
  tells m && match m, q_busy s 0 with MAck _, Some ROver => true | MAck _, _ => false | _, _ => true end.

(** One step; an operation that is not possible changes nothing. monitor/loop.py:188-287, controller/api.py:489-492. *)
Definition qstep (c : mcfg) (s : qst) (o : qop) : qst :=
  match o with
  | QAsk p r =>
      match q_busy s p with
      | Some _ => s
      | None =>
          {| q_mon := q_mon s; q_in := qset (q_in s) p (q_in s p ++ req_msg p r); q_out := q_out s;
             q_busy := qset (q_busy s) p (Some r); q_seen := q_seen s |}
      end
  | QTell p m =>
      match q_busy s p, may_tell s m with
      | None, true =>
          {| q_mon := q_mon s; q_in := qset (q_in s) p (q_in s p ++ [m]); q_out := q_out s; q_busy := q_busy s;
             q_seen := q_seen s |}
      | _, _ => s
      end
  | QMon p =>
      match q_mon s, q_in s p with
      | Some m, x :: rest =>
          if mstopped m then s
          else match mon_step c m x with
               | None => {| q_mon := None; q_in := qset (q_in s) p rest; q_out := q_out s; q_busy := q_busy s; q_seen := q_seen s |}
               | Some m' =>
                   {| q_mon := Some m'; q_in := qset (q_in s) p rest;
                      q_out := deliver (q_out s) (flat_map sent (skipn (length (mlog m)) (mlog m')));
                      q_busy := q_busy s; q_seen := q_seen s |}
               end
      | _, _ => s
      end
  | QTake p =>
      match q_busy s p, q_out s p with
      | Some r, a :: rest =>
          {| q_mon := q_mon s; q_in := q_in s; q_out := qset (q_out s) p rest; q_busy := qset (q_busy s) p None;
             q_seen := q_seen s ++ [(p, r, a)] |}
      | _, _ => s
      end
  end.

(** Any history (monitor/loop.py:188-287). *)
Definition qrun (c : mcfg) (mgr : manager) (ops : list qop) : qst := fold_left (qstep c) ops (qinit mgr).
