(** Shutdown of an MPI program while tasks that call the API themselves are still there.

    Models /repo/unidist/core/backends/mpi/core: shutdown (controller/api.py:305-340) called by the main program between two
    of its calls, and the CANCEL branch and the guards by ready_to_shutdown_posted of worker/loop.py:102-233, for the
    programs of NestModel and the shutdown protocol of ShutModel.

    Operations of one process to another are taken in the order they were sent, so that CANCEL comes after everything the
    main program has sent to the worker. Some messages are not buffered by MPI: an asynchronous send of one is over only
    when it has been received, and async_operations.finish (async_operations.py:60-65) waits for it. The shutdown of the
    monitors and the messages to them are those of ShutModel. Simplifications: those of NestModel and ShutModel; the
    main program does nothing after shutdown. *)
From Verif Require Import Lib ShmModel DataIdModel TopoModel MonModel ValModel WorkerModel ClusterModel NestModel ShutModel.

(** The programs and the messages between them; the shutdown protocol; whether the main program has called shutdown; the
    workers that have taken CANCEL. controller/api.py:313-317, worker/loop.py:102, 210-221. *)
Record est := { e_n : nst; e_s : ssys; e_called : bool; e_cancelled : rank -> bool }.

(** EProg: a step of the programs. ECall: the main program calls shutdown. ECancel: a worker takes message number i, a
    CANCEL, up to async_operations.finish. EShut: a step of the protocol; for a CANCEL, the rest of that branch.
    controller/api.py:305-340, worker/loop.py:103-233. *)
Inductive eop := EProg (o : nop) | ECall | ECancel (i : nat) | EShut (a : ShutModel.act).

Section End.
Variable c : scfg.
Variable body : val -> val -> val -> NestModel.act.
Variable big : wmsg -> bool.      (* not buffered by MPI *)

(** The loops of finish do not wait: none of the messages of p that are not buffered is still under way.
    async_operations.py:60-65. *)
Definition all_sent (n : nst) (p : rank) : bool :=
  forallb (fun b => forallb (fun m => negb (big m)) (n_chan n p b)) (ROOT :: s_workers c).

(** Only the programs change; no code of its own (worker/loop.py:103-233, controller/api.py:371-580). *)
Definition set_n (e : est) (n : nst) : est := {| e_n := n; e_s := e_s e; e_called := e_called e; e_cancelled := e_cancelled e |}.

(** A message that is received and ignored (the guards by ready_to_shutdown_posted, worker/loop.py:115-190). *)
Definition ignore (n : nst) (src p : rank) : nst :=
  {| n_proc := n_proc n; n_dead := n_dead n; n_chan := drop_head (n_chan n) src p; n_rep := n_rep n; n_tasks := n_tasks n;
     n_runs := n_runs n; n_hist := n_hist n |}.

(** The pending tasks and requests are forgotten (worker/loop.py:211-214, task_store.py:99-105, 123-129,
    request_store.py:125-132). *)
Definition forget (n : nst) (p : rank) : nst :=
  let s := n_proc n p in
  {| n_proc := upd (n_proc n) p {| p_w := set_ready (set_gets (set_pend (p_w s) [] []) [] []); p_next := p_next s; p_cur := p_cur s |};
     n_dead := n_dead n; n_chan := n_chan n; n_rep := n_rep n; n_tasks := n_tasks n; n_runs := n_runs n; n_hist := n_hist n |}.

(** A program goes on. The main program does nothing any more when it has called shutdown; a worker that has taken CANCEL
    waits in finish, then ignores what it receives until it leaves the loop. controller/api.py:305-340,
    worker/loop.py:103-233. *)
Definition prog (e : est) (o : nop) : est :=
  match o with
  | NRun p _ => if Nat.eqb p ROOT && e_called e then e else set_n e (nstep (s_workers c) body (e_n e) o)
  | NTake src p =>
      if mem_rank p (s_workers c)
      then if e_cancelled e p
           then match sworker (e_s e) p, n_chan (e_n e) src p with WkReady, _ :: _ => set_n e (ignore (e_n e) src p) | _, _ => e end
           else set_n e (nstep (s_workers c) body (e_n e) o)
      else e
  | NReply _ _ => set_n e (nstep (s_workers c) body (e_n e) o)
  end.

(** A worker in its loop takes an operation of src that came after all others of src. worker/loop.py:105-107; messages of
    one sender do not overtake each other. *)
Definition listens (n : nst) (src p : rank) : bool :=
  match p_cur (n_proc n p), n_chan n src p with None, [] => negb (n_dead n p) | _, _ => false end.

(** Shutdown is called between two calls of the main program. controller/api.py:313-316. *)
Definition call_shutdown (e : est) : est :=
  match p_cur (n_proc (e_n e) ROOT) with
  | Some fr =>
      match f_get fr with
      | None => {| e_n := e_n e; e_s := e_s e; e_called := true; e_cancelled := e_cancelled e |}
      | Some _ => e
      end
  | None => e
  end.

(** The first half of the CANCEL branch (worker/loop.py:210-214). The message stays in the list of ShutModel until the
    second half. *)
Definition take_cancel (e : est) (i : nat) : est :=
  match nth_error (snet (e_s e)) i with
  | Some (src, p, SCancel) =>
      if mem_rank p (s_workers c) && listens (e_n e) src p && negb (e_cancelled e p)
      then {| e_n := forget (e_n e) p; e_s := e_s e; e_called := e_called e; e_cancelled := fupd (e_cancelled e) p true |}
      else e
  | _ => e
  end.

(** Whether a step of the protocol is possible now: shutdown has been called and its finish is over (controller/api.py:314-317),
    the finish of the CANCEL branch is over (worker/loop.py:215-220), or a worker takes SHUTDOWN (worker/loop.py:222-227). *)
Definition may (e : est) (a : ShutModel.act) : bool :=
  match a with
  | AStart => e_called e && all_sent (e_n e) ROOT
  | ADeliver i =>
      match nth_error (snet (e_s e)) i with
      | Some (_, p, SCancel) => e_cancelled e p && all_sent (e_n e) p
      | Some (src, p, SStop) => negb (mem_rank p (s_workers c)) || listens (e_n e) src p
      | _ => true
      end
  | _ => true
  end.

(** Any step; one that is not possible does nothing. controller/api.py:305-340, worker/loop.py:103-233,
    monitor/loop.py:188-287. *)
Definition estep (e : est) (o : eop) : est :=
  match o with
  | EProg o => prog e o
  | ECall => call_shutdown e
  | ECancel i => take_cancel e i
  | EShut a =>
      if may e a
      then match sstep c (e_s e) a with
           | Some s => {| e_n := e_n e; e_s := s; e_called := e_called e; e_cancelled := e_cancelled e |}
           | None => e
           end
      else e
  end.

(** After unidist.init (controller/api.py:117-288, worker/loop.py:88-102, monitor/loop.py:180-187). *)
Definition einit (main : NestModel.act) (g : rank -> manager) : est :=
  {| e_n := ninit main; e_s := sinit g; e_called := false; e_cancelled := fun _ => false |}.

(** Any interleaving (controller/api.py:117-340). *)
Definition erun (main : NestModel.act) (g : rank -> manager) (ops : list eop) : est := fold_left estep ops (einit main g).

End End.
