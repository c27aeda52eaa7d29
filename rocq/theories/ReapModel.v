(** Cleanups in programs whose tasks call the API themselves.

    Models /repo/unidist/core/backends/mpi/core: GarbageCollector (controller/garbage_collector.py:19-147), of which every
    process has its own, the reports of ended tasks (worker/task_store.py:396-404), their count in the monitor
    (monitor/loop.py:197-223), and the CLEANUP branch of worker/loop.py:202-208, for the programs of NestModel.

    The count is asked for and compared in two steps, between which the other processes go on. Simplifications: those of
    NestModel; the thresholds in regular_cleanup are left out (GcModel), so that a program may try a cleanup between any two of
    its calls, with any list of references of its process; the effect of CLEANUP on the monitor's memory is left out
    (ShmStoreModel). *)
From Verif Require Import Lib ShmModel ValModel WorkerModel ClusterModel MonModel NestModel.

(** A cleanup that was sent: by whom, the references named, the calls made so far, each with the process it was made in, and what
    the programs had done so far. Recorded for the specification; sent by controller/garbage_collector.py:47-69. *)
Record cleanup := { u_by : rank; u_names : list dataid; u_calls : list (rank * request); u_hist : list (nat * hev) }.

(** k_tasks: GarbageCollector._task_counter of every process (controller/garbage_collector.py:45). k_done: TASK_DONE messages
    under way to the monitor, with their senders. k_asked: the answer to GET_TASK_COUNT a process has
    (controller/garbage_collector.py:128). The last two fields are not in the code: the calls so far, each with the process it
    was made in, and the cleanups sent. *)
Record kst := {
  k_n : nst;
  k_tasks : rank -> nat;
  k_done : list (rank * list dataid);
  k_mon : mst;
  k_asked : rank -> option nat;
  k_calls : list (rank * request);
  k_sent : list cleanup
}.

(** KProg: a step of the programs and loops (a CLEANUP that is taken is one of them). KDone: the monitor takes the next report
    of src. KDrop: the last copy of one of its own references dies in p. KAsk, KClean: regular_cleanup in p, up to the answer of
    the monitor, and from there. controller/garbage_collector.py:94-144, common.py:329-334, monitor/loop.py:197-223. *)
Inductive kop := KProg (o : nop) | KDone (src : rank) | KDrop (p : rank) (d : dataid) | KAsk (p : rank) | KClean (p : rank) (ds : list dataid).

(** The earliest report of a worker. MPI delivers the messages of a sender in order (communication.py:397-407). *)
Fixpoint first_of (src : rank) (l : list (rank * list dataid)) : option (list dataid * list (rank * list dataid)) :=
  match l with
  | [] => None
  | (s, ds) :: r =>
      if Nat.eqb s src then Some (ds, r)
      else match first_of src r with Some (x, r') => Some (x, (s, ds) :: r') | None => None end
  end.

(** What is removed from the maps of a process: LocalObjectStore.clear (local_object_store.py:143-160), or the death of the
    keys of its WeakKeyDictionary-s (local_object_store.py:26-39). *)
Definition forgets (w : wst) (ds : list dataid) : wst :=
  set_sent (set_owner (set_store w (forget ds (store w))) (forget ds (owner w))) (filter (fun p => negb (did_in (fst p) ds)) (sent w)).

(** Only what process p holds changes, and the messages under way. One process has its own memory (worker/loop.py:88-92). *)
Definition with_w (n : nst) (p : rank) (w : wst) (ch : rank -> rank -> list wmsg) : nst :=
  let s := n_proc n p in
  {| n_proc := upd (n_proc n) p {| p_w := w; p_next := p_next s; p_cur := p_cur s |}; n_dead := n_dead n; n_chan := ch;
     n_rep := n_rep n; n_tasks := n_tasks n; n_runs := n_runs n; n_hist := n_hist n |}.

(** The CLEANUP branch (worker/loop.py:202-208). *)
Definition take_clean (n : nst) (src p : rank) (ds : list dataid) : nst :=
  with_w n p (forgets (p_w (n_proc n p)) ds) (drop_head (n_chan n) src p).

(** The programs and loops. worker/loop.py:103-233, controller/api.py:371-580. *)
Definition nest (workers : list rank) (body : val -> val -> val -> act) (n : nst) (o : nop) : nst :=
  match o with
  | NTake src p =>
      match n_chan n src p, p_cur (n_proc n p) with
      | WClean ds :: _, None => if Nat.eqb p 0 || n_dead n p then n else take_clean n src p ds
      | _, _ => nstep workers body n o
      end
  | _ => nstep workers body n o
  end.

(** The report sent when the task on p ends now; none if storing its results raises (worker/task_store.py:346-404). *)
Definition report (n : nst) (o : nop) : list (rank * list dataid) :=
  match o with
  | NRun p _ =>
      match p_cur (n_proc n p), n_dead n p with
      | Some fr, false =>
          match f_get fr, f_act fr, f_rest fr with
          | None, ARet r, LMain => []
          | None, ARet r, _ => match store_result (p_w (n_proc n p)) (q_out (f_q fr)) r with Some (_, ds) => [(p, ds)] | None => [] end
          | _, _, _ => []
          end
      | _, _ => []
      end
  | _ => []
  end.

(** The calls made in a step, with the process: those in what the step adds to the record (controller/api.py:577-578). *)
Definition called (n : nst) (o : nop) (n' : nst) : list (rank * request) :=
  match o with
  | NRun p _ => flat_map (fun e => match snd e with HSubmit _ q => [(p, q)] | _ => [] end) (skipn (length (n_hist n)) (n_hist n'))
  | _ => []
  end.

(** The program on p is between two calls of the API: it is executed, is not in get, and is not in regular_cleanup.
    controller/api.py:431, 503, 534. *)
Definition between (k : kst) (p : rank) : bool :=
  match p_cur (n_proc (k_n k) p), n_dead (k_n k) p with
  | Some fr, false => match f_get fr, k_asked k p with None, None => true | _, _ => false end
  | _, _ => false
  end.

(** A process that is in regular_cleanup does nothing else (the receive is a blocking one,
    controller/garbage_collector.py:128-131). *)
Definition busy (k : kst) (o : nop) : bool :=
  match o with NRun p _ => match k_asked k p with Some _ => true | None => false end | _ => false end.

Section Reap.
Variable workers : list rank.
Variable body : val -> val -> val -> act.

(** increment_task_counter (controller/api.py:578) counts the calls that did not raise. *)
Definition prog_step (k : kst) (o : nop) : kst :=
  let n' := nest workers body (k_n k) o in
  let l := called (k_n k) o n' in
  {| k_n := n'; k_tasks := fun p => k_tasks k p + length (filter (fun x => Nat.eqb (fst x) p) l);
     k_done := k_done k ++ report (k_n k) o; k_mon := k_mon k; k_asked := k_asked k; k_calls := k_calls k ++ l; k_sent := k_sent k |}.

(** The monitor takes a report (monitor/loop.py:197-203); this step never raises (MonModel). *)
Definition done_step (k : kst) (src : rank) : kst :=
  match first_of src (k_done k) with
  | None => k
  | Some (ds, r) =>
      {| k_n := k_n k; k_tasks := k_tasks k; k_done := r;
         k_mon := match mon_step (mon_cfg workers) (k_mon k) (MDone src ds) with Some m => m | None => k_mon k end;
         k_asked := k_asked k; k_calls := k_calls k; k_sent := k_sent k |}
  end.

(** GET_TASK_COUNT and its answer (controller/garbage_collector.py:123-131, monitor/loop.py:214-223); the comparison and the
    sending (controller/garbage_collector.py:138-142, 47-69): to every worker but the sender. *)
Definition kstep (k : kst) (o : kop) : kst :=
  match o with
  | KProg o => if busy k o then k else prog_step k o
  | KDone src => done_step k src
  | KDrop p d =>
      if Nat.eqb (fst d) p
      then {| k_n := with_w (k_n k) p (forgets (p_w (n_proc (k_n k) p)) [d]) (n_chan (k_n k)); k_tasks := k_tasks k; k_done := k_done k;
              k_mon := k_mon k; k_asked := k_asked k; k_calls := k_calls k; k_sent := k_sent k |}
      else k
  | KAsk p =>
      if between k p
      then {| k_n := k_n k; k_tasks := k_tasks k; k_done := k_done k; k_mon := k_mon k;
              k_asked := upd (k_asked k) p (Some (mcount (k_mon k))); k_calls := k_calls k; k_sent := k_sent k |}
      else k
  | KClean p ds =>
      match k_asked k p with
      | None => k
      | Some c =>
          let yes := Nat.eqb c (k_tasks k p) in
          let out := if yes then map (fun w => (w, WClean ds)) (filter (fun w => negb (Nat.eqb w p)) workers) else [] in
          {| k_n := with_w (k_n k) p (p_w (n_proc (k_n k) p)) (fun a b => if Nat.eqb a p then n_chan (k_n k) a b ++ sends_to b out else n_chan (k_n k) a b);
             k_tasks := k_tasks k; k_done := k_done k; k_mon := k_mon k; k_asked := upd (k_asked k) p None; k_calls := k_calls k;
             k_sent := if yes then k_sent k ++ [{| u_by := p; u_names := ds; u_calls := k_calls k; u_hist := n_hist (k_n k) |}] else k_sent k |}
      end
  end.

(** After unidist.init (controller/api.py:117-288, monitor/loop.py:173-187). *)
Definition kinit (mgr : manager) (main : act) : kst :=
  {| k_n := ninit main; k_tasks := fun _ => 0; k_done := []; k_mon := minit mgr; k_asked := fun _ => None; k_calls := []; k_sent := [] |}.

(** Any interleaving of the processes, from the state after init (controller/api.py:117-288). *)
Definition krun (mgr : manager) (main : act) (ops : list kop) : kst := fold_left kstep ops (kinit mgr main).

End Reap.
