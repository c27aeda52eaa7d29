(** C89: the API in tasks and in methods of actors, on the PyMp backend. *)
From Verif Require Import Lib ForkModel ForkSpec ForkProofs ForkCases.

(** With forked processes: get in a task or in a method gives what it gives in the main program, after every history. What is missing from the
    property: the other calls in tasks, and spawned processes. *)
Theorem C89_get_partial : forall cpus, 1 <= cpus -> forall h p d,
  let w := goes_on Fork cpus world0 h in
  p < w_procs w -> answer Fork cpus w p (CGet d) = answer Fork cpus w 0 (CGet d).
Proof. exact c89_get. Qed.
Print Assumptions C89_get_partial.

Example C89_case : let w := goes_on Fork 2 world0 f_more in
  runs_tasks w 1 /\ runs_tasks w 2 /\ runs_methods w 3 1 /\ w_procs w = 4 /\
  (forall p, p < 4 -> answer Fork 2 w p (CGet 1) = Value 7 /\ answer Fork 2 w p (CGet 3) = Value 9 /\ answer Fork 2 w p (CGet 0) = Waits) /\
  answer Fork 2 w 3 (CPut 5) = Refs [4] /\ answer Fork 2 w 3 (CRemote 2) = Refs [4; 5] /\ answer Fork 2 w 3 CActor = Handle 1.
Proof. exact c89_case. Qed.

(** put in the main program or in a method gives a new reference, and from then on every process gets the value through it. *)
Theorem C89_put_partial : forall cpus, 1 <= cpus -> forall h p v,
  let w := goes_on Fork cpus world0 h in
  p < w_procs w -> p = 0 \/ (exists q, runs_methods w p q) ->
  exists d, answer Fork cpus w p (CPut v) = Refs [d] /\ answer Fork cpus w 0 (CGet d) = KeyErr /\
    forall h' r, let w' := goes_on Fork cpus w (ECall p (CPut v) :: h') in r < w_procs w' -> answer Fork cpus w' r (CGet d) = Value v.
Proof. exact c89_put. Qed.
Print Assumptions C89_put_partial.

(** A remote call in the main program or in a method either finds no worker or gives as many new references as asked for, and the task is queued at
    a process that runs tasks. Until that worker has ended a task, everybody who gets one of the references waits. *)
Theorem C89_remote_partial : forall cpus, 1 <= cpus -> forall h p n,
  let w := goes_on Fork cpus world0 h in
  p < w_procs w -> p = 0 \/ (exists q, runs_methods w p q) ->
  answer Fork cpus w p (CRemote n) = NoWorker \/
  exists ds q, answer Fork cpus w p (CRemote n) = Refs ds /\ length ds = n /\ NoDup ds /\
    (forall d, In d ds -> answer Fork cpus w 0 (CGet d) = KeyErr) /\
    let w1 := fst (do_call Fork cpus w p (CRemote n)) in
    runs_tasks w1 q /\ queued w1 q ds /\
    forall h' r d, let w' := goes_on Fork cpus w1 h' in q_busy q h' -> r < w_procs w' -> In d ds -> answer Fork cpus w' r (CGet d) = Waits.
Proof. exact c89_remote. Qed.
Print Assumptions C89_remote_partial.

(** When a worker ends the task at the head of its queue, every process gets the result through its references. *)
Theorem C89_result : forall cpus, 1 <= cpus -> forall h q v k ds r,
  let w := goes_on Fork cpus world0 h in w_queue w q = (k, ds) :: r ->
  forall p d, p < w_procs w -> In d ds -> answer Fork cpus (goes_on Fork cpus w [EEnd q v]) p (CGet d) = Value v.
Proof. exact c89_end. Qed.
Print Assumptions C89_result.

(** In every task, whatever has happened before: put, init, remote functions and actor classes raise AssertionError, and is_initialized says False. *)
Theorem C89_tasks_refuted : forall cpus, 1 <= cpus -> forall h p,
  let w := goes_on Fork cpus world0 h in runs_tasks w p ->
  answer Fork cpus w p CIsInitialized = Says false /\ answer Fork cpus w p CInit = Assertion /\
  (forall v, answer Fork cpus w p (CPut v) = Assertion) /\ (forall n, answer Fork cpus w p (CRemote n) = Assertion) /\
  answer Fork cpus w p CActor = Assertion.
Proof. exact c89_tasks. Qed.
Print Assumptions C89_tasks_refuted.

(** A method of the first actor calls a remote function: the task is queued at the worker that waits for the method, so that get in
    the method waits as long as this worker ends nothing. *)
Theorem C89_own_worker_refuted : let w := goes_on Fork 2 world0 f_start in
  runs_methods w 3 1 /\ queued w 1 [0] /\ answer Fork 2 w 3 (CRemote 1) = Refs [1] /\
  forall h', q_busy 1 h' -> answer Fork 2 (goes_on Fork 2 w (ECall 3 (CRemote 1) :: h')) 3 (CGet 1) = Waits.
Proof. exact c89_own. Qed.
Print Assumptions C89_own_worker_refuted.

(** With spawned processes: get raises in tasks; methods have a store of their own, the references of the main program mean nothing there, and
    theirs mean nothing in the main program. *)
Theorem C89_spawned_refuted : let w := goes_on Spawn 2 world0 [ECall 0 CInit; ECall 0 (CPut 7); ECall 0 CActor] in
  runs_tasks w 1 /\ runs_methods w 3 1 /\
  answer Spawn 2 w 0 (CGet 0) = Value 7 /\ answer Spawn 2 w 1 (CGet 0) = Assertion /\ answer Spawn 2 w 3 (CGet 0) = KeyErr /\
  answer Spawn 2 (goes_on Spawn 2 w [ECall 3 (CPut 5)]) 0 (CGet 1) = KeyErr /\ answer Spawn 2 w 3 (CPut 5) = Refs [1].
Proof. exact c89_spawned. Qed.
Print Assumptions C89_spawned_refuted.
