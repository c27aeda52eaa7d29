(** What a program with actor calls means, given the order in which the calls of each worker were
    carried out, and which programs the API lets one write. *)
From Verif Require Import Lib ValModel WorkerModel WorkerSpec ClusterModel ClusterSpec ActModel.

(** What a worker's actors have carried out: number of the request, and the call with the values of its
    arguments. *)
Definition history := list (nat * call).

(** The calls carried out, read off a log: bodies of methods entered. *)
Definition carried (l : list wev) : history :=
  flat_map (fun e => match e with
                     | EvRun n (CMethod m) a k => [(n, {| c_method := m; c_args := a; c_kwargs := k |})]
                     | _ => [] end) l.

(** The value a call's result gives to one of its outputs. *)
Definition output (o : outputs) (r : result) (d : dataid) (v : val) : Prop :=
  In d (out_ids o) /\ bind dempty o r d = Some v.

(** [gives d v]: v is the value of the reference d. A put gives the value put. A task gives what its
    function gives, applied to the values of its arguments, references at any depth replaced by their
    values. A call of a method gives what the method gives after the calls carried out before it on
    that worker. A task or call one of whose arguments is an exception gives that exception. *)
Section Meaning.
Variable body : val -> val -> val -> result.
Variable mbody : list call -> call -> result.
Variable prog : list gprog.
Variable H : rank -> history.

Inductive gives : dataid -> val -> Prop :=
| gives_put d v :
    In (GP (RPut d v)) prog -> gives d v
| gives_task dest q fd f env d v :
    In (GP (RSubmit dest q)) prog -> q_fn q = FRef fd -> gives fd f ->
    (forall x, In x (qrefs q) -> gives x (env x)) ->
    output (q_out q) (call_value body f (subst env (q_args q)) (subst env (q_kwargs q))) d v ->
    gives d v
| gives_call dest nd q m env before after d v :
    In (GC dest nd q) prog -> q_fn q = FMethod m ->
    (forall x, In x (qrefs q) -> gives x (env x)) ->
    first_failure (arguments (subst env (q_args q)) (subst env (q_kwargs q))) = None ->
    H dest = before ++ (q_id q, {| c_method := m; c_args := subst env (q_args q); c_kwargs := subst env (q_kwargs q) |}) :: after ->
    output (q_out q) (mbody (map snd before)
      {| c_method := m; c_args := subst env (q_args q); c_kwargs := subst env (q_kwargs q) |}) d v ->
    gives d v
| gives_failure dest nd q m env e d v :
    In (GC dest nd q) prog -> q_fn q = FMethod m ->
    (forall x, In x (qrefs q) -> gives x (env x)) ->
    first_failure (arguments (subst env (q_args q)) (subst env (q_kwargs q))) = Some e ->
    output (q_out q) (RExc e) d v ->
    gives d v.
End Meaning.

(** The references a program has created, its tasks and calls. *)
Definition gcreated (p : gprog) : list dataid :=
  match p with GP o => created o | GC _ _ q => out_ids (q_out q) end.
Definition gintroduced (prog : list gprog) : list dataid := flat_map gcreated prog.
Definition gsubmitted (prog : list gprog) : list (rank * request) :=
  flat_map (fun p => match p with GP (RSubmit dest q) | GC dest _ q => [(dest, q)] | _ => [] end) prog.

(** References are created once, tasks and calls are numbered differently, the function of a task is a
    reference, that of a call a method, and stored values contain references only wrapped. *)
Record gvalid (prog : list gprog) : Prop := {
  gv_fresh : NoDup (gintroduced prog);
  gv_ids : NoDup (map (fun p => q_id (snd p)) (gsubmitted prog));
  gv_put : forall d v, In (GP (RPut d v)) prog -> refs v = [];
  gv_task : forall dest q, In (GP (RSubmit dest q)) prog -> exists fd, q_fn q = FRef fd;
  gv_call : forall dest nd q, In (GC dest nd q) prog -> exists m, q_fn q = FMethod m
}.

(** The calls carried out on each worker. *)
Definition history_of (g : gst) (w : rank) : history := carried (log (c_work (g_c g) w)).

(** x comes before y. *)
Definition precedes {A} (x y : A) (l : list A) : Prop := exists a b c, l = a ++ x :: b ++ y :: c.

(** The program itself has the value of d: it has put it, or got it in a call of get that did not raise ([seen] is what its calls have
    returned), and has neither dropped it nor cleaned it up. *)
Definition held (prog : list gprog) (seen : list sight) (d : dataid) : Prop :=
  ((exists v, In (GP (RPut d v)) prog) \/
   exists ds, In d ds /\ In (GP (RGet ds)) prog /\ forall e, ~ In (RRaised ds e) seen) /\
  ~ In (GP (RDrop d)) prog /\ forall ds, In (GP (RClean ds)) prog -> ~ In d ds.

(** The same program with a task in the place of each call. *)
Definition as_task (p : gprog) : rop :=
  match p with
  | GP o => o
  | GC dest nd q => RSubmit dest {| q_id := q_id q; q_fn := FRef nd; q_args := q_args q; q_kwargs := q_kwargs q; q_out := q_out q |}
  end.

(** The calls of methods in a program. *)
Definition gcalls (prog : list gprog) : list request :=
  flat_map (fun p => match p with GC _ _ q => [q] | _ => [] end) prog.

(** Tasks and calls go to workers. *)
Definition placed (workers : list rank) (prog : list gprog) : Prop :=
  forall dest q, In (dest, q) (gsubmitted prog) -> In dest workers.

(** Nothing is under way and no worker has died, no coroutine is running, no error has been raised, and
    still get waits and a task has not ended. *)
Definition stuck (g : gst) : Prop :=
  idle (g_c g) /\ (forall w, c_dead (g_c g) w = false /\ running (c_work (g_c g) w) = []) /\ ~ In RError (c_seen (g_c g)) /\
  c_left (g_c g) <> 0 /\ exists dest q, In (GP (RSubmit dest q)) (g_prog g) /\ ~ In (q_id q) (ended (log (c_work (g_c g) dest))).

(** Every task and call has outputs, and whatever it is called with, its result can be delivered to all
    of them. *)
Definition greturns_enough (body : val -> val -> val -> result) (mbody : list call -> call -> result) (prog : list gprog) : Prop :=
  (forall dest q fd f a k, In (GP (RSubmit dest q)) prog -> q_fn q = FRef fd -> In (GP (RPut fd f)) prog ->
    q_out q <> ONone /\ enough (q_out q) (body f a k)) /\
  (forall dest nd q m h a k, In (GC dest nd q) prog -> q_fn q = FMethod m ->
    q_out q <> ONone /\ enough (q_out q) (mbody h {| c_method := m; c_args := a; c_kwargs := k |})).

(** On no worker does a task need the result of a call on the same worker, or the other way round. *)
Definition separate (prog : list gprog) : Prop :=
  forall w q nd q', In (GP (RSubmit w q)) prog -> In (GC w nd q') prog -> independent q q' /\ independent q' q.

(** A message that is under way is taken: by the worker it is for, or by the root waiting in get. *)
Definition gdelivery (workers : list rank) (body : val -> val -> val -> result) (mbody : list call -> call -> result)
  (is_async : callee -> bool) (g g' : gst) : Prop :=
  exists s d m l, c_chan (g_c g) s d = m :: l /\
    g' = gstep workers body mbody is_async g (if Nat.eqb d 0 then GReply s else GTake s d).
