(** Model of calls on the Dask backend: core/backends/dask/remote_function.py:36-94, core/backends/dask/actor.py and
    core/backends/dask/backend.py:63-98 (get, put), together with what these rely on in Dask (distributed is outside the
    code base, this is the part of its contract that is used):
    - client.submit(f, *args, pure=False) creates a new task and returns a future of it. Futures in the arguments,
      nested or not, are its dependencies; the scheduler runs a task once, at any time when all of them are finished, and
      hands the values over; when one of them has failed, the task fails with its exception without being run.
    - a task is forgotten by the scheduler when the client holds no future of it and no task that is still to run needs
      it; a forgotten task is not run any more.
    - client.scatter(data, hash=False) creates a finished task.
    - client.submit(cls, ..., actor=True).result() waits for the new object and gives a handle; a method call through
      the handle runs at once, calls of one object one at a time, and gives an ActorFuture whose result() is the
      outcome.
    A step is a call of the main process or a step of the scheduler. The references are the futures they wrap, nested
    ones are unwrapped before (C46). What the user's functions compute is an oracle that cannot call the API; it may
    depend on the number of the call, [c]. *)
From Verif Require Import Lib ValModel PyseqModel.

(** The functions handed to client.submit. *)
Inductive job :=
| JFun (c f : nat) (args : list val) (kw : kwargs)        (* remote_function.py:82-84 *)
| JItem (src : dataid) (i : nat)                          (* lambda f, i: f[i], remote_function.py:90 *)
| JMeth (c a m : nat) (args : list val) (kw : kwargs)     (* lambda actor_cls, method, ..., actor.py:70-79 *)
| JResult (src : dataid)                                  (* lambda f: f.result(), actor.py:82 *)
| JResultItem (src : dataid) (i : nat).                   (* lambda f, i: f.result()[i], actor.py:86 *)

(** The result of a task: a value or an exception, or an ActorFuture. Calls of an actor's method return an ActorFuture
    (dask/actor.py:70-88). *)
Inductive fin := Fin (r : res) | Fut (r : res).

(** The calls a program makes (dask/backend.py:84-98, dask/remote_function.py:36-94, dask/actor.py:31-91, 188-221) and the
    steps of Dask's scheduler, which is not part of /repo. *)
Inductive dop :=
| DPut (v : val)
| DSubmit (f : nat) (args : list val) (kw : kwargs) (n : nat) (reserve : bool)
                               (* f.remote(...) with num_returns = n; [reserve]: num_cpus or resources given *)
| DActor (c : nat) (args : list val) (kw : kwargs) (reserve : bool)
| DCall (a m : nat) (args : list val) (kw : kwargs) (n : nat)
| DDrop (d : dataid)           (* the last handle of a reference goes *)
| DRun (d : dataid)            (* scheduler: a task is run *)
| DFail (d x : dataid)         (* scheduler: a task fails because [x] has *)
| DForget (d : dataid).        (* scheduler: a task is forgotten *)

(** What a call gives back. dask/remote_function.py:62-69, 86-94; dask/actor.py:81-91, 207-221. *)
Inductive dout :=
| DRef (d : dataid) | DRefs (l : list dataid) | DNone
| DMade (a : nat)
| DRaise (e : nat)
| DUnsupported.                (* NotImplementedError *)

(** A function or method called by a task. The callable given to client.submit (dask/remote_function.py:82-84,
    dask/actor.py:70-79). *)
Inductive ran := RFun (f : nat) (vs : list val) (kvs : kwargs) | RMeth (a m : nat) (vs : list val) (kvs : kwargs).

(** The state of Dask's scheduler as seen through client.submit, scatter and gather (dask/backend.py:77-98), which is not
    part of /repo. *)
Record dst := {
  d_next : nat;
  d_job : dmap job;                       (* the tasks the scheduler knows and has not run *)
  d_fin : dmap fin;                       (* ... and the results it keeps *)
  d_held : list dataid;                   (* the futures the client holds *)
  d_actors : list val;                    (* the state of each actor's object *)
  d_hist : list (dop * dout);             (* the calls of the main process and what they returned *)
  d_log : list (nat * ran)                (* the number of the call behind each function or method run, in order *)
}.

(** A fresh client (dask/utils.py:15-43). *)
Definition dinit : dst :=
  {| d_next := 0; d_job := dempty; d_fin := dempty; d_held := []; d_actors := []; d_hist := []; d_log := [] |}.

(** The futures that Dask finds in the arguments (dask/remote_function.py:79-84, dask/actor.py:62-79). *)
Definition arg_refs (args : list val) (kw : kwargs) : list dataid :=
  flat_map refs args ++ flat_map (fun kv => refs (snd kv)) kw.

(** Dask replaces futures in positional arguments by their results (dask/remote_function.py:82-84). *)
Definition fill (s : dataid -> val) (args : list val) : list val := map (subst s) args.
(** The same for keyword arguments (dask/remote_function.py:82-84). *)
Definition fill_kw (s : dataid -> val) (kw : kwargs) : kwargs := map (fun kv => (fst kv, subst s (snd kv))) kw.

(** The futures among the arguments of client.submit (dask/remote_function.py:82-91, dask/actor.py:70-88). *)
Definition deps (j : job) : list dataid :=
  match j with
  | JFun _ _ args kw | JMeth _ _ _ args kw => arg_refs args kw
  | JItem s _ | JResult s | JResultItem s _ => [s]
  end.

(** A method call changes the actor's object (dask/actor.py:71-73). *)
Definition replace (l : list val) (a : nat) (s : val) : list val :=
  match nth_error l a with
  | Some _ => firstn a l ++ s :: skipn (S a) l
  | None => l
  end.

Section Dask.
Variable body : nat -> nat -> list val -> kwargs -> res.          (* number of the call, function *)
Variable cbody : nat -> nat -> list val -> kwargs -> res.         (* number of the call, class: the new object *)
Variable mbody : nat -> nat -> val -> list val -> kwargs -> res * val.
Variable item : val -> nat -> res.                                (* v[i] *)

(** The state with a new task. client.submit with pure=False: always a new task (dask/remote_function.py:82-84). *)
Definition submit (st : dst) (j : job) : dst :=
  {| d_next := S (d_next st); d_job := dput (d_job st) (0, d_next st) j; d_fin := d_fin st; d_held := d_held st;
     d_actors := d_actors st; d_hist := d_hist st; d_log := d_log st |}.

(** ... with several: [client.submit(...) for i in range(num_returns)]. dask/remote_function.py:89-92, dask/actor.py:84-89.
    *)
Fixpoint submit_many (st : dst) (mk : nat -> job) (i n : nat) : dst * list dataid :=
  match n with
  | 0 => (st, [])
  | S n => let (st', l) := submit_many (submit st (mk i)) mk (S i) n in (st', (0, d_next st) :: l)
  end.

(** The call is over: the client holds the futures in the result, the others are gone. The return statements of
    dask/remote_function.py:86-94 and dask/actor.py:81-91. *)
Definition hand_out (st : dst) (o : dop) (out : dout) : dst :=
  let ds := match out with DRef d => [d] | DRefs l => l | _ => [] end in
  {| d_next := d_next st; d_job := d_job st; d_fin := d_fin st; d_held := ds ++ d_held st;
     d_actors := d_actors st; d_hist := d_hist st ++ [(o, out)]; d_log := d_log st |}.

(** The result of a finished task (dask/backend.py:77-81). *)
Definition value (st : dst) (d : dataid) : val :=
  match d_fin st d with Some (Fin (Ret v)) => v | _ => VLeaf 0 end.

(** Dask runs a task when its dependencies have finished without error (scheduler; used by dask/backend.py:121-124). *)
Definition finished_well (st : dst) (d : dataid) : bool :=
  match d_fin st d with Some (Fin (Ret _)) | Some (Fut _) => true | _ => false end.

(** The scheduler runs a task. Dask's scheduler keeps the result (read by dask/backend.py:77-81). *)
Definition finish (st : dst) (d : dataid) (f : fin) (acts : list val) (log : list (nat * ran)) : dst :=
  {| d_next := d_next st; d_job := ddel (d_job st) d; d_fin := dput (d_fin st) d f; d_held := d_held st;
     d_actors := acts; d_hist := d_hist st; d_log := d_log st ++ log |}.

(** The lambdas and functions given to client.submit (dask/remote_function.py:82-91, dask/actor.py:71-88). *)
Definition run_job (st : dst) (d : dataid) (j : job) : dst :=
  match j with
  | JFun c f args kw =>
      let vs := fill (value st) args in
      let kvs := fill_kw (value st) kw in
      finish st d (Fin (body c f vs kvs)) (d_actors st) [(c, RFun f vs kvs)]
  | JItem s i => finish st d (Fin (item (value st s) i)) (d_actors st) []
  | JMeth c a m args kw =>
      let vs := fill (value st) args in
      let kvs := fill_kw (value st) kw in
      match nth_error (d_actors st) a with
      | Some x => let (r, x') := mbody c m x vs kvs in
                  finish st d (Fut r) (replace (d_actors st) a x') [(c, RMeth a m vs kvs)]
      | None => st                            (* there is no handle of such an actor *)
      end
  | JResult s => match d_fin st s with
                 | Some (Fut r) => finish st d (Fin r) (d_actors st) []
                 | _ => st
                 end
  | JResultItem s i => match d_fin st s with
                       | Some (Fut (Ret v)) => finish st d (Fin (item v i)) (d_actors st) []
                       | Some (Fut (Exn e)) => finish st d (Fin (Exn e)) (d_actors st) []
                       | _ => st
                       end
  end.

(** Is [d] needed by a task that is still to run?. Dask keeps tasks that others depend on (scheduler; the dependencies come
    from dask/remote_function.py:82-91). *)
Definition needed (st : dst) (d : dataid) : bool :=
  existsb (fun k => match d_job st (0, k) with Some j => did_in d (deps j) | None => false end) (seq 0 (d_next st)).

Definition dstep (st : dst) (o : dop) : dst :=
  match o with
  | DPut v =>                                                     (* backend.py:84-98 *)
      hand_out {| d_next := S (d_next st); d_job := d_job st; d_fin := dput (d_fin st) (0, d_next st) (Fin (Ret v));
                  d_held := d_held st; d_actors := d_actors st; d_hist := d_hist st; d_log := d_log st |}
               o (DRef (0, d_next st))
  | DSubmit f args kw n reserve =>                                (* remote_function.py:62-94 *)
      if reserve then hand_out st o DUnsupported
      else
        let future := (0, d_next st) in
        let st1 := submit st (JFun (length (d_hist st)) f args kw) in
        if Nat.eqb n 1 then hand_out st1 o (DRef future)
        else if Nat.ltb 1 n then
          let (st2, l) := submit_many st1 (JItem future) 0 n in hand_out st2 o (DRefs l)
        else hand_out st1 o DNone
  | DActor c args kw reserve =>                                   (* actor.py:207-221; references among the arguments stay references *)
      if reserve then hand_out st o DUnsupported
      else match cbody (length (d_hist st)) c args kw with
           | Ret x => hand_out {| d_next := d_next st; d_job := d_job st; d_fin := d_fin st; d_held := d_held st;
                                  d_actors := d_actors st ++ [x]; d_hist := d_hist st; d_log := d_log st |}
                               o (DMade (length (d_actors st)))
           | Exn e => hand_out st o (DRaise e)
           end
  | DCall a m args kw n =>                                        (* actor.py:54-91 *)
      let future := (0, d_next st) in
      let st1 := submit st (JMeth (length (d_hist st)) a m args kw) in
      if Nat.eqb n 1 then hand_out (submit st1 (JResult future)) o (DRef (0, d_next st1))
      else if Nat.ltb 1 n then
        let (st2, l) := submit_many st1 (JResultItem future) 0 n in hand_out st2 o (DRefs l)
      else hand_out st1 o DNone
  | DDrop d =>
      {| d_next := d_next st; d_job := d_job st; d_fin := d_fin st; d_held := filter (fun x => negb (did_eqb d x)) (d_held st);
         d_actors := d_actors st; d_hist := d_hist st; d_log := d_log st |}
  | DRun d =>
      match d_job st d with
      | Some j => if forallb (finished_well st) (deps j) then run_job st d j else st
      | None => st
      end
  | DFail d x =>
      match d_job st d, d_fin st x with
      | Some j, Some (Fin (Exn e)) => if did_in x (deps j) then finish st d (Fin (Exn e)) (d_actors st) [] else st
      | _, _ => st
      end
  | DForget d =>
      if did_in d (d_held st) || needed st d then st
      else {| d_next := d_next st; d_job := ddel (d_job st) d; d_fin := ddel (d_fin st) d; d_held := d_held st;
              d_actors := d_actors st; d_hist := d_hist st; d_log := d_log st |}
  end.

(** Any history of calls and scheduler steps (dask/backend.py:62-131). *)
Definition drun (ops : list dop) : dst := fold_left dstep ops dinit.

(** get of one reference (backend.py:63-82, future.result()); None: it waits. *)
Definition dget (st : dst) (d : dataid) : option res :=
  match d_fin st d with Some (Fin r) => Some r | _ => None end.
End Dask.
