(** Model of calls on the Ray backend: core/backends/ray/remote_function.py:36-80, core/backends/ray/actor.py and
    core/backends/ray/backend.py:60-92 (get, put), with base/common.py:20-49, together with what these rely on in Ray (outside the code
    base, this is the part of its contract that is used):
    - f.options(num_returns=n, max_retries=0).remote(args) makes a task and n references. References that are arguments themselves are its
      dependencies; it is run at any time when all of them have a value or an exception. The first exception among the arguments is then
      the task's exception, and the function is not called; otherwise values are handed over in place of the references. References
      inside of other objects are handed over as they are.
    - the methods of an actor are run in the order in which one process has submitted them, one after the other.
    - with several references the result has to have exactly as many items, otherwise all get an exception.
    - the constructor of an actor runs in the background; if it raises, all calls of methods give an exception. (Simplified: constructors
      that are given references, for whose values Ray waits, are left out: the theorems ask for constructors without them.)
    A step is a call of the main process or a step of Ray. What the user's functions compute is an oracle that cannot call the API. A
    reference is the Ray reference it wraps (as in PyseqModel). *)
From Verif Require Import Lib ValModel PyseqModel.

(** A submitted task: the call and what it returned. Not in the code: the calls made before it. (ray/remote_function.py:68-80,
    ray/actor.py:56-64.) *)
Record rtask := { rt_op : qop; rt_res : qout; rt_before : hist }.

(** r_pend: the tasks that were not run yet, in the order of submission. r_vals: what Ray keeps for references. r_actors: the objects of
    actors, None if the constructor raised. r_log: the numbers of the calls whose function or method was entered. r_hist: the calls of the
    main process with their results, latest first. (ray/remote_function.py:68-80, ray/actor.py:56-64, 184-189.) *)
Record yst := {
  y_next : nat;
  y_pend : list rtask;
  y_vals : dmap res;
  y_actors : list (option val);
  y_log : list nat;
  y_hist : hist
}.

(** After ray.init (ray/utils.py:32-72). *)
Definition yinit : yst := {| y_next := 0; y_pend := []; y_vals := fun _ => None; y_actors := []; y_log := []; y_hist := [] |}.

(** The calls a program makes (ray/backend.py:78-92, ray/remote_function.py:36-80, ray/actor.py:30-64, 161-189; [reserve] as in
    PyseqModel), and a step of Ray: the i-th task that was not run yet is run (Ray is not part of /repo; started by
    ray/remote_function.py:68-73). *)
Inductive yop :=
| YPut (v : val)
| YSubmit (f : nat) (args : list val) (kw : kwargs) (n : nat) (reserve : bool)
| YActor (c : nat) (args : list val) (kw : kwargs) (reserve : bool)
| YCall (a m : nat) (args : list val) (kw : kwargs) (n : nat)
| YRun (i : nat).

(** New references, (0, k), (0, k + 1), ... (made by Ray for ray/remote_function.py:68-73, ray/actor.py:57). *)
Definition fresh_refs (k n : nat) : list dataid := map (fun i => (0, i)) (seq k n).

(** One reference, a list of them or None (ray/remote_function.py:75-80, ray/actor.py:59-64). *)
Definition wrap (ds : list dataid) : qout := match ds with [] => ONone | [d] => ORef d | _ => ORefs ds end.

(** The references a call returned (ray/remote_function.py:75-80). *)
Definition outs_of (o : qout) : list dataid := match o with ORef d => [d] | ORefs l => l | _ => [] end.

(** The arguments of a submitted task (ray/remote_function.py:73, ray/actor.py:57). *)
Definition task_args (o : qop) : list val := match o with QSubmit _ args _ _ _ | QCall _ _ args _ _ => args | _ => [] end.
(** Its keyword arguments (ray/remote_function.py:73, ray/actor.py:57). *)
Definition task_kw (o : qop) : kwargs := match o with QSubmit _ _ kw _ _ | QCall _ _ _ kw _ => kw | _ => [] end.

(** The actor whose method is called (ray/actor.py:56). *)
Definition on_actor (o : qop) (a : nat) : bool := match o with QCall x _ _ _ _ => Nat.eqb x a | _ => false end.

(** A dependency is there (Ray, for ray/remote_function.py:73). *)
Definition available (st : yst) (v : val) : bool := match v with VRef d => match y_vals st d with Some _ => true | None => false end | _ => true end.

(** Values in place of the references that are arguments, or the first exception. None: not all are there (Ray, for
    ray/remote_function.py:73). *)
Fixpoint gather (st : yst) (l : list val) : option (list val + nat) :=
  match l with
  | [] => Some (inl [])
  | v :: r =>
      match (match v with VRef d => y_vals st d | _ => Some (Ret v) end) with
      | None => None
      | Some (Exn e) => Some (inr e)
      | Some (Ret x) => match gather st r with Some (inl xs) => Some (inl (x :: xs)) | o => o end
      end
  end.

Section Ray.
Variable body : nat -> list val -> kwargs -> res.                 (* functions *)
Variable cbody : nat -> list val -> kwargs -> res.                (* constructors: the state of the new object *)
Variable mbody : nat -> val -> list val -> kwargs -> res * val.   (* methods: result and state afterwards *)
Variable iter : val -> option (list val).                         (* iterating over an object that is neither list, tuple nor exception *)
Variable wrong_number actor_died : nat.                           (* exceptions of Ray *)

(** The items of a result (Ray, for ray/remote_function.py:70, 77-78). *)
Definition items_of (v : val) : option (list val) :=
  match v with VList l | VTuple l => Some l | VExc _ => None | _ => iter v end.

(** What the n references of a call get (Ray, for ray/remote_function.py:70). *)
Definition deal (n : nat) (r : res) : list res :=
  match r with
  | Exn e => repeat (Exn e) n
  | Ret v =>
      if Nat.eqb n 1 then [Ret v]
      else match items_of v with
           | Some l => if Nat.eqb (length l) n then map Ret l else repeat (Exn wrong_number) n
           | None => repeat (Exn wrong_number) n
           end
  end.

(** The references get their values (read by ray/backend.py:75). *)
Fixpoint record (m : dmap res) (ds : list dataid) (rs : list res) : dmap res :=
  match ds, rs with d :: ds, r :: rs => dput (record m ds rs) d r | _, _ => m end.

(** An actor's object is changed by a method (ray/actor.py:57). *)
Definition set_obj (l : list (option val)) (a : nat) (s : val) : list (option val) := firstn a l ++ Some s :: skipn (S a) l.

(** A task is run: its result, the objects afterwards, and whether the function or method was entered (Ray, for
    ray/remote_function.py:68-73, ray/actor.py:57). *)
Definition execute (st : yst) (o : qop) : option (res * list (option val) * bool) :=
  match gather st (task_args o), gather st (map snd (task_kw o)) with
  | Some (inl vs), Some (inl ks) =>
      let kvs := combine (map fst (task_kw o)) ks in
      match o with
      | QSubmit f _ _ _ _ => Some (body f vs kvs, y_actors st, true)
      | QCall a m _ _ _ =>
          match nth_error (y_actors st) a with
          | Some (Some s) => let (r, s') := mbody m s vs kvs in Some (r, set_obj (y_actors st) a s', true)
          | Some None => Some (Exn actor_died, y_actors st, false)
          | None => None
          end
      | _ => None
      end
  | Some (inl _), Some (inr e) => Some (Exn e, y_actors st, false)
  | Some (inr e), Some _ => Some (Exn e, y_actors st, false)
  | _, _ => None
  end.

(** May the i-th task be run? (Ray, for ray/remote_function.py:73, ray/actor.py:57.) *)
Definition runnable (st : yst) (i : nat) (t : rtask) : bool :=
  forallb (available st) (task_args (rt_op t) ++ map snd (task_kw (rt_op t))) &&
  match rt_op t with
  | QCall a _ _ _ _ => negb (existsb (fun u => on_actor (rt_op u) a) (firstn i (y_pend st)))
  | _ => true
  end.

(** A call of the main process (ray/backend.py:92, ray/remote_function.py:61-80, ray/actor.py:53-64, 180-189). *)
Definition called (st : yst) (o : qop) (out : qout) (next : nat) (pend : list rtask) (vals : dmap res) (acts : list (option val)) : yst :=
  {| y_next := next; y_pend := pend; y_vals := vals; y_actors := acts; y_log := y_log st; y_hist := (o, out) :: y_hist st |}.

(** .remote() of a function or method (ray/remote_function.py:61-80, ray/actor.py:53-64). *)
Definition enqueue (st : yst) (o : qop) (n : nat) : yst :=
  let out := wrap (fresh_refs (y_next st) n) in
  called st o out (y_next st + n) (y_pend st ++ [{| rt_op := o; rt_res := out; rt_before := y_hist st |}]) (y_vals st) (y_actors st).

(** A step (ray/backend.py:78-92, ray/remote_function.py:36-80, ray/actor.py:30-64, 161-189). *)
Definition ystep (st : yst) (o : yop) : yst :=
  match o with
  | YPut v => called st (QPut v) (ORef (0, y_next st)) (S (y_next st)) (y_pend st) (dput (y_vals st) (0, y_next st) (Ret v)) (y_actors st)
  | YSubmit f args kw n reserve => enqueue st (QSubmit f args kw n reserve) n
  | YActor c args kw reserve =>
      called st (QActor c args kw reserve) (OActor (length (y_actors st))) (y_next st) (y_pend st) (y_vals st)
        (y_actors st ++ [match cbody c args kw with Ret s => Some s | Exn _ => None end])
  | YCall a m args kw n => enqueue st (QCall a m args kw n) n
  | YRun i =>
      match nth_error (y_pend st) i with
      | None => st
      | Some t =>
          if runnable st i t then
            match execute st (rt_op t) with
            | None => st
            | Some (r, acts, entered) =>
                {| y_next := y_next st; y_pend := firstn i (y_pend st) ++ skipn (S i) (y_pend st);
                   y_vals := record (y_vals st) (outs_of (rt_res t)) (deal (length (outs_of (rt_res t))) r);
                   y_actors := acts; y_log := if entered then y_log st ++ [length (rt_before t)] else y_log st; y_hist := y_hist st |}
            end
          else st
      end
  end.

(** Any history of calls and steps of Ray (ray/backend.py:60-92). *)
Definition yrun (ops : list yop) : yst := fold_left ystep ops yinit.

End Ray.

(** get of one reference (ray/backend.py:60-75); None: it waits. *)
Definition yget (st : yst) (d : dataid) : option res := y_vals st d.
