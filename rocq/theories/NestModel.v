(** The MPI backend as a whole with tasks that call the API themselves.

    Models /repo/unidist/core/backends/mpi/core: put, get and submit in controller/api.py:371-433,508-580
    (with controller/common.py:113-233,236-415 and local_object_store.py:183-231) executed by any process, the root or a
    worker in the middle of a task, and the worker's loop (worker/loop.py:77-233, task_store.py:57-459,
    request_store.py, as in WorkerModel) that is not served meanwhile.

    Messages from one process to another are taken in the order they were sent, separately for operations and for the
    answers to blocking requests, which have a tag of their own (common.py, MPITag); between different senders any order
    is possible. A message and its payload are one unit. The rank a task is sent to is any worker but the sender itself
    (RoundRobin, controller/common.py:23-83, is in SchedModel). Simplifications: functions are plain ones (no coroutines, no
    actors); wait, cleanups, shutdown and completion reports are left out; the value of a reference that is held is one
    store (WorkerModel); push_data visits the references of a value from left to right (PushModel). *)
From Verif Require Import Lib ValModel WorkerModel ClusterModel.

(** What get gives: values, the exception of a task, or an error of its own (KeyError, RuntimeError).
    controller/api.py:427-433, controller/common.py:193, 229-233. *)
Inductive gres := GVals (vs : list val) | GRaise (e : nat) | GError.

(** A program: what is done next, depending on the answers so far. The last argument of ASubmit is num_returns; it is
    answered by the new references, or by ValueError("Unknown DataID!") (None). A user's program, seen through the calls it
    makes (controller/api.py:371-433, 508-580). *)
Inductive act :=
| ARet (r : result)
| APut (v : val) (k : dataid -> act)
| ASubmit (f : dataid) (args kwargs : val) (n : nat) (k : option (list dataid) -> act)
| AGet (ds : list dataid) (k : gres -> act).

(** What programs did. HStart: a task is entered. Calls of controller/api.py:371-433, 508-580 and the start and end of
    execute_received_task (worker/task_store.py:339); recorded for the specification. *)
Inductive hev :=
| HStart (n : nat)
| HPut (d : dataid) (v : val)
| HSubmit (dest : rank) (q : request)
| HRefused (f : dataid) (args kwargs : val) (n : nat)
| HGet (ds : list dataid) (r : gres)
| HEnd (r : result).

(** A get in progress (controller/common.py:217-233): its argument, the IDs requested, how many answers are still to
    come, and exception_raised. *)
Record getting := { t_want : list dataid; t_ids : list dataid; t_left : nat; t_exc : option nat }.

(** What the worker's loop does when the task is over: it was the main program (nothing), the task was just received
    (loop.py:120-123), or it was met in the pass over the pending tasks (task_store.py:83-97): those kept so far, those
    still to be looked at. *)
Inductive later := LMain | LExec | LPass (kept todo : list request).

(** A program being executed. f_run numbers executions; it is not in the code. The user's function called in
    worker/task_store.py:339, or the user's script, and the loops below it on the stack. *)
Record frame := { f_run : nat; f_q : request; f_act : act; f_get : option getting; f_rest : later }.

(** A process. p_next: LocalObjectStore._data_id_counter. The log of p_w is that of the last step only.
    local_object_store.py:24-38, worker/task_store.py:34-42, worker/request_store.py:46-54. *)
Record proc := { p_w : wst; p_next : nat; p_cur : option frame }.

(** n_chan: operations under way; n_rep: answers to blocking requests under way. n_dead: an exception has ended a worker's
    loop. The last fields are not in the code: numbers of tasks and of executions so far, and what every execution did, in
    order. MPI's messages (communication.py:277-372) and all processes. *)
Record nst := {
  n_proc : rank -> proc;
  n_dead : rank -> bool;
  n_chan : rank -> rank -> list wmsg;
  n_rep : rank -> rank -> list (dataid * val);
  n_tasks : nat;
  n_runs : nat;
  n_hist : list (nat * hev)
}.

(** Forgets the record of earlier steps; not code (the events are those of WorkerModel, worker/request_store.py:251-268,
    worker/task_store.py:146-166). *)
Definition no_log (w : wst) : wst :=
  {| store := store w; owner := owner w; reqs := reqs w; sent := sent w; gets := gets w; bgets := bgets w;
     pend := pend w; apend := apend w; running := running w; calls := calls w; ready := ready w; log := [] |}.

(** The operations, and the answers to blocking requests, in a list of events. worker/request_store.py:251-268 and
    worker/task_store.py:146-166. *)
Definition ops_out (self : rank) (l : list wev) (dst : rank) : list wmsg :=
  flat_map (fun e => match e with
                     | EvPut x d v false => if Nat.eqb x dst then [WPut d v] else []
                     | EvGet x d => if Nat.eqb x dst then [WGet self d false] else []
                     | _ => []
                     end) l.

(** worker/request_store.py:145-160, 251-268, with is_blocking_op. *)
Definition reps_out (l : list wev) (dst : rank) : list (dataid * val) :=
  flat_map (fun e => match e with EvPut x d v true => if Nat.eqb x dst then [(d, v)] else [] | _ => [] end) l.

(** ** put, submit and get in a process *)

(** The branch of push_data for a reference (controller/common.py:391-415), not blocking; None: ValueError. *)
Definition push_one (w : wst) (dest : rank) (d : dataid) : option (wst * list wmsg) :=
  match store w d with
  | Some v => if pair_in (d, dest) (sent w) then Some (w, []) else Some (set_sent w (sent w ++ [(d, dest)]), [WPut d v])
  | None => match owner w d with Some o => Some (w, [WOwner d o]) | None => None end
  end.

(** push_data for references one after the other; what was sent before an exception stays sent.
    controller/common.py:386-415. *)
Fixpoint push_all (w : wst) (dest : rank) (ds : list dataid) : wst * list wmsg * bool :=
  match ds with
  | [] => (w, [], true)
  | d :: r =>
      match push_one w dest d with
      | None => (w, [], false)
      | Some (w1, l1) => let '(w2, l2, ok) := push_all w1 dest r in (w2, l1 ++ l2, ok)
      end
  end.

(** generate_output_data_id (local_object_store.py:202-231). *)
Definition new_ids (self next n : nat) : list dataid := map (fun i => (self, i)) (seq next n).
(** generate_output_data_id (local_object_store.py:202-231). *)
Definition new_out (self next n : nat) : outputs :=
  match n with 0 => ONone | 1 => OOne (self, next) | _ => OMany (new_ids self next n) end.

(** The owners asked by request_worker_data (controller/common.py:191-214), up to the first that is not known (KeyError). *)
Fixpoint ask_owners (o : dmap rank) (ds : list dataid) : list (rank * dataid) * bool :=
  match ds with
  | [] => ([], true)
  | d :: r => match o d with Some x => let (l, ok) := ask_owners o r in ((x, d) :: l, ok) | None => ([], false) end
  end.

Section Nest.
Variable workers : list rank.
Variable body : val -> val -> val -> act.     (* function, args, kwargs *)

(** ** The worker's loop *)

(** request["args"] and request["kwargs"] are replaced (worker/task_store.py:422-459). *)
Definition with_args (q : request) (args kwargs : val) : request :=
  {| q_id := q_id q; q_fn := q_fn q; q_args := args; q_kwargs := kwargs; q_out := q_out q |}.

(** process_task_request (task_store.py:406-459) up to the call of the task: the request with its arguments looked up, and
    the function if nothing is missing. None: an exception ends the loop. *)
Definition prepare (self : rank) (w : wst) (q : request) : option (wst * request * option val) :=
  match q_fn q with
  | FMethod _ => None
  | FRef d =>
      match store w d with
      | None => None
      | Some f =>
          match materialize self w (q_args q) false with
          | None => None
          | Some (w1, args, p1) =>
              match materialize self w1 (q_kwargs q) false with
              | None => None
              | Some (w2, kwargs, p2) => Some (w2, with_args q args kwargs, if p1 || p2 then None else Some f)
              end
          end
      end
  end.

(** What is executed (worker/task_store.py:325-344): the exception of an argument, or the body. *)
Definition entered (f : val) (q : request) : act :=
  match failed_arg (q_args q) (q_kwargs q) with Some e => ARet (RExc e) | None => body f (q_args q) (q_kwargs q) end.

(** The end of a task (worker/task_store.py:346-404, 452-456). *)
Definition finish_task (w : wst) (q : request) (r : result) : option wst :=
  match store_result w (q_out q) r with
  | None => None
  | Some (w1, _) => Some (check_gets (check_gets w1 (out_ids (q_out q))) (out_ids (q_out q)))
  end.

(** The pass over the pending tasks (worker/task_store.py:83-97), up to the next task to be executed. *)
Fixpoint pass (self : rank) (w : wst) (kept todo : list request)
  : option (wst * (list request + request * val * list request * list request)) :=
  match todo with
  | [] => Some (w, inl kept)
  | q :: r =>
      match prepare self w q with
      | None => None
      | Some (w1, q1, None) => pass self w1 (kept ++ [q1]) r
      | Some (w1, q1, Some f) => Some (w1, inr (q1, f, kept, r))
      end
  end.

(** The state after a (part of a) pass, and the task entered; run is the number of its execution. During a pass nothing
    looks at the old list. worker/task_store.py:83-97 and worker/loop.py:113-146. *)
Definition go_on (self : rank) (p : proc) (w : wst) (kept todo : list request) (run : nat) : option (proc * option nat) :=
  match pass self w kept todo with
  | None => None
  | Some (w1, inl l) => Some ({| p_w := set_pend w1 l (apend w1); p_next := p_next p; p_cur := None |}, None)
  | Some (w1, inr (q, f, l, r)) =>
      Some ({| p_w := w1; p_next := p_next p;
               p_cur := Some {| f_run := run; f_q := q; f_act := entered f q; f_get := None; f_rest := LPass l r |} |},
            Some (q_id q))
  end.

(** A turn of the loop up to the next task to be executed (worker/loop.py:103-233). *)
Definition serve (self : rank) (p : proc) (m : wmsg) (run : nat) : option (proc * option nat) :=
  let w := no_log (p_w p) in
  let idle w := {| p_w := w; p_next := p_next p; p_cur := None |} in
  match m with
  | WExec q =>
      match prepare self w q with
      | None => None
      | Some (w1, q1, None) => Some (idle (set_pend w1 (pend w1 ++ [q1]) (apend w1)), None)
      | Some (w1, q1, Some f) =>
          Some ({| p_w := w1; p_next := p_next p;
                   p_cur := Some {| f_run := run; f_q := q1; f_act := entered f q1; f_get := None; f_rest := LExec |} |},
                Some (q_id q))
      end
  | WGet src d b => Some (idle (process_get w src d b), None)
  | WPut d v =>
      let w1 := set_store w (dput (store w) d v) in
      let w2 := set_reqs w1 (filter (fun x => negb (did_eqb x d)) (reqs w1)) in
      go_on self p (set_pend w2 [] (apend w2)) [] (pend w2) run
  | WOwner d r => Some (idle (set_owner w (dput (owner w) d r)), None)
  | _ => Some (idle w, None)
  end.

(** The task is over: its result is stored, and the loop goes on. worker/task_store.py:346-404, then worker/loop.py:117-122
    or the loop of worker/task_store.py:89-97. *)
Definition leave (self : rank) (p : proc) (fr : frame) (r : result) (run : nat) : option (proc * option nat) :=
  match finish_task (no_log (p_w p)) (f_q fr) r with
  | None => None
  | Some w =>
      match f_rest fr with
      | LMain => Some (p, None)
      | LExec => go_on self p (set_pend w [] (apend w)) [] (pend w) run
      | LPass kept todo => go_on self p w kept todo run
      end
  end.

(** ** Steps *)

(** The user's function goes on after a call has returned (worker/task_store.py:339). *)
Definition set_act (fr : frame) (a : act) (g : option getting) : frame :=
  {| f_run := f_run fr; f_q := f_q fr; f_act := a; f_get := g; f_rest := f_rest fr |}.

(** One call of the API by the program on p; dest is the rank chosen in case of a submission. Result: the process, the
    operations sent, whether a task was submitted, and what was done. controller/api.py:371-433, 508-580. *)
Definition call_api (p : rank) (s : proc) (fr : frame) (dest : rank) (task : nat)
  : option (proc * list (rank * wmsg) * bool * list hev) :=
  let w := no_log (p_w s) in
  match f_act fr with
  | ARet _ => None
  | APut v k =>
      let d := (p, p_next s) in
      Some ({| p_w := set_store w (dput (store w) d v); p_next := S (p_next s);
               p_cur := Some (set_act fr (k d) None) |}, [], false, [HPut d v])
  | ASubmit f args kwargs n k =>
      if negb (existsb (Nat.eqb dest) workers) || Nat.eqb dest p then None
      else
        let o := new_out p (p_next s) n in
        let w0 := set_owner w (fold_left (fun m d => dput m d dest) (out_ids o) (owner w)) in
        let '(w1, l, ok) := push_all w0 dest ([f] ++ refs args ++ refs kwargs) in
        let q := {| q_id := task; q_fn := FRef f; q_args := args; q_kwargs := kwargs; q_out := o |} in
        if ok
        then Some ({| p_w := w1; p_next := p_next s + n; p_cur := Some (set_act fr (k (Some (out_ids o))) None) |},
                   map (fun m => (dest, m)) (l ++ [WExec q]), true, [HSubmit dest q])
        else Some ({| p_w := w1; p_next := p_next s + n; p_cur := Some (set_act fr (k None) None) |},
                   map (fun m => (dest, m)) l, false, [HRefused f args kwargs n])
  | AGet ds k =>
      match filter (fun d => negb (dmem (store w) d)) ds with
      | [] =>
          let r := match read_vals (store w) ds with Some vs => GVals vs | None => GError end in
          Some ({| p_w := w; p_next := p_next s; p_cur := Some (set_act fr (k r) None) |}, [], false, [HGet ds r])
      | x :: r =>
          let (l, ok) := ask_owners (owner w) (x :: r) in
          let out := map (fun y => (fst y, WGet p (snd y) true)) l in
          if ok
          then Some ({| p_w := w; p_next := p_next s;
                        p_cur := Some (set_act fr (f_act fr) (Some {| t_want := ds; t_ids := x :: r; t_left := length (x :: r);
                                                                      t_exc := None |})) |}, out, false, [])
          else Some ({| p_w := w; p_next := p_next s; p_cur := Some (set_act fr (k GError) None) |}, out, false, [HGet ds GError])
      end
  end.

(** A process waiting in get takes an answer (controller/common.py:217-233,113-171). *)
Definition receive (s : proc) (fr : frame) (g : getting) (k : gres -> act) (d : dataid) (v : val) : proc * list hev :=
  let w := set_store (no_log (p_w s)) (dput (store (p_w s)) d v) in
  let exc := match t_exc g, v with None, VExc e => Some e | x, _ => x end in
  let over r := ({| p_w := w; p_next := p_next s; p_cur := Some (set_act fr (k r) None) |}, [HGet (t_want g) r]) in
  if did_in d (t_ids g)
  then match t_left g with
       | S (S j) =>
           ({| p_w := w; p_next := p_next s;
               p_cur := Some (set_act fr (f_act fr) (Some {| t_want := t_want g; t_ids := t_ids g; t_left := S j; t_exc := exc |})) |}, [])
       | _ =>
           over (match exc with
                 | Some e => GRaise e
                 | None => match read_vals (store w) (t_want g) with Some vs => GVals vs | None => GError end
                 end)
       end
  else over GError.

(** Only one process changes in a step; not code of /repo (each process has its own memory, worker/loop.py:88-92). *)
Definition upd {A} (f : rank -> A) (p : rank) (x : A) : rank -> A := fun r => if Nat.eqb r p then x else f r.

(** Process p is now s; it has sent out and the operations and answers of its log; the executions did h. The effect of one
    step on the whole; what is sent comes from controller/common.py:207-212, 236-365 and worker/request_store.py:251-268. *)
Definition put_proc (n : nst) (p : rank) (s : proc) (ch : rank -> rank -> list wmsg) (re : rank -> rank -> list (dataid * val))
  (out : list (rank * wmsg)) (tasks runs : nat) (h : list (nat * hev)) : nst :=
  {| n_proc := upd (n_proc n) p s; n_dead := n_dead n;
     n_chan := fun a b => if Nat.eqb a p then ch a b ++ sends_to b out ++ ops_out p (log (p_w s)) b else ch a b;
     n_rep := fun a b => if Nat.eqb a p then re a b ++ reps_out (log (p_w s)) b else re a b;
     n_tasks := tasks; n_runs := runs; n_hist := n_hist n ++ h |}.

(** An exception has left the loop of p. An exception that worker_loop does not catch (worker/loop.py:103-233). *)
Definition kill (n : nst) (p : rank) (ch : rank -> rank -> list wmsg) (h : list (nat * hev)) : nst :=
  let s := {| p_w := no_log (p_w (n_proc n p)); p_next := p_next (n_proc n p); p_cur := None |} in
  let n1 := put_proc n p s ch (n_rep n) [] (n_tasks n) (n_runs n) h in
  {| n_proc := n_proc n1; n_dead := upd (n_dead n) p true; n_chan := n_chan n1; n_rep := n_rep n1; n_tasks := n_tasks n1;
     n_runs := n_runs n1; n_hist := n_hist n1 |}.

(** The loop of p went on, perhaps into a task. worker/loop.py:103-233, worker/task_store.py:208-459. *)
Definition looped (n : nst) (p : rank) (x : option (proc * option nat)) (ch : rank -> rank -> list wmsg) (h : list (nat * hev)) : nst :=
  match x with
  | None => kill n p ch h
  | Some (s, None) => put_proc n p s ch (n_rep n) [] (n_tasks n) (n_runs n) h
  | Some (s, Some i) => put_proc n p s ch (n_rep n) [] (n_tasks n) (S (n_runs n)) (h ++ [(n_runs n, HStart i)])
  end.

(** NRun: the program on p does its next call, or returns. NTake: a worker that executes no task takes the next operation of
    src. NReply: a process waiting in get takes the next answer of src. controller/api.py:371-580; worker/loop.py:103-233;
    controller/common.py:220-231. *)
Inductive nop := NRun (p dest : rank) | NTake (src p : rank) | NReply (src p : rank).

(** As cited at call_api, serve, leave and receive (controller/api.py:371-580, worker/loop.py:103-233,
    controller/common.py:220-233). *)
Definition nstep (n : nst) (o : nop) : nst :=
  match o with
  | NRun p dest =>
      match p_cur (n_proc n p), n_dead n p with
      | Some fr, false =>
          match f_get fr with
          | Some _ => n
          | None =>
              match f_act fr with
              | ARet r =>
                  match f_rest fr with
                  | LMain => n
                  | _ => looped n p (leave p (n_proc n p) fr r (n_runs n)) (n_chan n) [(f_run fr, HEnd r)]
                  end
              | _ =>
                  match call_api p (n_proc n p) fr dest (n_tasks n) with
                  | None => n
                  | Some (s, out, sub, h) =>
                      put_proc n p s (n_chan n) (n_rep n) out (if sub then S (n_tasks n) else n_tasks n) (n_runs n)
                        (map (fun e => (f_run fr, e)) h)
                  end
              end
          end
      | _, _ => n
      end
  | NTake src p =>
      match n_chan n src p, p_cur (n_proc n p) with
      | m :: _, None =>
          if Nat.eqb p 0 || n_dead n p then n
          else looped n p (serve p (n_proc n p) m (n_runs n)) (drop_head (n_chan n) src p) []
      | _, _ => n
      end
  | NReply src p =>
      match n_rep n src p, p_cur (n_proc n p) with
      | (d, v) :: _, Some fr =>
          match f_get fr, f_act fr with
          | Some g, AGet _ k =>
              let (s, h) := receive (n_proc n p) fr g k d v in
              put_proc n p s (n_chan n)
                (fun a b => if Nat.eqb a src && Nat.eqb b p then tl (n_rep n a b) else n_rep n a b) [] (n_tasks n) (n_runs n)
                (map (fun e => (f_run fr, e)) h)
          | _, _ => n
          end
      | _, _ => n
      end
  end.

(** Nobody has done anything; the root starts the main program, execution 0. The main program is no task: a dummy in place
    of the request of worker/task_store.py:422-459. *)
Definition noq : request := {| q_id := 0; q_fn := FMethod 0; q_args := VList []; q_kwargs := VDict []; q_out := ONone |}.

(** After unidist.init (controller/api.py:117-288, worker/loop.py:88-102). *)
Definition ninit (main : act) : nst :=
  {| n_proc := fun p => {| p_w := winit; p_next := 0;
       p_cur := if Nat.eqb p 0 then Some {| f_run := 0; f_q := noq; f_act := main; f_get := None; f_rest := LMain |} else None |};
     n_dead := fun _ => false; n_chan := fun _ _ => []; n_rep := fun _ _ => []; n_tasks := 0; n_runs := 1; n_hist := [] |}.

(** Any interleaving of the processes, from the state after init (controller/api.py:117-288). *)
Definition nrun (main : act) (ops : list nop) : nst := fold_left nstep ops (ninit main).

End Nest.
