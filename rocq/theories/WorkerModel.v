(** Model of a worker process: worker/loop.py:77-233, worker/task_store.py:57-459,
    worker/request_store.py:42-268, common.py:395-440 (core/backends/mpi/core).

    Simplifications. The local store, the serialised cache and shared memory are one store (they
    are three places of the same value: object_store.py:36-90). What a task body computes is a
    parameter; bodies that call the API of this process again are not modelled. A coroutine runs
    in one piece when it ends. The name of an actor's method is already resolved (loop.py:188-193)
    and actors are not created or deleted. WAIT messages (nobody sends them to workers) are left
    out. CLEANUP is taken to remove at once what is kept under a name; in the code this happens when
    the last copy of the ID object dies (local_object_store.py:165-180). An exception that leaves the loop (the worker dies) is [None]. *)
From Verif Require Import Lib ValModel.

(** request["output"]: None, one ID or a list of IDs, as made by generate_output_data_id (local_object_store.py:202-231) and
    told apart in worker/task_store.py:260-303, 349-391. *)
Inductive outputs := ONone | OOne (d : dataid) | OMany (ds : list dataid).

(** The IDs among them (worker/task_store.py:260-303, 349-391). *)
Definition out_ids (o : outputs) : list dataid :=
  match o with ONone => [] | OOne d => [d] | OMany ds => ds end.

(** What is called, request["task"]: a function value under a reference, or a method of an actor living here
    (worker/loop.py:188-193, worker/task_store.py:424-428). *)
Inductive fn := FRef (d : dataid) | FMethod (m : nat).
(** What process_task_request hands to execute_received_task (worker/task_store.py:424-428, 455). *)
Inductive callee := CFun (v : val) | CMethod (m : nat).

(** A request; [q_id] only serves to talk about it. [q_args] is a list, [q_kwargs] a dictionary. The dictionaries of
    controller/api.py:559-566 and controller/actor.py:47-54. *)
Record request := { q_id : nat; q_fn : fn; q_args : val; q_kwargs : val; q_out : outputs }.

(** How the call of the task ends: worker/task_store.py:250-268, 339-357. *)
Inductive result := RVal (v : val) | RExc (e : nat).

(** One call of a method: actor_method of worker/loop.py:192 with its arguments. *)
Record call := { c_method : nat; c_args : val; c_kwargs : val }.

(** The operations of worker/loop.py:113-221. *)
Inductive wmsg :=
| WExec (q : request)                              (* EXECUTE *)
| WActor (q : request)                             (* ACTOR_EXECUTE *)
| WGet (src : rank) (d : dataid) (blocking : bool) (* GET *)
| WPut (d : dataid) (v : val)                      (* PUT_DATA, PUT_SHARED_DATA *)
| WOwner (d : dataid) (r : rank)                   (* PUT_OWNER *)
| WClean (ds : list dataid)                        (* CLEANUP *)
| WFinish (i : nat)                                (* not a message: the i-th coroutine ends *)
| WCancel.                                         (* CANCEL *)

(** What is observable of worker/loop.py:103-233 and worker/task_store.py:208-404. Not in the code: a log that the theorems
    speak about. *)
Inductive wev :=
| EvIn (m : wmsg)                                  (* a message is taken *)
| EvRun (n : nat) (c : callee) (args kwargs : val) (* the body of request n is entered *)
| EvEnd (n : nat) (r : result)                     (* request n has its result *)
| EvStore (d : dataid) (v : val)                   (* a result is stored *)
| EvPut (dest : rank) (d : dataid) (v : val) (blocking : bool)  (* a value is sent *)
| EvGet (dest : rank) (d : dataid)                 (* a value is requested *)
| EvDone (ds : list dataid).                       (* TASK_DONE to the monitor *)

(** The state of the stores of one worker: worker/task_store.py:34-42, worker/request_store.py:46-54,
    local_object_store.py:24-38, and ready_to_shutdown_posted (worker/loop.py:102). *)
Record wst := {
  store : dmap val;
  owner : dmap rank;
  reqs : list dataid;                     (* RequestStore._data_requests *)
  sent : list (dataid * rank);            (* LocalObjectStore._sent_data_map *)
  gets : list (dataid * rank);            (* RequestStore._nonblocking_get_requests *)
  bgets : list (dataid * rank);           (* RequestStore._blocking_get_requests *)
  pend : list request;                    (* TaskStore._pending_tasks_list *)
  apend : list request;                   (* TaskStore._pending_actor_tasks_list *)
  running : list (request * callee);      (* TaskStore.background_tasks *)
  calls : list call;                      (* method calls executed on the actors, in order *)
  ready : bool;                           (* ready_to_shutdown_posted *)
  log : list wev
}.

(** worker/loop.py:88-102, with the stores empty. *)
Definition winit : wst :=
  {| store := dempty; owner := dempty; reqs := []; sent := []; gets := []; bgets := []; pend := [];
     apend := []; running := []; calls := []; ready := false; log := [] |}.

(** Adds to the log; the state of worker/loop.py:88-102 is unchanged. *)
Definition emit (w : wst) (e : wev) : wst :=
  {| store := store w; owner := owner w; reqs := reqs w; sent := sent w; gets := gets w;
     bgets := bgets w; pend := pend w; apend := apend w; running := running w; calls := calls w;
     ready := ready w; log := log w ++ [e] |}.

(** LocalObjectStore._data_map (local_object_store.py:24-38). *)
Definition set_store (w : wst) (s : dmap val) : wst :=
  {| store := s; owner := owner w; reqs := reqs w; sent := sent w; gets := gets w;
     bgets := bgets w; pend := pend w; apend := apend w; running := running w; calls := calls w;
     ready := ready w; log := log w |}.

(** LocalObjectStore._data_owner_map (local_object_store.py:24-38). *)
Definition set_owner (w : wst) (o : dmap rank) : wst :=
  {| store := store w; owner := o; reqs := reqs w; sent := sent w; gets := gets w;
     bgets := bgets w; pend := pend w; apend := apend w; running := running w; calls := calls w;
     ready := ready w; log := log w |}.

(** RequestStore._data_request (worker/request_store.py:46-54). *)
Definition set_reqs (w : wst) (l : list dataid) : wst :=
  {| store := store w; owner := owner w; reqs := l; sent := sent w; gets := gets w;
     bgets := bgets w; pend := pend w; apend := apend w; running := running w; calls := calls w;
     ready := ready w; log := log w |}.

(** LocalObjectStore._sent_data_map (local_object_store.py:24-38). *)
Definition set_sent (w : wst) (l : list (dataid * rank)) : wst :=
  {| store := store w; owner := owner w; reqs := reqs w; sent := l; gets := gets w;
     bgets := bgets w; pend := pend w; apend := apend w; running := running w; calls := calls w;
     ready := ready w; log := log w |}.

(** RequestStore._nonblocking_get_requests and _blocking_get_requests (worker/request_store.py:46-54). *)
Definition set_gets (w : wst) (g b : list (dataid * rank)) : wst :=
  {| store := store w; owner := owner w; reqs := reqs w; sent := sent w; gets := g;
     bgets := b; pend := pend w; apend := apend w; running := running w; calls := calls w;
     ready := ready w; log := log w |}.

(** TaskStore._pending_tasks_list and _pending_actor_tasks_list (worker/task_store.py:34-42). *)
Definition set_pend (w : wst) (p a : list request) : wst :=
  {| store := store w; owner := owner w; reqs := reqs w; sent := sent w; gets := gets w;
     bgets := bgets w; pend := p; apend := a; running := running w; calls := calls w;
     ready := ready w; log := log w |}.

(** TaskStore.background_tasks: the coroutines in progress (worker/task_store.py:318-324). *)
Definition set_running (w : wst) (r : list (request * callee)) : wst :=
  {| store := store w; owner := owner w; reqs := reqs w; sent := sent w; gets := gets w;
     bgets := bgets w; pend := pend w; apend := apend w; running := r; calls := calls w;
     ready := ready w; log := log w |}.

(** The actor's state, as the calls it has seen (actor_map of worker/loop.py:183, 192). *)
Definition set_calls (w : wst) (c : list call) : wst :=
  {| store := store w; owner := owner w; reqs := reqs w; sent := sent w; gets := gets w;
     bgets := bgets w; pend := pend w; apend := apend w; running := running w; calls := c;
     ready := ready w; log := log w |}.

(** ready_to_shutdown_posted = True (worker/loop.py:221). *)
Definition set_ready (w : wst) : wst :=
  {| store := store w; owner := owner w; reqs := reqs w; sent := sent w; gets := gets w;
     bgets := bgets w; pend := pend w; apend := apend w; running := running w; calls := calls w;
     ready := true; log := log w |}.

(** Equality of (ID, rank), used where the code has a dictionary of sets (local_object_store.py:246-247,
    worker/request_store.py:84-95). *)
Definition pair_eqb (p q : dataid * rank) : bool :=
  did_eqb (fst p) (fst q) && Nat.eqb (snd p) (snd q).
(** Membership in such a set (local_object_store.py:264-267). *)
Definition pair_in (p : dataid * rank) (l : list (dataid * rank)) : bool := existsb (pair_eqb p) l.
(** set.add (local_object_store.py:246-247, worker/request_store.py:84-95). *)
Definition add_pair (p : dataid * rank) (l : list (dataid * rank)) : list (dataid * rank) :=
  if pair_in p l then l else l ++ [p].

(** Removing IDs from a map: LocalObjectStore.clear (local_object_store.py:165-180). *)
Definition forget {V} (ds : list dataid) (m : dmap V) : dmap V := fun d => if did_in d ds then None else m d.

Section Worker.
Variable self : rank.
Variable body : val -> val -> val -> result.        (* function, args, kwargs *)
Variable mbody : list call -> call -> result.       (* earlier calls on the actors, this call *)
Variable is_async : callee -> bool.                 (* inspect.iscoroutinefunction *)

(** ** Requests for data (request_store.py) *)

(** process_get_request (230-268) with push_data / _push_local_data (controller/common.py). *)
Definition process_get (w : wst) (src : rank) (d : dataid) (blocking : bool) : wst :=
  match store w d with
  | Some v =>
      if pair_in (d, src) (sent w) then w
      else emit (set_sent w (sent w ++ [(d, src)])) (EvPut src d v (Nat.eqb src 0 || blocking))
  | None =>
      if blocking then set_gets w (gets w) (add_pair (d, src) (bgets w))
      else set_gets w (add_pair (d, src) (gets w)) (bgets w)
  end.

(** The ranks asking for an ID (worker/request_store.py:146-160). *)
Definition ranks_of (d : dataid) (l : list (dataid * rank)) : list rank :=
  map snd (filter (fun p => did_eqb (fst p) d) l).
(** del of the entry of an ID (worker/request_store.py:146-160). *)
Definition without (d : dataid) (l : list (dataid * rank)) : list (dataid * rank) :=
  filter (fun p => negb (did_eqb (fst p) d)) l.

(** check_request (worker/request_store.py:146-160); the ranks asking for one ID form a set in the code, whose order is
    arbitrary. *)
Definition check_request (w : wst) (d : dataid) : wst :=
  let w1 := fold_left (fun w r => process_get w r d false) (ranks_of d (gets w)) w in
  let w2 := set_gets w1 (without d (gets w1)) (bgets w1) in
  let w3 := fold_left (fun w r => process_get w r d true) (ranks_of d (bgets w2)) w2 in
  set_gets w3 (gets w3) (without d (bgets w3)).

(** check_pending_get_requests (worker/request_store.py:134-166). *)
Definition check_gets (w : wst) (ds : list dataid) : wst := fold_left check_request ds w.

(** ** Materialising arguments *)

(** task_store.py:131-166. *)
Definition request_data (w : wst) (dest : rank) (d : dataid) : wst :=
  set_reqs (emit w (EvGet dest d)) (d :: reqs w).

(** unwrap_local_data_id (worker/task_store.py:168-206); [None] is ValueError("DataID is missing!"). *)
Definition unwrap (w : wst) (v : val) : option (wst * val * bool) :=
  match v with
  | VRef d =>
      match store w d with
      | Some x => Some (w, x, false)
      | None =>
          match owner w d with
          | Some o =>
              if did_in d (reqs w) then Some (w, v, true)
              else if Nat.eqb o self then Some (w, v, true)
              else Some (request_data w o d, v, true)
          | None => None
          end
      end
  | _ => Some (w, v, false)
  end.

(** materialize_data_ids (common.py:395-440). An element of a container is unwrapped again after
    the recursive call has unwrapped it (lines 429-435). *)
Fixpoint materialize (w : wst) (v : val) (pending : bool) : option (wst * val * bool) :=
  match v with
  | VList l =>
      match
        (fix go (w : wst) (l : list val) (pending : bool) : option (wst * list val * bool) :=
           match l with
           | [] => Some (w, [], pending)
           | x :: r =>
               match materialize w x pending with
               | None => None
               | Some (w1, x1, p1) =>
                   match unwrap w1 x1 with
                   | None => None
                   | Some (w2, x2, p2) =>
                       match go w2 r (p1 || p2) with
                       | None => None
                       | Some (w3, r3, p3) => Some (w3, x2 :: r3, p3)
                       end
                   end
               end
           end) w l pending
      with Some (w', l', p') => Some (w', VList l', p') | None => None end
  | VTuple l =>
      match
        (fix go (w : wst) (l : list val) (pending : bool) : option (wst * list val * bool) :=
           match l with
           | [] => Some (w, [], pending)
           | x :: r =>
               match materialize w x pending with
               | None => None
               | Some (w1, x1, p1) =>
                   match unwrap w1 x1 with
                   | None => None
                   | Some (w2, x2, p2) =>
                       match go w2 r (p1 || p2) with
                       | None => None
                       | Some (w3, r3, p3) => Some (w3, x2 :: r3, p3)
                       end
                   end
               end
           end) w l pending
      with Some (w', l', p') => Some (w', VTuple l', p') | None => None end
  | VDict l =>
      match
        (fix go (w : wst) (l : list (nat * val)) (pending : bool)
           : option (wst * list (nat * val) * bool) :=
           match l with
           | [] => Some (w, [], pending)
           | kv :: r =>
               match materialize w (snd kv) pending with
               | None => None
               | Some (w1, x1, p1) =>
                   match unwrap w1 x1 with
                   | None => None
                   | Some (w2, x2, p2) =>
                       match go w2 r (p1 || p2) with
                       | None => None
                       | Some (w3, r3, p3) => Some (w3, (fst kv, x2) :: r3, p3)
                       end
                   end
               end
           end) w l pending
      with Some (w', l', p') => Some (w', VDict l', p') | None => None end
  | _ =>
      match unwrap w v with
      | Some (w', v', p) => Some (w', v', pending || p)
      | None => None
      end
  end.

(** ** Execution (task_store.py:208-404) *)

Definition is_exc (v : val) : option nat := match v with VExc e => Some e | _ => None end.

(** The loops over the arguments that return at the first hit (worker/task_store.py:239-244, 329-334). *)
Fixpoint first_some {A B} (f : A -> option B) (l : list A) : option B :=
  match l with [] => None | x :: r => match f x with Some b => Some b | None => first_some f r end end.

(** for arg in args, for value in kwargs.values() (worker/task_store.py:239-244, 329-334). *)
Definition elements (v : val) : list val :=
  match v with VList l | VTuple l => l | VDict l => map snd l | _ => [] end.

(** The first positional, then keyword argument that is an exception (worker/task_store.py:239-244, 329-334). Only the
    arguments themselves are looked at. *)
Definition failed_arg (args kwargs : val) : option nat :=
  first_some is_exc (elements args ++ elements kwargs).

(** The call itself; a method call changes the actor. worker/task_store.py:248-250, 338-339. *)
Definition run_body (w : wst) (n : nat) (c : callee) (args kwargs : val) : wst * result :=
  let w1 := emit w (EvRun n c args kwargs) in
  match c with
  | CFun f => (w1, body f args kwargs)
  | CMethod m =>
      let k := {| c_method := m; c_args := args; c_kwargs := kwargs |} in
      (set_calls w1 (calls w ++ [k]), mbody (calls w) k)
  end.

(** The try block up to the result (worker/task_store.py:236-257, 326-346): an argument that is an exception is raised
    again. *)
Definition evaluate (w : wst) (n : nat) (c : callee) (args kwargs : val) : wst * result :=
  let (w1, r) := match failed_arg args kwargs with
                 | Some e => (w, RExc e)
                 | None => run_body w n c args kwargs
                 end in
  (emit w1 (EvEnd n r), r).

(** LocalObjectStore.put of a result (worker/task_store.py:264-292, 353-381, local_object_store.py:73-85). *)
Definition put (w : wst) (d : dataid) (v : val) : wst :=
  emit (set_store w (dput (store w) d v)) (EvStore d v).

(** Iterating over what the task returned, in zip(); a leaf is not iterable. worker/task_store.py:275-277, 364-366. *)
Definition iterate (v : val) : option (list val) :=
  match v with
  | VList l | VTuple l => Some l
  | VDict l => Some (map (fun kv => VLeaf (fst kv)) l)
  | _ => None
  end.

(** Storing the result (257-302, 346-391). The second component is completed_data_ids. The case
    [len(output_data_ids) == 1] of a list does not arise (local_object_store.py:202-231). Simplified: when a task
    returns fewer values than it has outputs, completed_data_ids is padded with None (274, 363); the Nones are
    left out, as no wait asks for them. *)
Definition store_result (w : wst) (o : outputs) (r : result) : option (wst * list dataid) :=
  match r, o with
  | RExc e, OMany ds => Some (fold_left (fun w d => put w d (VExc e)) ds w, [])
  | RExc e, OOne d => Some (put w d (VExc e), [])
  | RExc e, ONone => None                      (* local_store.put(None, e): TypeError *)
  | RVal v, ONone => Some (w, [])
  | RVal v, OOne d => Some (put w d v, [d])
  | RVal v, OMany ds =>
      match iterate v with
      | None => None                           (* zip: TypeError *)
      | Some vs =>
          Some (fold_left (fun w dv => put w (fst dv) (snd dv)) (combine ds vs) w,
                map fst (combine ds vs))
      end
  end.

(** A plain function (worker/task_store.py:325-404). *)
Definition execute_sync (w : wst) (q : request) (c : callee) (args kwargs : val) : option wst :=
  let (w1, r) := evaluate w (q_id q) c args kwargs in
  match store_result w1 (q_out q) r with
  | None => None
  | Some (w2, done) => Some (emit (check_gets w2 (out_ids (q_out q))) (EvDone done))
  end.

(** A coroutine, when it ends (worker/task_store.py:233-324). On an exception, or without outputs, the local variable
    completed_data_ids is unbound, so TASK_DONE is not sent; errors in storing end the coroutine silently. *)
Definition finish_async (w : wst) (q : request) (c : callee) : wst :=
  let (w1, r) := evaluate w (q_id q) c (q_args q) (q_kwargs q) in
  match store_result w1 (q_out q) r with
  | None => w1
  | Some (w2, done) =>
      let w3 := check_gets w2 (out_ids (q_out q)) in
      match r, q_out q with
      | RVal _, OOne _ | RVal _, OMany _ => emit w3 (EvDone done)
      | _, _ => w3
      end
  end.

(** process_task_request (worker/task_store.py:406-459): [Some (w, Some q)] is a pending request. *)
Definition process_task (w : wst) (q : request) : option (wst * option request) :=
  match (match q_fn q with
         | FRef d => match store w d with Some f => Some (CFun f) | None => None end
         | FMethod m => Some (CMethod m)
         end) with
  | None => None
  | Some c =>
      match materialize w (q_args q) false with
      | None => None
      | Some (w1, args, p1) =>
          match materialize w1 (q_kwargs q) false with
          | None => None
          | Some (w2, kwargs, p2) =>
              let q' := {| q_id := q_id q; q_fn := q_fn q; q_args := args; q_kwargs := kwargs;
                           q_out := q_out q |} in
              if p1 || p2 then Some (w2, Some q')
              else if is_async c
                   then Some (check_gets (set_running w2 (running w2 ++ [(q', c)]))
                                (out_ids (q_out q)), None)
                   else match execute_sync w2 q' c args kwargs with
                        | None => None
                        | Some w3 => Some (check_gets w3 (out_ids (q_out q)), None)
                        end
          end
      end
  end.

(** The pass over a list of pending requests (worker/task_store.py:83-97, 107-129). *)
Fixpoint recheck (w : wst) (l : list request) : option (wst * list request) :=
  match l with
  | [] => Some (w, [])
  | q :: r =>
      match process_task w q with
      | None => None
      | Some (w1, kept) =>
          match recheck w1 r with
          | None => None
          | Some (w2, r2) => Some (w2, match kept with Some q' => q' :: r2 | None => r2 end)
          end
      end
  end.

(** check_pending_tasks (worker/task_store.py:83-97). *)
Definition check_tasks (w : wst) : option wst :=
  match recheck w (pend w) with
  | None => None
  | Some (w', l) => Some (set_pend w' l (apend w'))
  end.

(** check_pending_actor_tasks (worker/task_store.py:107-129). *)
Definition check_actor_tasks (w : wst) : option wst :=
  match recheck w (apend w) with
  | None => None
  | Some (w', l) => Some (set_pend w' (pend w') l)
  end.

(** The coroutine that has ended leaves background_tasks (worker/task_store.py:324). *)
Definition remove_at {A} (i : nat) (l : list A) : list A := firstn i l ++ skipn (S i) l.

(** One turn of the loop (worker/loop.py:103-233). After CANCEL messages are received but not acted
    upon (only PUT_SHARED_DATA still stores its data; nothing is pending then). *)
Definition wstep (w0 : wst) (m : wmsg) : option wst :=
  if ready w0 then Some w0
  else
    let w := emit w0 (EvIn m) in
    match m with
    | WExec q =>
        match process_task w q with
        | None => None
        | Some (w1, Some q') => Some (set_pend w1 (pend w1 ++ [q']) (apend w1))
        | Some (w1, None) => check_tasks w1
        end
    | WActor q =>
        match process_task w q with
        | None => None
        | Some (w1, Some q') => Some (set_pend w1 (pend w1) (apend w1 ++ [q']))
        | Some (w1, None) => check_actor_tasks w1
        end
    | WGet src d blocking => Some (process_get w src d blocking)
    | WPut d v =>
        let w1 := set_store w (dput (store w) d v) in
        let w2 := set_reqs w1 (filter (fun x => negb (did_eqb x d)) (reqs w1)) in
        match check_tasks w2 with None => None | Some w3 => check_actor_tasks w3 end
    | WOwner d r => Some (set_owner w (dput (owner w) d r))
    | WClean ds =>
        Some (set_sent (set_owner (set_store w (forget ds (store w))) (forget ds (owner w)))
                       (filter (fun p => negb (did_in (fst p) ds)) (sent w)))
    | WFinish i =>
        match nth_error (running w) i with
        | None => Some w
        | Some (q, c) => Some (finish_async (set_running w (remove_at i (running w))) q c)
        end
    | WCancel => Some (set_ready (set_gets (set_pend w [] []) [] []))
    end.

(** The loop (worker/loop.py:103-233) on any sequence of messages; [None]: an exception has left it. *)
Fixpoint wrun (w : wst) (ms : list wmsg) : option wst :=
  match ms with
  | [] => Some w
  | m :: r => match wstep w m with Some w' => wrun w' r | None => None end
  end.

End Worker.
