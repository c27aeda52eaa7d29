(** Model of the multiprocessing backend: core/backends/pymp/core/{api,object_store,process_manager,actor}.py and
    the wrappers core/backends/pymp/{remote_function,actor,backend}.py.

    Worker processes run concurrently: a step of the system is a call of the main process or one worker finishing
    the task at the head of its queue. A worker that busy-waits for an argument (object_store.py:96) makes no step.
    Reading the arguments and storing the results of one task are one step: entries of the store are written once
    after their creation, so nobody can tell the difference. What the user's functions compute is an oracle that
    cannot call the API. The object of an actor lives in a manager process, which ends when the handle dies (multiprocessing.managers:
    the proxy in the driver holds the only reference to the BaseManager, whose finaliser stops the process). What a worker
    unpickles then, or calls, raises FileNotFoundError or ConnectionError. *)
From Verif Require Import Lib ValModel PyseqModel.

(** What ObjectStore.store_delayed holds: Delayed() or a value (pymp/core/object_store.py:13-16, 31-33). *)
Inductive cell := Delayed | Cell (v : val).

(** A function, or a bound method of an actor's object (pymp/core/api.py:136-149, pymp/core/actor.py:62-74). *)
Inductive callee := Fun (f : nat) | Meth (a m : nat).

(** process_manager.py:184-207; [k_id] numbers the tasks in the order of their submission. *)
Record task := { k_id : nat; k_callee : callee; k_args : list val; k_kw : kwargs; k_out : list dataid }.

(** pymp/core/actor.py:99-110; the object lives in a manager process (104-109), here its state. *)
Record actor := { t_state : val; t_worker : nat; t_live : bool }.

(** pymp/core/object_store.py:31-33, pymp/core/process_manager.py:90-102. *)
Record pst := {
  p_next : nat;                      (* next data ID *)
  p_store : dmap cell;               (* ObjectStore.store_delayed *)
  p_queue : nat -> list task;        (* Worker.task_queue *)
  p_done : nat -> list task;         (* tasks a worker has finished *)
  p_dead : nat -> bool;              (* the worker process has ended with an exception *)
  p_taken : nat -> bool;             (* the worker has taken the head of its queue and unpickled it *)
  p_grab : nat -> bool;              (* grabbed_workers *)
  p_wid : nat;                       (* _worker_id *)
  p_actors : list actor;
  p_log : list (nat * task)          (* worker and task, in the order of submission *)
}.

(** One worker's entry changes (pymp/core/process_manager.py:90-102). *)
Definition upd {A} (f : nat -> A) (k : nat) (x : A) : nat -> A := fun i => if Nat.eqb i k then x else f i.

(** ProcessManager.__init__ (process_manager.py:90-102). *)
Definition pinit : pst :=
  {| p_next := 0; p_store := dempty; p_queue := fun _ => []; p_done := fun _ => []; p_dead := fun _ => false; p_taken := fun _ => false;
     p_grab := fun _ => false; p_wid := 0; p_actors := []; p_log := [] |}.

Section Pymp.
Variable nw : nat.                                                (* len(self.workers) *)
Variable body cbody : nat -> list val -> kwargs -> res.
Variable mbody : nat -> val -> list val -> kwargs -> res * val.
Variable item : val -> nat -> option val.       (* the i-th element of an iterable that is neither list nor tuple *)
Variable iterable : val -> bool.                (* ... and whether it is iterable *)
Variable callable bytes : val -> bool.
Variable dumps : val -> val.
Variable loads : val -> res.                    (* pkl.loads may raise *)
Variable storable : val -> bool.                (* the manager's dict can pickle it *)

(** _next (pymp/core/process_manager.py:117-129). *)
Definition next_wid (w : nat) : nat := if Nat.eqb (S w) nw then 0 else S w.

(** ProcessManager.submit (pymp/core/process_manager.py:162-181): the worker chosen, and _worker_id afterwards. *)
Fixpoint pick (grab : nat -> bool) (wid skips : nat) : option nat * nat :=
  match skips with
  | O => (None, wid)
  | S k => if grab wid then pick grab (next_wid wid) k else (Some wid, next_wid wid)
  end.

(** grab_worker (pymp/core/process_manager.py:131-149): the first worker that is not grabbed. *)
Definition grab_worker (grab : nat -> bool) : option nat := find (fun w => negb (grab w)) (seq 0 nw).

(** ObjectStore.put (object_store.py:51-70). *)
Definition pack (v : val) : val := if callable v then dumps v else v.

(** num_returns entries Delayed() (api.py:136-141, actor.py:60-65). *)
Definition new_ids (st : pst) (n : nat) : list dataid := map (fun k => (0, k)) (seq (p_next st) n).
(** store_delayed[data_id] = Delayed() (pymp/core/object_store.py:51-70, pymp/core/api.py:136-149). *)
Definition delay (m : dmap cell) (ds : list dataid) : dmap cell := fold_left (fun m d => dput m d Delayed) ds m.

(** ObjectStore.get for one ID (pymp/core/object_store.py:72-106): what a value in the store is read as. *)
Definition unpack (v : val) : res :=
  match v with
  | VExc e => Exn e
  | _ => if bytes v then loads v else Ret v
  end.

(** How ObjectStore.get finds an ID (pymp/core/object_store.py:86-106). *)
Inductive look := Look (r : res) | Later | Unknown.

(** pymp/core/object_store.py:86-106. *)
Definition pget (st : pst) (d : dataid) : look :=
  match p_store st d with
  | Some (Cell v) => Look (unpack v)
  | Some Delayed => Later
  | None => Unknown                     (* KeyError *)
  end.

(** Task.__call__ (process_manager.py:209-229): arguments are read in order; the first exception ends it. *)
Inductive mat := Mat (l : list val) | MatExc (e : nat) | MatLater.

(** Task.__call__ (pymp/core/process_manager.py:221-228). *)
Fixpoint pmat (st : pst) (l : list val) : mat :=
  match l with
  | [] => Mat []
  | v :: r =>
      match (match v with VRef d => pget st d | _ => Look (Ret v) end) with
      | Look (Ret x) => match pmat st r with Mat xs => Mat (x :: xs) | o => o end
      | Look (Exn e) => MatExc e
      | Later => MatLater
      | Unknown => MatExc 0              (* KeyError, any number: unknown references do not exist *)
      end
  end.

(** The i-th element of an iteration over the result. zip(data_ids, value) (pymp/core/process_manager.py:53). *)
Definition nth_item (v : val) (i : nat) : option val :=
  match v with
  | VList l | VTuple l => nth_error l i
  | VExc _ => None
  | _ => item v i
  end.
(** zip(data_ids, value) (pymp/core/process_manager.py:53). *)
Definition can_iterate (v : val) : bool :=
  match v with VList _ | VTuple _ => true | VExc _ => false | _ => iterable v end.

(** Stores of Worker.run (process_manager.py:43-58); [false]: an exception ends the process. zip stops at the end
    of the shorter one. *)
Fixpoint zip_store (m : dmap cell) (ds : list dataid) (v : val) (i : nat) : dmap cell * bool :=
  match ds with
  | [] => (m, true)
  | d :: r => match nth_item v i with
              | None => (m, true)
              | Some x => if storable x then zip_store (dput m d (Cell x)) r v (S i) else (m, false)
              end
  end.

(** pymp/core/process_manager.py:41-56. *)
Definition store_outcome (m : dmap cell) (ds : list dataid) (r : res) : dmap cell * bool :=
  match r with
  | Exn e => if storable (VExc e) then (fold_left (fun m d => dput m d (Cell (VExc e))) ds m, true) else (m, false)
  | Ret v => match ds with
             | [] => (m, true)
             | [d] => if storable v then (dput m d (Cell v), true) else (m, false)
             | _ => if can_iterate v then zip_store m ds v 0 else (m, false)
             end
  end.

(** A method changes the actor's object (pymp/core/actor.py:62-74). *)
Definition set_state (l : list actor) (a : nat) (s : val) : list actor :=
  match nth_error l a with
  | Some t => firstn a l ++ {| t_state := s; t_worker := t_worker t; t_live := t_live t |} :: skipn (S a) l
  | None => l
  end.

(** Actor.__del__ (pymp/core/actor.py:141-148). *)
Definition kill (l : list actor) (a : nat) : list actor :=
  match nth_error l a with
  | Some t => firstn a l ++ {| t_state := t_state t; t_worker := t_worker t; t_live := false |} :: skipn (S a) l
  | None => l
  end.

(** The exception of a call whose object is no longer there, raised by the proxy (pymp/core/process_manager.py:229). *)
Definition connection_lost : nat := 0.

(** The task is a call of an actor whose handle has died (pymp/core/actor.py:62-74, 141-148). *)
Definition gone (acts : list actor) (t : task) : bool :=
  match k_callee t with
  | Fun _ => false
  | Meth a _ => match nth_error acts a with Some x => negb (t_live x) | None => true end
  end.

(** The call itself. pymp/core/process_manager.py:229. *)
Definition call (acts : list actor) (t : task) (vs : list val) (kw : kwargs) : res * list actor :=
  match k_callee t with
  | Fun f => (body f vs kw, acts)
  | Meth a m => match nth_error acts a with
                | Some x => if t_live x then let (r, s) := mbody m (t_state x) vs kw in (r, set_state acts a s)
                            else (Exn connection_lost, acts)
                | None => (Exn connection_lost, acts)
                end
  end.

(** One turn of the loop in Worker.run (pymp/core/process_manager.py:35-59); None: the worker has no task, waits, has ended, or
    would end in pkl.loads (see [take]). *)
Definition work (st : pst) (w : nat) : option pst :=
  match p_queue st w with
  | [] => None
  | t :: q =>
      if p_dead st w then None else
      if negb (p_taken st w) && gone (p_actors st) t then None else
      let finish (r : res) (acts : list actor) :=
        let (m, ok) := store_outcome (p_store st) (k_out t) r in
        Some {| p_next := p_next st; p_store := m; p_queue := upd (p_queue st) w q;
                p_done := upd (p_done st) w (p_done st w ++ [t]);
                p_dead := if ok then p_dead st else upd (p_dead st) w true; p_taken := upd (p_taken st) w false;
                p_grab := p_grab st; p_wid := p_wid st; p_actors := acts; p_log := p_log st |} in
      match pmat st (k_args t) with
      | MatLater => None
      | MatExc e => finish (Exn e) (p_actors st)
      | Mat vs =>
          match pmat st (map snd (k_kw t)) with
          | MatLater => None
          | MatExc e => finish (Exn e) (p_actors st)
          | Mat ks => let (r, acts) := call (p_actors st) t vs (combine (map fst (k_kw t)) ks) in finish r acts
          end
      end
  end.

(** A worker takes the next task from its queue and unpickles it (pymp/core/process_manager.py:37-38). Unpickling the proxy of an
    actor's object connects to its manager process; this is outside of the try block, so that an error ends the worker. Only
    needed to tell whether the handle died before or after: otherwise [work] takes and executes. *)
Definition take (st : pst) (w : nat) : pst :=
  match p_queue st w with
  | [] => st
  | t :: _ =>
      if p_dead st w || p_taken st w then st
      else if gone (p_actors st) t
      then {| p_next := p_next st; p_store := p_store st; p_queue := p_queue st; p_done := p_done st;
              p_dead := upd (p_dead st) w true; p_taken := p_taken st;
              p_grab := p_grab st; p_wid := p_wid st; p_actors := p_actors st; p_log := p_log st |}
      else {| p_next := p_next st; p_store := p_store st; p_queue := p_queue st; p_done := p_done st;
              p_dead := p_dead st; p_taken := upd (p_taken st) w true;
              p_grab := p_grab st; p_wid := p_wid st; p_actors := p_actors st; p_log := p_log st |}
  end.

(** What the main process does, and the scheduler. pymp/core/api.py:55-149, pymp/core/actor.py:62-148,
    pymp/core/process_manager.py:35-59. *)
Inductive pop :=
| PPut (v : val)
| PSubmit (f : nat) (args : list val) (kw : kwargs) (n : nat)
| PActor (c : nat) (args : list val) (kw : kwargs)
| PCall (a m : nat) (args : list val) (kw : kwargs) (n : nat)
| PDel (a : nat)                         (* the actor's handle dies *)
| PTake (w : nat)
| PWork (w : nat).

(** pymp/core/api.py:136-149, pymp/core/actor.py:62-74. *)
Definition refs_out (ds : list dataid) : qout :=
  match ds with [] => ONone | [d] => ORef d | _ => ORefs ds end.

(** Worker.add_task (pymp/core/process_manager.py:61-70), with the new IDs of pymp/core/api.py:136-149. *)
Definition place_task (st : pst) (t : task) (w wid : nat) : pst :=
  {| p_next := p_next st + length (k_out t); p_store := delay (p_store st) (k_out t);
     p_queue := upd (p_queue st) w (p_queue st w ++ [t]);
     p_done := p_done st; p_dead := p_dead st; p_taken := p_taken st; p_grab := p_grab st; p_wid := wid;
     p_actors := p_actors st; p_log := p_log st ++ [(w, t)] |}.

Definition pstep (st : pst) (o : pop) : pst * option (qop * qout) :=
  match o with
  | PPut v =>
      let d := (0, p_next st) in
      ({| p_next := S (p_next st); p_store := dput (p_store st) d (Cell (pack v)); p_queue := p_queue st;
          p_done := p_done st; p_dead := p_dead st; p_taken := p_taken st; p_grab := p_grab st; p_wid := p_wid st;
          p_actors := p_actors st; p_log := p_log st |}, Some (QPut v, ORef d))
  | PSubmit f args kw n =>                                      (* api.py:112-149 *)
      let t := {| k_id := length (p_log st); k_callee := Fun f; k_args := args; k_kw := kw;
                  k_out := new_ids st n |} in
      match pick (p_grab st) (p_wid st) nw with
      | (Some w, wid) => (place_task st t w wid, Some (QSubmit f args kw n false, refs_out (k_out t)))
      | (None, wid) =>                                          (* RuntimeError *)
          ({| p_next := p_next st + n; p_store := delay (p_store st) (k_out t); p_queue := p_queue st;
              p_done := p_done st; p_dead := p_dead st; p_taken := p_taken st; p_grab := p_grab st; p_wid := wid;
              p_actors := p_actors st; p_log := p_log st |}, Some (QSubmit f args kw n false, OError))
      end
  | PActor c args kw =>                                         (* actor.py:99-110 *)
      match cbody c args kw with
      | Exn e => (st, Some (QActor c args kw false, ORaise e))
      | Ret s =>
          match grab_worker (p_grab st) with
          | None => (st, Some (QActor c args kw false, OError))
          | Some w =>
              ({| p_next := p_next st; p_store := p_store st; p_queue := p_queue st; p_done := p_done st;
                  p_dead := p_dead st; p_taken := p_taken st; p_grab := upd (p_grab st) w true; p_wid := p_wid st;
                  p_actors := p_actors st ++ [{| t_state := s; t_worker := w; t_live := true |}];
                  p_log := p_log st |},
               Some (QActor c args kw false, OActor (length (p_actors st))))
          end
      end
  | PCall a m args kw n =>                                      (* actor.py:40-74, 130-139 *)
      let t := {| k_id := length (p_log st); k_callee := Meth a m; k_args := args; k_kw := kw;
                  k_out := new_ids st n |} in
      match nth_error (p_actors st) a with
      | Some x => if t_live x
                  then (place_task st t (t_worker x) (p_wid st), Some (QCall a m args kw n, refs_out (k_out t)))
                  else (st, None)                               (* there is no handle to call *)
      | None => (st, None)
      end
  | PDel a =>                                                   (* actor.py:141-148, process_manager.py:151-160 *)
      match nth_error (p_actors st) a with
      | Some x => if t_live x
                  then ({| p_next := p_next st; p_store := p_store st; p_queue := p_queue st; p_done := p_done st;
                           p_dead := p_dead st; p_taken := p_taken st; p_grab := upd (p_grab st) (t_worker x) false; p_wid := p_wid st;
                           p_actors := kill (p_actors st) a; p_log := p_log st |}, None)
                  else (st, None)
      | None => (st, None)
      end
  | PTake w => (take st w, None)
  | PWork w => match work st w with Some st' => (st', None) | None => (st, None) end
  end.

(** Any history of the main process and the workers (pymp/core/api.py:55-149, pymp/core/process_manager.py:35-59). *)
Fixpoint prun (st : pst) (h : hist) (ops : list pop) : pst * hist :=
  match ops with
  | [] => (st, h)
  | o :: r => match pstep st o with
              | (st', Some e) => prun st' (e :: h) r
              | (st', None) => prun st' h r
              end
  end.
End Pymp.

(** ObjectStore.wait (object_store.py:108-147). [ready k d]: is [d] computed when the k-th element is looked at;
    [final d]: what get(d) does in the end: return, raise, or never return. *)
Inductive fin := FDone | FRaise (e : nat) | FNever.

(** How ObjectStore.wait ends (pymp/core/object_store.py:128-147). *)
Inductive waited := Waited (ready not_ready : list dataid) | WIndexError | WRaise (e : nat) | WBlocked.

(** list.pop(idx) (pymp/core/object_store.py:128-147). *)
Definition pop_at (l : list dataid) (i : nat) : option (dataid * list dataid) :=
  match nth_error l i with
  | Some x => Some (x, firstn i l ++ skipn (S i) l)
  | None => None
  end.

(** The for loop: [snap] is what is left of the copy of the list, [idx] the position in it.
    pymp/core/object_store.py:128-147. *)
Fixpoint wait_scan (ready : nat -> dataid -> bool) (n idx : nat) (snap : list dataid) (acc ids : list dataid)
  : option (list dataid * list dataid) :=
  match snap with
  | [] => Some (acc, ids)
  | d :: r =>
      match (if ready idx d
             then match pop_at ids idx with
                  | Some (x, ids') => Some (acc ++ [x], ids')
                  | None => None
                  end
             else Some (acc, ids)) with
      | None => None
      | Some (acc', ids') =>
          if Nat.eqb (length acc') n then Some (acc', ids') else wait_scan ready n (S idx) r acc' ids'
      end
  end.

(** The while loop. pymp/core/object_store.py:128-147. *)
Fixpoint wait_rest (final : dataid -> fin) (n : nat) (acc ids : list dataid) : waited :=
  if Nat.eqb (length acc) n then Waited acc ids else
  match ids with
  | [] => WIndexError
  | d :: r => match final d with
              | FDone => wait_rest final n (acc ++ [d]) r
              | FRaise e => WRaise e
              | FNever => WBlocked
              end
  end.

(** ObjectStore.wait (pymp/core/object_store.py:108-147). *)
Definition pwait (ready : nat -> dataid -> bool) (final : dataid -> fin) (ids : list dataid) (n : nat) : waited :=
  match wait_scan ready n 0 ids [] ids with
  | None => WIndexError
  | Some (acc, rest) => wait_rest final n acc rest
  end.
