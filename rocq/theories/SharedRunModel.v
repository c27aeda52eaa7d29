(** The processes of ClusterModel with the shared object store of ShmStoreModel between them: large values do not travel in the
    messages; a message then carries a package that says where the bytes are, and the receiver reads them from shared memory.
    Simplifications: serialising a value (enc) gives the same bytes in every process and at every time; the monitors carry out a
    cleanup as one step, at any time after it was requested (CollModel); when a process fails, the model stops. *)
From Coq Require Import ZArith.
From Verif Require Import Lib ValModel ShmModel ShmStoreModel PushModel WorkerModel WorkerSpec MonModel ClusterModel.

(** The shared store, the receiver of each package under way, and the operations on the store so far (shared_object_store.py:66-845;
    dest_rank in controller/common.py:297-338). *)
Record shmem := {
  m_s : ShmStoreModel.store;
  m_to : list rank;
  m_ops : list sop
}.

(** What stops the system: an operation on the store raises in this state (e.g. MemoryError, monitor/shared_memory_manager.py:179-181),
    or bytes cannot be deserialised or an ID is unknown (shared_object_store.py:425-470, 639). *)
Inductive fault := Raised (s : ShmStoreModel.store) (o : sop) | Unreadable.

(** A result, or what stopped the computation: a Python exception (shared_object_store.py:66-845). *)
Inductive attempt (A : Type) := Fine (a : A) | Stop (f : fault).
Arguments Fine {A}.
Arguments Stop {A}.

(** The statements after one that did not raise (shared_object_store.py:66-845). *)
Definition andthen {A B} (x : attempt A) (f : A -> attempt B) : attempt B :=
  match x with Fine a => f a | Stop e => Stop e end.

(** The whole system: the processes, the store, the IDs whose value is in the local store of the root
    (local_object_store.py:24-30), the cleanups the monitors have not carried out yet (monitor/loop.py:254-259), and what
    stopped the system. *)
Record xst := {
  x_c : cst;
  x_m : shmem;
  x_here : list dataid;
  x_mon : list (list dataid);
  x_fault : option fault
}.

(** The first package from src for dst about d. MPI delivers the messages of a pair of processes in order
    (communication.py:397-407); this is the package that comes with the message. *)
Fixpoint find_pkg (fl : list (nat * dataid * shinfo)) (to : list rank) (src dst : rank) (d : dataid) : option nat :=
  match fl, to with
  | (q, d', _) :: fl', r :: to' =>
      if Nat.eqb q src && did_eqb d' d && Nat.eqb r dst then Some 0
      else match find_pkg fl' to' src dst d with Some k => Some (S k) | None => None end
  | _, _ => None
  end.

(** The values among the messages of a submit, with receivers (controller/common.py:390-413). *)
Definition values_out (l : list (rank * wmsg)) : list (rank * dataid * val) :=
  flat_map (fun p => match snd p with WPut d v => [(fst p, d, v)] | _ => [] end) l.

(** The values a worker sends in answers to GET (worker/request_store.py:251-258, controller/common.py:390-413). *)
Definition answers (l : list wev) : list (rank * dataid * val) :=
  flat_map (fun e => match e with EvPut x d v _ => [(x, d, v)] | _ => [] end) l.

Section Shared.
Variable workers : list rank.
Variable body : val -> val -> val -> result.
Variable host_of : rank -> nat.            (* the host of a process *)
Variable enc : val -> payload.             (* serialize_complex_data *)
Variable dec : payload -> option val.      (* deserialize_complex_data; None: it raises *)
Variable threshold : nat.                  (* MpiSharedObjectStoreThreshold *)

(** should_be_shared (shared_object_store.py:594-609). *)
Definition big (v : val) : bool := Nat.ltb threshold (data_size (enc v)).

(** An operation on the shared store (shared_object_store.py:66-845). *)
Definition mdo (m : shmem) (o : sop) (to : list rank) : attempt (shmem * sout) :=
  match sstep host_of (m_s m) o with
  | None => Stop (Raised (m_s m) o)
  | Some (s, out) => Fine ({| m_s := s; m_to := to; m_ops := m_ops m ++ [o] |}, out)
  end.

(** _push_shared_data (controller/common.py:297-338), without the check whether d was sent before, which is made by PushModel
    and WorkerModel. *)
Definition send_pkg (m : shmem) (src dst : rank) (d : dataid) : attempt shmem :=
  match infos (m_s m) src d with
  | None => Stop Unreadable
  | Some _ => andthen (mdo m (SSend src d) (m_to m ++ [dst])) (fun r => Fine (fst r))
  end.

(** push_data of one ID whose value is here (controller/common.py:397-413): through shared memory if it is there or is put
    there now, otherwise in the message. *)
Definition push1 (m : shmem) (src dst : rank) (d : dataid) (v : val) : attempt shmem :=
  match infos (m_s m) src d with
  | Some _ => send_pkg m src dst d
  | None => if big v then andthen (mdo m (SPut src d (enc v)) (m_to m)) (fun r => send_pkg (fst r) src dst d)
            else Fine m
  end.

(** All values one call or message makes a process send (controller/common.py:390-413). *)
Fixpoint pushes (m : shmem) (src : rank) (l : list (rank * dataid * val)) : attempt shmem :=
  match l with
  | [] => Fine m
  | (dst, d, v) :: r => andthen (push1 m src dst d v) (fun m' => pushes m' src r)
  end.

(** DataID objects of a process die: the finalizers and weak entries of the shared store run (shared_object_store.py:118-120,
    756, 819-828; local_object_store.py:162-178). *)
Fixpoint drops (m : shmem) (p : rank) (ds : list dataid) : attempt shmem :=
  match ds with
  | [] => Fine m
  | d :: r => andthen (mdo m (SDrop p d) (m_to m)) (fun x => drops (fst x) p r)
  end.

(** Deserialising what was read (shared_object_store.py:425-470). *)
Definition decoded (o : sout) : attempt val :=
  match o with
  | OValue pl => match dec pl with Some u => Fine u | None => Stop Unreadable end
  | _ => Stop Unreadable
  end.

(** pull_data (controller/common.py:131-171): a package of an ID that is in the local store is ignored and the local value is
    used; otherwise the value is read from shared memory; a message without package carries the value. *)
Definition receive (m : shmem) (src dst : rank) (local : option val) (d : dataid) (v : val) : attempt (shmem * val) :=
  match find_pkg (inflight (m_s m)) (m_to m) src dst d with
  | None => Fine (m, v)
  | Some k =>
      match local with
      | Some u => andthen (mdo m (SSkip k) (remove_nth k (m_to m))) (fun r => Fine (fst r, u))
      | None => andthen (mdo m (SRecv dst k) (remove_nth k (m_to m)))
                  (fun r => andthen (decoded (snd r)) (fun u => Fine (fst r, u)))
      end
  end.

(** As take of ClusterModel, with the message as the worker has received it (worker/loop.py:103-233). *)
Definition take_as (c : cst) (src dst : rank) (m : wmsg) : cst :=
  match wstep dst body no_method plain_fn (c_work c dst) m with
  | None =>
      {| c_push := c_push c; c_vals := c_vals c; c_tasks := c_tasks c; c_want := c_want c;
         c_ids := c_ids c; c_left := c_left c; c_exc := c_exc c; c_work := c_work c;
         c_dead := fun r => if Nat.eqb r dst then true else c_dead c r;
         c_chan := drop_head (c_chan c) src dst; c_done := c_done c; c_mon := c_mon c;
         c_prog := c_prog c; c_seen := c_seen c; c_out := c_out c; c_in := c_in c |}
  | Some w' =>
      let new := skipn (length (log (c_work c dst))) (log w') in
      let ch := drop_head (c_chan c) src dst in
      {| c_push := c_push c; c_vals := c_vals c; c_tasks := c_tasks c; c_want := c_want c;
         c_ids := c_ids c; c_left := c_left c; c_exc := c_exc c;
         c_work := fun r => if Nat.eqb r dst then w' else c_work c r;
         c_dead := c_dead c;
         c_chan := fun s d => if Nat.eqb s dst then ch s d ++ outgoing dst new d else ch s d;
         c_done := fun s => if Nat.eqb s dst then c_done c s ++ reports new else c_done c s;
         c_mon := c_mon c; c_prog := c_prog c; c_seen := c_seen c; c_out := c_out c;
         c_in := fun r => if Nat.eqb r dst then c_in c r ++ [(src, m)] else c_in c r |}
  end.

(** A worker takes a message: it reads a value from shared memory, forgets IDs on CLEANUP, and its answers go out
    (worker/loop.py:103-233). *)
Definition xtake (x : xst) (src dst : rank) : attempt xst :=
  let c := x_c x in
  match c_chan c src dst with
  | [] => Fine x
  | msg :: _ =>
      if Nat.eqb dst 0 || c_dead c dst then Fine x
      else
        andthen (match msg with
                 | WPut d v => andthen (receive (x_m x) src dst (WorkerModel.store (c_work c dst) d) d v)
                                 (fun r => Fine (fst r, WPut d (snd r)))
                 | _ => Fine (x_m x, msg)
                 end) (fun r =>
        let c' := take_as c src dst (snd r) in
        andthen (drops (fst r) dst (match msg with WClean ds => ds | _ => [] end)) (fun m2 =>
        andthen (pushes m2 dst (answers (skipn (length (log (c_work c dst))) (log (c_work c' dst))))) (fun m3 =>
        Fine {| x_c := c'; x_m := m3; x_here := x_here x; x_mon := x_mon x; x_fault := None |})))
  end.

(** ObjectStore.get of the root (object_store.py:57-88): the value of the local store, or what is read from shared memory. *)
Definition read1 (m : shmem) (here : list dataid) (vals : dmap val) (d : dataid) : attempt (option val) :=
  if did_in d here then Fine (vals d)
  else match infos (m_s m) 0 d with
       | None => Fine (vals d)
       | Some _ =>
           match sstep host_of (m_s m) (SRead 0 d) with
           | Some (_, o) => andthen (decoded o) (fun v => Fine (Some v))
           | None => Stop (Raised (m_s m) (SRead 0 d))
           end
       end.

(** values = [object_store.get(data_id) for data_id in data_ids] (controller/api.py:427). *)
Fixpoint reads (m : shmem) (here : list dataid) (vals : dmap val) (ds : list dataid) : attempt (option (list val)) :=
  match ds with
  | [] => Fine (Some [])
  | d :: r =>
      andthen (read1 m here vals d) (fun a =>
      andthen (reads m here vals r) (fun b =>
      Fine (match a, b with Some v, Some l => Some (v :: l) | _, _ => None end)))
  end.

(** What get gives (controller/api.py:427-433). *)
Definition got_as (ds : list dataid) (r : option (list val)) : list sight :=
  match r with Some vs => [RGot ds vs] | None => [RError] end.

(** As reply of ClusterModel, with the value as the root has received it and, if this was the last one, with what get then
    reads (controller/common.py:217-233). *)
Definition reply_as (c : cst) (src : rank) (d : dataid) (v : val) (k : nat) (last : list sight) : cst :=
  let vals := dput (c_vals c) d v in
  let exc := match c_exc c, v with None, VExc e => Some e | x, _ => x end in
  let ok := did_in d (c_ids c) in
  let left' := if ok then k else 0 in
  let seen := if ok then match k with
                         | 0 => match exc with Some e => [RRaised (c_want c) e] | None => last end
                         | _ => []
                         end
              else [RError] in
  {| c_push := pstep (c_push c) (PHave d); c_vals := vals; c_tasks := c_tasks c; c_want := c_want c;
     c_ids := c_ids c; c_left := left'; c_exc := exc; c_work := c_work c; c_dead := c_dead c;
     c_chan := drop_head (c_chan c) src 0; c_done := c_done c; c_mon := c_mon c;
     c_prog := c_prog c; c_seen := c_seen c ++ seen; c_out := c_out c;
     c_in := fun r => if Nat.eqb r 0 then c_in c r ++ [(src, WPut d v)] else c_in c r |}.

(** The root receives an answer (controller/common.py:217-233, 131-171); the values of get are read when get is over
    (controller/api.py:427). *)
Definition xreply (x : xst) (src : rank) : attempt xst :=
  let c := x_c x in
  match c_left c, c_chan c src 0 with
  | S k, WPut d v :: _ =>
      andthen (receive (x_m x) src 0 (if did_in d (x_here x) then c_vals c d else None) d v) (fun r =>
      let here := d :: x_here x in
      match k, c_exc (reply_as c src d (snd r) k []) with
      | 0, None =>
          andthen (reads (fst r) here (dput (c_vals c) d (snd r)) (c_want c)) (fun l =>
          Fine {| x_c := reply_as c src d (snd r) k (got_as (c_want c) l); x_m := fst r; x_here := c_want c ++ here;
                  x_mon := x_mon x; x_fault := None |})
      | _, _ =>
          Fine {| x_c := reply_as c src d (snd r) k []; x_m := fst r; x_here := here; x_mon := x_mon x; x_fault := None |}
      end)
  | _, _ => Fine x
  end.

(** A call of the root when it is not waiting. put (controller/api.py:385-397): always into shared memory. submit (555-574).
    get (416-433). The last reference dies (mpi/core/common.py:329-334). A cleanup (garbage_collector.py:136-142) also goes to the
    monitors (garbage_collector.py:47-69). *)
Definition xroot (x : xst) (o : rop) : attempt xst :=
  let c := x_c x in
  let c' := root_step workers c o in
  match o with
  | RPut d v =>
      andthen (mdo (x_m x) (SPut 0 d (enc v)) (m_to (x_m x))) (fun r =>
      Fine {| x_c := c'; x_m := fst r; x_here := x_here x; x_mon := x_mon x; x_fault := None |})
  | RSubmit dest q =>
      andthen (pushes (x_m x) 0 (values_out (skipn (length (c_out c)) (c_out c')))) (fun m' =>
      Fine {| x_c := c'; x_m := m'; x_here := x_here x; x_mon := x_mon x; x_fault := None |})
  | RGet ds =>
      match filter (fun d => negb (did_in d (p_store (c_push c)))) ds with
      | [] =>
          andthen (reads (x_m x) (x_here x) (c_vals c) ds) (fun l =>
          Fine {| x_c := root_to c o (c_push c) (c_vals c) (c_tasks c) (got_as ds l) []; x_m := x_m x;
                  x_here := ds ++ x_here x; x_mon := x_mon x; x_fault := None |})
      | _ => Fine {| x_c := c'; x_m := x_m x; x_here := x_here x; x_mon := x_mon x; x_fault := None |}
      end
  | RDrop d =>
      andthen (mdo (x_m x) (SDrop 0 d) (m_to (x_m x))) (fun r =>
      Fine {| x_c := c'; x_m := fst r; x_here := filter (fun e => negb (did_eqb e d)) (x_here x);
              x_mon := x_mon x; x_fault := None |})
  | RClean ds =>
      Fine {| x_c := c'; x_m := x_m x; x_here := x_here x;
              x_mon := if Nat.eqb (mcount (c_mon c)) (c_tasks c) then x_mon x ++ [ds] else x_mon x; x_fault := None |}
  end.

(** One step of the processes as in ClusterModel, or the monitors carry out the next cleanup (monitor/loop.py:254-259). *)
Inductive xop := XStep (o : cop) | XMon.

(** The steps of the processes, as in ClusterModel; monitor/loop.py:254-259 for XMon. *)
Definition xtry (x : xst) (o : xop) : attempt xst :=
  match o with
  | XStep (CRoot r) => match c_left (x_c x) with 0 => xroot x r | _ => Fine x end
  | XStep (CTake s d) => xtake x s d
  | XStep (CReply s) => xreply x s
  | XStep (CDone s) =>
      Fine {| x_c := done workers (x_c x) s; x_m := x_m x; x_here := x_here x; x_mon := x_mon x; x_fault := None |}
  | XMon =>
      match x_mon x with
      | [] => Fine x
      | ds :: l =>
          andthen (mdo (x_m x) (SCleanup ds) (m_to (x_m x))) (fun r =>
          Fine {| x_c := x_c x; x_m := fst r; x_here := x_here x; x_mon := l; x_fault := None |})
      end
  end.

(** An exception while shared memory is handled stops the model (shared_object_store.py:66-845). *)
Definition xstep (x : xst) (o : xop) : xst :=
  match x_fault x with
  | Some _ => x
  | None =>
      match xtry x o with
      | Fine x' => x'
      | Stop f => {| x_c := x_c x; x_m := x_m x; x_here := x_here x; x_mon := x_mon x; x_fault := Some f |}
      end
  end.

(** After unidist.init with the shared store (controller/api.py:117-288, shared_object_store.py:66-120). *)
Definition xinit (mgr : manager) (sizes : list (Z * Z)) : xst :=
  {| x_c := cinit mgr; x_m := {| m_s := store_init sizes; m_to := []; m_ops := [] |}; x_here := []; x_mon := [];
     x_fault := None |}.

(** Any interleaving (controller/api.py:117-288). *)
Definition xrun (mgr : manager) (sizes : list (Z * Z)) (ops : list xop) : xst := fold_left xstep ops (xinit mgr sizes).
End Shared.

(** The steps of the processes alone (controller/api.py:371-580, worker/loop.py:103-233). *)
Definition plain (ops : list xop) : list cop := flat_map (fun o => match o with XStep c => [c] | XMon => [] end) ops.
