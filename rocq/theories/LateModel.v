(** Objects in shared memory that are on their way to another worker when the program is shut down.

    Models the PUT_SHARED_DATA branch of worker/loop.py:159-168, which is not guarded by ready_to_shutdown_posted, with
    pull_data (controller/common.py:137-154) and SharedObjectStore.get (shared_object_store.py:774-828), beside the shutdown
    of ShutModel (controller/api.py:305-340, worker/loop.py:210-227, monitor/loop.py:260-287). All in
    unidist/core/backends/mpi/core.

    Simplifications: memory is always granted and nothing is cleaned up; an object is put into the memory of its machine in
    one step; packages are only sent by workers (those of the main program are received before its CANCEL, because messages
    of one process to another do not overtake each other); what a package or a buffer contains is left out. *)
From Verif Require Import Lib ShmModel DataIdModel TopoModel MonModel ShutModel.

(** What a worker in SharedObjectStore.get waits for: the answer of its monitor to RESERVE_SHARED_MEMORY
    (shared_object_store.py:787-789), the bytes from the owner's monitor (801-808), or another worker of its machine that
    gets them (814-816). *)
Inductive stage := WaitReserve | WaitData | WaitOthers.

(** l_pkgs: PUT_SHARED_DATA under way (sender, receiver, object), controller/common.py:319-337. l_req: requests of workers under
    way to monitors, communication.py:1080-1085, shared_object_store.py:556-561. l_wait: the worker is in SharedObjectStore.get,
    for an object of an owner. l_res: what the monitors have reserved, monitor/loop.py:221-234. l_mem: the objects whose service
    information is written in the memory of the machine with that monitor, shared_object_store.py:810-812. l_have: the objects
    in the local stores, controller/common.py:143, 150. *)
Record lst := {
  l_s : ssys;
  l_pkgs : list (rank * rank * dataid);
  l_req : list (rank * rank);
  l_wait : rank -> option (rank * dataid * stage);
  l_res : list (rank * dataid);
  l_mem : list (rank * dataid);
  l_have : list (rank * dataid)
}.

(** LMake: a worker makes an object and writes it into its memory (shared_object_store.py:726-757). LSend: a worker sends the
    package, answering a GET (worker/loop.py:124-129, request_store.py:155-161). LTake: a package is taken by its receiver
    (worker/loop.py:105-107, 159-168). LServe: a request is taken by the monitor (monitor/loop.py:221-253). LLook: a worker
    looks whether another one has got the bytes (shared_object_store.py:815). LShut: the protocol of ShutModel. *)
Inductive lop :=
| LMake (o : rank) (d : dataid)
| LSend (o w : rank) (d : dataid)
| LTake (i : nat)
| LServe (i : nat)
| LLook (w : rank)
| LShut (a : ShutModel.act).

(** A pair is in a list: data_id in a dict, keyed by the process (shared_object_store.py:784, controller/common.py:143). *)
Definition pin (r : rank) (d : dataid) (l : list (rank * dataid)) : bool :=
  existsb (fun x => Nat.eqb (fst x) r && did_eqb (snd x) d) l.

Section Late.
Variable c : scfg.
Variable mon : rank -> rank.      (* get_monitor_by_worker_rank, communication.py:238-261 *)

(** A worker is in its loop, and not inside SharedObjectStore.get (worker/loop.py:103-107). *)
Definition in_loop (st : lst) (w : rank) : bool :=
  mem_rank w (s_workers c) &&
  match l_wait st w, sworker (l_s st) w with None, WkRun => true | None, WkReady => true | _, _ => false end.

(** ... and has not taken CANCEL: not ready_to_shutdown_posted (worker/loop.py:102, 126). *)
Definition working (st : lst) (w : rank) : bool :=
  in_loop st w && match sworker (l_s st) w with WkRun => true | _ => false end.

(** SharedObjectStore.get is over and the object is kept in the local store (controller/common.py:149-154). *)
Definition got_it (st : lst) (w : rank) (d : dataid) : lst :=
  {| l_s := l_s st; l_pkgs := l_pkgs st; l_req := l_req st; l_wait := fupd (l_wait st) w None; l_res := l_res st;
     l_mem := l_mem st; l_have := l_have st ++ [(w, d)] |}.

(** A request to monitor [m] is sent, and the answer awaited (communication.py:1080-1086, shared_object_store.py:556-562). *)
Definition ask (st : lst) (w m o : rank) (d : dataid) (g : stage) : lst :=
  {| l_s := l_s st; l_pkgs := l_pkgs st; l_req := l_req st ++ [(w, m)]; l_wait := fupd (l_wait st) w (Some (o, d, g));
     l_res := l_res st; l_mem := l_mem st; l_have := l_have st |}.

(** The package is received: controller/common.py:137-154, shared_object_store.py:774-789. *)
Definition receive (st : lst) (i : nat) (o w : rank) (d : dataid) : lst :=
  let st1 := {| l_s := l_s st; l_pkgs := remove_at i (l_pkgs st); l_req := l_req st; l_wait := l_wait st; l_res := l_res st;
                l_mem := l_mem st; l_have := l_have st |} in
  if pin w d (l_have st) then st1
  else if pin (mon w) d (l_mem st) then got_it st1 w d
  else ask st1 w (mon w) o d WaitReserve.

(** The monitor answers, and the worker goes on. RESERVE_SHARED_MEMORY: monitor/loop.py:221-234, shared_object_store.py:791-816;
    REQUEST_SHARED_DATA: monitor/loop.py:235-253, shared_object_store.py:562, 809-825. *)
Definition answered (st : lst) (i : nat) (w m : rank) : lst :=
  let rest := remove_at i (l_req st) in
  match l_wait st w with
  | Some (o, d, WaitReserve) =>
      if pin m d (l_res st)
      then {| l_s := l_s st; l_pkgs := l_pkgs st; l_req := rest; l_wait := fupd (l_wait st) w (Some (o, d, WaitOthers));
              l_res := l_res st; l_mem := l_mem st; l_have := l_have st |}
      else {| l_s := l_s st; l_pkgs := l_pkgs st; l_req := rest ++ [(w, mon o)];
              l_wait := fupd (l_wait st) w (Some (o, d, WaitData));
              l_res := l_res st ++ [(m, d)]; l_mem := l_mem st; l_have := l_have st |}
  | Some (o, d, WaitData) =>
      {| l_s := l_s st; l_pkgs := l_pkgs st; l_req := rest; l_wait := fupd (l_wait st) w None; l_res := l_res st;
         l_mem := l_mem st ++ [(mon w, d)]; l_have := l_have st ++ [(w, d)] |}
  | _ => st
  end.

(** Whether a step of the protocol may happen: a worker inside SharedObjectStore.get takes no operation
    (worker/loop.py:103-107). *)
Definition free_for (st : lst) (a : ShutModel.act) : bool :=
  match a with
  | ADeliver i =>
      match nth_error (snet (l_s st)) i with
      | Some (_, dst, _) => match l_wait st dst with None => true | Some _ => false end
      | None => true
      end
  | _ => true
  end.

(** One step; None: not possible now. worker/loop.py:103-168, 210-233, monitor/loop.py:188-287, controller/api.py:305-340. *)
Definition lstep (st : lst) (op : lop) : option lst :=
  match op with
  | LMake o d =>
      if working st o && negb (pin (mon o) d (l_res st))
      then Some {| l_s := l_s st; l_pkgs := l_pkgs st; l_req := l_req st; l_wait := l_wait st;
                   l_res := l_res st ++ [(mon o, d)]; l_mem := l_mem st ++ [(mon o, d)]; l_have := l_have st ++ [(o, d)] |}
      else None
  | LSend o w d =>
      if working st o && mem_rank w (s_workers c) && negb (Nat.eqb o w) && pin o d (l_have st)
      then Some {| l_s := l_s st; l_pkgs := l_pkgs st ++ [(o, w, d)]; l_req := l_req st; l_wait := l_wait st;
                   l_res := l_res st; l_mem := l_mem st; l_have := l_have st |}
      else None
  | LTake i =>
      match nth_error (l_pkgs st) i with
      | Some (o, w, d) => if in_loop st w then Some (receive st i o w d) else None
      | None => None
      end
  | LServe i =>
      match nth_error (l_req st) i with
      | Some (w, m) => if mstopped (smon (l_s st) m) then None else Some (answered st i w m)
      | None => None
      end
  | LLook w =>
      match l_wait st w with
      | Some (_, d, WaitOthers) => if pin (mon w) d (l_mem st) then Some (got_it st w d) else None
      | _ => None
      end
  | LShut a =>
      if free_for st a
      then match sstep c (l_s st) a with
           | Some s => Some {| l_s := s; l_pkgs := l_pkgs st; l_req := l_req st; l_wait := l_wait st; l_res := l_res st;
                               l_mem := l_mem st; l_have := l_have st |}
           | None => None
           end
      else None
  end.

(** After unidist.init (worker/loop.py:88-102, monitor/loop.py:172-187). *)
Definition linit (g : rank -> manager) : lst :=
  {| l_s := sinit g; l_pkgs := []; l_req := []; l_wait := fun _ => None; l_res := []; l_mem := []; l_have := [] |}.

(** Any interleaving; steps that are not possible are skipped (worker/loop.py:103, monitor/loop.py:188). *)
Definition lgo (st : lst) (op : lop) : lst := match lstep st op with Some st' => st' | None => st end.
(** The same lines. controller/api.py:117-340. *)
Definition lrun (g : rank -> manager) (ops : list lop) : lst := fold_left lgo ops (linit g).
End Late.

(** The monitor of every process (communication.py:238-261). *)
Definition monitor_of (place : list nat) (addr : nat -> nat) (r : rank) : rank :=
  match get_monitor place addr true r with Some m => m | None => ROOT end.
