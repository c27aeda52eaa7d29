(** The processes of the multiprocessing backend: what each of them knows of the others, and what the API does when tasks and methods of
    actors call it. Models pymp/core/{api,object_store,process_manager,actor}.py and unidist/api.py:82-111, 143-180.

    A process begins with a copy of the memory of the process that starts it (fork, the default on Linux) or with fresh modules (spawn, the
    default elsewhere). Worker processes are daemons (process_manager.py:31), and Python refuses to start a process from a daemon
    (multiprocessing/process.py, start: AssertionError); this goes for the processes behind Manager() and BaseManager() too. A task runs in a
    worker process. The methods of an actor run in the process behind its BaseManager, while the worker that took the call waits for it
    (multiprocessing/managers.py, _callmethod). A history is any sequence of calls, made in any of the processes, and ends of tasks.
    Simplifications: wait reads the same store as get and is left out; a value is a number and all results of a task are the same one;
    handles do not die (PympModel); arguments are those of PympModel and left out. *)
From Verif Require Import Lib.

(** multiprocessing.get_start_method(), which process_manager.py:31 and actor.py:106-107 leave as it is. *)
Inductive start_method := Fork | Spawn.

(** An entry of the shared dictionary: Delayed, or a result (object_store.py:13-16, 68-69). *)
Inductive entry := Waiting | Val (v : nat).

(** ProcessManager: the worker processes, which of them belong to actors, and whose turn it is (process_manager.py:90-102). *)
Record pool := mkPool { o_workers : list nat; o_grabbed : list bool; o_turn : nat }.

(** The memory of a process: ObjectStore.__instance (which dictionary; object_store.py:29-49), ProcessManager.__instance
    (process_manager.py:88-115), is_multiprocessing_initialized (core/api.py:18), and whether it is a daemon (process_manager.py:31). *)
Record proc := mkProc { c_store : option nat; c_manager : option pool; c_flag : bool; c_daemon : bool }.

(** All processes that run the user's code (0 is the main program; w_procs is the number of them), the dictionaries in the processes behind Manager()
    (object_store.py:33), the number of them, the next data ID (common/data_id.py:20-21, DataIdModel), the queues of the workers
    (process_manager.py:30-33), each task with the dictionary and the data IDs for its results, and the actors: the process of the object and
    the worker for the calls (actor.py:99-110). *)
Record world := mkWorld {
  w_proc : nat -> proc; w_procs : nat;
  w_dict : nat -> nat -> option entry; w_dicts : nat; w_next : nat;
  w_queue : nat -> list (nat * list nat);
  w_actors : list (nat * nat) }.

(** A process with fresh modules (core/api.py:18, object_store.py:29, process_manager.py:88). *)
Definition fresh (daemon : bool) : proc := mkProc None None false daemon.

(** The main program before any call (core/api.py:18). *)
Definition world0 : world := mkWorld (fun _ => fresh false) 1 (fun _ _ => None) 0 0 (fun _ => []) [].

(** What a call gives: references, a value, an answer of is_initialized, nothing, the number of the new actor; KeyError, AssertionError, RuntimeError
    (no available workers), or it waits (core/api.py:21-149). *)
Inductive out := Refs (ds : list nat) | Value (v : nat) | Says (b : bool) | Done | Handle (a : nat)
  | KeyErr | Assertion | NoWorker | Waits | Nobody.

(** The calls (unidist/api.py:82-111, 143-180, core/base/remote_function.py:31-38, core/base/actor.py:56-73, 148-164). CRemote n: a remote
    function with n results; CMethod a n: a method of an actor. *)
Inductive call := CInit | CIsInitialized | CPut (v : nat) | CGet (d : nat) | CRemote (n : nat) | CActor | CMethod (a n : nat).

(** Assignments to the singletons of a process (object_store.py:48, process_manager.py:114, core/api.py:40-42). *)
Definition set_proc (w : world) (p : nat) (c : proc) : world :=
  mkWorld (fun q => if Nat.eqb q p then c else w_proc w q) (w_procs w) (w_dict w) (w_dicts w) (w_next w) (w_queue w) (w_actors w).

(** A new process (process_manager.py:101, actor.py:107). *)
Definition new_proc (w : world) (c : proc) : world :=
  mkWorld (fun q => if Nat.eqb q (w_procs w) then c else w_proc w q) (S (w_procs w)) (w_dict w) (w_dicts w) (w_next w) (w_queue w) (w_actors w).

(** A new dictionary (object_store.py:33). *)
Definition new_dict (w : world) : world :=
  mkWorld (w_proc w) (w_procs w) (w_dict w) (S (w_dicts w)) (w_next w) (w_queue w) (w_actors w).

(** ObjectStore.put of n objects under new data IDs: object_store.py:51-70. *)
Definition put_all (w : world) (k n : nat) (e : entry) : world :=
  mkWorld (w_proc w) (w_procs w)
    (fun k' d => if (Nat.eqb k' k && Nat.leb (w_next w) d && Nat.ltb d (w_next w + n))%bool then Some e else w_dict w k' d)
    (w_dicts w) (w_next w + n) (w_queue w) (w_actors w).

(** Worker.add_task: process_manager.py:61-70. *)
Definition add_task (w : world) (q : nat) (t : nat * list nat) : world :=
  mkWorld (w_proc w) (w_procs w) (w_dict w) (w_dicts w) (w_next w) (fun q' => if Nat.eqb q' q then w_queue w q' ++ [t] else w_queue w q') (w_actors w).

(** A new actor (actor.py:99-110). *)
Definition add_actor (w : world) (server worker : nat) : world :=
  mkWorld (w_proc w) (w_procs w) (w_dict w) (w_dicts w) (w_next w) (w_queue w) (w_actors w ++ [(server, worker)]).

(** ProcessManager._next: process_manager.py:117-129. *)
Definition turn (o : pool) : pool :=
  mkPool (o_workers o) (o_grabbed o) (if Nat.eqb (S (o_turn o)) (length (o_workers o)) then 0 else S (o_turn o)).

(** The loop of ProcessManager.submit: process_manager.py:171-182. None: RuntimeError. *)
Fixpoint choose (fuel : nat) (o : pool) : pool * option nat :=
  match fuel with
  | 0 => (o, None)
  | S fuel =>
      if nth (o_turn o) (o_grabbed o) false then choose fuel (turn o)
      else (turn o, nth_error (o_workers o) (o_turn o))
  end.

(** ProcessManager.grab_worker: process_manager.py:131-149. None: RuntimeError. *)
Fixpoint grab (ws : list nat) (gs : list bool) : option (list bool * nat) :=
  match ws, gs with
  | q :: ws, g :: gs => if g then match grab ws gs with Some (gs, r) => Some (g :: gs, r) | None => None end else Some (true :: gs, q)
  | _, _ => None
  end.

Section Run.
Variable method : start_method.
Variable cpus : nat.     (* CpuCount.get(), in every process (config/parameter.py) *)

(** ObjectStore.get_instance(): object_store.py:31-49. None: Manager() cannot start its process. *)
Definition store_instance (w : world) (p : nat) : world * option nat :=
  let c := w_proc w p in
  match c_store c with
  | Some k => (w, Some k)
  | None =>
      if c_daemon c then (w, None)
      else (set_proc (new_dict w) p (mkProc (Some (w_dicts w)) (c_manager c) (c_flag c) (c_daemon c)), Some (w_dicts w))
  end.

(** What a new process starts with: process_manager.py:31, 100-101, actor.py:106-107 (a process is a daemon like the one that starts it, unless it is
    told otherwise). *)
Definition child (c : proc) (daemon : bool) : proc :=
  match method with
  | Fork => mkProc (c_store c) (c_manager c) (c_flag c) daemon
  | Spawn => fresh daemon
  end.

(** The loop that starts the workers (process_manager.py:99-102). None: AssertionError. *)
Fixpoint start_workers (n : nat) (w : world) (p : nat) : world * option (list nat) :=
  match n with
  | 0 => (w, Some [])
  | S n =>
      if c_daemon (w_proc w p) then (w, None)
      else match start_workers n (new_proc w (child (w_proc w p) true)) p with
           | (w', Some qs) => (w', Some (w_procs w :: qs))
           | (w', None) => (w', None)
           end
  end.

(** ProcessManager.get_instance(): process_manager.py:90-115. The instance is assigned when the constructor has ended (114). *)
Definition manager_instance (w : world) (p : nat) : world * option pool :=
  match c_manager (w_proc w p) with
  | Some o => (w, Some o)
  | None =>
      match store_instance w p with
      | (w, None) => (w, None)
      | (w, Some _) =>
          match start_workers cpus w p with
          | (w, None) => (w, None)
          | (w, Some qs) =>
              let c := w_proc w p in
              let o := mkPool qs (map (fun _ => false) qs) 0 in
              (set_proc w p (mkProc (c_store c) (Some o) (c_flag c) (c_daemon c)), Some o)
          end
      end
  end.

(** The instance changes (process_manager.py:117-160). *)
Definition set_pool (w : world) (p : nat) (o : pool) : world :=
  let c := w_proc w p in set_proc w p (mkProc (c_store c) (Some o) (c_flag c) (c_daemon c)).

(** init: core/api.py:21-42, through unidist/api.py:82-93 and pymp/utils.py:10-20. *)
Definition do_init (w : world) (p : nat) : world * out :=
  match store_instance w p with
  | (w, None) => (w, Assertion)
  | (w, Some _) =>
      match manager_instance w p with
      | (w, None) => (w, Assertion)
      | (w, Some _) => let c := w_proc w p in (set_proc w p (mkProc (c_store c) (c_manager c) true (c_daemon c)), Done)
      end
  end.

(** put: unidist/api.py:163-180, core/api.py:58-72. *)
Definition do_put (w : world) (p v : nat) : world * out :=
  match (if c_flag (w_proc w p) then (w, Done) else do_init w p) with
  | (w, Done) =>
      match store_instance w p with
      | (w, None) => (w, Assertion)
      | (w, Some k) => (put_all w k 1 (Val v), Refs [w_next w])
      end
  | (w, o) => (w, o)
  end.

(** get: core/api.py:75-89, object_store.py:72-106. *)
Definition do_get (w : world) (p d : nat) : world * out :=
  match store_instance w p with
  | (w, None) => (w, Assertion)
  | (w, Some k) =>
      (w, match w_dict w k d with
          | None => KeyErr
          | Some Waiting => Waits
          | Some (Val v) => Value v
          end)
  end.

(** submit: core/api.py:115-149. *)
Definition do_remote (w : world) (p n : nat) : world * out :=
  match store_instance w p with
  | (w, None) => (w, Assertion)
  | (w, Some k) =>
      let ds := seq (w_next w) n in
      match manager_instance (put_all w k n Waiting) p with
      | (w, None) => (w, Assertion)
      | (w, Some o) =>
          match choose (length (o_workers o)) o with
          | (o, None) => (set_pool w p o, NoWorker)
          | (o, Some q) => (add_task (set_pool w p o) q (k, ds), Refs ds)
          end
      end
  end.

(** Actor.__init__: core/actor.py:99-110. The process of the object is started before the worker is taken. *)
Definition do_actor (w : world) (p : nat) : world * out :=
  match store_instance w p with
  | (w, None) => (w, Assertion)
  | (w, Some _) =>
      if c_daemon (w_proc w p) then (w, Assertion)
      else let s := w_procs w in
           match manager_instance (new_proc w (child (w_proc w p) false)) p with
           | (w, None) => (w, Assertion)
           | (w, Some o) =>
               match grab (o_workers o) (o_grabbed o) with
               | None => (w, NoWorker)
               | Some (gs, q) => (add_actor (set_pool w p (mkPool (o_workers o) gs (o_turn o))) s q, Handle (length (w_actors w)))
               end
           end
  end.

(** ActorMethod.submit: core/actor.py:40-74, 130-139. *)
Definition do_method (w : world) (p a n : nat) : world * out :=
  match nth_error (w_actors w) a with
  | None => (w, Nobody)
  | Some (_, q) =>
      match store_instance w p with
      | (w, None) => (w, Assertion)
      | (w, Some k) => let ds := seq (w_next w) n in (add_task (put_all w k n Waiting) q (k, ds), Refs ds)
      end
  end.

(** One call in process p (unidist/api.py:82-111, 143-180). *)
Definition do_call (w : world) (p : nat) (c : call) : world * out :=
  if Nat.ltb p (w_procs w) then
    match c with
    | CInit => do_init w p
    | CIsInitialized => (w, Says (c_flag (w_proc w p)))
    | CPut v => do_put w p v
    | CGet d => do_get w p d
    | CRemote n => do_remote w p n
    | CActor => do_actor w p
    | CMethod a n => do_method w p a n
    end
  else (w, Nobody).

(** Worker q ends the task at the head of its queue and stores the results (process_manager.py:35-59). *)
Definition finish (w : world) (q v : nat) : world :=
  match w_queue w q with
  | [] => w
  | (k, ds) :: r =>
      mkWorld (w_proc w) (w_procs w)
        (fun k' d => if (Nat.eqb k' k && existsb (Nat.eqb d) ds)%bool then Some (Val v) else w_dict w k' d)
        (w_dicts w) (w_next w) (fun q' => if Nat.eqb q' q then r else w_queue w q') (w_actors w)
  end.

(** What happens: a call in a process, or the end of a task of a worker (process_manager.py:35-59). *)
Inductive event := ECall (p : nat) (c : call) | EEnd (q v : nat).

(** One event (process_manager.py:35-59). *)
Definition event_step (w : world) (e : event) : world :=
  match e with
  | ECall p c => fst (do_call w p c)
  | EEnd q v => finish w q v
  end.

(** A history that starts in w (process_manager.py:35-59). *)
Definition goes_on (w : world) (h : list event) : world := fold_left event_step h w.

(** What the call gives (unidist/api.py:82-180). *)
Definition answer (w : world) (p : nat) (c : call) : out := snd (do_call w p c).

End Run.
