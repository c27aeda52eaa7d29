(** Model of the loggers of the MPI backend: get_logger of mpi/core/common.py:337-371, and of what the application does with Python's
    logging in the same process. Loggers, files, handlers of the application and messages are numbered. *)
From Verif Require Import Lib.

(** A handler: the file handler of common.py:359-361, or one of the application. Handlers have no level of their own here
    (mpi/core/common.py:358-362). *)
Inductive hdl := HFile (f : nat) | HUser (u : nat).

(** A logger: its level (0: NOTSET) and its handlers. Its parent is the root logger, no name used by the backend has a dot in it
    (mpi/core/communication.py:35; controller/api.py:57; mpi/core/common.py:356). *)
Record lg := mkLg { lvl : nat; hands : list hdl }.

(** The root logger, the others by name, and what has been written: to files and to handlers of the application. A file that nothing
    has been written to does not exist, by delay=True (mpi/core/common.py:356-362). *)
Record lst := mkLst { root : lg; logs : nat -> lg; files : nat -> list nat; users : nat -> list nat }.

(** Python's start: the root logger is at WARNING, without handlers (mpi/core/common.py:356-357, the logging module). *)
Definition linit : lst := mkLst (mkLg 30 []) (fun _ => mkLg 0 []) (fun _ => []) (fun _ => []).

(** Setting one entry of a table (the logging module; mpi/core/common.py:356-369). *)
Definition setn {A} (f : nat -> A) (k : nat) (v : A) : nat -> A := fun j => if Nat.eqb j k then v else f j.

(** logger.hasHandlers(): of the logger or of the root (mpi/core/common.py:357). *)
Definition has_handlers (s : lst) (n : nat) : bool :=
  match hands (logs s n), hands (root s) with [], [] => false | _, _ => true end.

(** get_logger(name, file_name, activate); mpilog is what MpiLog.get() gives (mpi/core/common.py:337-371). *)
Definition get_logger (mpilog : bool) (n f : nat) (activate : option bool) (s : lst) : lst :=
  let l := logs s n in
  let h := if has_handlers s n then hands l else hands l ++ [HFile f] in
  let a := match activate with None => mpilog | Some a => a end in
  mkLst (root s) (setn (logs s) n (mkLg (if a then 10 else 0) h)) (files s) (users s).

(** getEffectiveLevel: that of the root if the logger has none (the logging module; used by mpi/core/common.py:366-369). *)
Definition effective (s : lst) (n : nat) : nat := match lvl (logs s n) with 0 => lvl (root s) | l => l end.

(** One handler writes (the logging module; mpi/core/common.py:359-362). *)
Definition emit1 (m : nat) (s : lst) (h : hdl) : lst :=
  match h with
  | HFile f => mkLst (root s) (logs s) (setn (files s) f (files s f ++ [m])) (users s)
  | HUser u => mkLst (root s) (logs s) (files s) (setn (users s) u (users s u ++ [m]))
  end.

(** logger.debug, logger.info and so on: the handlers of the logger, then those of the root (the logging module; called in
    mpi/core/controller/api.py:425, 466; worker/task_store.py:252, 341, 434-439; communication.py:54, 76). *)
Definition log_at (n level m : nat) (s : lst) : lst :=
  if effective s n <=? level then fold_left (emit1 m) (hands (logs s n) ++ hands (root s)) s else s.

(** logging.warning and so on of the application, by the root logger (the logging module; its level is the one of
    mpi/core/common.py:366-369 for a logger without one). *)
Definition log_root (level m : nat) (s : lst) : lst :=
  if lvl (root s) <=? level then fold_left (emit1 m) (hands (root s)) s else s.

(** The two levels at which the backend logs (worker/task_store.py:252, 341 are info, all the others debug). *)
Inductive ulevel := UDebug | UInfo.
(** logging.DEBUG and logging.INFO (worker/task_store.py:252, 434). *)
Definition num (u : ulevel) : nat := match u with UDebug => 10 | UInfo => 20 end.

(** What happens in a process: a module of the backend is imported (communication.py:35, async_operations.py:7, worker/loop.py:35-37,
    worker/request_store.py:17-19, worker/task_store.py:24-26, monitor/loop.py:27-29, controller/common.py:20,
    controller/garbage_collector.py:16, controller/api.py:57, shared_object_store.py:578-580) or logs something; the application sets
    a level, adds a handler or logs. *)
Inductive lev :=
| UImport (n f : nat) | ULog (n : nat) (u : ulevel) (m : nat)
| ARootLevel (l : nat) | ARootHandler (h : hdl) | ARootLog (level m : nat)
| ALevel (n l : nat) | AHandler (n : nat) (h : hdl) | ALog (n level m : nat).

(** One event (mpi/core/common.py:337-371 and the logging module). *)
Definition lstep (mpilog : bool) (s : lst) (e : lev) : lst :=
  match e with
  | UImport n f => get_logger mpilog n f None s
  | ULog n u m => log_at n (num u) m s
  | ARootLevel l => mkLst (mkLg l (hands (root s))) (logs s) (files s) (users s)
  | ARootHandler h => mkLst (mkLg (lvl (root s)) (hands (root s) ++ [h])) (logs s) (files s) (users s)
  | ARootLog level m => log_root level m s
  | ALevel n l => mkLst (root s) (setn (logs s) n (mkLg l (hands (logs s n)))) (files s) (users s)
  | AHandler n h => mkLst (root s) (setn (logs s) n (mkLg (lvl (logs s n)) (hands (logs s n) ++ [h]))) (files s) (users s)
  | ALog n level m => log_at n level m s
  end.

(** A history (mpi/core/common.py:337-371). *)
Definition lrun (mpilog : bool) (h : list lev) : lst := fold_left (lstep mpilog) h linit.
