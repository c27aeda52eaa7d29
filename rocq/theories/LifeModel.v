(** The life cycle of a session in the main program: init, is_initialized, shutdown and put of unidist/api.py:82-111, 163-180 on one backend. The
    libraries of Ray and Dask are taken by what they promise: one runtime (client) per process, which init makes and shutdown ends. *)
From Verif Require Import Lib BaseModel.

(** The calls (unidist/api.py:82-111, 163-180). *)
Inductive lop := LInit | LIsInitialized | LShutdown | LPut.

(** What the program sees: a normal return, an answer of is_initialized, an exception, or no return at all. unidist/api.py:82-180. *)
Inductive lans := Returned | Says (b : bool) | Raised | Blocked.

(** [up]: Ray's runtime, Dask's client, the singletons of PyMp and PySeq (pymp/core/process_manager.py:105-115, pyseq/core/object_store.py:23-33),
    MPI's state object (mpi/core/communication.py:182-198); [flag]: is_mpi_initialized and its like (mpi/core/controller/api.py:253-255,
    pymp/core/api.py:18, pyseq/core/api.py:13); [ended]: is_mpi_shutdown, MPI is finalised (mpi/core/controller/api.py:341-345); [starts]:
    how many sets of processes (or runtimes, or stores) were started; [stuck]: a call never returned. *)
Record life := mkLife { up : bool; flag : bool; ended : bool; starts : nat; stuck : bool }.

(** Before the first call (mpi/core/controller/api.py:47-49, pymp/core/api.py:18, pyseq/core/api.py:13). *)
Definition life0 : life := mkLife false false false 0 false.

(** init_backend (core/base/utils.py:12-62) in the main thread. MPI (mpi/core/controller/api.py:117-268), with threads supported: after the end of
    MPI the library refuses everything; the first time it spawns (or finds) the other processes and returns after the barrier; another
    time it spawns again (142-239, unless MpiSpawn is off), keeps the state object of the first time (251) and waits at the barrier of the old
    processes, which are in their loops (267; worker/loop.py:95, monitor/loop.py:181). *)
Definition l_init (spawn : bool) (b : backend) (s : life) : life * lans :=
  match b with
  | Ray | Dask => if up s then (s, Returned) else (mkLife true (flag s) (ended s) (S (starts s)) (stuck s), Returned)
  | PyMp | PySeq => (mkLife true true (ended s) (if up s then starts s else S (starts s)) (stuck s), Returned)
  | Mpi =>
      if ended s then (s, Raised)
      else if up s then (mkLife true true false (if spawn then S (starts s) else starts s) true, Blocked)
      else (mkLife true true false (S (starts s)) (stuck s), Returned)
  end.

(** is_initialized (ray/backend.py:164-173, dask/backend.py:182-198, mpi/core/controller/api.py:287-297, pymp/core/api.py:45-55,
    pyseq/core/api.py:30-40). *)
Definition l_is (b : backend) (s : life) : bool := match b with Ray | Dask => up s | _ => flag s end.

(** shutdown: ray/backend.py:159-162; dask/backend.py:176-180, get_client raises without a client; mpi/core/controller/api.py:301-345: once, and
    without a state object it raises (314); pymp/backend.py:155-166 raises; pyseq has none, base/backend.py:174-177 does nothing. *)
Definition l_shutdown (b : backend) (s : life) : life * lans :=
  match b with
  | Ray => (mkLife false (flag s) (ended s) (starts s) (stuck s), Returned)
  | Dask => if up s then (mkLife false (flag s) (ended s) (starts s) (stuck s), Returned) else (s, Raised)
  | Mpi => if ended s then (s, Returned)
           else if up s then (mkLife (up s) (flag s) true (starts s) (stuck s), Returned) else (s, Raised)
  | PyMp => (s, Raised)
  | PySeq => (s, Returned)
  end.

(** Storing something when the backend says it is initialised; MPI's library refuses to send after its end (mpi/core/controller/api.py:372-398 needs
    only the local store, unless the shared store is on: taken as returning). *)
Definition l_store (s : life) : lans := Returned.

(** One call (unidist/api.py:82-111, 163-180). A call that blocked is the last. *)
Definition lstep (spawn : bool) (b : backend) (s : life) (o : lop) : life * lans :=
  if stuck s then (s, Blocked)
  else match o with
       | LInit => l_init spawn b s
       | LIsInitialized => (s, Says (l_is b s))
       | LShutdown => l_shutdown b s
       | LPut => if l_is b s then (s, l_store s)
                 else match l_init spawn b s with (s, Returned) => (s, l_store s) | r => r end
       end.

(** A program (unidist/api.py:82-111, 163-180). *)
Fixpoint lrun (spawn : bool) (b : backend) (s : life) (os : list lop) : life * list lans :=
  match os with
  | [] => (s, [])
  | o :: r => let (s, a) := lstep spawn b s o in let (s, l) := lrun spawn b s r in (s, a :: l)
  end.
