# Formal model of unidist in Rocq: design

Sources: `/repo` (modin-project/unidist, pinned). Everything below is about that text.
Coq 8.16.1, standard library only. Paths are relative to `/repo/unidist/`;
`mpi/` abbreviates `core/backends/mpi/core/`.

## How the model is organised

For each area there are up to five kinds of file in `rocq/theories/`:

* `<Area>Model.v`  – Gallina transcription of the Python/C++ functions, one definition
  per function, with a comment giving file and lines. No proofs.
* `<Area>Spec.v`   – the small independent vocabulary used by the property statements
  (only where the standard library vocabulary is not enough).
* `<Area>Proofs.v` and further proof files – lemmas.
* `<Area>Cases.v`  – concrete executions used as witnesses and as examples.
* `<Area>Props.v`  – the property theorems only, each closed by `exact`, each followed by
  `Print Assumptions`, with an example showing that the hypotheses are met.

Conventions: Python objects are values of inductive types; dictionaries and sets are
association lists / lists without duplicates; exceptions are result values; `while True`
loops of processes are labelled transition systems whose steps are "one message
handled"; MPI is a set of FIFO channels per (sender, receiver, tag), which is what the
MPI non-overtaking rule guarantees. Third-party encoders (pickle, cloudpickle, msgpack)
are modelled by their documented tree-level behaviour; user functions are arbitrary
parameters (section variables discharged at section end, so theorems quantify over them).

If a property is false of the code, the theorem proved is a refutation
(`…_refuted`, an exhibited reachable execution) and, where it makes sense, the strongest
true variant beside it (`…_partial`). These are listed under Findings.

The proofs of the worker (C26–C32, C53) rest on an event log: `WorkerLog.v` (what every log looks like),
`WorkerTrace.v` (stores, owners and outstanding requests are functions of the log), `WorkerReady.v`,
`WorkerAnswer.v`, `WorkerOrder.v`, `WorkerDone.v`, `WorkerSends.v`, `WorkerWant.v` (one invariant each),
`WorkerThms.v` (consequences). The model of the whole (C36, C50, C51, C60) is `ClusterModel.v`, a product of
the root, any number of `WorkerModel` workers, a `MonModel` monitor and FIFO channels; its proofs are
`ClusterSeq.v` (sequential evaluation), `ClusterProofs.v` (values), `ClusterCount.v` (task counts),
`ClusterRoot.v` (what the root sends), `ClusterNet.v` (nothing is lost, nobody waits for ever),
`ClusterEnd.v` (deliveries come to an end), `ClusterGhost.v` and `ClusterClean.v` (programs with cleanups: simulation by
a system in which no worker forgets anything).

## Plan per property

`Area` names the files `<Area>Model.v`, `<Area>Spec.v`, `<Area>Proofs.v`, `<Area>Cases.v`, `<Area>Props.v`.

| id | property | area | what is modelled | how it is proved | status |
|---|---|---|---|---|---|
| C01 | Shared-memory reservations never overlap | Shm | free lists, reservation table and cleanup of one monitor | invariant by induction over operation histories | proved |
| C02 | Shared memory is neither lost nor invented | Shm | same | the free list is the sorted, separated complement of the live regions | proved |
| C03 | A reservation for a data ID is stable and has one first requester | Shm | same, with the monitor handler and an event trace | invariant over histories | proved |
| C04 | Shared data is reclaimed only when no host references it, and is never forgotten | Shm | several managers in lock step with arbitrary reference counts | induction over cleanup rounds | proved |
| C05 | A reservation that fails with MemoryError leaves the manager as it was | Shm | same | refutation with witness, strongest true variant | partial |
| C06 | Reading a shared object returns exactly what was written | ShmStore | bytes of shared memory, put/get/drop/cleanup of all processes | induction over buffer lists, invariant over histories | partial |
| C07 | Writing one shared object never changes another | ShmStore | same | disjointness (C01) + invariant | proved |
| C08 | A reader never sees a half-published shared object | ShmRace | one memory access per step, any number of processes | invariant over all interleavings | partial |
| C09 | The shared reference count equals the number of live holders | ShmStore | reference counters and holders | invariant over histories | proved |
| C10 | Shared-memory sizing never exceeds what the host allows | Sizing | arithmetic of the allocation, floats as 53-bit rounding | arithmetic over Z | proved |
| C11 | The multi-threaded copy is an exact copy | MemCopy | single byte copies of all threads, in any order | arithmetic, disjoint cover, any permutation | partial |
| C12 | Object references are globally unique | DataId | counters and names as strings | induction; printing and parsing round trip | proved |
| C13 | A reference keeps its identity across processes and dies once | DataId | interning table, copies, deaths | invariant over histories | proved |
| C14 | Large buffers survive block-wise transfer | Comm | block partition, FIFO of blocks | induction on the number of blocks | partial |
| C15 | Serialisation round-trips every supported value | Serial | value trees, hooks, out-of-band buffers | induction on trees with generalised buffer suffix | partial |
| C16 | Deserialising does not change the serialised data | Serial | cache entries and what get/send do to them | case analysis, induction over histories | partial |
| C17 | Messages are never mixed up on the wire | Comm | tagged channels | simulation against per-sender queues | partial |
| C18 | Tasks are only scheduled on legal workers | Sched | round robin over a cyclic list, reservations | invariant | partial |
| C19 | Scheduling is fair | Sched | same | arithmetic on positions in the cycle | proved |
| C20 | get returns the values in the order of the references | Ctrl | get over stores and reply sequences | induction over replies | proved |
| C21 | get with a repeated remote reference returns | Ctrl | same | refutation for every repeated remote reference | partial |
| C22 | A failed task's exception is raised by every get | Ctrl | same | refutation with witness, first get proved | partial |
| C23 | wait partitions the references | Ctrl | wait over answers of the monitor | induction over rounds | proved |
| C24 | Each process receives a given value at most once | Push | push_data with the sent-cache | invariant over histories | proved |
| C25 | A task submission carries everything the worker needs | Push | same | induction on argument trees | proved |
| C26 | A task runs only with all its arguments materialised | Worker | message handler, pending lists, request store | invariant over message histories (event log) | proved |
| C27 | Pending tasks run when their data is there | Worker | same | invariant: nothing pending is ready | partial |
| C28 | An exception in an argument or in the body reaches all outputs | Worker | same | log characterisation of executions | partial |
| C29 | Multiple returns are delivered to the matching references | Worker | same | same | proved |
| C30 | Every data request is answered exactly once | Worker | same | invariant relating requests, answers and stores | partial |
| C31 | A worker requests missing data at most once at a time | Worker | same | same | proved |
| C32 | Actor method calls run in submission order | Worker | same | order of the log | partial |
| C33 | The monitor answers a wait exactly once, with finished tasks | Mon | monitor handler | invariant over message histories | proved |
| C34 | wait returns for failed tasks too | Mon | same | refutation; normal ends proved with the worker model | partial |
| C35 | Shutdown reaches every process exactly once and never early | Shut | root, workers, monitors and messages of shutdown | global invariant, measure | partial |
| C36 | Cleanup never runs while submitted tasks are unfinished | Cluster | root + workers + monitor + channels | global counting invariant | proved |
| C37 | Every dead reference is cleaned exactly once | Gc | garbage collector of a process | invariant over histories | partial |
| C38 | Process roles are assigned consistently | Topo | rank table | induction over ranks | partial |
| C39 | Cluster resources account for every process that can execute | Topo | same | same | partial |
| C40 | Process spawning covers the requested hosts and counts | Topo | numbers in init | arithmetic | proved |
| C41 | The sequential backend behaves like direct calls | Pyseq | object store, submit, wrappers | refinement to direct evaluation | partial |
| C42 | The multiprocessing backend runs every submitted task once, on a legal process | Pymp | queues, workers, grabbing | invariant over schedules | proved |
| C43 | Tasks on the multiprocessing backend cannot deadlock on their arguments | Pymp | same | progress measure on submission order | partial |
| C44 | wait on the multiprocessing backend partitions the references | Pymp | wait | induction; refutation | partial |
| C45 | wait on the Dask backend partitions the references | Dask | wait | induction over rounds | proved |
| C46 | References nested in arguments are unwrapped faithfully | Base | unwrapping of argument trees | induction on trees | partial |
| C47 | Exactly one backend is active per process | Base | proxy and init | invariant over histories | partial |
| C48 | The remote decorator accepts exactly the documented options | Base | decorator | case analysis | partial |
| C49 | Configuration precedence is put over environment over default | Config | parameters | induction over histories | partial |
| C50 | Distributed execution computes what sequential execution computes | Cluster | root + workers + monitor + channels | global invariant over all interleavings | proved |
| C51 | Distributed execution does not get stuck | Cluster | same | global invariant, induction on submission order, bound on messages | proved |
| C52 | Buffers stay alive until they are sent | Async | list of pending sends | invariant over histories | partial |
| C53 | A task cannot take its worker down | Worker | message handler | invariant: handler does not raise | partial |
| C54 | Actors on the sequential backend keep their own state in order | Pyseq | actors | refinement to direct evaluation | proved |
| C55 | The multiprocessing backend computes what direct execution computes | Pymp | values | agreement invariant over schedules | partial |
| C56 | A remote call hands its arguments and its number of outputs on | Base | remote call wrappers | case analysis | partial |
| C57 | Results on the Dask backend are those of direct execution | Dask calls | remote functions, actor methods, put and get of the Dask backend, over the part of Dask's contract they use: tasks with dependencies, any schedule, tasks forgotten when nobody holds or needs them | invariant over runs: every task's purpose, every result justified by a derivation in the small semantics `gives` | proved |
| C58 | Every call submitted on the Dask backend is run exactly once | Dask calls | same model | acyclic dependencies and a measure; forgetting refutes the full claim | partial |
| C59 | Actor calls on the Dask backend run in submission order | Dask calls | same model, with the log of runs | prefix property of the log; witness schedule refutes the full claim | partial |
| C60 | Cleaned-up data is gone | Cluster | same model | simulation by a system that forgets nothing; witness schedule refutes the full claim | partial |
| C61 | Values with actors and coroutines | Actors | ActModel: ClusterModel with method calls and coroutines that end at any moment | invariant over all runs: everything stored or under way is given by the program and the histories of the workers; histories only grow; witness schedule refutes the order for calls with references; waiting programs: induction over the prefixes of the program, the history of a worker is the calls of direct execution followed by later calls | partial |
| C62 | A cleanup never removes data that is still needed, also with actors and coroutines | Actors | same model | counting: reports never exceed ended tasks; witness schedule refutes the full claim | partial |
| C63 | Programs with actors and coroutines do not get stuck | Actors | same model | witness schedules refute the full claim; for functions the state is related to that of the same program with tasks for calls, and a strong induction over the program shows that everything has ended; that a run can be completed is by induction over what is left of the program, delivering until nothing is under way before each operation | partial |
| C64 | wait in a running program | Wait | WaitModel: ActModel plus wait on the root, the WAIT message and the answer, as in CtrlModel and MonModel | runs with wait are related to runs without; an invariant ties the monitor's pending request to the call in progress; every stored reference comes from a put or an ended task | partial |
| C65 | Values with nested calls | Nest | NestModel: all processes with programs that call put, submit and get, in the root or in the middle of a task, with the loop of the worker not served meanwhile | NestSpec gives the meaning of a reference in a history; an invariant over all messages, stores, requests and executions; separate invariants for new references and for at most one execution of a task; the meaning is unique by induction on depth | proved |
| C66 | Nested calls: errors, and when a program ends | Nest | NestModel as for C65; closed, fits, idle and all_done in NestSpec | an invariant (NestLive) over stores, requests, messages, tasks in line and programs in get, kept by every step (NestStep, NestCall, NestTurn); blocking requests as tokens at one place each (NestNet); in a state where nobody moves, a waiting program is followed to another worker in get by induction on the number of the task; two tasks that wait for each other as a witness | partial |
| C67 | Garbage is reclaimed once everything has finished | Actors | ActModel as for C62 | counting: the root's counter counts submissions only, the monitor's every end of a function; witness programs for calls and failing coroutines | partial |
| C68 | Actors are built once, and methods act on their own object | Actors | HandleModel: ACTOR_CREATE and the look-up of methods around WorkerModel | refinement: the run is one of WorkerModel's with the methods the look-ups bind, so C26-C32 apply; the object after the calls is a fold over the log | partial |
| C69 | Handles can be passed on | Actors | HandleModel: processes, FIFO channels between any two, creations, calls, handles passed on | invariant: a creation precedes every licensed call in its channel or has been taken; witness run for the race | partial |
| C70 | Values and arguments are those of the moment of the call | Stores | AliasModel: objects by location, the stores of every process, shared memory, messages that still read memory | invariants: everything recorded for a reference has one content; the buffers of an argument under way are unchanged; witness runs | partial |
| C71 | A monitor answers every request | Monitor | MonModel with ShmModel (all messages a monitor takes) | invariant: reservations disjoint, nothing leaked, service indexes aligned; pigeonhole on the slots; first fit stays below the sum of all sizes asked for; witness runs | partial |
| C72 | Every process gets the answers to its own requests | Monitor | ReplyModel: requests under way to the monitor, answers under way to each process, over MonModel | invariant: each process is idle, its request is under way, kept, or answered by what is in its channel; witness runs | partial |
| C73 | Hosts agree on what is cleaned up | Monitor | CollModel: one monitor per host with the messages under way to it, cleanups in two halves around the collective call | invariant: with one sender all hosts have the same cleanups before them and the managers are those of a history of whole cleanups (C04); every host has the same number of cleanups before it; witness runs | partial |
| C74 | The arguments of a call reach the user's code | API layer | ArgsModel: Python's binding of arguments to parameters, and the parameter lists of every function between .remote() and the user's code on the five backends (Dask's own options are a parameter) | every layer passes on what its parameters do not take; composition by cases of backend and kind of call; witness calls | partial |
| C75 | Every public method can be called through the handle | API layer | ArgsModel: the attributes of the three layers of handles | by names: all attributes but one start with an underscore | partial |
| C76 | Spawned processes run with the configuration of the program that spawned them | Configuration | SpawnModel: the ten parameters that init hands on with their histories, the text of the program it builds, a reader of such texts as Python reads them, and the run of the statements up to init | round trip of the printed program through the reader; invariant of value and source over histories; witness values | partial |
| C77 | The shared object store is used exactly when asked for and supported, and all processes decide alike | Configuration | SupportModel: the two functions that decide, with splitting, searching and comparing of texts as Python does it, over SpawnModel | decimal printing and reading, searching lemmas; C76 for what a spawned process is configured with; witness texts | partial |
| C78 | init, is_initialized, shutdown and put agree on whether there is a session | Sessions | LifeModel: the state that init, is_initialized, shutdown and put read and write on the five backends, over the contracts of Ray and Dask | one invariant per backend between the flags and the specified state, induction over the program; witness programs | partial |
| C79 | num_cpus is the total of the CPUs that cluster_resources reports | Cluster | CpusModel over TopoModel: num_cpus of the five backends | C38 and C39 counts; sums over dictionaries; witness clusters | partial |
| C80 | A program behaves through shared memory as it does when values travel in the messages | Whole MPI backend with shared memory | SharedRunModel: ClusterModel with the store of ShmStoreModel between the processes; a message about a large value carries a package | refinement: counting invariant between messages and packages, ownership of entries, ClusterQuiet (no value of a cleaned object is under way), C06 for the bytes; witness for two sources | partial |
| C81 | The shared memory of objects whose references have died is freed | Whole MPI backend with shared memory | SharedRunModel (see C80) | invariant: entries of a worker are not among what it was told to forget, cleaned objects are freed or queued on every host; C09 for the cleanup itself; witness for two sources | partial |
| C82 | Ray is started with what was configured, and otherwise with memory that is there | Ray start | _get_object_store_memory with double rounding, initialize_ray | exact value of the rounded product (nearest double of 0.6 times the size), case analysis | partial |
| C83 | Spawned processes run under the Python options of the program that spawned them | Python options of spawned processes | _PY_FLAGS_MAP, _get_py_flags, the argument list of Spawn; Python's own reading of options and variables | the arguments are parsed back: letters by induction, warning options by idempotence of removing duplicates, -X options as a dictionary; witnesses | partial |
| C84 | A value that was got does not change afterwards | values are views | _read_from_shared_buffer without copying; the shared store of C06-C09 | invariant of C06: a stored object keeps its place while it is referenced or not cleaned; histories where a live value changes | partial |
| C85 | Shutdown ends, whatever tasks are there | shutdown with nested calls | the programs of C65/C66 together with the shutdown protocol of C35; CANCEL in two halves around async_operations.finish | every run is simulated by one of each part; the states in which nothing can happen are classified with the invariants of both | partial |
| C86 | Calls made before shutdown are executed | calls before shutdown | as C85 | at CANCEL everything the root sent has been taken; what is still pending needs the result of another task; induction over the run | partial |
| C87 | init returns when the cluster is up, or raises | start of the cluster | each process as the list of collective operations of MPI it goes through; it goes on from one when all members of the communicator have entered it | invariant: who has left an operation has seen all others enter; in a final state a process at the earliest operation cannot be stuck | partial |
| C88 | Everybody leaves together | end of the cluster | as C87, with the end of each loop as a move of its own | as C87 | proved |
| C89 | Tasks and methods of actors can use the API (PyMp) | nested calls on PyMp | the singletons of every process, copied (fork) or fresh (spawn) at its start, the round-robin choice of workers by each process from its own copy, queues, stores | invariant over all processes: who is a daemon knows the store and no workers; all references of live tasks are in one queue | partial |
| C90 | Large objects under way do not keep the program from ending (MPI) | large objects during shutdown | packages, requests to monitors, reservations, what is in the memory of each machine, beside the protocol of ShutModel | projection onto runs of ShutModel; invariant: who waits has a request under way, or another worker of the machine has; a stopped monitor means that all workers have taken CANCEL | partial |
| C91 | Nothing about an object is remembered after its cleanup (MPI) | records of cleaned objects | the state of ClusterModel: stores of workers, of the root, the set of the monitor | invariant over all runs: a worker has sent only what it has; an owner goes before the request that mentions it; a request of one worker for one object is sent once; what is dead was computed | partial |
| C92 | Cleanups in programs whose tasks make remote calls (MPI) | cleanups with nested calls | ReapModel: NestModel with the collector of every process, the reports of ended tasks, the count of the monitor, and CLEANUP | invariant over all runs: reports sent and counted = ends of executions, counters = calls by process; then counting | partial |
| C93 | A task that exits ends only itself (MPI, PyMp) | tasks that exit | StopModel: NestModel where such a task ends the loop of its worker; PympExitModel: PympModel where it ends the worker process | a run with exits is a run without the turns of those that are gone, so the invariants of C65, C66, C43 and C55 hold of it; induction over the numbers of calls for who is lost | partial |
| C94 | A value that cannot be pickled or unpickled fails only the calls that use it (MPI) | values that cannot be pickled or unpickled | PickModel: NestModel where a step that (de)serialises such a value is the last of its process | a run is a run of NestModel without the turns of those that are gone; a process that is gone keeps the cause before it; what references mean (C65) gives that programs with good values meet none | partial |
| C95 | A get that fails does not disturb later gets (MPI) | programs that go on after a failed get | GetFailModel: NestModel where an answer that cannot be unpickled, or a signal, ends a get by an exception and leaves the other answers where they are | the invariants of C65 are kept by the new steps; what the main program holds was put by itself or unpickled; concrete runs for the refutations | partial |
| C96 | What a process knows about a reference stays as long as it may be needed, and goes afterwards (MPI) | the local store with weak references | LocalStoreModel: data ID objects with addresses, WeakKeyDictionaries keyed by them, references from variables and from _data_id_map; an object nobody refers to dies with its entries | refinement to a machine that knows data IDs as values only; induction over histories there | proved |
| C97 | Results on the Ray backend are those of direct execution | the Ray backend | RayRunModel: calls of the program and, as what is relied on in Ray, tasks that are run at any time when their arguments are there, the methods of one actor in order | invariant over all interleavings: what Ray keeps is the outcome of the history, and the object of an actor, the calls still to be run and the state after direct calls are linked; order of submission for completeness | partial |
| C98 | The same program gives the same results on every backend | five backends, one program | the models of C41 (PySeq), C55 (PyMp), C97 (Ray), C57 (Dask) and C50 (MPI); PortSpec: programs whose references are named by call and place, and direct execution; PortShows: what a run of a backend shows for a program | refinement: each backend to direct execution, through the theorems on the single backends; the references handed over stand for the results of the program | partial |
| C99 | Actors behave alike on every backend | five backends, actors | ObjSpec: programs whose references are named by call and place and whose actors are numbered, direct execution, and what a run of the models of C41 and C54 (PySeq), C55 (PyMp), C97 (Ray), C57 (Dask), C61 (MPI) shows | refinement to direct execution, results and objects together, by induction on the history; uniqueness of references and handles from the models; completeness by building the run of a program and letting it end; on Dask with waiting an invariant that gives every future its meaning by direct execution, with at most one method call per actor under way; on MPI the object of an actor is the fold of the calls that direct execution has made on its worker | partial |
| C100 | The log is written when it is asked for, and only then | MPI backend, logging | LogModel: get_logger and Python's loggers, levels, handlers and files, with an application that uses them at will | invariants over histories; noninterference by a relation between the runs with and without the backend | partial |
| C101 | The communication log can be read | MPI backend, logging | LogLineModel: get_op_name and log_operation, character by character; LogLineSpec: the picture, column by column | induction on the numbers of repetitions; injectivity of the picture | partial |
| C102 | Receiving a value leaves Python's garbage collector as the application has set it (MPI) | garbage collector of Python | deserialize with gc.disable and gc.enable; unpacking as a sequence of items, some of which run code that receives other values or raise | induction over histories and over the items of a message | partial |
| C103 | Whatever can be sent by itself can be sent inside a container (MPI) | what can be sent | values as trees of the kinds the code distinguishes; the choice among msgpack, pickle protocol 5, cloudpickle and pickle; the libraries as which trees they can encode | induction over values | partial |
| C104 | A shutdown that is interrupted can be completed by another one (MPI) | interrupted shutdown | the root in and outside of shutdown, the workers with ready_to_shutdown_posted, the list of the monitor, messages counted per process; signals at any point | one token per worker while signals are early, with a decreasing weight; invariants over all runs for the rest | partial |

All properties are expressible in the model; none is declared not applicable. "partial" means: the claim as
worded is false of the code, or proved under the restriction named in MANIFEST.json; the refutation and the strongest true
variant stand side by side in the `*Props.v` file.

## Findings

Behaviour of the code that contradicts a property a user would expect. "Proved" names the property whose
`…_refuted` theorem exhibits the execution; the others were found by reading and are not (or not fully) in the model.

### MPI: get, wait, tasks
1. `get([ref, ref])` of remote data blocks for ever: the owner is asked twice and answers once. Proved, C21.
2. `wait` on a failed task never returns: the completion report of a failed task is empty. Proved, C34.
3. The second `get` of a failed reference returns the exception object instead of raising. Proved, C22.
4. A coroutine task that raises, or has `num_returns=0`, hits an unbound local: no completion report is sent, so the counts
   compared before a cleanup never agree again. Proved, C67.
5. A task with `num_returns=0` that raises ends the worker's loop. Proved, C53.
6. `num_returns=n` with fewer values: the remaining references are never stored, `get` waits for ever (C29, proved);
   with a result that is not iterable the worker dies (C53, proved).
7. A data request waiting for the output of a coroutine is dropped (C30, proved); a blocking request is not answered if the
   value was sent to that rank before without being asked (C30, proved); a request pending at a worker whose data comes by
   PUT_DATA is not answered (C30, proved).
8. A task that needs the result of an actor call on the same worker is not looked at again when it arrives, and vice versa;
   the end of a coroutine does not re-check pending tasks; one pass over the pending tasks may leave ready ones (C27, proved).
   So do programs as a whole: a get waits for ever although nothing is under way (C63, proved; for 8 the actor's rank must have
   been released, which happens when its handle is dropped).
9. Actor calls overtake an earlier call whose argument is still missing (C32, and in the system as a whole C61, proved).
10. A failed reference nested in a list is passed to the body as an exception object (C28, proved).
11. `wait` with `num_returns=0` or larger than the number of references never returns; nor does `wait` on the result of a
   task that raised, with everything else over. Proved, C64.
12. ACTOR_CREATE arguments are never materialised (`C68_reference_argument_refuted`); an exception in a constructor kills the worker
    (`C68_raising_constructor_refuted`), and so does the call of a method that does not exist (`C68_missing_method_refuted`).
13. Calls of actors and nested calls are reported as done but not counted by the submitter, so the task counts compared
    before a cleanup can be equal too early or never. Proved for calls of actors, C62: a task's argument is removed and the task
    never ends; and C67: after one call of a method nothing is ever cleaned while nothing is running.
14. Reservations of workers for actors are local to a process (C18, proved). RoundRobin with no eligible worker raises
    StopIteration (read).

### MPI: shared memory, serialisation, transport
15. A refused reservation leaks the memory it had already taken. Proved, C05.
16. After a cleanup a stale shared package reads garbage; service indices can exceed the receiver's service
    buffer. Proved, C06.
17. A check of the service cells can be torn, and data can be freed between check and increment. Proved, C08.
18. `parallel_memcopy` is wrong for buffers in which no 64-byte aligned address lies. Proved, C11.
19. User dictionaries with a reserved marker key are decoded wrongly. Proved, C15.
20. A local get empties the cached out-of-band buffers; a later send of the same value is broken. Proved, C16.
21. A blocking reply can be mixed up with an earlier operation of the same sender. Proved, C17.
22. `mpi_send_buffer` with an announced size of zero is received as garbage. Proved, C14 (no caller).
23. With several blocks, a non-blocking send does not keep its slices alive. Proved, C52.
24. A reference recorded as dead can come back. Proved, C13. A reference dying between serialising and clearing the list is
    never cleaned. Proved, C37.
25. A reservation that does not fit, or a REQUEST_SHARED_DATA for an unknown ID, ends the monitor's loop; fragmentation is enough for the first (C71_fragmented_refuted, C71_unknown_refuted).
26. CLEANUP requests of several processes may reach monitors in different orders, so that collective calls of
    different rounds meet: memory is freed on one host while another counts references (C73_two_senders_refuted), or arrays of different
    lengths are reduced (C73_lengths_refuted). A monitor that has died (25) leaves the others in the collective call (C73_dead_refuted).
27. Values got from shared memory are views of it, not copies. When the reference has gone and is cleaned up, the next object is written over
    them: an array that `get` returned, or that an actor was given and keeps, changes into another task's result without an error.
    Proved, C84.

### MPI: start and end
28. Shutdown blocks when the root's monitor is not rank 1 or there is no worker. Proved, C35.
29. Machines whose names resolve to the same address: ranks are lost. Proved, C38. Dask and Ray lose CPUs in
    `cluster_resources` for equal addresses. Proved, C39.
30. `_termination_handler` takes no arguments but is installed as a signal handler (read). Values with quotes or backslashes in
    MpiRuntimeEnv break or change the spawn command, up to running other statements. Proved, C76.
31. PUT_SHARED_DATA at a worker is not guarded by the shutdown flag: a worker that takes one after CANCEL, for an object that is not in
    the memory of its machine, asks its monitor and the owner's monitor, which may have left their loops. It then waits for ever, and
    so does everybody who waits for it in Free or Finalize (C90, proved).

### Other backends and the API layer
32. pymp: `wait` returns references that are not ready or raises IndexError, and raises for failed tasks (C44, proved);
    a result that is too short leaves references undefined, one that is not iterable or cannot be pickled ends the worker
    process (C43, proved); byte strings are unpickled by get (C55, proved); when an actor's handle dies, its manager process
    ends: calls that have not ended give a connection error (C55, proved), and a worker that takes such a call afterwards fails in `pkl.loads`,
    outside of its try block, and ends; it then counts as free, so plain tasks are given to it and never run (C43, proved). Handles of
    actors cannot be passed to tasks: they cannot be pickled (read).
33. pyseq: an exception in an argument is raised by `.remote()` (C41, proved); functions that return exception objects make
    get raise (C41, proved); actor constructor arguments are not materialised (C74_constructor_reference_refuted; also
    pymp).
34. dask: `wait` with repeated references does not return. Proved, C45. A call with num_returns=0, or whose reference is
    dropped, may never be run, because its future is released. Proved, C58. Method calls of one actor may be run in another
    order than they were made. Proved, C59. Constructor arguments that are references stay references
    (C74_constructor_reference_refuted).
35. API: unknown options are ignored and booleans accepted as num_returns (C48, proved); keyword arguments named like options are
    swallowed, `self` and `task` raise TypeError (C56, proved); instances of subclasses of list, tuple, dict are not
    unwrapped (C46, proved); a call before init fixes the backend, init may start another (C47, proved).
36. Config: a value outside the choices is stored and get raises ever after; put("false") stores True; the environment
    is read once. Proved, C49.

### MPI: cleanup (continued)
37. A value that was asked of another worker and arrives after the cleanup request is stored again and never removed: the cleanup
    of the root and the answer of the other worker come from different processes, so either can be first. Proved, C60.

### MPI: calls in tasks
38. A worker in the middle of `get` serves no other process. Two tasks on two workers, each of which gets the result of a call
    that went to the other's worker, wait for ever; with two workers a nested call always goes to the other one. Proved, C66.
39. A remote function that has been called carries the reference of its function; called again in a task, on a worker that
    does not have that reference, it raises ValueError. Proved, C66. (Likewise `get` of a reference made elsewhere: KeyError.)
40. `wait` in a task: the monitor sends its answer to the root and the worker waits for ever (C72_worker_wait_refuted). The root may take the answer for the number of finished tasks (no cleanup then) or for the end of the session (shutdown raises ValueError), and a worker's wait replaces the root's, which is then never answered (C72_mixed_up_refuted, C72_shutdown_refuted, C72_replaced_refuted).
41. A process that has been given an actor's handle and calls a method at once can kill the actor's worker with a KeyError in
    `actor_map`: its ACTOR_EXECUTE may be there before the creator's ACTOR_CREATE (`C69_refuted`).
42. A constructor with a keyword argument named `owner_rank` (or `handler_id`) is taken for a deserialised handle: no ACTOR_CREATE is sent
    (controller/actor.py:91-128; C74_clashes_refuted).
43. Changes in place show through. An array given directly to `.remote()` and changed afterwards: the task may see the change, because the non-blocking
    send reads the array's own memory. An object returned by `get`, or given to a task for a reference, is the one in that process's
    store: if it is changed, later gets and tasks there see the change. A task's result stays shared with, say, the actor's state on that
    worker. Proved, C70. (`put` copies: changing the original afterwards is harmless.)
44. Keyword arguments with the names of parameters inside the backends raise TypeError or are lost: `task` (MPI), `func`, `data_ids`,
    `obj_store` (PyMp), `func` (PySeq), `func`, `actor_cls`, `method` and Dask's own options (Dask), `cls` of constructors (MPI, PyMp).
    Proved, C74, with the exact list. A method named `submit` cannot be called on PyMp: the handle has one of its own. Proved, C75.
45. `MpiPickleThreshold.get` overwrites the value's source with that of another parameter while the shared object store is on. A
    threshold that was put is then not handed on to spawned processes. Also not handed on: defaults of the root, such as the number of
    CPUs. An infinite `MpiBackoff` keeps spawned processes from starting. Proved, C76.
46. `is_shared_memory_supported` takes MPICH "4.2" for older than 4.2.0, raises ValueError for release candidates such as "4.2.0rc1" and
    IndexError for libraries that contain the word MPICH but no line "MPICH Version:" (Cray). An environment variable set on one host only
    makes the processes disagree. Proved, C77.
47. MPI: a second `init` spawns a second set of processes and blocks at a barrier nobody else enters; after `shutdown`, `is_initialized` still
    says True and `init` raises. `shutdown` raises on PyMp always, on MPI and Dask before `init`; on PySeq it does nothing. Proved, C78.
48. `num_cpus` differs from the total of `cluster_resources`: on MPI under mpiexec (CPUs of the machine against worker processes), on Dask with
    more than one thread per worker (workers against threads), on Ray with nodes without CPUs (0 against 1; KeyError if there are no others).
    Proved, C79.
49. A worker that was handed an object by reference and, after the program fetched it with `get`, once more by value, gets it twice. The
    second package may arrive after the object was cleaned up and its memory used again: the worker then reads other bytes and fails in
    deserialisation. Task counting does not prevent this, because the tasks end without the second package. Proved, C80.
50. The monitors look at an object that was still held when its cleanup came only when another cleanup is requested. If a monitor is faster
    than a worker, memory that nobody holds stays occupied until then (C81_case), and `put` can fail for lack of it meanwhile.
51. A worker that receives an object again after it has taken its cleanup (see 49) holds it for ever: no cleanup frees that memory.
    Proved, C81.
52. `_get_object_store_memory` of the Ray backend documents that on a Mac it never returns more than Ray's limit of 2 GiB, but a configured size is
    returned as it is (and may exceed the memory there is). Proved, C82.
53. With a positive PYTHONHASHSEED (a fixed seed) the root sees `sys.flags.hash_randomization` set and spawns its workers with `-R`, which overrides the variable:
    every worker hashes strings with another random seed than the program. Also: `python -X ""` makes the workers fail to start, and PYTHONINSPECT
    still makes them interactive. Proved, C83.
54. A worker that has taken CANCEL ignores every task and request. If a task on another worker, still running, makes a call that goes there and gets the result, it waits for ever,
    never takes its own CANCEL, and shutdown() never returns. Proved, C85.
55. The CANCEL branch of the worker first waits in async_operations.finish() until its messages have been received. Two workers that have answered each other's requests with
    values too large for MPI to buffer, and take CANCEL before those, wait for each other: shutdown() never returns, even though no task calls the API, and even if the program
    has got the result of every call (the answers can be superfluous: the values came from the driver meanwhile). Proved, C85.
56. shutdown() drops calls: one whose argument is the result of a task on another worker may still be pending when CANCEL arrives, is forgotten and never executed;
    nobody is told. (Calls with values, or references to objects that were put, are always executed.) Proved, C86.
57. MpiSharedObjectStoreMemory is checked by every process for itself after the cluster is connected. If the driver's machine has enough memory and another one has not, the processes there
    raise ValueError, the driver waits in Barrier: init() neither returns nor raises. Likewise if processes of one machine disagree on whether shared memory is used. Proved, C87.
58. PyMp: in a task `put`, `init`, `.remote()` and the creation of actors raise AssertionError (worker processes are daemons and hold a copy of the memory from before
    the pool was assigned), and is_initialized() says False. Methods of actors run in a process with a copy in which the actor's own worker counts as free: the first remote
    call made by a method of the first actor is queued at the worker that waits for this method, so `get` of its result hangs. With spawned processes `get` raises in tasks, and
    methods have another store. Proved, C89.
59. The monitor remembers the identifier of every output of every task that returned a value for as long as the program runs: DataIDTracker.completed_data_ids (monitor/loop.py:64, 88) only grows, CLEANUP (monitor/loop.py:254-259) does not touch it. A long-running program uses more and more memory in the monitor (C91_monitor_refuted, C91_monitor_never_forgets). A worker, too, can keep a request for ever that comes after the cleanup (C91_request_refuted).
60. The monitor counts every task that ends (monitor/loop.py:197-203), the collector of a process only the calls made in that process (controller/api.py:578), and a cleanup is sent when the two are equal (controller/garbage_collector.py:138-142). If tasks call remote functions, ends of nested tasks stand in for ends of the tasks of the main program: a cleanup is sent while a call still needs the object, and when the worker that has it takes the cleanup first, that call never runs and a get of its result never returns (C92_hang_refuted). After that, once everything has ended the two numbers always differ, and nothing is ever removed from the workers again (C92_when_ended_partial, C92_reclaim_refuted).
61. Only Exception is caught around a task (mpi/core/worker/task_store.py:257, 346, pymp/core/process_manager.py:44). sys.exit or KeyboardInterrupt in a remote function ends the worker: nothing is stored or reported, so that get of its result, and of the results of all calls sent to the same worker, before or after, never returns (C93_lost, C93_hang_refuted, C93_pymp_lost). With PyMp a worker whose task waits for such a result is stopped as well, with everything in its queue (C93_pymp_stopped, C93_pymp_hang_refuted). With PySeq the exception comes out of the remote call in the driver (pyseq/core/api.py:113).
62. Results are pickled after the try around the task (mpi/core/worker/task_store.py:367, 380), exceptions when they are first sent (controller/common.py:397), and everything received is unpickled outside any try (worker/loop.py:115, 134, 161). So a task that returns a generator or a lock ends its worker: get of its result never returns and the other calls sent there are lost (C94_result_refuted, C94_lost). A task that raises an exception of a class whose constructor takes other arguments than its args (it can be pickled but not unpickled) makes get raise TypeError instead (C94_other_exception_refuted); passed to another task it ends the worker of that task (C94_argument_refuted). An exception that cannot be pickled ends its worker when somebody asks for it (C94_exception_refuted).
63. A get that raises leaves the loop over the answers (mpi/core/controller/common.py:217-233): the answers still to come stay under way, and the owners have recorded that they sent them. The next get, of any other reference, takes one of them and raises RuntimeError although its own value is there (C95_stale_refuted). An answer that could not be unpickled is lost: a second get of the reference never returns, because the owner does not send it again (C95_retry_refuted). SIGINT or SIGTERM in get has the same effect, since the handler takes no arguments and so raises TypeError in the middle of the loop (finding 30; C95_signal_refuted).
64. **On Ray, results that do not have the number of items asked for, and constructors that raise, behave unlike on the other backends** (C97_number_refuted, C97_constructor_refuted). A function that returns three items for `num_returns=2` gives the first two on the sequential, multiprocessing, Dask and MPI backends; on Ray both references raise. A constructor that raises does so in `.remote()` on the sequential backend; on Ray `.remote()` succeeds and every method call gives an exception of Ray (ray/remote_function.py:68-80, ray/actor.py:184-189).
65. **References inside containers mean different things on different backends** (C98_nested_refuted). `f.remote([ref])` gives `f` a list with the value on MPI and Dask and a list with the reference on the sequential, multiprocessing and Ray backends (mpi/remote_function.py:72-73, dask/remote_function.py:79-80; pyseq/core/api.py:103-109, pymp/core/process_manager.py:221-228). Also (C98_raised_refuted) the second `get` of a result that is an exception returns the exception on MPI and raises it elsewhere (finding on C22).
66. **A program with actors does not give the same results on every backend** (C99_dask_refuted, C61_order_refuted). Of two calls of methods of one actor the later one may be run first on Dask (dask/actor.py:54-91) and, while the earlier one waits for its arguments, on MPI (worker/loop.py:185-201); on the sequential, multiprocessing and Ray backends it is not. A program that gets a result of each call before the next call on the same actor gives the same results on all five (C99_five_partial).
67. **The log depends on how the application configures logging** (C100_level_refuted, C100_name_refuted, C100_on_refuted). get_logger sets the level to NOTSET when the log is off (mpi/core/common.py:366-369), so the level of the root logger counts: with basicConfig(level=INFO) after the import, log files are written although UNIDIST_MPI_LOG is off. hasHandlers() (common.py:357) looks at the root logger too: with basicConfig() before the import no file handler is added and with the log on all goes to the application's handlers instead. Names such as "utils", "common" and "api" (controller/garbage_collector.py:16, controller/common.py:20, controller/api.py:57) may be loggers of the application: its level is reset and what it logs is written to utils.log.
68. **The communication log is not aligned for long names** (C101_columns_refuted). Three operations have names longer than logger_op_name_len = 15 (mpi/core/communication.py:51, 67), so their arrows are shifted to the right.
69. **On the sequential backend a program stops at the first call that is given the reference of a failed call** (C98_raising_argument, C98_complete_refuted). `g.remote(f.remote())` with an `f` that raises: on all other backends `g.remote` returns a reference and `get` of it raises; on the sequential backend `g.remote` itself raises (pyseq/core/api.py:103-109 calls get on the arguments outside the try), so code that works elsewhere, such as submitting everything and catching errors at `get`, does not reach its `get`.
70. **Receiving a value overrides the application's garbage collector setting, and a value that fails to load leaves the collector off** (C102_kept_refuted, C102_failure_refuted). `deserialize` (mpi/core/serialization.py:277-282) calls `gc.disable()` before and `gc.enable()` after unpacking: an application that has called `gc.disable()` or works under a `gc.freeze`/disable regime finds it on after the next `get`; and as there is no `try/finally`, an exception in `msgpack.unpackb` or in a hook leaves the collector of the process off until the next value is received, so that references in cycles are not collected and their data not cleaned up.
71. **A value that can be sent alone cannot be sent in a tuple, a set or an array, and a bytearray arrives as bytes** (C103_tuple_refuted, C103_views_refuted, C103_bytearray_refuted). `_encode_custom` (mpi/core/serialization.py:206-211) gives tuples, sets and every other builtin container as a whole to plain pickle, and arrays and data frames to pickle protocol 5, so a lambda, a nested function or an instance of a local class inside them fails, while alone, in a list or in a dictionary it goes to cloudpickle. `submit` turns the outermost arguments into a list for this reason (controller/api.py:556-560), but a tuple among the arguments, or a tuple returned by a function with one output, still fails. `d.keys()` can be sent, `d.values()` and `d.items()` cannot. msgpack packs a bytearray or memoryview as bytes, so a function that receives one cannot modify it.
72. **A shutdown interrupted by Ctrl-C cannot be repeated** (C104_late, C104_completed_refuted, C104_worker_refuted). The handler takes no arguments (finding 30), so a signal leaves `shutdown` by TypeError with `is_mpi_shutdown` still False, and the handler at exit starts it again (mpi/core/controller/api.py:263, 314-340). While the root waits for the monitor in a blocking receive, the handler runs when the receive returns: the only SHUTDOWN message is then lost, the monitor has left its loop, and the next shutdown waits for ever. Interrupted between two CANCEL messages, the next shutdown sends CANCEL to some workers again; these answer twice, the monitor counts answers and not workers (monitor/loop.py:260-266), and sends SHUTDOWN to a worker that has had no CANCEL, which ends with ValueError (worker/loop.py:222-229).

## Testing the theorems against wrong programs

`seeded/LOG.jsonl` records, for edits of model definitions made in a scratch copy, the property the edit breaks and
the theorems whose proofs fail. Edits that left all theorems intact although a claim became false led to stronger theorems, which
the log names.

## Trusted base

* Coq's kernel (8.16.1) and the standard library. No axioms: `Print Assumptions` under each property theorem prints
  "Closed under the global context".
* The standard library files loaded by `Require Import List Arith Lia ...` include `Coq.ssr.ssrunder`, whose module
  `Under_rel` declares seven opaque constants that the checker lists as axioms of the library (`Under_rel`,
  `Under_rel_from_rel`, `Under_relE`, `Over_rel`, `over_rel`, `over_rel_done`, `under_rel_done`); no theorem here
  depends on them.
* `coqchk -o` on all `*Props` modules and what they depend on (run once, on the Coq sources of commit c1d79c8) exits with 0
  and lists no axioms, no type-in-type, no unsafe fixpoints and no assumed positivity.
* The reading of the Python/C++ text recorded in the comments of the `*Model.v` files, and the simplifications stated
  there.
* What the comments say of third parties: MPI's non-overtaking rule, completion of non-blocking sends at any time,
  pickle/cloudpickle/msgpack at tree level, Python's dict and list semantics, `distributed.wait`.

## What is modelled

* `mpi/monitor/shared_memory_manager.py`, `mpi/monitor/loop.py` (all operations)
* `mpi/shared_object_store.py` (allocation sizes, put, get, service cells, deletion)
* `mpi/memory/memory.cpp`
* `mpi/common.py` (MpiDataID, materialisation and unwrapping of arguments), `core/backends/common/data_id.py`
* `mpi/communication.py` (rank tables, block transfer, operation/data sends and receives), `mpi/async_operations.py`
* `mpi/serialization.py`, the serialised cache of `mpi/local_object_store.py`, `mpi/object_store.py`
* `mpi/controller/common.py` (RoundRobin, pull_data, request_worker_data, push_data), `mpi/controller/api.py` (put, get, wait,
  submit, shutdown, cluster_resources, process numbers of init), `mpi/controller/garbage_collector.py`,
  `mpi/controller/actor.py` (scheduling and submission)
* `mpi/worker/loop.py`, `mpi/worker/task_store.py`, `mpi/worker/request_store.py`
* `core/backends/pyseq` and `core/backends/pymp` (core and wrappers), calls, actors, `put`, `get`, `wait` and `cluster_resources` of Dask (over Dask's own contract),
  `cluster_resources`, the start (`ray/utils.py`) and calls, actors, `put` and `get` of Ray (over Ray's own contract)
* `core/base` (unwrapping, decorator, backend proxy, remote function calls), `api.py` (init, remote), `config/parameter.py`

## What is not modelled

* The effects of mpi4py calls beyond message matching; timing, polling intervals, back-off (`MpiBackoff`).
* Process start beyond C40 (numbers), C76 (the program text of spawned processes), C83 (their Python options), C77 (support for shared memory) and C87, C88 (collective operations, `Free`, `Finalize`): conda/ssh handling; signal handlers beyond C95 and C104.
* Weak dictionaries, outside of LocalStoreModel (C96): an entry is removed when the model says that the reference died.
* The byte formats of pickle and msgpack.
* The `logging` module behind the log of C100 and C101, versioneer, documentation, setup.
* Ray and Dask beyond the functions named above: their calls are passed on to the libraries.
* In the models of the whole: ACTOR_CREATE (actors exist from the start; creation is in HandleModel, for one worker and any messages), bodies that call the API other than by put, submit and
  get (those: NestModel), shutdown (modelled on its own); shared memory is in SharedRunModel.
