{"id": "C01", "title": "Shared-memory reservations never overlap", "statement": "At any moment, the regions handed out for two different data IDs that are both still reserved do not overlap, and every handed-out region lies inside the shared segment and has exactly the requested length. The same holds for the service-info slots.", "quantifier": "every segment size, every history of reserve / cleanup operations of any length with any sizes, starting from a fresh manager", "why_tests_cant": "The free list depends on the whole history of reservations and releases; a test only visits a few histories and overlap shows up as silent data corruption.", "anchors": ["unidist/core/backends/mpi/core/monitor/shared_memory_manager.py:FreeMemoryRange.occupy", "unidist/core/backends/mpi/core/monitor/shared_memory_manager.py:FreeMemoryRange.release", "unidist/core/backends/mpi/core/monitor/shared_memory_manager.py:SharedMemoryManager.put"]}
{"id": "C02", "title": "Shared memory is neither lost nor invented", "statement": "A cell is available for reservation exactly when no live reservation covers it, so a reservation of n cells succeeds if and only if the unreserved part of the segment contains n consecutive cells, and after everything is released a request for the whole segment succeeds again.", "quantifier": "every segment size and every history of reservations and releases of live regions", "why_tests_cant": "Coalescing errors appear only for particular release orders; the number of orders is unbounded.", "anchors": ["unidist/core/backends/mpi/core/monitor/shared_memory_manager.py:FreeMemoryRange"]}
{"id": "C03", "title": "A reservation for a data ID is stable and has one first requester", "statement": "Between the first reservation of a data ID and its clearing, every further request for that ID is answered with the same region and service slot, and exactly one requester is told that it is the first one (the one that must write the bytes).", "quantifier": "every history of reserve, query and cleanup requests of any length interleaved for any IDs", "why_tests_cant": "Two writers or two regions for one ID need particular interleavings of requests from different workers.", "anchors": ["unidist/core/backends/mpi/core/monitor/shared_memory_manager.py:SharedMemoryManager.get", "unidist/core/backends/mpi/core/monitor/shared_memory_manager.py:SharedMemoryManager.put", "unidist/core/backends/mpi/core/monitor/loop.py:monitor_loop"]}
{"id": "C04", "title": "Shared data is reclaimed only when no host references it, and is never forgotten", "statement": "A cleanup request frees the region of a data ID only if on every host the reference count of that ID is zero; an ID that is still referenced somewhere stays queued and is reconsidered in every later cleanup, until it is freed on all hosts.", "quantifier": "every number of hosts, every assignment of reference counts changing arbitrarily between cleanups, every sequence of cleanup lists", "why_tests_cant": "Requires reasoning over all evolutions of reference counts on all hosts between cleanup rounds.", "anchors": ["unidist/core/backends/mpi/core/monitor/shared_memory_manager.py:SharedMemoryManager.clear"]}
{"id": "C05", "title": "A reservation that fails with MemoryError leaves the manager as it was", "statement": "If a reservation request is rejected because there is not enough shared memory (data or service part), the amount of memory available to later requests is unchanged.", "quantifier": "every manager state reachable by reservations and cleanups, every requested size", "why_tests_cant": "The leak is only visible for states in which one of the two areas is exhausted and the other is not.", "anchors": ["unidist/core/backends/mpi/core/monitor/shared_memory_manager.py:SharedMemoryManager.put"]}
{"id": "C06", "title": "Reading a shared object returns exactly what was written", "statement": "After an object (main bytes plus any number of out-of-band buffers) is written to its reserved region, reading it with the metadata produced by the write returns the same main bytes and the same buffers, in order.", "quantifier": "every main payload, every list of buffers (including empty ones), every offset and segment content", "why_tests_cant": "Offsets accumulate over an unbounded list of buffers; boundary errors depend on exact lengths.", "anchors": ["unidist/core/backends/mpi/core/shared_object_store.py:SharedObjectStore._write_to_shared_buffer", "unidist/core/backends/mpi/core/shared_object_store.py:SharedObjectStore._read_from_shared_buffer"]}
{"id": "C07", "title": "Writing one shared object never changes another", "statement": "Writing an object into its reserved region leaves every byte outside that region unchanged, so reading any other live object before and after gives the same result; a write that does not fit its reservation is rejected before it touches bytes outside.", "quantifier": "every pair of disjoint reservations, every payload and buffer list, every order of writes", "why_tests_cant": "Corruption of a neighbour depends on sizes and placement of all other objects.", "anchors": ["unidist/core/backends/mpi/core/shared_object_store.py:SharedObjectStore._write_to_shared_buffer"]}
{"id": "C08", "title": "A reader never sees a half-published shared object", "statement": "A process that checks whether a shared object is present concurrently with the process publishing it, and finds it present, reads the right start index and a positive reference count, at whatever point of the publication the check happens.", "quantifier": "every interleaving of the publisher's single-cell writes with the cell reads of the check and of the lookup", "why_tests_cant": "Depends on the order of individual memory writes relative to a concurrent reader; a test cannot enumerate schedules.", "anchors": ["unidist/core/backends/mpi/core/shared_object_store.py:SharedObjectStore._put_service_info", "unidist/core/backends/mpi/core/shared_object_store.py:SharedObjectStore._check_service_info", "unidist/core/backends/mpi/core/shared_object_store.py:SharedObjectStore.delete_service_info"]}
{"id": "C09", "title": "The shared reference count equals the number of live holders", "statement": "For each published shared object the stored reference count equals the number of processes on the host that acquired it and whose local data has not been garbage collected, so the count reaches zero exactly when the last holder goes away.", "quantifier": "every interleaving of acquisitions and finalisations by any number of processes for any number of objects", "why_tests_cant": "Lost updates and double decrements arise only in particular orders.", "anchors": ["unidist/core/backends/mpi/core/shared_object_store.py:SharedObjectStore._increment_ref_number", "unidist/core/backends/mpi/core/shared_object_store.py:SharedObjectStore._decrement_ref_number", "unidist/core/backends/mpi/core/shared_object_store.py:SharedObjectStore.get_ref_number"]}
{"id": "C10", "title": "Shared-memory sizing never exceeds what the host allows", "statement": "When initialisation of the shared store succeeds, object memory plus service memory is at most 95% of the host's shared memory, both parts respect explicitly configured sizes, and the number of service slots fits the service memory and is a multiple of the slot size; otherwise an error is raised.", "quantifier": "every host memory size, every combination of configured / unconfigured object and service memory, every minimum object size", "why_tests_cant": "Integer rounding has to be right for all magnitudes.", "anchors": ["unidist/core/backends/mpi/core/shared_object_store.py:SharedObjectStore._allocate_shared_memory"]}
{"id": "C11", "title": "The multi-threaded copy is an exact copy", "statement": "Copying a buffer into shared memory with the parallel memory copy yields exactly the source bytes in the destination and touches nothing else, whatever the alignment of the source, the length and the number of threads.", "quantifier": "every source address, length, block size and thread count", "why_tests_cant": "The split into prefix, chunks and suffix depends on address residues and lengths; no finite set of sizes covers it, and the address is not under the test's control.", "anchors": ["unidist/core/backends/mpi/core/memory/memory.cpp:parallel_memcopy", "unidist/core/backends/mpi/core/shared_object_store.py:SharedObjectStore._write_to_shared_buffer"]}
{"id": "C12", "title": "Object references are globally unique", "statement": "No two references created by put, task submission or actor calls, in the same process or in different processes, denote the same data, and their textual names are distinct as well; a name can be parsed back into the owner rank and number it was made from.", "quantifier": "every number of processes, every number of references created by each", "why_tests_cant": "Uniqueness is a statement about all pairs in unbounded histories.", "anchors": ["unidist/core/backends/mpi/core/local_object_store.py:LocalObjectStore.generate_data_id", "unidist/core/backends/mpi/core/local_object_store.py:LocalObjectStore.generate_output_data_id", "unidist/core/backends/mpi/core/common.py:MpiDataID", "unidist/core/backends/mpi/core/shared_object_store.py:SharedObjectStore._parse_data_id"]}
{"id": "C13", "title": "A reference keeps its identity across processes and dies once", "statement": "Within one process all live copies of one reference, created locally or received in messages, are the same object, so data attached to it is found through any copy; the owner process records the reference for clean-up only when its last copy is gone, exactly once, and a process that does not own it never records it.", "quantifier": "every sequence of creating, receiving and dropping references", "why_tests_cant": "Garbage-collection order is not controllable in tests and leaks or double frees need specific orders.", "anchors": ["unidist/core/backends/mpi/core/common.py:MpiDataID.__new__", "unidist/core/backends/mpi/core/common.py:MpiDataID.__del__", "unidist/core/backends/mpi/core/local_object_store.py:LocalObjectStore.maybe_update_data_id_map"]}
{"id": "C14", "title": "Large buffers survive block-wise transfer", "statement": "A buffer sent in blocks and received in blocks arrives unchanged: the receiver makes exactly as many receives as the sender makes sends, each block has the size the receiver expects, and the concatenation is the original buffer.", "quantifier": "every buffer length (including zero) and every positive block size, in both modes (size announced or receiver-provided buffer)", "why_tests_cant": "Blocks are near 2 GiB in practice, so tests never produce more than one block.", "anchors": ["unidist/core/backends/mpi/core/communication.py:mpi_send_buffer", "unidist/core/backends/mpi/core/communication.py:mpi_isend_buffer", "unidist/core/backends/mpi/core/communication.py:mpi_recv_buffer"]}
{"id": "C15", "title": "Serialisation round-trips every supported value", "statement": "Deserialising a serialised value gives back an equal value, for arbitrarily nested lists, dictionaries and leaves handled by the three pickling back ends, with each out-of-band buffer going back to the object it came from, whatever the buffer-size threshold.", "quantifier": "every value tree, every threshold, every number of out-of-band buffers per object", "why_tests_cant": "Buffers of all objects share one list, so the association depends on the whole traversal order.", "anchors": ["unidist/core/backends/mpi/core/serialization.py:ComplexDataSerializer", "unidist/core/backends/mpi/core/serialization.py:serialize_complex_data", "unidist/core/backends/mpi/core/serialization.py:deserialize_complex_data"]}
{"id": "C16", "title": "Deserialising does not change the serialised data", "statement": "Data that a process has cached in serialised form can be deserialised and sent again later: the bytes and buffers sent after a local get are the same as before it.", "quantifier": "every value with any number of out-of-band buffers, every sequence of local gets and sends", "why_tests_cant": "Needs the specific sequence send - local get - send to another process with large buffers.", "anchors": ["unidist/core/backends/mpi/core/object_store.py:ObjectStore.get", "unidist/core/backends/mpi/core/serialization.py:ComplexDataSerializer._decode_custom", "unidist/core/backends/mpi/core/controller/common.py:_push_local_data"]}
{"id": "C17", "title": "Messages are never mixed up on the wire", "statement": "The parts of a multi-part message (operation, metadata, main buffer, out-of-band buffers) are reassembled by the receiver into the message that was sent, in sending order per sender, however messages of different senders and tags interleave.", "quantifier": "every number of senders, every sequence of messages per sender, every interleaving of arrivals", "why_tests_cant": "Interleavings of arrivals from many senders cannot be enumerated.", "anchors": ["unidist/core/backends/mpi/core/communication.py:_send_complex_data_impl", "unidist/core/backends/mpi/core/communication.py:_isend_complex_data_impl", "unidist/core/backends/mpi/core/communication.py:recv_complex_data", "unidist/core/backends/mpi/core/communication.py:isend_complex_operation", "unidist/core/backends/mpi/core/controller/common.py:pull_data"]}
{"id": "C18", "title": "Tasks are only scheduled on legal workers", "statement": "Every task or actor is scheduled on a rank that is a worker, is not the submitting process itself and is not reserved by a live actor; scheduling fails only when no such rank exists.", "quantifier": "every set of workers, every history of schedule, reserve and release operations", "why_tests_cant": "The cyclic position depends on the entire history.", "anchors": ["unidist/core/backends/mpi/core/controller/common.py:RoundRobin.schedule_rank", "unidist/core/backends/mpi/core/controller/common.py:RoundRobin.reserve_rank", "unidist/core/backends/mpi/core/controller/common.py:RoundRobin.release_rank"]}
{"id": "C19", "title": "Scheduling is fair", "statement": "With no reservations, any n consecutive schedulings over n eligible workers use every worker exactly once, so the numbers of tasks given to two workers never differ by more than one over any stretch of schedulings.", "quantifier": "every number of workers and every number of schedulings", "why_tests_cant": "A statement about arbitrarily long runs.", "anchors": ["unidist/core/backends/mpi/core/controller/common.py:RoundRobin.schedule_rank"]}
{"id": "C20", "title": "get returns the values in the order of the references", "statement": "get on a list of references returns one value per reference, in the same order, each being the value that was put or computed for it; get on a single reference returns the bare value; the caller's list is not modified.", "quantifier": "every list of references (any length, with or without duplicates) and every mixture of local and remote data, every arrival order of the replies", "why_tests_cant": "Replies arrive in any order; the property ranges over all permutations.", "anchors": ["unidist/core/backends/mpi/core/controller/api.py:get", "unidist/core/backends/mpi/core/controller/common.py:request_worker_data", "unidist/core/base/backend.py:BackendProxy.get"]}
{"id": "C21", "title": "get with a repeated remote reference returns", "statement": "get terminates when the same reference occurs more than once in the list, returning its value at each position.", "quantifier": "every list of references with duplicates, remote data", "why_tests_cant": "The reply de-duplication lives in another process and depends on what was sent before.", "anchors": ["unidist/core/backends/mpi/core/controller/common.py:request_worker_data", "unidist/core/backends/mpi/core/controller/common.py:_push_local_data", "unidist/core/backends/mpi/core/worker/request_store.py:RequestStore.put"]}
{"id": "C22", "title": "A failed task's exception is raised by every get", "statement": "If a task raised, then each get that includes its reference raises that exception and never returns the exception object as if it were a value, no matter how often get is called.", "quantifier": "every history of gets on a failed reference", "why_tests_cant": "The behaviour depends on whether an earlier get cached the reply.", "anchors": ["unidist/core/backends/mpi/core/controller/api.py:get", "unidist/core/backends/mpi/core/controller/common.py:request_worker_data", "unidist/core/backends/mpi/core/object_store.py:ObjectStore.get"]}
{"id": "C23", "title": "wait partitions the references", "statement": "When wait returns (ready, not_ready), the two lists together are a permutation of the input, ready has exactly num_returns elements, and every ready reference's value is available.", "quantifier": "every list of references, every num_returns between 1 and its length, every set of locally available data, every completion order at the monitor", "why_tests_cant": "Depends on completion order across processes.", "anchors": ["unidist/core/backends/mpi/core/controller/api.py:wait", "unidist/core/backends/mpi/core/monitor/loop.py:WaitHandler"]}
{"id": "C24", "title": "Each process receives a given value at most once", "statement": "A process sends the value of a given reference to a given rank at most once over its whole lifetime.", "quantifier": "every history of task submissions, requests and replies", "why_tests_cant": "Repeated sends appear only for particular mixes of explicit pushes and requests.", "anchors": ["unidist/core/backends/mpi/core/controller/common.py:push_data", "unidist/core/backends/mpi/core/controller/common.py:_push_local_data", "unidist/core/backends/mpi/core/controller/common.py:_push_shared_data", "unidist/core/backends/mpi/core/local_object_store.py:LocalObjectStore.cache_send_info"]}
{"id": "C25", "title": "A task submission carries everything the worker needs", "statement": "After submitting a task to a rank, every reference occurring at any nesting depth in the function, args and kwargs is known to that rank before the task is: either its value or its owner's rank was sent earlier on the same channel (in this or an earlier submission); an unknown reference makes the submission fail instead.", "quantifier": "every nesting of lists, tuples and dictionaries of arguments, every state of the submitting process", "why_tests_cant": "Ranges over all argument structures and histories.", "anchors": ["unidist/core/backends/mpi/core/controller/api.py:submit", "unidist/core/backends/mpi/core/controller/common.py:push_data", "unidist/core/backends/mpi/core/controller/actor.py:ActorMethod.__call__"]}
{"id": "C26", "title": "A task runs only with all its arguments materialised", "statement": "Whenever a worker executes a task, every reference in its arguments and keyword arguments, at any depth of lists, tuples and dictionaries, has been replaced by the value stored for it, container shapes are preserved and non-reference arguments are unchanged; otherwise the task is kept pending with no argument lost.", "quantifier": "every argument structure, every subset of references available, every order in which data arrives", "why_tests_cant": "Ranges over all argument trees and arrival orders.", "anchors": ["unidist/core/backends/mpi/core/common.py:materialize_data_ids", "unidist/core/backends/mpi/core/worker/task_store.py:TaskStore.process_task_request", "unidist/core/backends/mpi/core/worker/task_store.py:TaskStore.unwrap_local_data_id"]}
{"id": "C27", "title": "Pending tasks run when their data is there", "statement": "After a worker has processed a message, no pending task remains whose arguments are all available on that worker.", "quantifier": "every set of pending tasks with dependencies among them in any order, every message", "why_tests_cant": "A single pass may miss tasks enabled later in the same pass; depends on the order of the pending list.", "anchors": ["unidist/core/backends/mpi/core/worker/task_store.py:TaskStore.check_pending_tasks", "unidist/core/backends/mpi/core/worker/task_store.py:TaskStore.check_pending_actor_tasks", "unidist/core/backends/mpi/core/worker/loop.py:worker_loop"]}
{"id": "C28", "title": "An exception in an argument or in the body reaches all outputs", "statement": "If an argument of a task is a failed result or the task body raises, the body is not (re-)run with it, and every output reference of the task yields that exception; consumers of these outputs fail the same way.", "quantifier": "every task graph, every number of outputs, every failing task", "why_tests_cant": "Propagation through graphs of arbitrary depth.", "anchors": ["unidist/core/backends/mpi/core/worker/task_store.py:TaskStore.execute_received_task"]}
{"id": "C29", "title": "Multiple returns are delivered to the matching references", "statement": "A task submitted with num_returns = n > 1 that returns a sequence of n values makes the i-th reference yield the i-th value; with n = 1 the whole result is the value; with n = 0 nothing is stored.", "quantifier": "every n and every returned sequence", "why_tests_cant": "Ranges over all n; mismatched lengths are a separate case that tests do not cover.", "anchors": ["unidist/core/backends/mpi/core/worker/task_store.py:TaskStore.execute_received_task", "unidist/core/backends/mpi/core/local_object_store.py:LocalObjectStore.generate_output_data_id"]}
{"id": "C30", "title": "Every data request is answered exactly once", "statement": "A GET request received by a worker is answered exactly once: at once if the data is present, otherwise when the data becomes present; requests are neither lost nor answered twice.", "quantifier": "every interleaving of GET requests from any ranks with task completions and data arrivals", "why_tests_cant": "Depends on the relative order of request and completion, including for coroutine tasks.", "anchors": ["unidist/core/backends/mpi/core/worker/request_store.py:RequestStore.process_get_request", "unidist/core/backends/mpi/core/worker/request_store.py:RequestStore.check_pending_get_requests", "unidist/core/backends/mpi/core/worker/task_store.py:TaskStore.process_task_request"]}
{"id": "C31", "title": "A worker requests missing data at most once at a time", "statement": "For each missing reference a worker has at most one outstanding data request, sent to the rank recorded as its owner, never to itself, no matter how many pending tasks need it and how often they are rechecked.", "quantifier": "every set of pending tasks sharing references, every number of rechecks", "why_tests_cant": "Ranges over histories of rechecks.", "anchors": ["unidist/core/backends/mpi/core/worker/task_store.py:TaskStore.unwrap_local_data_id", "unidist/core/backends/mpi/core/worker/request_store.py:RequestStore.is_data_already_requested"]}
{"id": "C32", "title": "Actor method calls run in submission order", "statement": "Method calls submitted by one process to one actor are executed in the order they were submitted.", "quantifier": "every sequence of calls with any arguments, every arrival order of the arguments' data", "why_tests_cant": "Only reordered when an earlier call's argument is late.", "anchors": ["unidist/core/backends/mpi/core/controller/actor.py:ActorMethod.__call__", "unidist/core/backends/mpi/core/worker/loop.py:worker_loop", "unidist/core/backends/mpi/core/worker/task_store.py:TaskStore.check_pending_actor_tasks"]}
{"id": "C33", "title": "The monitor answers a wait exactly once, with finished tasks", "statement": "For one outstanding wait request the monitor sends exactly one answer, at the first moment at which num_returns of the awaited IDs are complete; the answer's ready IDs are all complete, have exactly num_returns elements, and together with not_ready are a permutation of the awaited IDs.", "quantifier": "every list of awaited IDs, every num_returns >= 1, every sequence of completion reports before and after the request", "why_tests_cant": "All orders of completion reports relative to the request.", "anchors": ["unidist/core/backends/mpi/core/monitor/loop.py:WaitHandler", "unidist/core/backends/mpi/core/monitor/loop.py:DataIDTracker", "unidist/core/backends/mpi/core/monitor/loop.py:monitor_loop"]}
{"id": "C34", "title": "wait returns for failed tasks too", "statement": "wait on references of tasks that have finished by raising an exception returns, counting them as ready.", "quantifier": "every set of references some of which belong to failed tasks", "why_tests_cant": "Needs failing tasks combined with wait, on the asynchronous monitor path.", "anchors": ["unidist/core/backends/mpi/core/worker/task_store.py:TaskStore.execute_received_task", "unidist/core/backends/mpi/core/monitor/loop.py:DataIDTracker", "unidist/core/backends/mpi/core/controller/api.py:wait"]}
{"id": "C35", "title": "Shutdown reaches every process exactly once and never early", "statement": "After shutdown is requested, every worker and every monitor receives the shutdown order exactly once, a worker receives it only after it has acknowledged the cancel, and the root's wait for the shutdown signal ends only after all workers acknowledged.", "quantifier": "every number of hosts, workers and monitors, every delivery order of messages", "why_tests_cant": "All interleavings of acknowledgements.", "anchors": ["unidist/core/backends/mpi/core/monitor/loop.py:monitor_loop", "unidist/core/backends/mpi/core/worker/loop.py:worker_loop", "unidist/core/backends/mpi/core/controller/api.py:shutdown"]}
{"id": "C36", "title": "Cleanup never runs while submitted tasks are unfinished", "statement": "If the program submits only plain remote functions from the root process, then whenever the root sends a cleanup request, every task submitted so far has finished, so no worker still needs the cleaned data for a pending task.", "quantifier": "every history of submissions, completions and cleanup attempts", "why_tests_cant": "Depends on the order of completions relative to the cleanup poll.", "anchors": ["unidist/core/backends/mpi/core/controller/garbage_collector.py:GarbageCollector.regular_cleanup", "unidist/core/backends/mpi/core/monitor/loop.py:TaskCounter", "unidist/core/backends/mpi/core/worker/task_store.py:TaskStore.execute_received_task"]}
{"id": "C37", "title": "Every dead reference is cleaned exactly once", "statement": "Each reference that went out of scope is included in exactly one cleanup request, or is still queued for the next one; each cleanup request goes to every worker and every monitor other than the sender.", "quantifier": "every interleaving of reference deaths and cleanup attempts, any clock readings", "why_tests_cant": "Ranges over histories and clock values.", "anchors": ["unidist/core/backends/mpi/core/controller/garbage_collector.py:GarbageCollector", "unidist/core/backends/mpi/core/common.py:MpiDataID.__del__"]}
{"id": "C38", "title": "Process roles are assigned consistently", "statement": "The root, the monitors and the workers partition the set of ranks, each host has exactly one monitor with the shared store enabled (one in total otherwise), and every rank computes the same roles.", "quantifier": "every assignment of ranks to hosts with at least two processes per host", "why_tests_cant": "All cluster shapes.", "anchors": ["unidist/core/backends/mpi/core/communication.py:MPIState.__init__", "unidist/core/backends/mpi/core/communication.py:MPIState.get_monitor_by_worker_rank"]}
{"id": "C39", "title": "Cluster resources account for every process that can execute", "statement": "cluster_resources reports for each host the number of processes it can run tasks on, and the total equals the number of processes minus the service processes as documented.", "quantifier": "every cluster shape", "why_tests_cant": "All cluster shapes.", "anchors": ["unidist/core/backends/mpi/core/controller/api.py:cluster_resources", "unidist/core/backends/dask/backend.py:DaskBackend.cluster_resources"]}
{"id": "C40", "title": "Process spawning covers the requested hosts and counts", "statement": "The number of spawned processes equals the configured CPU count plus the monitor overhead, and distributing them over hosts gives every host a share that sums exactly to the total.", "quantifier": "every CPU count and number of hosts", "why_tests_cant": "Integer division remainders for all pairs.", "anchors": ["unidist/core/backends/mpi/core/controller/api.py:init"]}
{"id": "C41", "title": "The sequential backend behaves like direct calls", "statement": "On the sequential backend, for any program of puts, task submissions with nested references and gets, each get returns what calling the functions directly on the values would return, exceptions included, and wait always returns a partition with the first num_returns references ready.", "quantifier": "every program (sequence of API calls) of any length", "why_tests_cant": "Ranges over all programs.", "anchors": ["unidist/core/backends/pyseq/core/api.py:submit", "unidist/core/backends/pyseq/core/object_store.py:ObjectStore", "unidist/core/backends/pyseq/backend.py:PySeqBackend.wait"]}
{"id": "C42", "title": "The multiprocessing backend runs every submitted task once, on a legal process", "statement": "On the multiprocessing backend every submitted task is put into exactly one worker queue, plain tasks never go to a process grabbed by an actor, processes are used round-robin, and grabbing or freeing a process keeps the set of grabbed processes equal to the processes of live actors.", "quantifier": "every history of submissions, actor creations and deletions", "why_tests_cant": "Depends on the history of grabs and frees.", "anchors": ["unidist/core/backends/pymp/core/process_manager.py:ProcessManager", "unidist/core/backends/pymp/core/api.py:submit"]}
{"id": "C43", "title": "Tasks on the multiprocessing backend cannot deadlock on their arguments", "statement": "A program whose tasks depend only on references created before them finishes: under every scheduling of the worker processes, as long as some submitted task is unfinished, some worker process can make progress.", "quantifier": "every task graph, every number of processes, every scheduling", "why_tests_cant": "Deadlocks need specific placements and schedules.", "anchors": ["unidist/core/backends/pymp/core/process_manager.py:Worker.run", "unidist/core/backends/pymp/core/process_manager.py:Task.__call__", "unidist/core/backends/pymp/core/object_store.py:ObjectStore.get"]}
{"id": "C44", "title": "wait on the multiprocessing backend partitions the references", "statement": "On the multiprocessing backend, wait returns two lists that together are a permutation of the input, with num_returns ready references that are really ready.", "quantifier": "every list of references, every num_returns, every readiness pattern over time", "why_tests_cant": "Depends on the readiness pattern at each polling round.", "anchors": ["unidist/core/backends/pymp/core/object_store.py:ObjectStore.wait"]}
{"id": "C45", "title": "wait on the Dask backend partitions the references", "statement": "On the Dask backend, wait returns exactly num_returns ready references (when that many are given), all finished, and the remaining ones as not ready, together a permutation of the input.", "quantifier": "every list of distinct references, every num_returns, every completion pattern returned by Dask", "why_tests_cant": "Depends on completion patterns.", "anchors": ["unidist/core/backends/dask/backend.py:DaskBackend.wait"]}
{"id": "C46", "title": "References nested in arguments are unwrapped faithfully", "statement": "Passing arguments through the backend's reference unwrapping replaces every object reference at any depth of lists, tuples and dict values by its internal ID and changes nothing else, neither structure, order nor keys.", "quantifier": "every argument tree", "why_tests_cant": "All nesting structures.", "anchors": ["unidist/core/backends/common/utils.py:unwrap_object_refs", "unidist/core/base/common.py:filter_arguments"]}
{"id": "C47", "title": "Exactly one backend is active per process", "statement": "Once a backend has been initialised every API call goes to that backend for the rest of the process; repeated init does not create a second one.", "quantifier": "every sequence of init calls and API calls with any backend choices", "why_tests_cant": "Histories of calls.", "anchors": ["unidist/core/base/backend.py:BackendProxy.get_instance", "unidist/core/base/utils.py:init_backend", "unidist/core/base/utils.py:get_backend_proxy"]}
{"id": "C48", "title": "The remote decorator accepts exactly the documented options", "statement": "The remote decorator accepts functions with any subset of its options, rejects num_returns for classes, rejects unknown options and non-callables, and passes the options on unchanged.", "quantifier": "every combination of options and decorated object kinds", "why_tests_cant": "All combinations.", "anchors": ["unidist/api.py:make_decorator", "unidist/api.py:remote"]}
{"id": "C49", "title": "Configuration precedence is put over environment over default", "statement": "Reading a parameter returns the last value put programmatically if any, else the decoded environment variable if set and valid, else the default; an invalid value raises and leaves the parameter unchanged; the reported source matches.", "quantifier": "every history of put and get operations and every environment", "why_tests_cant": "Histories and all strings.", "anchors": ["unidist/config/parameter.py:Parameter.get", "unidist/config/parameter.py:Parameter.put", "unidist/config/parameter.py:_TYPE_PARAMS"]}
{"id": "C50", "title": "Distributed execution computes what sequential execution computes", "statement": "On the MPI backend, whatever the schedule, every value the root obtains for a reference of a plain task graph equals the value sequential evaluation of the submitted program gives for it.", "quantifier": "every program of puts and submissions from the root, every number of workers, every interleaving of message deliveries", "why_tests_cant": "Schedules and programs are unbounded; a wrong value may need one rare delivery order.", "anchors": ["unidist/core/backends/mpi/core/controller/api.py:submit", "unidist/core/backends/mpi/core/worker/loop.py:worker_loop", "unidist/core/backends/mpi/core/worker/task_store.py:TaskStore", "unidist/core/backends/mpi/core/worker/request_store.py:RequestStore"]}
{"id": "C51", "title": "Distributed execution does not get stuck", "statement": "On the MPI backend, for a program of puts, gets, plain submissions from the root, deaths of references and cleanups, whose tasks return as many values as they have references (otherwise see C29, C53) and whose gets do not repeat a reference (otherwise see C21), no process fails, every way of delivering the messages comes to an end, and when no message is in flight every submitted task has been executed and every get has returned or raised.", "quantifier": "every program, every number of workers, every interleaving of message deliveries", "why_tests_cant": "A lost wake-up appears only in some schedules.", "anchors": ["unidist/core/backends/mpi/core/worker/loop.py:worker_loop", "unidist/core/backends/mpi/core/worker/task_store.py:TaskStore", "unidist/core/backends/mpi/core/worker/request_store.py:RequestStore", "unidist/core/backends/mpi/core/controller/common.py:push_data"]}
{"id": "C52", "title": "Buffers stay alive until they are sent", "statement": "The memory of every message passed to a non-blocking send is kept referenced until that send has completed, and released afterwards at the next completion check or at shutdown.", "quantifier": "every sequence of sends, completion checks and completions", "why_tests_cant": "Completion timing is up to the MPI library.", "anchors": ["unidist/core/backends/mpi/core/async_operations.py:AsyncOperations"]}
{"id": "C53", "title": "A task cannot take its worker down", "statement": "Whatever a task or actor method returns or raises, the worker that runs it goes on taking messages.", "quantifier": "every task body, every number of outputs, every history of messages", "why_tests_cant": "Ranges over all results of user code; the tests only use results that match num_returns.", "anchors": ["unidist/core/backends/mpi/core/worker/task_store.py:TaskStore.execute_received_task", "unidist/core/backends/mpi/core/worker/task_store.py:TaskStore.process_task_request", "unidist/core/backends/mpi/core/worker/loop.py:worker_loop"]}
{"id": "C54", "title": "Actors on the sequential backend keep their own state in order", "statement": "On the sequential backend every actor starts from what its constructor returned, every method call sees the state the previous calls on the same actor left behind, and calls on one actor do not affect another.", "quantifier": "every program of puts, submissions, actor creations, method calls, gets and waits", "why_tests_cant": "Histories of calls are unbounded.", "anchors": ["unidist/core/backends/pyseq/actor.py:PySeqActor", "unidist/core/backends/pyseq/backend.py:PySeqBackend", "unidist/core/base/actor.py:ActorClass"]}
{"id": "C55", "title": "The multiprocessing backend computes what direct execution computes", "statement": "On the multiprocessing backend, every value that can be read for a reference is the value that calling the functions and methods directly, in program order, gives for it.", "quantifier": "every program of puts, submissions, actor creations and method calls, every number of workers, every interleaving of the workers", "why_tests_cant": "Schedules and programs are unbounded.", "anchors": ["unidist/core/backends/pymp/core/object_store.py:ObjectStore", "unidist/core/backends/pymp/core/process_manager.py:ProcessManager", "unidist/core/backends/pymp/core/process_manager.py:Task", "unidist/core/backends/pymp/core/actor.py:Actor"]}
{"id": "C56", "title": "A remote call hands its arguments and its number of outputs on", "statement": "f.remote(*args, **kwargs) submits exactly these positional and keyword arguments, references unwrapped, to the function; the number of outputs is the one of options() if given, else the decorator's, else 1, and the call returns one reference, a list of that many references, or None accordingly; reservations the backend does not support raise.", "quantifier": "every function, every argument list, every keyword arguments and every combination of options", "why_tests_cant": "All names and combinations of arguments.", "anchors": ["unidist/core/base/remote_function.py:RemoteFunction", "unidist/core/backends/mpi/remote_function.py:MPIRemoteFunction._remote", "unidist/core/base/common.py:filter_arguments"]}
{"id": "C57", "title": "Results on the Dask backend are those of direct execution", "statement": "On the Dask backend every call returns as many references as it asked for, no reference twice, and a reference that can be read holds what direct execution gives: the put value, the result of the function or method on the values of its arguments, the matching element of it when several references were asked for, or the exception of the call or of a failed argument; an actor's object is in the state left by the method calls run on it.", "quantifier": "every program of puts, submissions, actor creations, method calls and dropped references, every order in which the scheduler runs, fails or forgets tasks", "why_tests_cant": "Programs and schedules are unbounded.", "anchors": ["unidist/core/backends/dask/remote_function.py:DaskRemoteFunction._remote", "unidist/core/backends/dask/actor.py:DaskActorMethod._remote", "unidist/core/backends/dask/actor.py:DaskActor._remote", "unidist/core/backends/dask/backend.py:DaskBackend"]}
{"id": "C58", "title": "Every call submitted on the Dask backend is run exactly once", "statement": "On the Dask backend a function or method call whose arguments do not fail is run exactly once, whether or not references of its results are asked for and kept.", "quantifier": "every program of calls and dropped references, every order in which the scheduler runs, fails or forgets tasks", "why_tests_cant": "Whether a task is forgotten before it runs is a matter of timing.", "anchors": ["unidist/core/backends/dask/remote_function.py:DaskRemoteFunction._remote", "unidist/core/backends/dask/actor.py:DaskActorMethod._remote"]}
{"id": "C59", "title": "Actor calls on the Dask backend run in submission order", "statement": "On the Dask backend the method calls made on one actor are run in the order in which they were made.", "quantifier": "every program of calls, every order in which the scheduler runs tasks", "why_tests_cant": "Reordering depends on the schedule and on the number of workers.", "anchors": ["unidist/core/backends/dask/actor.py:DaskActorMethod._remote"]}
{"id": "C60", "title": "Cleaned-up data is gone", "statement": "On the MPI backend, once a cleanup of data whose references have died has been carried out by all workers and no message is in flight, no worker keeps a copy of that data.", "quantifier": "every program of puts, submissions, gets, deaths of references and cleanups, every number of workers, every interleaving of message deliveries", "why_tests_cant": "Depends on which messages are overtaken by the cleanup request.", "anchors": ["unidist/core/backends/mpi/core/controller/garbage_collector.py:GarbageCollector._send_cleanup_request", "unidist/core/backends/mpi/core/worker/loop.py:worker_loop", "unidist/core/backends/mpi/core/local_object_store.py:LocalObjectStore.clear"]}
{"id": "C61", "title": "Values with actors and coroutines", "statement": "On the MPI backend, in a program that also calls methods of actors and uses coroutine functions, get returns for every reference the value the program gives it: a task's value is its function applied to the values of its arguments, a method's value is what the method returns after the calls carried out on that worker before it; those are calls of the program, each carried out once, in the order in which they were made.", "quantifier": "every program of puts, submissions, method calls, gets, deaths of references and cleanups, every number of workers, every interleaving of message deliveries and coroutine completions", "why_tests_cant": "Which call is carried out first depends on the interleaving of messages.", "anchors": ["unidist/core/backends/mpi/core/controller/actor.py:ActorMethod.__call__", "unidist/core/backends/mpi/core/worker/loop.py:worker_loop", "unidist/core/backends/mpi/core/worker/task_store.py:TaskStore.execute_received_task"]}
{"id": "C62", "title": "A cleanup never removes data that is still needed, also with actors and coroutines", "statement": "On the MPI backend, when the root sends a cleanup request, every task and method call submitted so far has ended, also if some are calls of actors or coroutines.", "quantifier": "every program of puts, submissions, method calls, gets, deaths of references and cleanups, every number of workers, every interleaving", "why_tests_cant": "Whether a cleanup is early depends on the order in which completion messages arrive.", "anchors": ["unidist/core/backends/mpi/core/controller/garbage_collector.py:GarbageCollector.regular_cleanup", "unidist/core/backends/mpi/core/controller/actor.py:ActorMethod.__call__", "unidist/core/backends/mpi/core/monitor/loop.py:monitor_loop"]}
{"id": "C63", "title": "Programs with actors and coroutines do not get stuck", "statement": "On the MPI backend, when no message is under way and no coroutine is running, every task and call of a program has ended and every get has returned.", "quantifier": "every program of puts, submissions, method calls and gets, every number of workers, every interleaving of message deliveries and coroutine completions", "why_tests_cant": "A lost wake-up shows only in some interleavings.", "anchors": ["unidist/core/backends/mpi/core/worker/task_store.py:TaskStore.check_pending_tasks", "unidist/core/backends/mpi/core/worker/request_store.py:RequestStore.check_pending_get_requests", "unidist/core/backends/mpi/core/worker/loop.py:worker_loop"]}
{"id": "C64", "title": "wait in a running program", "statement": "On the MPI backend, wait(refs, num_returns) splits the references into num_returns that are finished and the rest, calls return in program order, other results are the same as without wait, and the call returns once enough of the tasks and calls behind the references have ended.", "quantifier": "every program of puts, submissions, method calls, gets and waits, every number of workers, every interleaving of deliveries, of completion reports and of the monitor's answers", "why_tests_cant": "Which references are ready, and whether the answer arrives at all, depends on the order of completion reports and wait requests at the monitor.", "anchors": ["unidist/core/backends/mpi/core/controller/api.py:wait", "unidist/core/backends/mpi/core/monitor/loop.py:DataIDTracker", "unidist/core/backends/mpi/core/monitor/loop.py:monitor_loop"]}
{"id": "C65", "title": "Values with nested calls", "statement": "On the MPI backend, tasks may themselves call put, remote functions and get, to any depth. Every get, in the main program or in a task, gives the values its references stand for: what was put, or what the task's function returns for the values of its arguments, its own calls included, or an exception that one of them raised. A reference stands for one value, and a task is executed at most once and as its text says.", "quantifier": "every main program and all function bodies made of put, calls, get and return (that put and return no references), every choice of workers, every interleaving of messages and executions", "why_tests_cant": "Nested calls interleave with other tasks and with requests for data in unboundedly many ways.", "anchors": ["unidist/core/backends/mpi/core/controller/api.py:get", "unidist/core/backends/mpi/core/controller/api.py:submit", "unidist/core/backends/mpi/core/controller/common.py:request_worker_data", "unidist/core/backends/mpi/core/worker/loop.py:worker_loop"]}
{"id": "C66", "title": "Nested calls: errors, and when a program ends", "statement": "On the MPI backend, tasks may themselves call put, remote functions and get. If every program, the main one and the tasks, uses only references and remote functions it has made itself, and every result has a value for each of its references, then no call is refused, no get fails for want of the data, and no worker process dies; and when nobody can go on, the main program has returned and every task, whoever submitted it, has been executed to its end, provided at most one worker is in the middle of get, as when only the main program calls get. (In general two tasks can wait for each other's workers for ever.)", "quantifier": "every main program and all function bodies made of put, calls, get and return, every number and choice of workers, every interleaving of messages and executions", "why_tests_cant": "A worker that waits in get serves nobody, so whether a program ends depends on where each call went and what arrived before the wait.", "anchors": ["unidist/core/backends/mpi/core/controller/api.py:get", "unidist/core/backends/mpi/core/controller/api.py:submit", "unidist/core/backends/mpi/core/controller/common.py:push_data", "unidist/core/backends/mpi/core/controller/common.py:request_worker_data", "unidist/core/backends/mpi/core/worker/loop.py:worker_loop"]}
{"id": "C67", "title": "Garbage is reclaimed once everything has finished", "statement": "On the MPI backend, when every task and method call has ended and their reports have been taken, an attempt to clean up the data of references that are no longer used goes ahead.", "quantifier": "every program of puts, submissions, method calls, gets, deaths of references and cleanups, every number of workers, every interleaving", "why_tests_cant": "The attempt compares two counts kept in different processes; whether they agree depends on the whole history.", "anchors": ["unidist/core/backends/mpi/core/controller/garbage_collector.py:GarbageCollector.regular_cleanup", "unidist/core/backends/mpi/core/controller/garbage_collector.py:GarbageCollector.increment_task_counter", "unidist/core/backends/mpi/core/controller/actor.py:ActorMethod.__call__", "unidist/core/backends/mpi/core/worker/task_store.py:TaskStore.execute_received_task"]}
{"id": "C68", "title": "Actors are built once, and methods act on their own object", "statement": "On the MPI backend, creating an actor runs its constructor once, with the given arguments, references standing for their values, before any of its methods. Each method call acts on the object as left by the calls on the same actor carried out before, and on no other object, with the values of its arguments; no call is lost or carried out twice. An exception in a constructor, or a call of a method that does not exist, is an exception of the caller and not the end of a process.", "quantifier": "every class with any constructor, methods and attributes, every sequence of messages a worker can receive", "why_tests_cant": "Several actors share a process, and their calls, ready or pending, interleave with each other and with tasks in unboundedly many ways.", "anchors": ["unidist/core/backends/mpi/core/controller/actor.py:Actor.__init__", "unidist/core/backends/mpi/core/controller/actor.py:ActorMethod.__call__", "unidist/core/backends/mpi/core/worker/loop.py:worker_loop", "unidist/core/backends/mpi/core/worker/task_store.py:TaskStore.execute_received_task"]}
{"id": "C69", "title": "Handles can be passed on", "statement": "On the MPI backend, a process that has been given an actor's handle can call the actor's methods: the call finds the actor.", "quantifier": "every number of processes, every sequence of creations, calls and messages that pass handles on, every interleaving of deliveries that keeps the order between two processes", "why_tests_cant": "The call and the creation travel from different processes, and which comes first is a matter of timing.", "anchors": ["unidist/core/backends/mpi/core/controller/actor.py:Actor.__init__", "unidist/core/backends/mpi/core/controller/actor.py:Actor._serialization_helper", "unidist/core/backends/mpi/core/controller/actor.py:Actor._deserialization_helper", "unidist/core/backends/mpi/core/worker/loop.py:worker_loop"]}
{"id": "C70", "title": "Values and arguments are those of the moment of the call", "statement": "On the MPI backend, what get returns for a reference, or a task is given for it, has the content that the object had when it was put or returned; a task is given an argument as it was when the task was submitted. What a program does to its objects afterwards makes no difference.", "quantifier": "every sequence of object creations, changes in place, puts, submissions, results, gets and transfers in any number of processes, with and without shared memory, in every interleaving", "why_tests_cant": "Whether a change in place is seen depends on whether a message has left, which process asks, and what it did before.", "anchors": ["unidist/core/backends/mpi/core/controller/api.py:put", "unidist/core/backends/mpi/core/controller/api.py:submit", "unidist/core/backends/mpi/core/object_store.py:ObjectStore.get", "unidist/core/backends/mpi/core/local_object_store.py:LocalObjectStore.cache_serialized_data", "unidist/core/backends/mpi/core/controller/common.py:push_data", "unidist/core/backends/mpi/core/communication.py:isend_complex_operation", "unidist/core/backends/mpi/core/worker/task_store.py:TaskStore.execute_received_task"]}
{"id": "C71", "title": "A monitor answers every request", "statement": "On the MPI backend, the process that manages shared memory, task counts and waits keeps answering requests as long as the program runs, whatever data is shared, asked for and cleaned up.", "quantifier": "every sequence of requests to a monitor, every size of the shared memory", "why_tests_cant": "Whether a request finds a gap depends on the whole history of reservations and cleanups before it.", "anchors": ["unidist/core/backends/mpi/core/monitor/loop.py:monitor_loop", "unidist/core/backends/mpi/core/monitor/shared_memory_manager.py:SharedMemoryManager.put", "unidist/core/backends/mpi/core/monitor/shared_memory_manager.py:FreeMemoryRange"]}
{"id": "C72", "title": "Every process gets the answers to its own requests", "statement": "On the MPI backend, when a process asks a monitor for something (the tasks behind references to be finished, the number of finished tasks, shared memory, the end of the session), what it takes for the answer is the answer to that request, and no request is left without one.", "quantifier": "every number of processes, every sequence of requests and reports, every interleaving of deliveries that keeps the order between two processes", "why_tests_cant": "All answers travel on one channel and carry nothing that says what they answer; which one comes first is a matter of timing.", "anchors": ["unidist/core/backends/mpi/core/monitor/loop.py:WaitHandler.process_wait_requests", "unidist/core/backends/mpi/core/monitor/loop.py:monitor_loop", "unidist/core/backends/mpi/core/controller/api.py:wait", "unidist/core/backends/mpi/core/controller/api.py:shutdown", "unidist/core/backends/mpi/core/controller/garbage_collector.py:GarbageCollector.regular_cleanup", "unidist/core/backends/mpi/core/communication.py:send_reserve_operation"]}
{"id": "C73", "title": "Hosts agree on what is cleaned up", "statement": "On the MPI backend with several hosts, memory shared by the processes of a host is freed only for data that was given up and that no host still counts references to; every request to clean up is carried out on all hosts, and handling one never stops a host from answering.", "quantifier": "every number of hosts, every sequence of reservations and cleanup requests from any processes, every order in which the hosts take them and every pace, every reference counts the hosts see", "why_tests_cant": "The hosts meet in a collective call; which requests meet depends on the order in which messages from different processes arrive at each of them.", "anchors": ["unidist/core/backends/mpi/core/monitor/shared_memory_manager.py:SharedMemoryManager.clear", "unidist/core/backends/mpi/core/monitor/loop.py:monitor_loop", "unidist/core/backends/mpi/core/controller/garbage_collector.py:GarbageCollector._send_cleanup_request"]}
{"id": "C74", "title": "The arguments of a call reach the user's code", "statement": "On every backend, for remote functions, methods of actors and constructors of actors, with and without options: the user's code is called with the positional arguments of the call in their order and with all its keyword arguments under their names, references being replaced by the objects they stand for.", "quantifier": "every backend, every number and kind of arguments, every set of keyword names", "why_tests_cant": "Keyword names are arbitrary strings, and each passes through several functions that have parameters of their own.", "anchors": ["core/base/remote_function.py:RemoteFunction", "core/base/actor.py:ActorMethod.remote", "core/base/actor.py:ActorClass.remote", "core/backends/mpi/core/controller/api.py:submit", "core/backends/pymp/core/process_manager.py:Task", "core/backends/dask/actor.py:DaskActorMethod._remote"]}
{"id": "C75", "title": "Every public method can be called through the handle", "statement": "On the MPI, PyMp and PySeq backends, h.name.remote() calls the method name of the user's object, for every method whose name does not start with an underscore.", "quantifier": "every method name", "why_tests_cant": "Method names are arbitrary strings, and attributes of three layers of handles can hide them.", "anchors": ["core/base/actor.py:Actor.__getattr__", "core/backends/mpi/core/controller/actor.py:Actor.__getattr__", "core/backends/pymp/core/actor.py:Actor"]}
{"id": "C76", "title": "Spawned processes run with the configuration of the program that spawned them", "statement": "When init of the MPI backend spawns the other processes, each of them reaches init with the values of all configuration parameters that the program would get, whether it set them by put or by environment variables, and with the environment variables of MpiRuntimeEnv.", "quantifier": "every history of get, put and get_value_source before init, every value, every environment of the program and of the spawned processes, every MpiRuntimeEnv", "why_tests_cant": "The values travel as the text of a Python program, and every text can be a value; sources of values depend on the history.", "anchors": ["unidist/core/backends/mpi/core/controller/api.py:init", "config/parameter.py:Parameter.get_value_source", "config/backends/mpi/envvars.py:MpiPickleThreshold.get", "config/backends/mpi/envvars.py:MpiRuntimeEnv"]}
{"id": "C77", "title": "The shared object store is used exactly when asked for and supported, and all processes decide alike", "statement": "With MpiSharedObjectStore on, objects go through shared memory if and only if the MPI standard is at least 3 and, when unidist spawns the processes with MPICH, MPICH is at least 4.2.0. The question never raises, and the spawned processes answer it as the program does.", "quantifier": "every text the MPI library says about itself, every version, every history of the configuration, every environment of the program and of the spawned processes", "why_tests_cant": "The answer depends on free text of third-party libraries and on the configuration of two processes.", "anchors": ["unidist/core/backends/mpi/core/common.py:check_mpich_version", "unidist/core/backends/mpi/core/common.py:is_shared_memory_supported"]}
{"id": "C78", "title": "init, is_initialized, shutdown and put agree on whether there is a session", "statement": "On every backend: init and put switch the session on, shutdown switches it off, is_initialized says which it is, every one of these calls returns, and processes are started exactly when the session is switched on.", "quantifier": "every sequence of the four calls, of any length, on every backend", "why_tests_cant": "Tests start one session per process; the state is spread over flags, singletons and third-party runtimes that must agree after every sequence.", "anchors": ["unidist/api.py:init", "unidist/api.py:is_initialized", "unidist/api.py:shutdown", "unidist/api.py:put", "unidist/core/backends/mpi/core/controller/api.py:init", "unidist/core/backends/mpi/core/controller/api.py:shutdown", "unidist/core/backends/mpi/core/communication.py:MPIState.get_instance", "unidist/core/backends/pymp/backend.py:PyMpBackend.shutdown", "unidist/core/backends/dask/backend.py:DaskBackend.is_initialized"]}
{"id": "C79", "title": "num_cpus is the total of the CPUs that cluster_resources reports", "statement": "On every backend num_cpus() equals the sum of the CPU entries of cluster_resources().", "quantifier": "every cluster: any number of machines, of processes on them, of workers and their threads, of nodes with and without CPUs", "why_tests_cant": "Tests run on one machine, with one thread per worker.", "anchors": ["unidist/api.py:num_cpus", "unidist/api.py:cluster_resources", "unidist/core/backends/mpi/backend.py:MPIBackend.num_cpus", "unidist/core/backends/dask/backend.py:DaskBackend.num_cpus", "unidist/core/backends/ray/backend.py:RayBackend.num_cpus"]}
{"id": "C80", "title": "A program behaves through shared memory as it does when values travel in the messages", "statement": "With the shared object store on, every get returns or raises what sequential evaluation of the program gives, whatever is stored in shared memory, cleaned up and overwritten meanwhile; a process fails over shared memory only when a host has no room for an object that is put or received there.", "quantifier": "every program of puts, submissions, gets, dying references and cleanups, every number of workers and hosts, every size of the segments and threshold, every interleaving of the processes, messages and the monitors' cleanups", "why_tests_cant": "Whether memory is freed too early depends on how messages of several processes overtake each other.", "anchors": ["unidist/core/backends/mpi/core/controller/common.py:push_data", "unidist/core/backends/mpi/core/controller/common.py:pull_data", "unidist/core/backends/mpi/core/shared_object_store.py:SharedObjectStore", "unidist/core/backends/mpi/core/controller/garbage_collector.py:GarbageCollector.regular_cleanup", "unidist/core/backends/mpi/core/monitor/loop.py:monitor_loop", "unidist/core/backends/mpi/core/worker/loop.py:worker_loop"]}
{"id": "C81", "title": "The shared memory of objects whose references have died is freed", "statement": "Once the references of an object have died, its cleanup was requested and the messages of that cleanup were taken, no process holds the object in shared memory any more, and the next cleanup, whatever it names, frees its memory on every host.", "quantifier": "every program of puts, submissions, gets, dying references and cleanups, every number of workers and hosts, every interleaving of the processes, messages and the monitors' cleanups", "why_tests_cant": "A leak shows only when a message overtakes a cleanup in an unusual order, or after a long run when memory has run out.", "anchors": ["unidist/core/backends/mpi/core/shared_object_store.py:SharedObjectStore", "unidist/core/backends/mpi/core/monitor/shared_memory_manager.py:SharedMemoryManager.clear", "unidist/core/backends/mpi/core/controller/garbage_collector.py:GarbageCollector.regular_cleanup", "unidist/core/backends/mpi/core/worker/loop.py:worker_loop"]}
{"id": "C82", "title": "Ray is started with what was configured, and otherwise with memory that is there", "statement": "If no size is configured, the object store Ray is started with takes at most 60 percent of the memory there is (free /dev/shm on Linux, RAM elsewhere), never a whole gigabyte less than that, and at most 2 GiB on a Mac; a running Ray is left alone, in a cluster Ray is only connected to, and configured CPUs, GPUs and passwords are used.", "quantifier": "every amount of memory below 2^48 bytes, every platform, Ray release and configuration", "why_tests_cant": "The size is computed in floating point and differs from machine to machine; a test sees the machine it runs on.", "anchors": ["unidist/core/backends/ray/utils.py:_get_object_store_memory", "unidist/core/backends/ray/utils.py:initialize_ray"]}
{"id": "C83", "title": "Spawned processes run under the Python options of the program that spawned them", "statement": "The processes spawned by unidist.init on the MPI backend run with the same sys.flags (except interactive mode, which is off), sys.warnoptions and sys._xoptions as the program that called init, and with the same hash seed if one was fixed.", "quantifier": "every command line and environment the program was started with", "why_tests_cant": "The options are rebuilt from sys.flags and read again by Python; a test runs under one command line.", "anchors": ["unidist/core/backends/mpi/core/controller/api.py:_get_py_flags", "unidist/core/backends/mpi/core/controller/api.py:init"]}
{"id": "C84", "title": "A value that was got does not change afterwards", "statement": "A value returned by get, or given to a task or actor as an argument, keeps showing the bytes that were put, whatever references are deleted and whatever else is put, got and cleaned up, as long as the value itself is alive.", "quantifier": "every history of puts, messages, gets, deletions and cleanups of any number of processes on any number of hosts", "why_tests_cant": "Large values are views of shared memory that is reused; whether the memory of a live value is overwritten depends on deletions and cleanups elsewhere.", "anchors": ["unidist/core/backends/mpi/core/shared_object_store.py:_read_from_shared_buffer", "unidist/core/backends/mpi/core/serialization.py:_decode_custom", "unidist/core/backends/mpi/core/monitor/shared_memory_manager.py:clear"]}
{"id": "C85", "title": "Shutdown ends, whatever tasks are there", "statement": "When the main program calls shutdown, whatever tasks are pending or running (tasks may call the API themselves), shutdown returns, every worker and monitor leaves, no task is executed afterwards, and no get gives a wrong value because of it.", "quantifier": "every program and task bodies over put, remote calls and get, every placement of processes, every interleaving, every choice of messages that MPI does not buffer", "why_tests_cant": "Whether shutdown hangs depends on which worker takes the order to stop first while tasks and values are under way.", "anchors": ["unidist/core/backends/mpi/core/controller/api.py:shutdown", "unidist/core/backends/mpi/core/worker/loop.py:worker_loop", "unidist/core/backends/mpi/core/async_operations.py:finish"]}
{"id": "C86", "title": "Calls made before shutdown are executed", "statement": "Every remote call the main program made before shutdown has been executed when shutdown returns.", "quantifier": "every program and task bodies over put, remote calls and get, every placement of processes, every interleaving", "why_tests_cant": "Calls are dropped only if the order to stop overtakes the results they wait for.", "anchors": ["unidist/core/backends/mpi/core/controller/api.py:shutdown", "unidist/core/backends/mpi/core/worker/loop.py:worker_loop", "unidist/core/backends/mpi/core/worker/task_store.py:clear_pending_tasks"]}
{"id": "C87", "title": "init returns when the cluster is up, or raises", "statement": "init returns in the driver only when every process has got to its loop, and it always comes to an end: it returns when the configuration can be met on every machine and raises when it cannot.", "quantifier": "every placement of processes on machines, every memory and configuration each process finds, every interleaving of the processes", "why_tests_cant": "Whether init hangs depends on what each process on each machine finds, and on which of them reach the collective operations; tests run on one machine.", "anchors": ["unidist/core/backends/mpi/core/controller/api.py:init", "unidist/core/backends/mpi/core/communication.py:MPIState", "unidist/core/backends/mpi/core/shared_object_store.py:_allocate_shared_memory", "unidist/core/backends/mpi/core/worker/loop.py:worker_loop", "unidist/core/backends/mpi/core/monitor/loop.py:monitor_loop"]}
{"id": "C88", "title": "Everybody leaves together", "statement": "Shared memory of a machine is not released while some process of the machine is still in its loop (or the driver in the program); no process leaves before all have ended their loops; once they have, all leave.", "quantifier": "every placement of processes on machines, every memory and configuration each process finds, every interleaving of the processes", "why_tests_cant": "A process that frees a window too early, or in another order than the others, shows as a crash or a hang for some timings only.", "anchors": ["unidist/core/backends/mpi/core/shared_object_store.py:finalize", "unidist/core/backends/mpi/core/controller/api.py:shutdown", "unidist/core/backends/mpi/core/worker/loop.py:worker_loop", "unidist/core/backends/mpi/core/monitor/loop.py:monitor_loop"]}
{"id": "C89", "title": "Tasks and methods of actors can use the API (PyMp)", "statement": "On the multiprocessing backend the API does in a task or in a method of an actor what it does in the main program: put, get, remote functions and actors work there, references mean the same objects everywhere, and a method that gets the result of a remote function it has called is not kept waiting by itself.", "quantifier": "every number of workers, every history of calls in any of the processes and of ends of tasks, both ways of starting processes", "why_tests_cant": "What a worker process knows is a copy of the memory of the process that started it, at that moment; whether a nested call works depends on the order of all calls before.", "anchors": ["unidist/core/backends/pymp/core/api.py:init", "unidist/core/backends/pymp/core/api.py:submit", "unidist/core/backends/pymp/core/object_store.py:ObjectStore.get_instance", "unidist/core/backends/pymp/core/process_manager.py:ProcessManager.get_instance", "unidist/core/backends/pymp/core/actor.py:Actor.__init__"]}
{"id": "C90", "title": "Large objects under way do not keep the program from ending (MPI)", "statement": "When unidist.shutdown is called while large objects are on their way from worker to worker, every worker and every monitor process leaves its loop and shutdown returns, wherever the objects are.", "quantifier": "every placement of the processes on machines, every set of objects under way, every interleaving of packages, requests to monitors and the messages of shutdown", "why_tests_cant": "The package of a large object starts a conversation with two monitors; whether these are still there depends on the order in which several processes see messages of several others.", "anchors": ["unidist/core/backends/mpi/core/worker/loop.py:worker_loop", "unidist/core/backends/mpi/core/controller/common.py:pull_data", "unidist/core/backends/mpi/core/shared_object_store.py:SharedObjectStore.get", "unidist/core/backends/mpi/core/monitor/loop.py:monitor_loop", "unidist/core/backends/mpi/core/communication.py:send_reserve_operation"]}
{"id": "C91", "title": "Nothing about an object is remembered after its cleanup (MPI)", "statement": "Once the references to an object have died and its cleanup has been carried out, no process keeps any record of it: not its value, nor where it is, nor to whom it was sent, nor who has asked for it; a program that runs for ever in bounded memory stays in bounded memory.", "quantifier": "every program of puts, submissions, gets, deaths of references and cleanups, every number of workers and every interleaving of messages", "why_tests_cant": "Records that are left behind do not change any result; they show only as memory that grows over days, and whether one is left depends on which of several messages about the object comes last.", "anchors": ["unidist/core/backends/mpi/core/local_object_store.py:LocalObjectStore.clear", "unidist/core/backends/mpi/core/worker/loop.py:worker_loop", "unidist/core/backends/mpi/core/worker/request_store.py:RequestStore", "unidist/core/backends/mpi/core/monitor/loop.py:monitor_loop", "unidist/core/backends/mpi/core/monitor/loop.py:DataIDTracker"]}
{"id": "C92", "title": "Cleanups in programs whose tasks make remote calls (MPI)", "statement": "Also when tasks call remote functions themselves: an object whose references have died is removed from the workers only when no unfinished call needs it, so that no get hangs because of a cleanup; no cleanup changes the value of a get; and once all calls have ended, what has died is removed.", "quantifier": "every main program and every task body (put, remote calls, get, nested to any depth), every number of workers, every moment at which references die and cleanups are tried, in any process, and every interleaving of messages", "why_tests_cant": "A cleanup that comes too early matters only if a worker takes it before another worker's request for the object; that takes a particular order of ends of nested and other tasks and of two messages. That nothing is ever removed shows only as memory that grows.", "anchors": ["unidist/core/backends/mpi/core/controller/garbage_collector.py:GarbageCollector", "unidist/core/backends/mpi/core/controller/api.py:submit", "unidist/core/backends/mpi/core/worker/task_store.py:TaskStore.execute_received_task", "unidist/core/backends/mpi/core/monitor/loop.py:monitor_loop", "unidist/core/backends/mpi/core/worker/loop.py:worker_loop"]}
{"id": "C93", "title": "A task that exits ends only itself (MPI, PyMp)", "statement": "A remote function that ends with an exception that is not an Exception (sys.exit, KeyboardInterrupt) fails like any other: get of its result raises, and all other calls are run and can be got.", "quantifier": "every main program, task body and set of exits, every number of workers and actors, every interleaving of the processes and messages, and everything that may happen afterwards", "why_tests_cant": "Which other calls are lost depends on where they were sent and on which task each worker was waiting in at the time of the exit; a test sees one placement, and what never happens cannot be observed in finite time.", "anchors": ["unidist/core/backends/mpi/core/worker/task_store.py:TaskStore.execute_received_task", "unidist/core/backends/mpi/core/worker/loop.py:worker_loop", "unidist/core/backends/pymp/core/process_manager.py:Worker.run", "unidist/core/backends/pymp/core/process_manager.py:Task.__call__"]}
{"id": "C94", "title": "A value that cannot be pickled or unpickled fails only the calls that use it (MPI)", "statement": "A remote function that returns or raises something that cannot be pickled (a generator, a lock, an exception holding one) or cannot be unpickled where it arrives (an exception whose constructor takes other arguments) fails like any other: get of its result raises, and all other calls are run and can be got. If all values can be pickled and unpickled, nothing is lost.", "quantifier": "every main program, every task body, every set of values that can be pickled and unpickled, every number of workers, every interleaving of the processes and messages, and everything that may happen afterwards", "why_tests_cant": "Where a value is pickled and unpickled depends on which worker a consumer is sent to and on whether somebody asks before or after the task ends; a test sees one placement, and that get never returns cannot be observed in finite time.", "anchors": ["unidist/core/backends/mpi/core/worker/task_store.py:TaskStore.execute_received_task", "unidist/core/backends/mpi/core/worker/loop.py:worker_loop", "unidist/core/backends/mpi/core/controller/common.py:push_data", "unidist/core/backends/mpi/core/controller/common.py:pull_data", "unidist/core/backends/mpi/core/controller/common.py:request_worker_data"]}
{"id": "C95", "title": "A get that fails does not disturb later gets (MPI)", "statement": "If get raises an error of its own (a result cannot be unpickled, or a signal interrupts it) and the program goes on, later gets are not affected: a get of other references gives their values, and a get of the same references that is tried again gives the values or raises again.", "quantifier": "every main program, every task body, every set of values that can be unpickled, every number of workers, every interleaving of the processes and messages, and signals at any moment of a get", "why_tests_cant": "Which answers are left over depends on the order in which the owners answer and on when the signal comes; that the second get never returns cannot be observed in finite time.", "anchors": ["unidist/core/backends/mpi/core/controller/common.py:request_worker_data", "unidist/core/backends/mpi/core/controller/common.py:pull_data", "unidist/core/backends/mpi/core/controller/common.py:_push_local_data", "unidist/core/backends/mpi/core/controller/api.py:_termination_handler", "unidist/core/backends/mpi/core/worker/request_store.py:RequestStore.process_get_request"]}
{"id": "C96", "title": "What a process knows about a reference stays as long as it may be needed, and goes afterwards (MPI)", "statement": "A value a process has stored (and the process that has it, its serialised form, and to whom it was sent) can be found through any copy of the reference as long as one copy is left, or as long as the reference belongs to another process that has not told to clean it up; when no copy is left and the reference is the process's own, or was cleaned up and nothing was stored since, nothing of it is kept.", "quantifier": "every history of references that arrive, are copied and go away, of values, owners, serialised data and destinations stored, of values fetched and of cleanups", "why_tests_cant": "Keys live in weak dictionaries: which entry survives depends on which of several equal objects was used as key and in which order they die; tests see few of these orders.", "anchors": ["unidist/core/backends/mpi/core/local_object_store.py:LocalObjectStore.put", "unidist/core/backends/mpi/core/local_object_store.py:LocalObjectStore.maybe_update_data_id_map", "unidist/core/backends/mpi/core/local_object_store.py:LocalObjectStore.clear", "unidist/core/backends/mpi/core/common.py:MpiDataID.__new__", "unidist/core/backends/mpi/core/object_store.py:ObjectStore.get"]}
{"id": "C97", "title": "Results on the Ray backend are those of direct execution", "statement": "Whatever the order in which Ray runs submitted tasks, get of a reference returns or raises what the direct call would have returned or raised, objects of actors change as under direct calls in the order of the program, every call returns as many new references as were asked for, nothing is run twice, and no get waits for ever.", "quantifier": "every program of puts, calls of functions, actors and methods, interleaved in every way with the steps of Ray that run a task whose arguments are there", "why_tests_cant": "Ray runs tasks in an order of its own; that references as arguments, exceptions among them, several results and the order of methods fit together for every order is beyond examples.", "anchors": ["unidist/core/backends/ray/remote_function.py:RayRemoteFunction._remote", "unidist/core/backends/ray/actor.py:RayActorMethod._remote", "unidist/core/backends/ray/actor.py:RayActor._remote", "unidist/core/backends/ray/backend.py:RayBackend.get", "unidist/core/base/common.py:filter_arguments"]}
{"id": "C98", "title": "The same program gives the same results on every backend", "statement": "A program of puts and calls of remote functions, each given values or references of earlier calls, gives the same on the sequential, multiprocessing, Ray, Dask and MPI backends, whatever the schedule: what get returns on one of them it returns on all, and it is what direct calls give.", "quantifier": "every program of puts and function calls, every function without side effects, every run of each of the five backends, every result", "why_tests_cant": "Five backends with different workers, stores and schedules: a suite that is run on each of them covers some programs and the schedules that happen.", "anchors": ["unidist/core/base/remote_function.py:RemoteFunction.remote", "unidist/core/backends/pyseq/core/api.py:submit", "unidist/core/backends/pymp/core/api.py:submit", "unidist/core/backends/ray/remote_function.py:RayRemoteFunction._remote", "unidist/core/backends/dask/remote_function.py:DaskRemoteFunction._remote", "unidist/core/backends/mpi/core/controller/api.py:submit", "unidist/core/backends/mpi/core/controller/api.py:get"]}
{"id": "C99", "title": "Actors behave alike on every backend", "statement": "A program of puts, calls of functions, actors and calls of their methods gives the same results on every backend, whatever the schedule: methods act on their own object in the order of the program, and what get returns or raises is what direct calls would.", "quantifier": "every program of puts, function calls, actors and method calls, every run of each backend, every result", "why_tests_cant": "Which of two methods runs first depends on when their arguments are there and on the scheduler; a test sees one order.", "anchors": ["unidist/core/base/actor.py:Actor._remote", "unidist/core/backends/pyseq/actor.py:PySeqActorMethod._remote", "unidist/core/backends/pymp/actor.py:PyMpActorMethod._remote", "unidist/core/backends/ray/actor.py:RayActorMethod._remote", "unidist/core/backends/dask/actor.py:DaskActorMethod._remote"]}
{"id": "C100", "title": "The log is written when it is asked for, and only then", "statement": "With UNIDIST_MPI_LOG off the MPI backend writes no log file and what the application logs goes where it would go without the backend; with it on every message of the backend is in its log file, once and in order.", "quantifier": "every order in which the application configures logging and logs, and the backend's modules are imported and log", "why_tests_cant": "Python's loggers are shared by the whole process: what is written depends on the application's levels, handlers and names and on the order of imports.", "anchors": ["unidist/core/backends/mpi/core/common.py:get_logger", "unidist/core/backends/mpi/core/worker/task_store.py:TaskStore", "unidist/config/backends/mpi/envvars.py:MpiLog"]}
{"id": "C101", "title": "The communication log can be read", "statement": "Every operation received is logged as one line, in order, from which the operation, the sender and the receiver can be told; the columns of the processes are aligned under the header, which comes once.", "quantifier": "every number of processes, every sender, receiver and operation, every sequence of operations received", "why_tests_cant": "The text is made of repeated pieces whose number depends on all of the ranks and the length of the name.", "anchors": ["unidist/core/backends/mpi/core/communication.py:log_operation", "unidist/core/backends/mpi/core/common.py:get_op_name", "unidist/core/backends/mpi/core/communication.py:mpi_recv_operation"]}
{"id": "C102", "title": "Receiving a value leaves Python's garbage collector as the application has set it (MPI)", "statement": "gc.isenabled() gives what the application last asked for, whatever it has received in between, also if a value could not be loaded.", "quantifier": "every sequence of received values and calls of gc.enable and gc.disable, every nesting of receives in the loading of values, every value that fails to load", "why_tests_cant": "The collector is a setting of the whole process that nothing else shows; what is left behind depends on the history of values that failed to load.", "anchors": ["unidist/core/backends/mpi/core/serialization.py:ComplexDataSerializer.deserialize", "unidist/core/backends/mpi/core/communication.py:recv_complex_data", "unidist/core/backends/mpi/core/object_store.py:ObjectStore.get"]}
{"id": "C103", "title": "Whatever can be sent by itself can be sent inside a container (MPI)", "statement": "If a value can be an argument or the result of a remote function, then so can every list, dictionary, tuple, set, array or view made of such values, and it arrives as it was sent.", "quantifier": "every value, every nesting of containers, functions, classes and instances, importable or not", "why_tests_cant": "Which of three picklers encodes a part of a value depends on its type and on the containers around it; tests try a few shapes.", "anchors": ["unidist/core/backends/mpi/core/serialization.py:is_cpkl_serializable", "unidist/core/backends/mpi/core/serialization.py:is_pickle5_serializable", "unidist/core/backends/mpi/core/serialization.py:ComplexDataSerializer._encode_custom", "unidist/core/backends/mpi/core/controller/api.py:submit"]}
{"id": "C104", "title": "A shutdown that is interrupted can be completed by another one (MPI)", "statement": "If a signal interrupts unidist.shutdown, then another call of it, at the latest the one at the end of the program, ends every worker and returns.", "quantifier": "every number of workers, every point at which signals arrive, any number of interrupted calls, every order in which processes take their messages", "why_tests_cant": "It is about the points between two messages at which a signal arrives; tests do not interrupt shutdown.", "anchors": ["unidist/core/backends/mpi/core/controller/api.py:shutdown", "unidist/core/backends/mpi/core/controller/api.py:_termination_handler", "unidist/core/backends/mpi/core/worker/loop.py:worker_loop", "unidist/core/backends/mpi/core/monitor/loop.py:monitor_loop"]}
