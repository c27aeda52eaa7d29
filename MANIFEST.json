{
 "claims": [
  {
   "property": "C01",
   "status": "proved",
   "theorems": [
    "C01_reservations_disjoint",
    "C01_reservations_in_bounds",
    "C01_reservation_length"
   ],
   "note": "All histories of reserve/query/cleanup on one manager, any segment sizes."
  },
  {
   "property": "C02",
   "status": "proved",
   "theorems": [
    "C02_reserve_succeeds_iff_gap",
    "C02_all_released_restores"
   ],
   "note": "For histories without MemoryError (see C05 for why this is needed)."
  },
  {
   "property": "C03",
   "status": "proved",
   "theorems": [
    "C03_reservation_stable"
   ],
   "note": "Events of one data ID follow a three-line reference automaton."
  },
  {
   "property": "C04",
   "status": "proved",
   "theorems": [
    "C04_freed_only_if_unreferenced",
    "C04_referenced_stays_queued",
    "C04_unreferenced_is_freed",
    "C04_freed_is_dequeued",
    "C04_never_forgotten"
   ],
   "note": "Cluster of any number of hosts, any reference counts, cleanups seen by all monitors in one order."
  },
  {
   "property": "C05",
   "status": "partial",
   "theorems": [
    "C05_memory_error_leaks_refuted",
    "C05_refused_keeps_reservations_partial",
    "C05_refused_without_gaps_partial"
   ],
   "note": "False of the code: a request refused for lack of service slots keeps the data memory it had taken (and vice versa). The refutation is proved; the partial theorem states what a refused request does preserve."
  },
  {
   "property": "C06",
   "status": "partial",
   "theorems": [
    "C06_holder_reads_what_was_put",
    "C06_receiver_reads_what_was_put",
    "C06_fails_only_without_memory",
    "C06_stale_package_refuted",
    "C06_unequal_service_buffers_refuted"
   ],
   "note": "Proved for every history in which a cleanup does not overtake a package of the cleaned object (the task counter is meant to ensure this, C36). Without that the claim is false: C06_stale_package_refuted. C06_unequal_service_buffers_refuted: with different service buffer sizes a receiver can fail."
  },
  {
   "property": "C07",
   "status": "proved",
   "theorems": [
    "C07_other_operations_do_not_change_a_held_object"
   ],
   "note": "Any operations of any processes between two reads of a held object; API calls are atomic here, their interleaving is C08."
  },
  {
   "property": "C08",
   "status": "partial",
   "theorems": [
    "C08_found_objects_are_whole_partial",
    "C08_named_slots_are_published_partial",
    "C08_torn_check_refuted",
    "C08_freed_after_check_refuted"
   ],
   "note": "Any number of processes and operations, one memory access per step, every schedule, as long as no slot is freed meanwhile (partial: freeing raced with a check breaks the claim, see the two refutations). Sequentially consistent memory."
  },
  {
   "property": "C09",
   "status": "proved",
   "theorems": [
    "C09_count_is_number_of_holders",
    "C09_held_objects_are_stored",
    "C09_reclaimed_only_without_holders",
    "C09_reclaimed_when_no_holders",
    "C09_cleaned_or_queued"
   ],
   "note": "Same histories as C06; API calls atomic. An ID whose cleanup found holders is queued on that host and freed by a later cleanup once the holders are gone (C09_cleaned_or_queued)."
  },
  {
   "property": "C10",
   "status": "proved",
   "theorems": [
    "C10_at_most_95_percent",
    "C10_at_most_95_percent_and_a_byte",
    "C10_configured_sizes_respected",
    "C10_slots_fill_service_memory",
    "C10_sizes_not_negative",
    "C10_defaults_succeed",
    "C10_error_iff_too_large",
    "C10_error_iff_one_too_large",
    "C10_default_slots_suffice"
   ],
   "note": ""
  },
  {
   "property": "C11",
   "status": "partial",
   "theorems": [
    "C11_copy_is_exact_partial",
    "C11_long_buffers_are_covered",
    "C11_small_unaligned_refuted"
   ],
   "note": "Exact for every source address, length and thread count provided an aligned address lies in the source (always so from 63 bytes on with the block size of 64). For shorter unaligned buffers the code is wrong: C11_small_unaligned_refuted holds for every such buffer."
  },
  {
   "property": "C12",
   "status": "proved",
   "theorems": [
    "C12_references_are_unique",
    "C12_names_parse_back",
    "C12_equal_names_equal_references"
   ],
   "note": "Any number of processes and any history. Names are modelled as strings with decimal printing; the parser of the shared store is modelled on them."
  },
  {
   "property": "C13",
   "status": "proved",
   "theorems": [
    "C13_copies_are_one_object",
    "C13_live_references_denote",
    "C13_recorded_once_by_owner",
    "C13_recorded_when_last_copy_dies",
    "C13_dead_references_are_recorded",
    "C13_recorded_reference_comes_back"
   ],
   "note": "Reference counting per process: any number of strong references to one registered object. C13_recorded_reference_comes_back records a limit: a recorded reference can be received again later."
  },
  {
   "property": "C14",
   "status": "partial",
   "theorems": [
    "C14_announced_transfer",
    "C14_provided_buffer_transfer",
    "C14_blocking_announced_transfer_partial",
    "C14_blocking_announced_empty_refuted",
    "C14_blocks_within_limit"
   ],
   "note": "Proved for every length (including zero) and block size for the two modes in use: announced non-blocking send, and blocking send into a buffer provided by the receiver. mpi_send_buffer with an announced size is proved for non-empty buffers and refuted for empty ones (no caller uses it)."
  },
  {
   "property": "C15",
   "status": "partial",
   "theorems": [
    "C15_round_trip_partial",
    "C15_reserved_key_refuted"
   ],
   "note": "Proved for all libraries keeping the stated pickle contract, all thresholds, all values in which no dictionary has one of the three reserved keys; refuted for dictionaries with such a key."
  },
  {
   "property": "C16",
   "status": "partial",
   "theorems": [
    "C16_gets_are_right",
    "C16_in_band_data_unchanged_partial",
    "C16_unchanged_before_get_partial",
    "C16_task_outputs_unchanged_partial",
    "C16_sent_after_get_refuted"
   ],
   "note": "Gets are always right. Sends are proved unchanged before the first local get, for values without out-of-band buffers, and for task outputs; refuted for a value put without shared memory, got locally and then sent (the cached buffer list is emptied by the deserialiser)."
  },
  {
   "property": "C17",
   "status": "partial",
   "theorems": [
    "C17_received_in_order_and_whole_partial",
    "C17_no_receive_error_partial",
    "C17_message_completes_partial",
    "C17_nothing_lost_partial",
    "C17_mixed_senders_refuted"
   ],
   "note": "Proved for any interleaving when each sender sends either operations only or replies to blocking requests only; refuted when one sender sends both to the same receiver (a get inside a task)."
  },
  {
   "property": "C18",
   "status": "partial",
   "theorems": [
    "C18_scheduled_on_legal_rank_partial",
    "C18_fails_only_when_none_left",
    "C18_reserved_by_another_process_refuted"
   ],
   "note": "Proved for the actors whose handles the submitting process holds; refuted across processes, because reservations are local to a process."
  },
  {
   "property": "C19",
   "status": "proved",
   "theorems": [
    "C19_every_round_uses_every_worker",
    "C19_counts_differ_by_at_most_one"
   ],
   "note": "Proved for any fixed set of reservations, after any history."
  },
  {
   "property": "C20",
   "status": "proved",
   "theorems": [
    "C20_values_in_order",
    "C20_get_ends"
   ],
   "note": "get on the root, all arrival orders of replies. The caller's list is rebuilt by BackendProxy, so leaving it unchanged is not a statement about the model."
  },
  {
   "property": "C21",
   "status": "partial",
   "theorems": [
    "C21_repeated_remote_refuted",
    "C21_worker_refuted",
    "C21_local_repeats_partial"
   ],
   "note": "Refuted for references the root does not hold (any list with a repeated one blocks; one worker answers twice-asked data once). Proved for repeated references it holds."
  },
  {
   "property": "C22",
   "status": "partial",
   "theorems": [
    "C22_first_get_raises_partial",
    "C22_second_get_refuted"
   ],
   "note": "Refuted for the second get, which returns the exception object. The first get is proved to raise."
  },
  {
   "property": "C23",
   "status": "proved",
   "theorems": [
    "C23_wait_local",
    "C23_wait_through_monitor",
    "C23_reported_is_stored"
   ],
   "note": "The root's part and the monitor's answer composed; ready references are held by the root or reported complete, and what workers report is stored there, coroutines included. That wait returns is C34."
  },
  {
   "property": "C24",
   "status": "proved",
   "theorems": [
    "C24_sent_at_most_once",
    "C24_once_per_residence"
   ],
   "note": "The 'already sent' cache lives as long as the process knows the reference: C24_sent_at_most_once is for references the process has not forgotten in between, C24_once_per_residence bounds the number of sends in general."
  },
  {
   "property": "C25",
   "status": "proved",
   "theorems": [
    "C25_references_known_before_task",
    "C25_unknown_reference_fails"
   ],
   "note": ""
  },
  {
   "property": "C26",
   "status": "proved",
   "theorems": [
    "C26_runs_with_values",
    "C26_pending_unchanged",
    "C26_no_request_lost"
   ],
   "note": "Values returned by bodies and PUT contain no bare references (otherwise the second unwrap of common.py:429-435 would resolve them too, finding 10)."
  },
  {
   "property": "C27",
   "status": "partial",
   "theorems": [
    "C27_no_ready_task_partial",
    "C27_actor_result_refuted",
    "C27_coroutine_result_refuted",
    "C27_consumer_first_refuted"
   ],
   "note": "Proved for plain functions when no request needs a result of a later one on the same worker and tasks and actor calls do not need each other's results. Refuted in general by three witnesses: result of an actor call, result of a coroutine, consumer received before producer."
  },
  {
   "property": "C28",
   "status": "partial",
   "theorems": [
    "C28_every_output_fails",
    "C28_failed_argument_partial",
    "C28_nested_failure_refuted"
   ],
   "note": "Every output gets the exception, in every execution. That the body is not run is proved for failed arguments; refuted for failed results nested in a list, which are passed to the body as exception objects."
  },
  {
   "property": "C29",
   "status": "proved",
   "theorems": [
    "C29_outputs_get_values",
    "C29_too_few_values_refuted"
   ],
   "note": "Beyond the property: with fewer values than outputs the rest never gets anything (refuted theorem); with a result that cannot be iterated the worker dies (C53)."
  },
  {
   "property": "C30",
   "status": "partial",
   "theorems": [
    "C30_answered_once_partial",
    "C30_coroutine_result_refuted",
    "C30_forwarded_value_refuted",
    "C30_blocking_after_nonblocking_refuted"
   ],
   "note": "Proved for plain functions, without CLEANUP or shutdown, when tasks return enough values and nobody asks this worker for values that arrive from elsewhere. Three witnesses show each restriction is needed."
  },
  {
   "property": "C31",
   "status": "proved",
   "theorems": [
    "C31_one_request_to_the_owner"
   ],
   "note": ""
  },
  {
   "property": "C32",
   "status": "partial",
   "theorems": [
    "C32_calls_in_order_partial",
    "C32_overtaking_refuted"
   ],
   "note": "Proved when the earlier call's arguments are there on arrival. Refuted otherwise: a later call overtakes."
  },
  {
   "property": "C33",
   "status": "proved",
   "theorems": [
    "C33_answered_once",
    "C33_counts_reports"
   ],
   "note": "Monitor loop with its shared memory manager; waits come one at a time because the root blocks in wait."
  },
  {
   "property": "C34",
   "status": "partial",
   "theorems": [
    "C34_failed_refuted",
    "C34_wait_ends_partial"
   ],
   "note": "Refuted for failed tasks: their completion report is empty. Proved for tasks and calls that end normally, coroutines included."
  },
  {
   "property": "C35",
   "status": "partial",
   "theorems": [
    "C35_at_most_once",
    "C35_not_early",
    "C35_everybody_stops_partial",
    "C35_round_robin_refuted",
    "C35_no_workers_refuted"
   ],
   "note": "At most once, never early and bounded for all clusters; everybody stops needs a worker and rank 1 on the root's machine (or no shared store); refuted twice without. Finalisation is the subject of C87 and C88."
  },
  {
   "property": "C36",
   "status": "proved",
   "theorems": [
    "C36_cleanup_after_tasks",
    "C36_cleanup_possible",
    "C36_sent_when_equal"
   ],
   "note": "C36_cleanup_after_tasks: for the whole system (root, workers, monitor, every interleaving of deliveries) and every program of puts, ordinary (not coroutine) submissions, gets and cleanup attempts: when the root sends a cleanup, nothing is pending or running at any worker and every task sent has ended. C36_cleanup_possible: conversely, when nothing is under way an attempt does send the cleanup. Bodies of tasks do not call the API; actor calls are outside the property (they are counted by the monitor but not by the submitter)."
  },
  {
   "property": "C37",
   "status": "partial",
   "theorems": [
    "C37_cleaned_once_partial",
    "C37_exactly_once_partial",
    "C37_to_everybody",
    "C37_late_death_refuted"
   ],
   "note": "Refuted for a reference that dies between serialising and clearing the list; proved otherwise."
  },
  {
   "property": "C38",
   "status": "partial",
   "theorems": [
    "C38_roles_partial",
    "C38_one_monitor_per_machine",
    "C38_single_process_rejected",
    "C38_same_address_refuted"
   ],
   "note": "Roles are proved for every rank table whose machines have distinct resolved addresses; with shared addresses ranks vanish from the topology (C38_same_address_refuted)."
  },
  {
   "property": "C39",
   "status": "partial",
   "theorems": [
    "C39_cluster_resources",
    "C39_dask_partial",
    "C39_dask_refuted",
    "C39_ray_partial",
    "C39_ray_refuted"
   ],
   "note": "MPI proved. dask loses CPUs when workers of one machine are known under 127.0.0.1 and its own address; ray loses CPUs when two nodes share an address (both refuted with witnesses); partial theorems exclude these."
  },
  {
   "property": "C40",
   "status": "proved",
   "theorems": [
    "C40_slots_sum",
    "C40_slots_even",
    "C40_workers_as_configured",
    "C40_enough_slots"
   ],
   "note": ""
  },
  {
   "property": "C41",
   "status": "partial",
   "theorems": [
    "C41_get_partial",
    "C41_get_list_partial",
    "C41_submit_raises_partial",
    "C41_refs_fresh_partial",
    "C41_wait",
    "C41_returned_exception_refuted",
    "C41_raised_by_get_only_refuted"
   ],
   "note": "Proved for functions and puts that do not hand exception objects around as values (then the backend raises them: refuted in general). An exception of an argument is raised by the submission itself, not only by get (refuted as stated for get only)."
  },
  {
   "property": "C42",
   "status": "proved",
   "theorems": [
    "C42_submitted",
    "C42_one_queue",
    "C42_once",
    "C42_submit",
    "C42_call",
    "C42_grabbed",
    "C42_one_actor"
   ],
   "note": "Worker processes are interleaved arbitrarily with the calls of the main process."
  },
  {
   "property": "C43",
   "status": "partial",
   "theorems": [
    "C43_progress_partial",
    "C43_turns",
    "C43_all_computed_partial",
    "C43_short_result_refuted",
    "C43_dead_worker_refuted",
    "C43_dropped_handle_refuted"
   ],
   "note": "Proved for results that suit the number of references and can be pickled, when no actor's handle dies before its calls have ended. Refuted in general: a result with too few elements leaves references undefined for ever; a result that is no iterable, or a handle that dies before its call is taken, ends the worker process with the tasks still in its queue."
  },
  {
   "property": "C44",
   "status": "partial",
   "theorems": [
    "C44_partition_partial",
    "C44_one_partial",
    "C44_one_returns_partial",
    "C44_not_ready_refuted",
    "C44_error_refuted",
    "C44_failed_refuted"
   ],
   "note": "Partition and size proved whenever wait returns, readiness only for num_returns=1. Refuted in general: after an element was removed the positions drift, so a reference that is not ready is returned or IndexError is raised; a failed task makes wait raise."
  },
  {
   "property": "C45",
   "status": "proved",
   "theorems": [
    "C45_wait_partition",
    "C45_wait_returns",
    "C45_too_many_never_returns",
    "C45_duplicates_refuted"
   ],
   "note": "wait partitions the references, exactly num_returns ready ones, each finished at one of the calls made; it returns when num_returns <= their number and distributed.wait can return, never when more are asked for. Duplicates (outside the quantifier) refuted: a reference given twice hangs. distributed.wait itself is a parameter (which futures are finished at its k-th return)."
  },
  {
   "property": "C46",
   "status": "partial",
   "theorems": [
    "C46_unwrap_faithful",
    "C46_subclasses_refuted"
   ],
   "note": "Proved for lists, tuples and dicts at any depth. Refuted for instances of subclasses (OrderedDict, namedtuple): left as they are, with the references inside. Cyclic values not modelled."
  },
  {
   "property": "C47",
   "status": "partial",
   "theorems": [
    "C47_one_backend",
    "C47_init_first",
    "C47_call_before_init_refuted",
    "C47_second_init_refuted",
    "C47_put_starts"
   ],
   "note": "Proved: all calls go to one backend; a process that starts with init uses the one configured then. Refuted: a call before init (decorating a function is one) fixes the backend and a later init starts another; a second init with another configuration starts a second runtime."
  },
  {
   "property": "C48",
   "status": "partial",
   "theorems": [
    "C48_functions",
    "C48_classes",
    "C48_rejected_partial",
    "C48_bare",
    "C48_other_uses",
    "C48_unknown_refuted",
    "C48_bool_refuted"
   ],
   "note": "Proved for everything but unknown options (silently ignored, refuted) and booleans as num_returns (accepted, refuted)."
  },
  {
   "property": "C49",
   "status": "partial",
   "theorems": [
    "C49_get_precedence",
    "C49_source",
    "C49_put",
    "C49_int_text",
    "C49_int_refused",
    "C49_every_text",
    "C49_bool_text",
    "C49_str_text",
    "C49_exact_text",
    "C49_float_text",
    "C49_pickle_threshold",
    "C49_choices_refuted",
    "C49_put_false_refuted",
    "C49_environment_read_once"
   ],
   "note": "Precedence, source and refusal proved for every history and environment, for every parameter type; texts are ASCII, float() is a parameter. Refuted: a value outside the choices is stored and get raises from then on; put('false') of a flag stores True; the environment is read once."
  },
  {
   "property": "C50",
   "status": "proved",
   "theorems": [
    "C50_values",
    "C50_exceptions",
    "C50_stores"
   ],
   "note": "Every program of puts, submissions of ordinary functions, gets, deaths of references and cleanups, every set of workers and every interleaving: results of get, exceptions raised by get, and everything in any store agree with sequential evaluation. Coroutines, actors and bodies that call the API are outside the statement and the model of the whole."
  },
  {
   "property": "C51",
   "status": "proved",
   "theorems": [
    "C51_nothing_stuck",
    "C51_deliveries_end",
    "C51_gets_answered",
    "C51_settles"
   ],
   "note": "Every program, with or without cleanups, every set of workers and every interleaving. The hypotheses of the statement are valid, tidy and returns_enough in ClusterSpec.v (a cleanup is for references that were created and have died); the Acc statement says every sequence of deliveries is finite. C51_settles: the messages under way can always be delivered until there is none."
  },
  {
   "property": "C52",
   "status": "partial",
   "theorems": [
    "C52_request_kept",
    "C52_buffer_kept_partial",
    "C52_buffers_sent_partial",
    "C52_check_releases",
    "C52_check_keeps",
    "C52_finish_releases",
    "C52_blocks_refuted"
   ],
   "note": "The request is always kept; the memory is kept when a serialised operation fits one block. With several blocks the slices sent are copies that the book-keeping does not hold (refuted in general)."
  },
  {
   "property": "C53",
   "status": "partial",
   "theorems": [
    "C53_worker_survives_partial",
    "C53_no_output_failure_refuted",
    "C53_not_iterable_refuted"
   ],
   "note": "Proved when references are announced before use, nothing is cleaned up and results can be stored. Refuted for a task with num_returns=0 that raises and for a task with several outputs that returns something not iterable."
  },
  {
   "property": "C54",
   "status": "proved",
   "theorems": [
    "C54_actor_partial",
    "C54_made",
    "C54_called",
    "C54_kept"
   ],
   "note": "C54_made, C54_called, C54_kept: every call from every state, no hypothesis on programs or values. C54_actor_partial relates whole programs to direct calls under the hypothesis of C41 (no exception objects as values)."
  },
  {
   "property": "C55",
   "status": "partial",
   "theorems": [
    "C55_read_partial",
    "C55_actor_partial",
    "C55_bytes_refuted",
    "C55_dropped_handle_refuted"
   ],
   "note": "Proved when no exception object and no byte string is put or returned, pickling of callables round-trips and no actor's handle dies before its calls have ended. Refuted in general: byte strings are unpickled by get; a call whose handle dies early gives a connection error."
  },
  {
   "property": "C56",
   "status": "partial",
   "theorems": [
    "C56_remote_partial",
    "C56_options_partial",
    "C56_options_names_refuted",
    "C56_reservations",
    "C56_option_names_refuted",
    "C56_clashes_refuted"
   ],
   "note": "Proved for keyword names other than num_cpus, num_returns, resources, self, task on the MPI backend. Refuted for these: the first three are taken as options, the others raise TypeError."
  },
  {
   "property": "C57",
   "status": "proved",
   "theorems": [
    "C57_references",
    "C57_results",
    "C57_objects",
    "C57_arguments"
   ],
   "note": "For every legal program (references used are held, actors exist) and every schedule. Dask itself is modelled by its contract: a task runs at most once when its dependencies are finished, fails with a failed dependency, may be forgotten when nobody holds or needs it. User code does not call the API."
  },
  {
   "property": "C58",
   "status": "partial",
   "theorems": [
    "C58_at_most_once",
    "C58_kept_calls_are_run_partial",
    "C58_kept_references_finish",
    "C58_scheduler_ends",
    "C58_forgotten_refuted"
   ],
   "note": "At most once always. Run in the end if a reference of the call is kept and no argument failed. Refuted in general: with num_returns=0, or when the reference is dropped, the future is released and Dask may forget the task before it runs."
  },
  {
   "property": "C59",
   "status": "partial",
   "theorems": [
    "C59_order_refuted",
    "C59_waited_for_partial",
    "C59_dependent_partial"
   ],
   "note": "Refuted: each call is an independent Dask task, a later one may be run first. Proved for calls that take a result of the earlier call or are made after its result was there."
  },
  {
   "property": "C60",
   "status": "partial",
   "theorems": [
    "C60_cleaned_gone_partial",
    "C60_root_forgets",
    "C60_one_source_gone_partial",
    "C60_cleaned_gone_refuted"
   ],
   "note": "Full claim refuted (C60_cleaned_gone_refuted): an answer that arrives after the cleanup is stored again. Proved: copies can remain only on workers that did not compute the data themselves and had asked another process for it; the root keeps nothing whose last reference has died; if every object reaches each worker from one process only, a worker that has taken the cleanup never has the object again and at the end no worker has it (C60_one_source_gone_partial)."
  },
  {
   "property": "C61",
   "status": "partial",
   "theorems": [
    "C61_complete_partial",
    "C61_values",
    "C61_exceptions",
    "C61_stores",
    "C61_one_value",
    "C61_stable",
    "C61_history",
    "C61_once",
    "C61_order_partial",
    "C61_order_refuted",
    "C61_order_waits_partial",
    "C61_direct_partial",
    "C61_direct_held_partial",
    "C61_schedule_partial"
   ],
   "note": "Values, exceptions, stores, uniqueness, stability and reality of the histories are proved in full; the order of two calls on one worker when the program has the values of the references in the first one's arguments and nothing is a coroutine (refuted in general: an earlier call whose argument is missing is overtaken). For programs that get a result of each call before the next call on the same worker: the order, whatever references the calls are given and also with coroutines (C61_order_waits_partial), and every value got is that of direct execution (C61_direct_partial). Without coroutines, calls with plain values and with values that the program has need not be waited for (C61_direct_held_partial), and what such a program gets does not depend on the schedule (C61_schedule_partial). Such a run can be completed from any point, with all gets answered with the results of direct execution (C61_complete_partial)."
  },
  {
   "property": "C62",
   "status": "partial",
   "theorems": [
    "C62_no_calls_partial",
    "C62_few_partial",
    "C62_refuted"
   ],
   "note": "Proved without method calls, also with coroutines; with k method calls at most k tasks or calls are open at a cleanup. The full claim is refuted: the root does not count method calls, the workers report them."
  },
  {
   "property": "C63",
   "status": "partial",
   "theorems": [
    "C63_complete_partial",
    "C63_coroutine_refuted",
    "C63_actor_refuted",
    "C63_nothing_stuck_partial",
    "C63_deliveries_end_partial",
    "C63_gets_answered_partial"
   ],
   "note": "The full claim is refuted twice: a request for the result of a coroutine that arrives before the coroutine starts is dropped; a task that waits for the result of a call on the same rank is not looked at again. Proved for functions and methods that are not coroutines, without cleanups, when no task needs the result of a call on its own rank nor a call that of a task there; deliveries end and gets are answered without the last condition. Under the same conditions every run can be completed from any point of any schedule (C63_complete_partial)."
  },
  {
   "property": "C64",
   "status": "partial",
   "theorems": [
    "C64_partition",
    "C64_in_order",
    "C64_transparent",
    "C64_wait_ends_partial",
    "C64_nothing_stuck_partial",
    "C64_failed_refuted",
    "C64_zero_refuted"
   ],
   "note": "Partition, readiness, order and transparency proved in full. That wait returns is proved when enough of the tasks behind the references have returned, and for whole programs under the conditions of C63 when none has failed. Refuted: wait on the result of a failed task, and num_returns=0, never return."
  },
  {
   "property": "C65",
   "status": "proved",
   "theorems": [
    "C65_gets",
    "C65_one_value",
    "C65_once",
    "C65_main",
    "C65_tasks"
   ],
   "note": "an error of get itself (GError) is allowed here; see C66 for when it cannot happen"
  },
  {
   "property": "C66",
   "status": "partial",
   "theorems": [
    "C66_no_errors",
    "C66_idle",
    "C66_ends_partial",
    "C66_ends_getless",
    "C66_ends_refuted",
    "C66_foreign_refuted"
   ],
   "note": "No errors: proved for programs that use what they made. The end: proved when at most one worker is in get, and for tasks that never call get; refuted in general by two tasks that wait for calls sent to each other's worker; a task that uses the reference of a remote function called by the main program is refused. C66_idle: with two workers or more, the idle states are those no operation changes."
  },
  {
   "property": "C67",
   "status": "partial",
   "theorems": [
    "C67_functions_partial",
    "C67_calls_refuted",
    "C67_coroutine_refuted"
   ],
   "note": "For plain functions: once everything has ended, an attempt is sent if and only if no method of an actor was called. Refuted after a method call and after a coroutine that failed. The thresholds of regular_cleanup are in GcModel (C37)."
  },
  {
   "property": "C68",
   "status": "partial",
   "theorems": [
    "C68_built_once_partial",
    "C68_built_before",
    "C68_methods",
    "C68_no_call_lost_partial",
    "C68_reference_argument_refuted",
    "C68_raising_constructor_refuted",
    "C68_missing_method_refuted"
   ],
   "note": "For every run in which the worker lives: constructors run once, in order and before calls, with the arguments of the message; a method acts on its own object as left by its actor's earlier calls; no call is lost. Refuted: references among the constructor's arguments stand for their values; a raising constructor, or a missing method, leaves the worker alive."
  },
  {
   "property": "C69",
   "status": "partial",
   "theorems": [
    "C69_licensed_calls_partial",
    "C69_refuted"
   ],
   "note": "Proved when every call is by the creator or by a process that heard, through any chain of messages, from the actor's worker after the actor was built. Refuted for a process that has just been given the handle by the creator."
  },
  {
   "property": "C70",
   "status": "partial",
   "theorems": [
    "C70_put_partial",
    "C70_result_partial",
    "C70_elsewhere_partial",
    "C70_argument_partial",
    "C70_argument_refuted",
    "C70_got_again_refuted",
    "C70_worker_refuted",
    "C70_result_refuted"
   ],
   "note": "put and results: proved for any number of processes when no object that is some process's value of a reference is changed in place (the original of a put may be); arguments: proved without out-of-band buffers, or when nobody writes into them while the task is being sent. Refuted otherwise, by four witnesses. One host; cleanups are not in this model."
  },
  {
   "property": "C71",
   "status": "partial",
   "theorems": [
    "C71_survives_partial",
    "C71_ample_partial",
    "C71_fragmented_refuted",
    "C71_unknown_refuted"
   ],
   "note": "Proved when every request for memory finds a gap and a slot (slots do not fragment, counting suffices; with enough memory for everything ever asked for the gaps are there) and only known data is asked for. Refuted otherwise: fragmentation or a request for freed data ends the monitor."
  },
  {
   "property": "C72",
   "status": "partial",
   "theorems": [
    "C72_own_answers_partial",
    "C72_none_lost_partial",
    "C72_workers",
    "C72_worker_wait_refuted",
    "C72_mixed_up_refuted",
    "C72_shutdown_refuted",
    "C72_replaced_refuted"
   ],
   "note": "Proved for every interleaving when only the root calls wait and shutdown; for processes other than the root without that condition. wait in a task never returns and disturbs the root (refuted, four theorems). One host."
  },
  {
   "property": "C73",
   "status": "partial",
   "theorems": [
    "C73_own_host",
    "C73_agreed_partial",
    "C73_history_partial",
    "C73_no_deadlock",
    "C73_all_done_partial",
    "C73_two_senders_refuted",
    "C73_lengths_refuted",
    "C73_dead_refuted"
   ],
   "note": "Whoever sends: a host frees only at the end of a collective cleanup, only what its own monitor saw no references to and some request named; no deadlock while no monitor has died. One sender: freed only if no host saw references, the monitors refine a history of whole cleanups, all requests can be carried out. Refuted: two senders (freed while referenced elsewhere; arrays of different lengths), and a dead monitor stops the others."
  },
  {
   "property": "C74",
   "status": "partial",
   "theorems": [
    "C74_delivered_partial",
    "C74_nothing_altered",
    "C74_unsupported_refused",
    "C74_swallowed_refuted",
    "C74_clashes_refuted",
    "C74_constructor_reference_refuted"
   ],
   "note": "Exact for every backend and kind of call: arguments arrive unchanged iff no keyword is a reserved name, and whatever arrives is unchanged. Refuted as stated: reserved keyword names are swallowed, raise TypeError or (MPI constructors, owner_rank) leave the actor uncreated; references given to constructors stay references."
  },
  {
   "property": "C75",
   "status": "partial",
   "theorems": [
    "C75_public_partial",
    "C75_submit_refuted"
   ],
   "note": "All public method names except submit on PyMp, which is hidden by the handle's own submit."
  },
  {
   "property": "C76",
   "status": "partial",
   "theorems": [
    "C76_same_partial",
    "C76_pickle_partial",
    "C76_pickle_refuted",
    "C76_quote_refuted",
    "C76_injection_refuted",
    "C76_backslash_refuted",
    "C76_infinite_refuted",
    "C76_default_refuted"
   ],
   "note": "Proved for all histories and texts without quotes and backslashes; refuted for texts with them, for MpiPickleThreshold after a reading with the shared object store on, for infinite MpiBackoff and for differing defaults."
  },
  {
   "property": "C77",
   "status": "partial",
   "theorems": [
    "C77_mpich_partial",
    "C77_other",
    "C77_agree_partial",
    "C77_two_numbers_refuted",
    "C77_raises_refuted",
    "C77_disagree_refuted"
   ],
   "note": "Exact for MPICH versions of dotted numbers other than 4.2 and for all other libraries; agreement of root and spawned processes for settled parameters. Refuted: 4.2, release candidates, other texts with MPICH, variables of another host."
  },
  {
   "property": "C78",
   "status": "partial",
   "theorems": [
    "C78_session_partial",
    "C78_second_init_refuted",
    "C78_after_shutdown_refuted",
    "C78_local_shutdown_refuted",
    "C78_early_shutdown_refuted"
   ],
   "note": "Exact for all programs within each backend's limits (Ray: all programs). Refuted outside: second init, use after shutdown (MPI), shutdown of PyMp and PySeq, shutdown before init (MPI, Dask)."
  },
  {
   "property": "C79",
   "status": "partial",
   "theorems": [
    "C79_mpi_partial",
    "C79_mpiexec_refuted",
    "C79_dask_partial",
    "C79_dask_refuted",
    "C79_ray_partial",
    "C79_ray_refuted",
    "C79_local"
   ],
   "note": "Proved for spawned MPI, one-thread Dask workers, Ray nodes with CPUs (the last two exactly then), PyMp and PySeq. Refuted for mpiexec, Dask threads, Ray nodes without CPUs."
  },
  {
   "property": "C80",
   "status": "partial",
   "theorems": [
    "C80_same_as_messages_partial",
    "C80_stops_only_without_memory_partial",
    "C80_values_partial",
    "C80_no_stale_package_partial",
    "C80_two_sources_refuted"
   ],
   "note": "Proved for programs that hand every object to a worker from one source; with two sources the claim is refuted (C80_two_sources_refuted)."
  },
  {
   "property": "C81",
   "status": "partial",
   "theorems": [
    "C81_cleaned_not_held_partial",
    "C81_memory_freed_partial",
    "C81_two_sources_leak_refuted"
   ],
   "note": "Proved for programs that hand every object to a worker from one source, at times when no message is under way; with two sources refuted (C81_two_sources_leak_refuted)."
  },
  {
   "property": "C82",
   "status": "partial",
   "theorems": [
    "C82_fits",
    "C82_documented_limit_refuted",
    "C82_started_as_configured"
   ],
   "note": "Proved exactly when no size is configured. The documented limit on Macs is refuted for a configured size. The warning about a small /dev/shm is not modelled."
  },
  {
   "property": "C83",
   "status": "partial",
   "theorems": [
    "C83_same_python_partial",
    "C83_hash_seed_refuted",
    "C83_empty_option_refuted",
    "C83_inspect_refuted"
   ],
   "note": "Proved for all command lines without empty -W/-X arguments, with or without the environment; the hash seed is refuted for every positive PYTHONHASHSEED. Python's reading of its command line is modelled after its documentation."
  },
  {
   "property": "C84",
   "status": "partial",
   "theorems": [
    "C84_while_referenced_partial",
    "C84_while_not_cleaned_partial",
    "C84_deleted_reference_refuted",
    "C84_actor_state_refuted"
   ],
   "note": "Proved while the reference lives, or as long as no cleanup names the object. Refuted once the reference has gone (finding 27): a live value is overwritten by the next object, for the driver and for actor state."
  },
  {
   "property": "C85",
   "status": "partial",
   "theorems": [
    "C85_ends_partial",
    "C85_getless_partial",
    "C85_when_done_partial",
    "C85_nested_get_refuted",
    "C85_unbuffered_refuted",
    "C85_when_done_refuted",
    "C85_no_task_after",
    "C85_gets"
   ],
   "note": "Proved: a final state is the end of shutdown, or a task in get, or two workers with unbuffered messages to each other; the first alternative is excluded without get in tasks and when all tasks had ended; no task afterwards; gets stay right. Refuted in general: both remaining alternatives are reached and last for ever, the second even when the program has got all its results."
  },
  {
   "property": "C86",
   "status": "partial",
   "theorems": [
    "C86_calls_executed_partial",
    "C86_pending_refuted"
   ],
   "note": "Proved for calls with values and references to objects that were put. Refuted for calls whose arguments are results of tasks on other workers: they are forgotten."
  },
  {
   "property": "C87",
   "status": "partial",
   "theorems": [
    "C87_ready",
    "C87_returns_partial",
    "C87_raises_partial",
    "C87_halts",
    "C87_remote_memory_refuted",
    "C87_disagree_refuted"
   ],
   "note": "Proved exactly for machines with different addresses: when init returns, when it raises, and that one state or the other or a hang is reached in bounded steps. Refuted: a configuration that cannot be met on another machine, or processes of one machine that disagree on shared memory, make init hang."
  },
  {
   "property": "C88",
   "status": "proved",
   "theorems": [
    "C88_memory_kept",
    "C88_together",
    "C88_everybody_leaves"
   ],
   "note": "Proved. Free and Finalize are taken to be synchronising."
  },
  {
   "property": "C89",
   "status": "partial",
   "theorems": [
    "C89_get_partial",
    "C89_put_partial",
    "C89_remote_partial",
    "C89_result",
    "C89_tasks_refuted",
    "C89_own_worker_refuted",
    "C89_spawned_refuted"
   ],
   "note": "With forked processes proved for get everywhere and for put and remote functions in methods of actors. Refuted: in tasks put, init, remote functions and actors always raise; a method can wait for a task that is queued behind itself; with spawned processes not even get works. wait and arguments are left out."
  },
  {
   "property": "C90",
   "status": "partial",
   "theorems": [
    "C90_in_time_partial",
    "C90_cases",
    "C90_late_package_refuted",
    "C90_delivered"
   ],
   "note": "Proved when packages are received before CANCEL or their object is in the memory of the machine already. In general a worker that takes one later can wait for ever for a monitor that has left (refuted; C90_cases says that nothing else can go wrong). Memory is taken to be always granted."
  },
  {
   "property": "C91",
   "status": "partial",
   "theorems": [
    "C91_worker_keeps_nothing_partial",
    "C91_worker_forgets_where",
    "C91_root_knows_nothing",
    "C91_monitor_refuted",
    "C91_monitor_never_forgets",
    "C91_request_refuted"
   ],
   "note": "Workers (when no object reaches a worker from two sources, as in C60) and the root keep nothing. Refuted for the monitor, which never forgets an output (C91_monitor_refuted, C91_monitor_never_forgets), and for workers in general (C91_request_refuted)."
  },
  {
   "property": "C92",
   "status": "partial",
   "theorems": [
    "C92_gets",
    "C92_one_value",
    "C92_few_partial",
    "C92_objects_partial",
    "C92_when_ended_partial",
    "C92_hang_refuted",
    "C92_reclaim_refuted"
   ],
   "note": "Values of gets are right whatever is cleaned up (C92_gets, C92_one_value). The number of open calls at a cleanup is at most the number of calls of other processes; none if no task makes calls; a cleanup is sent after the end iff only the main program has made calls. Refuted in general: C92_hang_refuted, C92_reclaim_refuted."
  },
  {
   "property": "C93",
   "status": "partial",
   "theorems": [
    "C93_pymp_read_partial",
    "C93_pymp_gone",
    "C93_pymp_isolated_partial",
    "C93_pymp_lost",
    "C93_pymp_stopped",
    "C93_pymp_hang_refuted",
    "C93_gets",
    "C93_one_value",
    "C93_gone",
    "C93_no_errors",
    "C93_isolated_partial",
    "C93_isolated_getless_partial",
    "C93_lost",
    "C93_hang_refuted"
   ],
   "note": "Gets that return are right (C93_gets, C93_pymp_read_partial); when nothing can go on, the calls not finished are those sent to workers that are gone, those that use their results, and (PyMp) those behind such a task in a queue; what was sent to a worker that is gone is never finished (C93_lost, C93_pymp_lost). Refuted in general: C93_hang_refuted, C93_pymp_hang_refuted. PySeq is not in this model: there the exception comes out of the remote call itself."
  },
  {
   "property": "C94",
   "status": "partial",
   "theorems": [
    "C94_gets",
    "C94_gone",
    "C94_picklable",
    "C94_isolated_partial",
    "C94_lost",
    "C94_result_refuted",
    "C94_argument_refuted",
    "C94_exception_refuted",
    "C94_other_exception_refuted"
   ],
   "note": "Gets that return are right (C94_gets); a process stops only because of such a value (C94_gone); if all values put, passed, returned and raised can be pickled and unpickled, nobody stops and everything is as in C65 and C66 (C94_picklable); when nothing can go on, what is not finished is affected by the workers that are gone (C94_isolated_partial, tasks that do not call get), and never finishes (C94_lost). Refuted in general: C94_result_refuted, C94_argument_refuted, C94_exception_refuted, C94_other_exception_refuted."
  },
  {
   "property": "C95",
   "status": "partial",
   "theorems": [
    "C95_gets",
    "C95_one_value",
    "C95_main",
    "C95_never",
    "C95_undisturbed_partial",
    "C95_stale_refuted",
    "C95_signal_refuted",
    "C95_retry_refuted"
   ],
   "note": "Gets that return are right, whatever failed before (C95_gets); references stand for one value and tasks are entered once (C95_one_value); the main program does what its text says (C95_main); trying again never gives a value that cannot be unpickled (C95_never); without failures a run is one of NestModel, so what C65 and C66 say holds (C95_undisturbed_partial). Refuted: C95_stale_refuted, C95_signal_refuted (the next get, of other references, takes a left-over answer and fails), C95_retry_refuted (the second get waits for ever)."
  },
  {
   "property": "C96",
   "status": "proved",
   "theorems": [
    "C96_identity",
    "C96_value",
    "C96_owner",
    "C96_serial",
    "C96_sent",
    "C96_gone"
   ],
   "note": "For every history (C96_identity: no difference to a store without objects; C96_value, C96_owner, C96_serial, C96_sent: what stays; C96_gone: what goes). Modelled: CPython reference counting, every other holder of a reference as one list; reference cycles and late garbage collection are not."
  },
  {
   "property": "C97",
   "status": "partial",
   "theorems": [
    "C97_read_partial",
    "C97_objects_partial",
    "C97_history",
    "C97_references",
    "C97_once",
    "C97_complete",
    "C97_finishes",
    "C97_number_refuted",
    "C97_constructor_refuted"
   ],
   "note": "For every program and interleaving, with results that have as many items as references asked for and constructors that do not raise and are given no references (C97_read_partial, C97_objects_partial); C97_history, C97_references, C97_once, C97_complete, C97_finishes without these. C97_number_refuted and C97_constructor_refuted: what happens otherwise. Over the part of the contract of Ray that is used; lost processes and retries are not modelled."
  },
  {
   "property": "C98",
   "status": "partial",
   "theorems": [
    "C98_complete_partial",
    "C98_exactly_partial",
    "C98_everywhere_partial",
    "C98_raising_argument",
    "C98_complete_refuted",
    "C98_values_partial",
    "C98_exceptions_partial",
    "C98_defined",
    "C98_same",
    "C98_nested_refuted",
    "C98_raised_refuted"
   ],
   "note": "For programs of puts and function calls with plain values, references as arguments themselves and as many results as asked for (C98_values_partial, C98_exceptions_partial, C98_defined, C98_same); on PyMp no byte strings. C98_nested_refuted: references inside containers; C98_raised_refuted: a second get on MPI. Actors are in the theorems on the single backends, except MPI (C61-C63). Completeness (C98_complete_partial, C98_exactly_partial, C98_everywhere_partial): every result of a program that uses only references of earlier calls can be read on every backend; on PySeq if no call is given the reference of a call that raised (C98_raising_argument, C98_complete_refuted: such a program goes no further there), on MPI if every call returns references."
  },
  {
   "property": "C99",
   "status": "partial",
   "theorems": [
    "C99_complete_partial",
    "C99_exactly_partial",
    "C99_everywhere_partial",
    "C99_five_partial",
    "C99_five_complete_partial",
    "C99_mpi_waits_partial",
    "C99_mpi_same_partial",
    "C99_mpi_complete_partial",
    "C99_direct_partial",
    "C99_same_partial",
    "C99_dask_refuted",
    "C99_dask_waits_partial",
    "C99_dask_waits_complete_partial"
   ],
   "note": "For the sequential, multiprocessing and Ray backends, with plain values, as many results as asked for and constructors that do not raise (C99_direct_partial, C99_same_partial). With references and actors used after they were made and functions and methods returning plain values, every result can be read and the result of direct execution is possible on every backend, Dask included (C99_complete_partial; PySeq: no call is given the reference of a call that raised; PyMp: enough processes); apart from Dask it is the only one (C99_exactly_partial), so what one backend shows every other shows (C99_everywhere_partial). C99_dask_refuted: on Dask methods may overtake each other; C99_dask_waits_partial: not if the program calls a method of an actor only after a reference of every earlier call on it has finished, then every result is that of direct execution, and such runs can be completed (C99_dask_waits_complete_partial); on MPI methods may overtake each other too (C61_order_refuted); for programs that wait, C61_direct_partial says the same of MPI. On MPI: for programs that get a result of each method call before the next one on the same actor, or have the values of its arguments, one actor on a worker, all made with the same state, no coroutines (C99_mpi_waits_partial, C99_mpi_same_partial); such runs can be completed if every call asks for a result (C99_mpi_complete_partial). All five together: C99_five_partial, C99_five_complete_partial."
  },
  {
   "property": "C100",
   "status": "partial",
   "theorems": [
    "C100_off_partial",
    "C100_unseen_partial",
    "C100_on_partial",
    "C100_level_refuted",
    "C100_name_refuted",
    "C100_on_refuted"
   ],
   "note": "C100_off_partial, C100_unseen_partial: off, for an application that keeps to its own logger names and files and keeps the root logger above INFO. C100_on_partial: on, when no handler was added to the root logger before the import. Without these conditions false: C100_level_refuted, C100_name_refuted, C100_on_refuted. Levels of handlers, propagate=False and logging.disable are not modelled."
  },
  {
   "property": "C101",
   "status": "partial",
   "theorems": [
    "C101_picture",
    "C101_read",
    "C101_defined",
    "C101_header",
    "C101_columns_partial",
    "C101_columns_refuted"
   ],
   "note": "C101_columns_partial: aligned when the name has at most 15 letters; C101_columns_refuted for RESERVE_SHARED_MEMORY (also REQUEST_SHARED_DATA, READY_TO_SHUTDOWN). The rest is proved in full."
  },
  {
   "property": "C102",
   "status": "partial",
   "theorems": [
    "C102_enabled_partial",
    "C102_untouched",
    "C102_switched_on_again",
    "C102_left_off",
    "C102_off_during_partial",
    "C102_kept_refuted",
    "C102_failure_refuted",
    "C102_off_during_refuted"
   ],
   "note": "Proved for applications that never switch the collector off and values that load (C102_enabled_partial), also with nested receives. Refuted otherwise: a receive switches a collector on that the application has switched off (C102_kept_refuted, C102_switched_on_again: after every receive), and a value that fails to load leaves it off (C102_failure_refuted, C102_left_off). Code running in other threads meanwhile is not modelled."
  },
  {
   "property": "C103",
   "status": "partial",
   "theorems": [
    "C103_list",
    "C103_dict",
    "C103_call",
    "C103_at_least",
    "C103_at_most",
    "C103_exactly_partial",
    "C103_wrapped",
    "C103_tuple_refuted",
    "C103_tuple_never",
    "C103_views_refuted",
    "C103_arrives_partial",
    "C103_bytearray_refuted",
    "C103_arrives_only"
   ],
   "note": "Proved for lists, dictionaries and the arguments of a call (C103_list, C103_dict, C103_call); exactly which values can be sent (C103_exactly_partial) and which arrive unchanged (C103_arrives_partial, C103_arrives_only). Refuted for tuples, sets, arrays and data frames (C103_tuple_refuted), views of values and items (C103_views_refuted) and, for what arrives, bytearrays (C103_bytearray_refuted). What pickle and cloudpickle can encode is a contract of these libraries; nesting deeper than msgpack allows is not modelled."
  },
  {
   "property": "C104",
   "status": "partial",
   "theorems": [
    "C104_early_partial",
    "C104_no_deadlock_partial",
    "C104_returns",
    "C104_late",
    "C104_completed_refuted",
    "C104_worker_refuted",
    "C104_failed",
    "C104_one_worker"
   ],
   "note": "Proved when signals arrive before the shutdown has sent anything: no worker fails, the next shutdown can be completed and cannot be stuck (C104_early_partial, C104_no_deadlock_partial); when shutdown returns, everybody has left (C104_returns); with one worker none ever fails (C104_one_worker). Refuted otherwise: after an interruption behind the answer of the monitor no shutdown ever returns (C104_late, C104_completed_refuted), and after one among the CANCEL messages a worker may end with ValueError (C104_worker_refuted, C104_failed). One machine; messages are buffered."
  }
 ]
}