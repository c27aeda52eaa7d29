(** C42-C44, C55: the multiprocessing backend. A program is any sequence of API calls of the main process and of
    turns of the worker processes; [prun nw ... pinit [] ops = (st, h)]: after them the backend is in state [st]
    and the history (calls with their results, latest first) is [h]. *)
From Verif Require Import Lib ValModel PyseqModel PyseqSpec PyseqCases PympModel PympSpec PympProofs PympDirect PympCases.
From Coq Require Import Permutation.

(** The tasks given to workers are those the program has submitted, in order. *)
Theorem C42_submitted : forall nw body cbody mbody item iterable callable bytes dumps loads storable ops st h,
  prun nw body cbody mbody item iterable callable bytes dumps loads storable pinit [] ops = (st, h) ->
  map (fun x => task_desc (snd x)) (p_log st) = submissions h.
Proof. exact log_run. Qed.
Print Assumptions C42_submitted.

(** Every worker has run, or has still to run, exactly the tasks given to it, in order. *)
Theorem C42_one_queue : forall nw, 0 < nw ->
  forall body cbody mbody item iterable callable bytes dumps loads storable ops st h w,
  prun nw body cbody mbody item iterable callable bytes dumps loads storable pinit [] ops = (st, h) ->
  p_done st w ++ p_queue st w = placed_on w (p_log st).
Proof. exact one_queue. Qed.
Print Assumptions C42_one_queue.

Theorem C42_once : forall nw, 0 < nw ->
  forall body cbody mbody item iterable callable bytes dumps loads storable ops st h,
  prun nw body cbody mbody item iterable callable bytes dumps loads storable pinit [] ops = (st, h) ->
  NoDup (map (fun x => k_id (snd x)) (p_log st)).
Proof. exact ids_unique. Qed.
Print Assumptions C42_once.

(** A plain task goes to the first worker after that of the previous plain task, cyclically, that is not
    grabbed; only if all are grabbed it is refused. *)
Theorem C42_submit : forall nw, 0 < nw ->
  forall body cbody mbody item iterable callable bytes dumps loads storable ops st h f args kw n st' e,
  prun nw body cbody mbody item iterable callable bytes dumps loads storable pinit [] ops = (st, h) ->
  pstep nw body cbody mbody item iterable callable bytes dumps loads storable st (PSubmit f args kw n) = (st', e) ->
  (exists w t, p_log st' = p_log st ++ [(w, t)] /\ k_callee t = Fun f /\ k_args t = args /\ k_kw t = kw /\
     length (k_out t) = n /\ w < nw /\ first_free nw (p_grab st) (cursor nw (p_log st)) w /\
     p_queue st' w = p_queue st w ++ [t] /\ forall w', w' <> w -> p_queue st' w' = p_queue st w') \/
  (p_log st' = p_log st /\ (forall w, w < nw -> p_grab st w = true) /\ e = Some (QSubmit f args kw n false, OError)).
Proof. exact submit_placed. Qed.
Print Assumptions C42_submit.

(** A method call goes to the worker of its actor. *)
Theorem C42_call : forall nw, 0 < nw ->
  forall body cbody mbody item iterable callable bytes dumps loads storable ops st h a m args kw n st' q out,
  prun nw body cbody mbody item iterable callable bytes dumps loads storable pinit [] ops = (st, h) ->
  pstep nw body cbody mbody item iterable callable bytes dumps loads storable st (PCall a m args kw n) = (st', Some (q, out)) ->
  exists w t, has_actor st a w /\ p_log st' = p_log st ++ [(w, t)] /\ k_callee t = Meth a m /\ k_args t = args /\
    k_kw t = kw /\ length (k_out t) = n /\
    p_queue st' w = p_queue st w ++ [t] /\ forall w', w' <> w -> p_queue st' w' = p_queue st w'.
Proof. exact (fun nw _ => call_placed nw). Qed.
Print Assumptions C42_call.

(** The grabbed workers are those of live actors, and no two live actors share one. *)
Theorem C42_grabbed : forall nw, 0 < nw ->
  forall body cbody mbody item iterable callable bytes dumps loads storable ops st h w,
  prun nw body cbody mbody item iterable callable bytes dumps loads storable pinit [] ops = (st, h) ->
  (p_grab st w = true <-> exists a, has_actor st a w).
Proof. exact grabbed_live. Qed.
Print Assumptions C42_grabbed.

Theorem C42_one_actor : forall nw, 0 < nw ->
  forall body cbody mbody item iterable callable bytes dumps loads storable ops st h a b w,
  prun nw body cbody mbody item iterable callable bytes dumps loads storable pinit [] ops = (st, h) ->
  has_actor st a w -> has_actor st b w -> a = b.
Proof. exact one_actor. Qed.
Print Assumptions C42_one_actor.

(** ** C43. If results suit the number of references and can be pickled, and no actor's handle dies before its calls have
    ended, some worker can go on as long as a task is unfinished; each turn finishes one; and when none can go on, every reference has its value. *)
Theorem C43_progress_partial : forall nw, 0 < nw ->
  forall body cbody mbody item iterable callable bytes dumps loads storable ops st h,
  prun nw body cbody mbody item iterable callable bytes dumps loads storable pinit [] ops = (st, h) -> legal h ->
  behaved body mbody item iterable storable ops ->
  handles_kept (fun l => fst (prun nw body cbody mbody item iterable callable bytes dumps loads storable pinit [] l)) ops ->
  forall t, pending st t -> exists w st', work body mbody item iterable bytes loads storable st w = Some st'.
Proof. exact progress. Qed.
Print Assumptions C43_progress_partial.

Theorem C43_turns : forall nw, 0 < nw ->
  forall body cbody mbody item iterable callable bytes dumps loads storable ops st h w st',
  prun nw body cbody mbody item iterable callable bytes dumps loads storable pinit [] ops = (st, h) ->
  work body mbody item iterable bytes loads storable st w = Some st' -> unfinished nw st = S (unfinished nw st').
Proof. exact terminates. Qed.
Print Assumptions C43_turns.

Theorem C43_all_computed_partial : forall nw, 0 < nw ->
  forall body cbody mbody item iterable callable bytes dumps loads storable ops st h,
  prun nw body cbody mbody item iterable callable bytes dumps loads storable pinit [] ops = (st, h) -> legal h ->
  behaved body mbody item iterable storable ops ->
  handles_kept (fun l => fst (prun nw body cbody mbody item iterable callable bytes dumps loads storable pinit [] l)) ops ->
  (forall w, work body mbody item iterable bytes loads storable st w = None) ->
  (forall t, ~ pending st t) /\ forall d, In d (returned h) -> exists r, pget bytes loads st d = Look r.
Proof. exact all_computed. Qed.
Print Assumptions C43_all_computed_partial.

(** In general it does not hold: a result with fewer elements than references leaves the others undefined for
    ever, and whoever needs them waits; a result that is no iterable ends the worker process. *)
Theorem C43_short_result_refuted :
  let st := fst (prun 2 sbody xcbody zmbody xitem xiterable xcallable xbytes xdumps xloads xstorable pinit [] sprog) in
  let h := snd (prun 2 sbody xcbody zmbody xitem xiterable xcallable xbytes xdumps xloads xstorable pinit [] sprog) in
  legal h /\ (exists t, pending st t) /\ (forall w, p_dead st w = false) /\
  forall w, work sbody zmbody xitem xiterable xbytes xloads xstorable st w = None.
Proof. exact stuck_short. Qed.
Print Assumptions C43_short_result_refuted.

Theorem C43_dead_worker_refuted :
  let st := fst (prun 1 sbody xcbody zmbody xitem xiterable xcallable xbytes xdumps xloads xstorable pinit [] kprog) in
  let h := snd (prun 1 sbody xcbody zmbody xitem xiterable xcallable xbytes xdumps xloads xstorable pinit [] kprog) in
  legal h /\ (exists t, pending st t) /\
  forall w, work sbody zmbody xitem xiterable xbytes xloads xstorable st w = None.
Proof. exact stuck_dead. Qed.
Print Assumptions C43_dead_worker_refuted.

(** An actor's handle that dies before a worker has taken its call: the worker process ends while it unpickles the call. It counts as
    free, so a plain task given to it is never run. *)
Theorem C43_dropped_handle_refuted :
  behaved zbody zmbody xitem xiterable xstorable hprog /\
  let st := fst (hrun hprog) in let h := snd (hrun hprog) in
  legal h /\ (exists t w, In t (p_queue st w) /\ p_dead st w = true /\ k_callee t = Fun 0 /\ k_args t = [VLeaf 3]) /\
  forall w, work zbody zmbody xitem xiterable xbytes xloads xstorable st w = None /\ take st w = st.
Proof. exact stuck_dropped. Qed.
Print Assumptions C43_dropped_handle_refuted.

(** ** C44 *)
Theorem C44_partition_partial : forall ready final ids n r nr, pwait ready final ids n = Waited r nr ->
  Permutation ids (r ++ nr) /\ length r = n.
Proof. exact PympProofs.wait_partition. Qed.
Print Assumptions C44_partition_partial.

(** For one reference the one returned is ready, and wait does return. *)
Theorem C44_one_partial : forall ready final ids r nr,
  (forall k d, ready k d = true -> really_ready final d) -> pwait ready final ids 1 = Waited r nr ->
  exists d, r = [d] /\ really_ready final d.
Proof. exact wait_one. Qed.
Print Assumptions C44_one_partial.

Theorem C44_one_returns_partial : forall ready final ids,
  ids <> [] -> (forall k d, ready k d = true -> really_ready final d) ->
  (forall d, In d ids -> final d = FDone) -> exists r nr, pwait ready final ids 1 = Waited r nr.
Proof. exact wait_one_returns. Qed.
Print Assumptions C44_one_returns_partial.

(** For more it is wrong: references that are not ready are returned, or an IndexError is raised. *)
Theorem C44_not_ready_refuted : exists ready final ids n r nr d,
  NoDup ids /\ (forall k d, ready k d = true -> really_ready final d) /\
  pwait ready final ids n = Waited r nr /\ In d r /\ ~ really_ready final d.
Proof.
  exact (ex_intro _ only_ab (ex_intro _ slow_c (ex_intro _ [a1; b1; c1] (ex_intro _ 2 (ex_intro _ [a1; c1]
    (ex_intro _ [b1] (ex_intro _ c1 drift_not_ready))))))).
Qed.
Print Assumptions C44_not_ready_refuted.

Theorem C44_error_refuted : exists ids, NoDup ids /\ pwait (fun _ _ => true) (fun _ => FDone) ids (length ids) = WIndexError.
Proof. exact (ex_intro _ [a1; b1; c1] (conj abc_distinct drift_error)). Qed.
Print Assumptions C44_error_refuted.

(** wait on a failed task raises its exception. *)
Theorem C44_failed_refuted : exists ids, NoDup ids /\ pwait (fun _ _ => false) (fun _ => FRaise 9) ids 1 = WRaise 9.
Proof. exact (ex_intro _ [a1; b1] (conj ab_distinct failed_raises)). Qed.
Print Assumptions C44_failed_refuted.

(** ** C55 *)
Theorem C55_read_partial : forall nw, 0 < nw ->
  forall body cbody mbody item iterable callable bytes dumps loads storable,
  plain_results body mbody bytes item -> pickle_ok callable bytes dumps loads -> forall ops st h d r,
  prun nw body cbody mbody item iterable callable bytes dumps loads storable pinit [] ops = (st, h) -> legal h ->
  plain_puts bytes h ->
  handles_kept (fun l => fst (prun nw body cbody mbody item iterable callable bytes dumps loads storable pinit [] l)) ops ->
  In d (returned h) ->
  pget bytes loads st d = Look r -> outcome body cbody mbody item h d = Some r.
Proof. exact read_direct. Qed.
Print Assumptions C55_read_partial.

Theorem C55_actor_partial : forall nw, 0 < nw ->
  forall body cbody mbody item iterable callable bytes dumps loads storable,
  plain_results body mbody bytes item -> pickle_ok callable bytes dumps loads -> forall ops st h a x,
  prun nw body cbody mbody item iterable callable bytes dumps loads storable pinit [] ops = (st, h) -> legal h ->
  plain_puts bytes h ->
  handles_kept (fun l => fst (prun nw body cbody mbody item iterable callable bytes dumps loads storable pinit [] l)) ops ->
  nth_error (p_actors st) a = Some x ->
  (forall t, In t (p_queue st (t_worker x)) -> forall m, k_callee t <> Meth a m) ->
  state body cbody mbody item h a = Some (t_state x).
Proof. exact actor_direct. Qed.
Print Assumptions C55_actor_partial.

(** Byte strings are unpickled by get. *)
Theorem C55_bytes_refuted :
  let st := fst (prun 1 zbody xcbody zmbody xitem xiterable xcallable xbytes xdumps xloads xstorable pinit [] bprog) in
  let h := snd (prun 1 zbody xcbody zmbody xitem xiterable xcallable xbytes xdumps xloads xstorable pinit [] bprog) in
  legal h /\ outcome zbody xcbody zmbody xitem h (0, 0) = Some (Ret (VLeaf 1007)) /\
  pget xbytes xloads st (0, 0) = Look (Ret (VLeaf 7)).
Proof. exact bytes_changed. Qed.
Print Assumptions C55_bytes_refuted.

(** A call whose actor's handle dies before it has ended gives a connection error. *)
Theorem C55_dropped_handle_refuted :
  plain_results zbody zmbody xbytes xitem /\ pickle_ok xcallable xbytes xdumps xloads /\
  let st := fst (hrun gprog) in let h := snd (hrun gprog) in
  legal h /\ plain_puts xbytes h /\ In (0, 1) (returned h) /\
  outcome zbody xcbody zmbody xitem h (0, 1) = Some (Ret (VLeaf 13)) /\
  pget xbytes xloads st (0, 1) = Look (Exn connection_lost).
Proof. exact lost_dropped. Qed.
Print Assumptions C55_dropped_handle_refuted.

Example C42_C55_case :
  plain_results zbody zmbody xbytes xitem /\ pickle_ok xcallable xbytes xdumps xloads /\
  handles_kept (fun l => fst (zrun l)) zprog /\
  let st := fst (zrun zprog) in let h := snd (zrun zprog) in
  legal h /\ plain_puts xbytes h /\ length (returned h) = 11 /\
  map (fun x => (fst x, k_id (snd x))) (p_log st) = [(0, 0); (2, 1); (0, 2); (1, 3); (0, 4); (1, 5); (2, 6)] /\
  map (p_grab st) [0; 1; 2] = [true; false; false] /\
  map (fun w => map k_id (p_queue st w)) [0; 1; 2] = [[2; 4]; [5]; [6]] /\
  map (pget xbytes xloads st) [(0, 1); (0, 4); (0, 6); (0, 7)] =
    [Look (Ret (VLeaf 42)); Look (Ret (VLeaf 9)); Look (Exn 8); Later] /\
  map (outcome zbody xcbody zmbody xitem h) [(0, 1); (0, 4); (0, 6); (0, 7); (0, 10)] =
    [Some (Ret (VLeaf 42)); Some (Ret (VLeaf 9)); Some (Exn 8); Some (Ret (VLeaf 61)); Some (Exn 8)].
Proof. exact (conj z_plain (conj z_pickle (conj z_kept1 zprog_run))). Qed.

Example C43_case : behaved zbody zmbody xitem xiterable xstorable (zprog ++ zfinish) /\
  handles_kept (fun l => fst (zrun l)) (zprog ++ zfinish) /\
  let st := fst (zrun (zprog ++ zfinish)) in let h := snd (zrun (zprog ++ zfinish)) in
  legal h /\ (forall w, work zbody zmbody xitem xiterable xbytes xloads xstorable st w = None) /\
  map (pget xbytes xloads st) [(0, 7); (0, 9); (0, 10)] = [Look (Ret (VLeaf 61)); Look (Exn 9); Look (Exn 8)] /\
  map t_state (p_actors st) = [VLeaf 61; VLeaf 62].
Proof. exact (conj z_behaved (conj z_kept zprog_end)). Qed.

Example C44_case : pwait only_ab slow_c [c1; b1; a1] 1 = Waited [b1] [c1; a1] /\
  pwait (fun _ _ => false) (fun _ => FDone) [a1; b1; c1] 2 = Waited [a1; b1] [c1].
Proof. exact wait_cases. Qed.
