(** C26 to C32 and C53. A worker starts as [winit] and takes any list [ms] of messages
    ([wrun self body mbody is_async winit ms]; the result is [None] if the worker dies). Its [log]
    is everything that happened: messages taken, bodies entered, results, values stored and sent.
    [body] and [mbody] are arbitrary task and method bodies. *)
From Verif Require Import Lib ValModel WorkerModel WorkerSpec WorkerThms WorkerCases.
From Coq Require Import Permutation.

(** C26. When a body is entered, the arguments are those of a request received before, with every
    reference at any depth replaced by a value stored for it; nothing else is changed, and no
    reference is left. The function is the one stored for the request's function reference. *)
Theorem C26_runs_with_values : forall self body mbody is_async,
  (forall f a k, no_refs_returned (body f a k)) -> (forall h c, no_refs_returned (mbody h c)) ->
  forall ms w, no_refs_received ms -> wrun self body mbody is_async winit ms = Some w ->
  forall before n c args kwargs after, log w = before ++ EvRun n c args kwargs :: after ->
  exists q, In q (received before) /\ q_id q = n /\ callee_of before q c /\
    fill (stored before) (q_args q) args /\ fill (stored before) (q_kwargs q) kwargs /\
    refs args = [] /\ refs kwargs = [].
Proof. exact runs_filled. Qed.
Print Assumptions C26_runs_with_values.

(** C26. What is kept pending is a received request with possibly some references already replaced
    by their values. *)
Theorem C26_pending_unchanged : forall self body mbody is_async,
  (forall f a k, no_refs_returned (body f a k)) -> (forall h c, no_refs_returned (mbody h c)) ->
  forall ms w, no_refs_received ms -> wrun self body mbody is_async winit ms = Some w ->
  forall q', In q' (pend w) \/ In q' (apend w) ->
  exists q, In q (received (log w)) /\ q_id q' = q_id q /\ q_fn q' = q_fn q /\ q_out q' = q_out q /\
    fill (stored (log w)) (q_args q) (q_args q') /\ fill (stored (log w)) (q_kwargs q) (q_kwargs q').
Proof. exact pending_kept. Qed.
Print Assumptions C26_pending_unchanged.

(** C26. Until shutdown, the requests received are exactly those that have ended, are running as
    coroutines or are pending: none is lost or executed twice. *)
Theorem C26_no_request_lost : forall self body mbody is_async,
  (forall f a k, no_refs_returned (body f a k)) -> (forall h c, no_refs_returned (mbody h c)) ->
  forall ms w, no_refs_received ms -> wrun self body mbody is_async winit ms = Some w ->
  ~ In WCancel ms ->
  Permutation (map q_id (received (log w)))
    (ended (log w) ++ map q_id (pend w ++ apend w) ++ map (fun p => q_id (fst p)) (running w)).
Proof. exact none_lost. Qed.
Print Assumptions C26_no_request_lost.

(** C27, for plain functions when no request needs a result of a later one, and tasks and actor
    calls on this worker do not need each other's results: every pending request still waits for
    something. *)
Theorem C27_no_ready_task_partial : forall self body mbody is_async,
  (forall f a k, no_refs_returned (body f a k)) -> (forall h c, no_refs_returned (mbody h c)) ->
  forall ms w, no_refs_received ms -> wrun self body mbody is_async winit ms = Some w ->
  (forall c, is_async c = false) -> (forall i, ~ In (WFinish i) ms) ->
  ForallOrdPairs independent (execs ms) -> ForallOrdPairs independent (actors ms) ->
  apart (execs ms) (actors ms) -> apart (actors ms) (execs ms) ->
  forall q, In q (pend w) \/ In q (apend w) -> exists d, In d (qrefs q) /\ available (log w) d = false.
Proof. exact no_ready. Qed.
Print Assumptions C27_no_ready_task_partial.

(** C27 is false in general: of a task that needs the result of an actor call on the same worker, *)
Theorem C27_actor_result_refuted : exists self body mbody is_async ms w q d,
  wrun self body mbody is_async winit ms = Some w /\
  pend w = [q] /\ qrefs q = [d] /\ available (log w) d = true.
Proof.
  exact (match actor_result_ignored with ex_intro _ w (conj R (ex_intro _ q (conj P (conj Q A)))) =>
    ex_intro _ 2 (ex_intro _ xbody (ex_intro _ xmbody (ex_intro _ xsync (ex_intro _ _
    (ex_intro _ w (ex_intro _ q (ex_intro _ z (conj R (conj P (conj Q A)))))))))) end).
Qed.
Print Assumptions C27_actor_result_refuted.

(** of a task that needs the result of a coroutine on the same worker, *)
Theorem C27_coroutine_result_refuted : exists self body mbody is_async ms w q d,
  wrun self body mbody is_async winit ms = Some w /\
  pend w = [q] /\ qrefs q = [d] /\ available (log w) d = true.
Proof.
  exact (match coroutine_result_ignored with ex_intro _ w (conj R (ex_intro _ q (conj P (conj Q A)))) =>
    ex_intro _ 2 (ex_intro _ xbody (ex_intro _ xmbody (ex_intro _ xasync (ex_intro _ _
    (ex_intro _ w (ex_intro _ q (ex_intro _ z (conj R (conj P (conj Q A)))))))))) end).
Qed.
Print Assumptions C27_coroutine_result_refuted.

(** and, with plain functions only, of a task received before the task whose result it needs. *)
Theorem C27_consumer_first_refuted : exists self body mbody ms w q d,
  wrun self body mbody (fun _ => false) winit ms = Some w /\ actors ms = [] /\
  pend w = [q] /\ qrefs q = [d] /\ available (log w) d = true.
Proof.
  exact (match consumer_first_ignored with ex_intro _ w (conj R (ex_intro _ q (conj P (conj Q A)))) =>
    ex_intro _ 2 (ex_intro _ xbody (ex_intro _ xmbody (ex_intro _ _
    (ex_intro _ w (ex_intro _ q (ex_intro _ z (conj R (conj eq_refl (conj P (conj Q A)))))))))) end).
Qed.
Print Assumptions C27_consumer_first_refuted.

(** C28. When a request ends with an exception, every output of it gets that exception at once. *)
Theorem C28_every_output_fails : forall self body mbody is_async,
  (forall f a k, no_refs_returned (body f a k)) -> (forall h c, no_refs_returned (mbody h c)) ->
  forall ms w, no_refs_received ms -> wrun self body mbody is_async winit ms = Some w ->
  forall before n e after, log w = before ++ EvEnd n (RExc e) :: after ->
  exists q, In q (received before) /\ q_id q = n /\
  exists rest, after = map (fun d => EvStore d (VExc e)) (out_ids (q_out q)) ++ rest.
Proof. exact fails_everywhere. Qed.
Print Assumptions C28_every_output_fails.

(** C28. A request ends in one of two ways. Either one of its arguments is a failure: then the
    body is never entered and the result is one of these failures. Or none is: then its body has been
    entered with these arguments just before, and the result is what the body gave. *)
Theorem C28_failed_argument_partial : forall self body mbody is_async,
  (forall f a k, no_refs_returned (body f a k)) -> (forall h c, no_refs_returned (mbody h c)) ->
  forall ms w, no_refs_received ms -> wrun self body mbody is_async winit ms = Some w ->
  forall before n r after, ~ In WCancel ms -> NoDup (map q_id (received (log w))) ->
  log w = before ++ EvEnd n r :: after ->
  exists q args kwargs, In q (received before) /\ q_id q = n /\
    fill (stored before) (q_args q) args /\ fill (stored before) (q_kwargs q) kwargs /\
    refs args = [] /\ refs kwargs = [] /\
    ((~ In n (started (log w)) /\ exists e, In (VExc e) (arguments args kwargs) /\ r = RExc e) \/
     ((forall e, ~ In (VExc e) (arguments args kwargs)) /\
      exists l c, before = l ++ [EvRun n c args kwargs] /\ callee_of l q c /\
                  r = body_result body mbody l c args kwargs)).
Proof. exact how_it_ended. Qed.
Print Assumptions C28_failed_argument_partial.

(** C28 is false of a failed result inside a list: the body is run with the exception object in it
    and returns a value. *)
Theorem C28_nested_failure_refuted : exists self body mbody is_async ms w n c e d v,
  wrun self body mbody is_async winit ms = Some w /\
  In (EvRun n c (VList [VList [VExc e]]) (VDict [])) (log w) /\ In (EvStore d (VLeaf v)) (log w) /\
  In (WExec (req n (FRef f2) [VList [VRef z]] [] (OOne d))) ms.
Proof.
  exact (match nested_failure_passed with ex_intro _ w (conj R (conj P Q)) =>
    ex_intro _ 2 (ex_intro _ xbody (ex_intro _ xmbody (ex_intro _ xsync (ex_intro _ _
    (ex_intro _ w (ex_intro _ 2 (ex_intro _ (CFun (VLeaf 2)) (ex_intro _ 9 (ex_intro _ t (ex_intro _ 100
      (conj R (conj P (conj Q (or_intror (or_intror (or_intror (or_introl eq_refl))))))))))))))))) end).
Qed.
Print Assumptions C28_nested_failure_refuted.

(** C29. A single output gets the whole result; of n outputs the i-th gets the i-th of n values;
    without outputs nothing is stored. *)
Theorem C29_outputs_get_values : forall self body mbody is_async,
  (forall f a k, no_refs_returned (body f a k)) -> (forall h c, no_refs_returned (mbody h c)) ->
  forall ms w, no_refs_received ms -> wrun self body mbody is_async winit ms = Some w ->
  forall before n v after, log w = before ++ EvEnd n (RVal v) :: after ->
  exists q, In q (received before) /\ q_id q = n /\
  match q_out q with
  | ONone => forall d x rest, after <> EvStore d x :: rest
  | OOne d => exists rest, after = EvStore d v :: rest
  | OMany ds => forall vs, v = VList vs \/ v = VTuple vs -> length vs = length ds ->
      exists rest, after = map (fun p => EvStore (fst p) (snd p)) (combine ds vs) ++ rest
  end.
Proof. exact returns. Qed.
Print Assumptions C29_outputs_get_values.

(** With fewer values than outputs a reference never gets anything, not even an exception, and a
    request for it is dropped. *)
Theorem C29_too_few_values_refuted : exists self body mbody is_async ms w d,
  wrun self body mbody is_async winit ms = Some w /\ ended (log w) = [1] /\
  (exists q, In (WExec q) ms /\ q_id q = 1 /\ In d (out_ids (q_out q))) /\
  available (log w) d = false /\ In (d, 3) (asked (log w)) /\ answered (log w) = [] /\ gets w = [].
Proof.
  exact (match too_few_values with ex_intro _ w (conj R (conj E (conj _ (conj B (conj G A))))) =>
    ex_intro _ 2 (ex_intro _ xbody (ex_intro _ xmbody (ex_intro _ xsync (ex_intro _ _
    (ex_intro _ w (ex_intro _ v (conj R (conj E (conj
      (ex_intro _ _ (conj (or_intror (or_intror (or_introl eq_refl))) (conj eq_refl (or_intror (or_introl eq_refl)))))
      (conj B (conj (too_few_asked w R) (conj A G)))))))))))) end).
Qed.
Print Assumptions C29_too_few_values_refuted.

(** C30, for plain functions, without CLEANUP and shutdown, when tasks return enough values and
    nobody asks this worker for values that come to it from elsewhere: rank s, if it has asked for d,
    has been sent it exactly once if d is available here and otherwise not at all; what is
    sent is a value stored for d. *)
Theorem C30_answered_once_partial : forall self body mbody is_async,
  (forall f a k, no_refs_returned (body f a k)) -> (forall h c, no_refs_returned (mbody h c)) ->
  forall ms w, no_refs_received ms -> wrun self body mbody is_async winit ms = Some w ->
  (forall c, is_async c = false) -> Forall plain ms -> all_enough (log w) ->
  (forall s d b v, In (WGet s d b) ms -> ~ In (WPut d v) ms) ->
  forall d s,
  count_occ did_rank_dec (answered (log w)) (d, s) =
    (if pair_in (d, s) (asked (log w)) then if available (log w) d then 1 else 0 else 0) /\
  (forall v b, In (EvPut s d v b) (log w) -> stored (log w) d v).
Proof. exact answers. Qed.
Print Assumptions C30_answered_once_partial.

(** C30 is false of a coroutine's result that is asked for before the coroutine starts, *)
Theorem C30_coroutine_result_refuted : exists self body mbody is_async ms w d s,
  wrun self body mbody is_async winit ms = Some w /\ asked (log w) = [(d, s)] /\
  available (log w) d = true /\ answered (log w) = [] /\ gets w = [] /\ bgets w = [].
Proof.
  exact (match coroutine_get_lost with ex_intro _ w H =>
    ex_intro _ 2 (ex_intro _ xbody (ex_intro _ xmbody (ex_intro _ xasync (ex_intro _ _
    (ex_intro _ w (ex_intro _ z (ex_intro _ 3 H))))))) end).
Qed.
Print Assumptions C30_coroutine_result_refuted.

(** of a value asked for before it arrives from elsewhere, *)
Theorem C30_forwarded_value_refuted : exists self body mbody is_async ms w d s,
  wrun self body mbody is_async winit ms = Some w /\ asked (log w) = [(d, s)] /\
  available (log w) d = true /\ answered (log w) = [].
Proof.
  exact (match forwarded_get_lost with ex_intro _ w H =>
    ex_intro _ 2 (ex_intro _ xbody (ex_intro _ xmbody (ex_intro _ xsync (ex_intro _ _
    (ex_intro _ w (ex_intro _ z (ex_intro _ 3 H))))))) end).
Qed.
Print Assumptions C30_forwarded_value_refuted.

(** and of a rank that first asks without blocking and then blocks: nothing is sent to the place
    where it blocks (the last field of [EvPut]). *)
Theorem C30_blocking_after_nonblocking_refuted : exists self body mbody is_async ms w d s v,
  wrun self body mbody is_async winit ms = Some w /\
  log w = [EvIn (WPut d v); EvIn (WGet s d false); EvPut s d v false; EvIn (WGet s d true)].
Proof.
  exact (match blocking_get_unanswered with ex_intro _ w H =>
    ex_intro _ 2 (ex_intro _ xbody (ex_intro _ xmbody (ex_intro _ xsync (ex_intro _ _
    (ex_intro _ w (ex_intro _ z (ex_intro _ 3 (ex_intro _ (VLeaf 1) H)))))))) end).
Qed.
Print Assumptions C30_blocking_after_nonblocking_refuted.

(** C31. Whenever the worker requests a value: it does not have it, no earlier request for it is
    still unanswered, and the request goes to the owner it was last told, not to itself. *)
Theorem C31_one_request_to_the_owner : forall self body mbody is_async,
  (forall f a k, no_refs_returned (body f a k)) -> (forall h c, no_refs_returned (mbody h c)) ->
  forall ms w, no_refs_received ms -> wrun self body mbody is_async winit ms = Some w ->
  forall before o d after, log w = before ++ EvGet o d :: after ->
  outstanding before d = false /\ told_owner before d = Some o /\ o <> self /\ available before d = false.
Proof. exact asks_right. Qed.
Print Assumptions C31_one_request_to_the_owner.

(** C32, if the arguments of the earlier call are there when it arrives: the earlier call ends
    before the later one is even received, and the later one has not run by then. *)
Theorem C32_calls_in_order_partial : forall self body mbody is_async,
  (forall f a k, no_refs_returned (body f a k)) -> (forall h c, no_refs_returned (mbody h c)) ->
  forall ms w, no_refs_received ms -> wrun self body mbody is_async winit ms = Some w ->
  forall l1 q1 l2 q2 l3, (forall c, is_async c = false) -> (forall i, ~ In (WFinish i) ms) ->
  NoDup (map q_id (received (log w))) ->
  log w = l1 ++ EvIn (WActor q1) :: l2 ++ EvIn (WActor q2) :: l3 ->
  (forall d, In d (qrefs q1) -> available l1 d = true) ->
  In (q_id q1) (ended l2) /\ ~ In (q_id q2) (ended (l1 ++ EvIn (WActor q1) :: l2)).
Proof. exact in_order. Qed.
Print Assumptions C32_calls_in_order_partial.

(** C32 is false otherwise: a later call overtakes one that waits for its argument. *)
Theorem C32_overtaking_refuted : exists self body mbody is_async ms w,
  wrun self body mbody is_async winit ms = Some w /\ execs ms = [] /\
  map q_id (received (log w)) = [1; 2] /\ ended (log w) = [2; 1].
Proof.
  exact (match calls_reordered with ex_intro _ w (conj R H) =>
    ex_intro _ 2 (ex_intro _ xbody (ex_intro _ xmbody (ex_intro _ xsync (ex_intro _ _
    (ex_intro _ w (conj R (conj eq_refl H))))))) end).
Qed.
Print Assumptions C32_overtaking_refuted.

(** C53, if every reference is announced before the request that has it, nothing is cleaned up, and
    the results can be stored (no request without outputs; tasks with several outputs return
    something iterable or raise): the worker takes every message. *)
Theorem C53_worker_survives_partial : forall self body mbody is_async ms,
  (forall f a k, no_refs_returned (body f a k)) -> (forall h c, no_refs_returned (mbody h c)) ->
  no_refs_received ms -> (forall ds, ~ In (WClean ds) ms) -> announced ms -> safe body mbody ms ->
  wrun self body mbody is_async winit ms <> None.
Proof. exact survives. Qed.
Print Assumptions C53_worker_survives_partial.

(** C53 is false of a task without outputs that raises, *)
Theorem C53_no_output_failure_refuted : exists self body mbody is_async ms,
  announced ms /\ wrun self body mbody is_async winit ms = None.
Proof.
  exact (ex_intro _ 2 (ex_intro _ xbody (ex_intro _ xmbody (ex_intro _ xsync (ex_intro _ _
    (conj kill1_announced no_output_failure_kills)))))).
Qed.
Print Assumptions C53_no_output_failure_refuted.

(** and of a task with two outputs that returns a number. *)
Theorem C53_not_iterable_refuted : exists self body mbody is_async ms,
  announced ms /\ wrun self body mbody is_async winit ms = None.
Proof.
  exact (ex_intro _ 2 (ex_intro _ xbody (ex_intro _ xmbody (ex_intro _ xsync (ex_intro _ _
    (conj kill2_announced not_iterable_kills)))))).
Qed.
Print Assumptions C53_not_iterable_refuted.

(** The history [xms] of worker 2 (see WorkerCases): its log, and that it meets the hypotheses of the
    theorems above. *)
Example C26_to_C32_case : exists w,
  wrun 2 xbody xmbody xsync winit xms = Some w /\
  log w = [EvIn (WPut f0 (VLeaf 0)); EvIn (WPut f1 (VLeaf 1)); EvIn (WPut f2 (VLeaf 2)); EvIn (WOwner y 3);
    EvIn (WExec (req 1 (FRef f2) [VRef y; VList [VLeaf 1; VRef y]] [(7, VRef y)] (OOne z)));
    EvGet 3 y;
    EvIn (WGet 4 z false); EvIn (WGet 0 z true); EvIn (WGet 4 z false);
    EvIn (WExec (req 2 (FRef f1) [VRef f2] [] (OMany [u; v])));
    EvRun 2 (CFun (VLeaf 1)) (VList [VLeaf 2]) (VDict []); EvEnd 2 (RExc 9);
    EvStore u (VExc 9); EvStore v (VExc 9); EvDone [];
    EvIn (WOwner v 2);
    EvIn (WExec (req 3 (FRef f2) [VLeaf 1; VRef v] [] (OOne t)));
    EvEnd 3 (RExc 9); EvStore t (VExc 9); EvDone [];
    EvIn (WPut y (VLeaf 4));
    EvRun 1 (CFun (VLeaf 2)) (VList [VLeaf 4; VList [VLeaf 1; VLeaf 4]]) (VDict [(7, VLeaf 4)]);
    EvEnd 1 (RVal (VLeaf 108)); EvStore z (VLeaf 108);
    EvPut 4 z (VLeaf 108) false; EvPut 0 z (VLeaf 108) true; EvDone [z];
    EvIn (WExec (req 4 (FRef f0) [] [] (OMany [(1, 0); (1, 1)])));
    EvRun 4 (CFun (VLeaf 0)) (VList []) (VDict []); EvEnd 4 (RVal (VTuple [VLeaf 10; VLeaf 11]));
    EvStore (1, 0) (VLeaf 10); EvStore (1, 1) (VLeaf 11); EvDone [(1, 0); (1, 1)];
    EvIn (WOwner z 2);
    EvIn (WActor (req 5 (FMethod 0) [VRef z] [] (OOne (1, 2))));
    EvRun 5 (CMethod 0) (VList [VLeaf 108]) (VDict []); EvEnd 5 (RVal (VTuple [VLeaf 0; VLeaf 108]));
    EvStore (1, 2) (VTuple [VLeaf 0; VLeaf 108]); EvDone [(1, 2)];
    EvIn (WActor (req 6 (FMethod 0) [VRef y] [] (OOne (1, 3))));
    EvRun 6 (CMethod 0) (VList [VLeaf 4]) (VDict []); EvEnd 6 (RVal (VTuple [VLeaf 1; VLeaf 4]));
    EvStore (1, 3) (VTuple [VLeaf 1; VLeaf 4]); EvDone [(1, 3)]] /\
  (forall f a k, no_refs_returned (xbody f a k)) /\ (forall h c, no_refs_returned (xmbody h c)) /\
  no_refs_received xms /\ NoDup (map q_id (received (log w))) /\ Forall plain xms /\ all_enough (log w) /\
  (forall s d b v, In (WGet s d b) xms -> ~ In (WPut d v) xms) /\
  announced xms /\ safe xbody xmbody xms.
Proof.
  exact (match xrun with ex_intro _ w (conj R L) =>
    ex_intro _ w (conj R (conj L (conj xbody_ok (conj xmbody_ok (conj xclean (conj
      (eq_ind_r (fun l => NoDup (map q_id (received l))) xids L) (conj xplain (conj
      (eq_ind_r all_enough xenough L) (conj xget_put (conj xannounced xsafe)))))))))) end).
Qed.

Example C27_case : exists w, wrun 2 xbody xmbody xsync winit (firstn 11 xms) = Some w /\
  ForallOrdPairs independent (execs (firstn 11 xms)) /\ map q_id (pend w) = [1] /\ apend w = [] /\
  available (log w) y = false /\ available (log w) t = true.
Proof. exact xready. Qed.
