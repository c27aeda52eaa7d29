(** MPI with actors: programs that wait for the result of a call. *)
From Verif Require Import Lib ValModel ShmModel PushModel WorkerModel WorkerSpec WorkerCases MonModel
  ClusterModel ClusterSpec ClusterCases ActModel ActSpec ActGives ActProofs ActThms ActCases ActWaitSpec ActWait ActWaitDirect ActWaitCases
  ActHeldDirect ActHeldCases.

(** C61: two calls on one worker are carried out in the order of the program, whatever references the first one is
    given and also if methods are coroutines, if the program gets a result of the first call before it makes the
    second. The get returned, or asked for this result only and raised it; none of the first one's arguments is an
    exception. Missing: programs that do not wait (false: C61_order_refuted). *)
Theorem C61_order_waits_partial : forall workers body mbody is_async,
  (forall f a k, no_refs_returned (body f a k)) -> (forall h c, no_refs_returned (mbody h c)) -> forall mgr ops,
  let g := grun workers body mbody is_async mgr ops in gvalid (g_prog g) -> ~ In RError (c_seen (g_c g)) ->
  forall a w nd1 q1 b ds b' nd2 q2 d x,
  g_prog g = a ++ GC w nd1 q1 :: b ++ GP (RGet ds) :: b' ++ GC w nd2 q2 :: d ->
  In x (out_ids (q_out q1)) -> In x ds -> (forall e, In (RRaised ds e) (c_seen (g_c g)) -> ds = [x]) ->
  (forall env, (forall x, In x (qrefs q1) -> gives body mbody (g_prog g) (history_of g) x (env x)) ->
     first_failure (arguments (subst env (q_args q1)) (subst env (q_kwargs q1))) = None) ->
  In (q_id q2) (map fst (history_of g w)) -> precedes (q_id q1) (q_id q2) (map fst (history_of g w)).
Proof. exact waits_in_order. Qed.
Print Assumptions C61_order_waits_partial.

Example C61_order_waits_case : gvalid (g_prog agw) /\ ~ In RError (c_seen (g_c agw)) /\
  g_prog agw = firstn 3 aprogw ++ GC 3 nm wait1 :: [] ++ GP (RGet [y; z]) :: [] ++ GC 3 nm wait2 :: [GP (RGet [v])] /\
  In z (out_ids (q_out wait1)) /\ In z [y; z] /\ (forall e, In (RRaised [y; z] e) (c_seen (g_c agw)) -> [y; z] = [z]) /\
  (forall env, (forall x, In x (qrefs wait1) -> gives xbody xmbody (g_prog agw) (history_of agw) x (env x)) ->
     first_failure (arguments (subst env (q_args wait1)) (subst env (q_kwargs wait1))) = None) /\
  ~ held (firstn 3 aprogw) (c_seen (g_c agw)) y /\ map fst (history_of agw 3) = [2; 3].
Proof. exact waits_case. Qed.

(** A program that gets a result of each call of a method before it makes the next call on the same worker, and uses
    references after they were made, gets the values that direct execution gives them, on every schedule, also if
    functions or methods are coroutines; and what get raises is the value of one of the references. Missing: programs
    that do not wait (false: C61_order_refuted). *)
Theorem C61_direct_partial : forall workers body mbody is_async,
  (forall f a k, no_refs_returned (body f a k)) -> (forall h c, no_refs_returned (mbody h c)) -> forall mgr ops,
  let g := grun workers body mbody is_async mgr ops in
  gvalid (g_prog g) -> scoped (g_prog g) -> ~ In RError (c_seen (g_c g)) -> waits_for_calls (g_prog g) (c_seen (g_c g)) ->
  (forall ds vs, In (RGot ds vs) (c_seen (g_c g)) -> Forall2 (fun d v => dvals (direct body mbody (g_prog g)) d = Some v) ds vs) /\
  (forall ds e, In (RRaised ds e) (c_seen (g_c g)) -> exists d, In d ds /\ dvals (direct body mbody (g_prog g)) d = Some (VExc e)).
Proof. exact waiting_direct. Qed.
Print Assumptions C61_direct_partial.

Example C61_direct_case : gvalid (g_prog agd) /\ scoped (g_prog agd) /\ ~ In RError (c_seen (g_c agd)) /\
  waits_for_calls (g_prog agd) (c_seen (g_c agd)) /\
  In (RGot [(1, 3); y] [VLeaf 2; VLeaf 3]) (c_seen (g_c agd)) /\ In (RRaised [(1, 2)] 9) (c_seen (g_c agd)) /\
  dvals (direct xbody xmbody (g_prog agd)) (1, 3) = Some (VLeaf 2).
Proof. exact direct_case. Qed.

(** Without coroutines, the calls whose arguments the program has - plain values, and references to values that it put
    or has got and not given up - need not be waited for. Missing: calls given references to values that the program
    does not have, followed by a call on the same worker without waiting (false: C61_order_refuted). *)
Theorem C61_direct_held_partial : forall workers body mbody is_async,
  (forall f a k, no_refs_returned (body f a k)) -> (forall h c, no_refs_returned (mbody h c)) -> forall mgr ops,
  NoDup workers -> (forall c, is_async c = false) -> let g := grun workers body mbody is_async mgr ops in
  gvalid (g_prog g) -> placed workers (g_prog g) -> scoped (g_prog g) -> ~ In RError (c_seen (g_c g)) ->
  waits_or_holds (g_prog g) (c_seen (g_c g)) ->
  (forall ds vs, In (RGot ds vs) (c_seen (g_c g)) -> Forall2 (fun d v => dvals (direct body mbody (g_prog g)) d = Some v) ds vs) /\
  (forall ds e, In (RRaised ds e) (c_seen (g_c g)) -> exists d, In d ds /\ dvals (direct body mbody (g_prog g)) d = Some (VExc e)).
Proof. exact orderly_direct. Qed.
Print Assumptions C61_direct_held_partial.

Example C61_direct_held_case : gvalid (g_prog agh) /\ placed [2; 3] (g_prog agh) /\ scoped (g_prog agh) /\
  ~ In RError (c_seen (g_c agh)) /\ waits_or_holds (g_prog agh) (c_seen (g_c agh)) /\
  ~ waits_for_calls (g_prog agh) (c_seen (g_c agh)) /\
  In (RGot [y; z; (1, 2); (1, 0)] [VLeaf 0; VLeaf 1; VLeaf 5; VLeaf 3]) (c_seen (g_c agh)) /\
  dvals (direct xbody xmbody (g_prog agh)) (1, 0) = Some (VLeaf 3).
Proof. exact held_direct_case. Qed.

(** What such a program gets does not depend on the schedule. *)
Theorem C61_schedule_partial : forall workers body mbody is_async,
  (forall f a k, no_refs_returned (body f a k)) -> (forall h c, no_refs_returned (mbody h c)) ->
  NoDup workers -> (forall c, is_async c = false) -> forall mgr ops mgr' ops',
  let g := grun workers body mbody is_async mgr ops in let g' := grun workers body mbody is_async mgr' ops' in
  g_prog g = g_prog g' -> gvalid (g_prog g) -> placed workers (g_prog g) -> scoped (g_prog g) ->
  ~ In RError (c_seen (g_c g)) -> waits_or_holds (g_prog g) (c_seen (g_c g)) ->
  ~ In RError (c_seen (g_c g')) -> waits_or_holds (g_prog g') (c_seen (g_c g')) ->
  forall ds vs vs', In (RGot ds vs) (c_seen (g_c g)) -> In (RGot ds vs') (c_seen (g_c g')) -> vs = vs'.
Proof. exact same_results. Qed.
Print Assumptions C61_schedule_partial.

Example C61_schedule_case : aopsh <> aopsi /\ g_prog agh = g_prog agi /\ gvalid (g_prog agh) /\ placed [2; 3] (g_prog agh) /\ scoped (g_prog agh) /\
  ~ In RError (c_seen (g_c agh)) /\ waits_or_holds (g_prog agh) (c_seen (g_c agh)) /\
  ~ In RError (c_seen (g_c agi)) /\ waits_or_holds (g_prog agi) (c_seen (g_c agi)) /\
  In (RGot [v] [VLeaf 2]) (c_seen (g_c agh)) /\ In (RGot [v] [VLeaf 2]) (c_seen (g_c agi)).
Proof. exact same_case. Qed.
