(** MPI with actors: every run can be completed, from any point of any schedule. *)
From Verif Require Import Lib ValModel ShmModel PushModel WorkerModel WorkerSpec WorkerCases MonModel
  ClusterModel ClusterSpec ClusterCases ActModel ActSpec ActGives ActEnd ActCases ActWaitSpec ActHeldCases ActDone ActDoneDirect.

(** C63: whatever was delivered and in whatever order, the rest of the program can be carried out to its end: every get
    has an answer, every task and call has ended and nothing is on its way. Missing: coroutines (false: C63_coroutine_refuted), cleanups, and tasks
    that need the result of a call on their own rank (false: C63_actor_refuted). *)
Theorem C63_complete_partial : forall workers body mbody is_async,
  (forall f a k, no_refs_returned (body f a k)) -> (forall h c, no_refs_returned (mbody h c)) ->
  (forall c, is_async c = false) -> ~ In 0 workers -> NoDup workers ->
  forall mgr ops r, let prog := g_prog (grun workers body mbody is_async mgr ops) ++ r in
  gvalid prog -> valid workers (map as_task prog) -> tidy (map as_task prog) -> (forall ds, ~ In (GP (RClean ds)) prog) ->
  greturns_enough body mbody prog -> separate prog ->
  exists more, let g := grun workers body mbody is_async mgr (ops ++ more) in
    g_prog g = prog /\ idle (g_c g) /\ c_left (g_c g) = 0 /\
    ~ In RError (c_seen (g_c g)) /\ gets_over (c_seen (g_c g)) = gets_of (map as_task prog) /\
    forall dest q, In (dest, q) (gsubmitted prog) -> In (q_id q) (ended (log (c_work (g_c g) dest))).
Proof. exact can_be_completed. Qed.
Print Assumptions C63_complete_partial.

Example C63_complete_case : let prog := g_prog agj ++ skipn 5 aprogh in
  gvalid prog /\ valid [2; 3] (map as_task prog) /\ tidy (map as_task prog) /\ (forall ds, ~ In (GP (RClean ds)) prog) /\
  greturns_enough xbody xmbody prog /\ separate prog /\ (forall seen, waits_or_holds prog seen) /\
  gets_of (map as_task prog) = [[v]; [y; z; (1, 2); (1, 0)]] /\ c_seen (g_c agj) = [] /\ length (c_chan (g_c agj) 0 3) = 4.
Proof. exact completed_case. Qed.

(** C61: if besides the program waits for each call, or has the values of its arguments, all its gets end with the
    results of direct execution. Missing: as above, and programs that do neither. *)
Theorem C61_complete_partial : forall workers body mbody is_async,
  (forall f a k, no_refs_returned (body f a k)) -> (forall h c, no_refs_returned (mbody h c)) ->
  (forall c, is_async c = false) -> ~ In 0 workers -> NoDup workers ->
  forall mgr ops r, let prog := g_prog (grun workers body mbody is_async mgr ops) ++ r in
  gvalid prog -> valid workers (map as_task prog) -> tidy (map as_task prog) -> (forall ds, ~ In (GP (RClean ds)) prog) ->
  greturns_enough body mbody prog -> separate prog -> (forall seen, waits_or_holds prog seen) ->
  exists more, let g := grun workers body mbody is_async mgr (ops ++ more) in g_prog g = prog /\ c_left (g_c g) = 0 /\
    gets_over (c_seen (g_c g)) = gets_of (map as_task prog) /\
    (forall ds vs, In (RGot ds vs) (c_seen (g_c g)) -> Forall2 (fun d v => dvals (direct body mbody prog) d = Some v) ds vs) /\
    (forall ds e, In (RRaised ds e) (c_seen (g_c g)) -> exists d, In d ds /\ dvals (direct body mbody prog) d = Some (VExc e)).
Proof. exact completed_direct. Qed.
Print Assumptions C61_complete_partial.

Example C61_complete_case : let prog := g_prog agj ++ skipn 5 aprogh in
  gvalid prog /\ valid [2; 3] (map as_task prog) /\ tidy (map as_task prog) /\ (forall ds, ~ In (GP (RClean ds)) prog) /\
  greturns_enough xbody xmbody prog /\ separate prog /\ (forall seen, waits_or_holds prog seen) /\
  gets_of (map as_task prog) = [[v]; [y; z; (1, 2); (1, 0)]] /\ c_seen (g_c agj) = [] /\ length (c_chan (g_c agj) 0 3) = 4.
Proof. exact completed_case. Qed.
