(** C67: when everything has ended, cleanups go ahead. [grun workers body mbody is_async mgr ops] is the state after any
    interleaving [ops] of the processes; gcalls are the calls of methods of actors in the root's program. *)
From Verif Require Import Lib ValModel ShmModel PushModel WorkerModel WorkerSpec WorkerCases MonModel
  ClusterModel ClusterSpec ClusterCases ActModel ActSpec ActReclaim ActReclaimCases.

(** All functions and methods are plain functions. When every task and call has ended, all reports have been taken and the
    root is not in get, a cleanup that is tried is sent if and only if the program has called no method of an actor.
    Missing: cleanups after calls of methods, and coroutines (false: the next two). *)
Theorem C67_functions_partial : forall workers body mbody is_async,
  (forall f a k, no_refs_returned (body f a k)) -> (forall h c, no_refs_returned (mbody h c)) -> NoDup workers -> ~ In 0 workers ->
  forall mgr ops ds, (forall c, is_async c = false) -> let g := grun workers body mbody is_async mgr ops in
  gvalid (g_prog g) -> placed workers (g_prog g) -> ~ In RError (c_seen (g_c g)) -> c_left (g_c g) = 0 ->
  (forall dest q, In (dest, q) (gsubmitted (g_prog g)) -> In (q_id q) (ended (log (c_work (g_c g) dest)))) ->
  (forall w, In w workers -> c_done (g_c g) w = []) ->
  mcount (c_mon (g_c g)) = c_tasks (g_c g) + length (gcalls (g_prog g)) /\
  (c_seen (g_c (gstep workers body mbody is_async g (GRoot (GP (RClean ds))))) = c_seen (g_c g) ++ [RCleaned ds] <->
   gcalls (g_prog g) = []) /\
  (gcalls (g_prog g) <> [] ->
   c_seen (g_c (gstep workers body mbody is_async g (GRoot (GP (RClean ds))))) = c_seen (g_c g)).
Proof. exact reclaim_iff. Qed.
Print Assumptions C67_functions_partial.

Example C67_case : gvalid (g_prog rg1) /\ placed [2; 3] (g_prog rg1) /\ ~ In RError (c_seen (g_c rg1)) /\ c_left (g_c rg1) = 0 /\
  (forall dest q, In (dest, q) (gsubmitted (g_prog rg1)) -> In (q_id q) (ended (log (c_work (g_c rg1) dest)))) /\
  (forall w, In w [2; 3] -> c_done (g_c rg1) w = []) /\ length (gsubmitted (g_prog rg1)) = 3 /\
  c_seen (g_c (gstep [2; 3] xbody xmbody xsync rg1 (GRoot (GP (RClean [y]))))) = c_seen (g_c rg1) ++ [RCleaned [y]].
Proof. exact c67_case. Qed.

(** After a call of a method of an actor nothing is cleaned although everything has ended. *)
Theorem C67_calls_refuted : exists workers body mbody is_async,
  (forall f a k, no_refs_returned (body f a k)) /\ (forall h c, no_refs_returned (mbody h c)) /\ NoDup workers /\ ~ In 0 workers /\
  (forall c, is_async c = false) /\ exists mgr ops ds, let g := grun workers body mbody is_async mgr ops in
  gvalid (g_prog g) /\ placed workers (g_prog g) /\ ~ In RError (c_seen (g_c g)) /\ c_left (g_c g) = 0 /\
  (forall dest q, In (dest, q) (gsubmitted (g_prog g)) -> In (q_id q) (ended (log (c_work (g_c g) dest)))) /\
  (forall w, In w workers -> c_done (g_c g) w = []) /\
  c_seen (g_c (gstep workers body mbody is_async g (GRoot (GP (RClean ds))))) = c_seen (g_c g).
Proof. exact c67_calls. Qed.
Print Assumptions C67_calls_refuted.

(** Nor after a coroutine has failed. *)
Theorem C67_coroutine_refuted : exists workers body mbody is_async,
  (forall f a k, no_refs_returned (body f a k)) /\ (forall h c, no_refs_returned (mbody h c)) /\ NoDup workers /\ ~ In 0 workers /\
  exists mgr ops ds, let g := grun workers body mbody is_async mgr ops in
  gvalid (g_prog g) /\ placed workers (g_prog g) /\ gcalls (g_prog g) = [] /\ ~ In RError (c_seen (g_c g)) /\ c_left (g_c g) = 0 /\
  (forall dest q, In (dest, q) (gsubmitted (g_prog g)) -> In (q_id q) (ended (log (c_work (g_c g) dest)))) /\
  (forall w, In w workers -> c_done (g_c g) w = [] /\ running (c_work (g_c g) w) = []) /\ idle (g_c g) /\
  c_seen (g_c (gstep workers body mbody is_async g (GRoot (GP (RClean ds))))) = c_seen (g_c g).
Proof. exact c67_coroutine. Qed.
Print Assumptions C67_coroutine_refuted.
