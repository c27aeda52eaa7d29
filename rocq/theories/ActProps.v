(** The MPI backend as a whole with actors and coroutines: what get returns, the order of calls, and cleanups.
    The meaning of programs is in ActSpec. *)
From Verif Require Import Lib ValModel ShmModel PushModel WorkerModel WorkerSpec WorkerCases MonModel
  ClusterModel ClusterSpec ClusterCases ActModel ActSpec ActProofs ActCount ActThms ActOrder ActEnd ActCases.

(** C61: what get returns are the values the program gives, with calls carried out one after another on each worker. *)
Theorem C61_values : forall workers body mbody is_async,
  (forall f a k, no_refs_returned (body f a k)) -> (forall h c, no_refs_returned (mbody h c)) -> forall mgr ops,
  let g := grun workers body mbody is_async mgr ops in gvalid (g_prog g) ->
  forall ds vs, In (RGot ds vs) (c_seen (g_c g)) -> Forall2 (gives body mbody (g_prog g) (history_of g)) ds vs.
Proof. exact got_values. Qed.
Print Assumptions C61_values.

(** What get raises is the value of one of the references. *)
Theorem C61_exceptions : forall workers body mbody is_async,
  (forall f a k, no_refs_returned (body f a k)) -> (forall h c, no_refs_returned (mbody h c)) -> forall mgr ops,
  let g := grun workers body mbody is_async mgr ops in gvalid (g_prog g) ->
  forall ds e, In (RRaised ds e) (c_seen (g_c g)) ->
  exists d, In d ds /\ gives body mbody (g_prog g) (history_of g) d (VExc e).
Proof. exact raised_values. Qed.
Print Assumptions C61_exceptions.

(** The root's and the workers' stores hold nothing else. *)
Theorem C61_stores : forall workers body mbody is_async,
  (forall f a k, no_refs_returned (body f a k)) -> (forall h c, no_refs_returned (mbody h c)) -> forall mgr ops,
  let g := grun workers body mbody is_async mgr ops in gvalid (g_prog g) ->
  (forall d v, c_vals (g_c g) d = Some v -> gives body mbody (g_prog g) (history_of g) d v) /\
  (forall w d v, w <> 0 -> store (c_work (g_c g) w) d = Some v -> gives body mbody (g_prog g) (history_of g) d v).
Proof. exact stores_give_all. Qed.
Print Assumptions C61_stores.

(** A reference has one value ... *)
Theorem C61_one_value : forall workers body mbody is_async,
  (forall f a k, no_refs_returned (body f a k)) -> (forall h c, no_refs_returned (mbody h c)) -> forall mgr ops,
  let g := grun workers body mbody is_async mgr ops in gvalid (g_prog g) ->
  forall d v v', gives body mbody (g_prog g) (history_of g) d v -> gives body mbody (g_prog g) (history_of g) d v' -> v = v'.
Proof. exact one_value. Qed.
Print Assumptions C61_one_value.

(** ... which stays the same whatever happens later ... *)
Theorem C61_stable : forall workers body mbody is_async,
  (forall f a k, no_refs_returned (body f a k)) -> (forall h c, no_refs_returned (mbody h c)) -> forall mgr ops more,
  let g := grun workers body mbody is_async mgr ops in let g' := grun workers body mbody is_async mgr (ops ++ more) in
  gvalid (g_prog g') -> forall d v,
  gives body mbody (g_prog g) (history_of g) d v -> gives body mbody (g_prog g') (history_of g') d v.
Proof. exact values_stay. Qed.
Print Assumptions C61_stable.

(** ... and the calls carried out on a worker are calls of the program there, each once, with the values of their
    arguments. *)
Theorem C61_history : forall workers body mbody is_async,
  (forall f a k, no_refs_returned (body f a k)) -> (forall h c, no_refs_returned (mbody h c)) -> forall mgr ops,
  let g := grun workers body mbody is_async mgr ops in gvalid (g_prog g) ->
  forall w n x, In (n, x) (history_of g w) ->
  exists nd q m env, In (GC w nd q) (g_prog g) /\ q_id q = n /\ q_fn q = FMethod m /\
    (forall d, In d (qrefs q) -> gives body mbody (g_prog g) (history_of g) d (env d)) /\
    x = {| c_method := m; c_args := subst env (q_args q); c_kwargs := subst env (q_kwargs q) |}.
Proof. exact history_real. Qed.
Print Assumptions C61_history.

Theorem C61_once : forall workers body mbody is_async,
  (forall f a k, no_refs_returned (body f a k)) -> (forall h c, no_refs_returned (mbody h c)) -> forall mgr ops,
  let g := grun workers body mbody is_async mgr ops in gvalid (g_prog g) -> forall w, NoDup (map fst (history_of g w)).
Proof. exact history_once. Qed.
Print Assumptions C61_once.

Example C61_case : gvalid (g_prog ag1) /\
  In (RGot [z; v; u; t; (1, 0)] [VLeaf 1; VLeaf 3; VLeaf 0; VLeaf 7; VLeaf 8]) (c_seen (g_c ag1)) /\
  In (RRaised [(1, 2)] 9) (c_seen (g_c ag1)) /\
  history_of ag1 3 = [(3, {| c_method := 1; c_args := VList [VLeaf 7]; c_kwargs := VDict [] |});
                      (2, {| c_method := 0; c_args := VList [VLeaf 3]; c_kwargs := VDict [] |})] /\
  store (c_work (g_c ag1) 3) y = Some (VLeaf 3).
Proof. exact c61_case. Qed.

(** Two calls on one worker are carried out in the order of the program, if the program has the value of every
    reference in the first one's arguments when it makes the call - it put it or has got it, and has not given it up - and
    none of these arguments is an exception. Missing: calls given references to values that the program does not have
    (false: C61_order_refuted) and coroutines (C48). *)
Theorem C61_order_partial : forall workers body mbody is_async,
  (forall f a k, no_refs_returned (body f a k)) -> (forall h c, no_refs_returned (mbody h c)) -> forall mgr ops,
  NoDup workers -> (forall c, is_async c = false) ->
  let g := grun workers body mbody is_async mgr ops in
  gvalid (g_prog g) -> placed workers (g_prog g) -> ~ In RError (c_seen (g_c g)) ->
  forall a w nd1 q1 b nd2 q2 d, g_prog g = a ++ GC w nd1 q1 :: b ++ GC w nd2 q2 :: d ->
  (forall x, In x (qrefs q1) -> held a (c_seen (g_c g)) x) ->
  (forall env, (forall x, In x (qrefs q1) -> gives body mbody (g_prog g) (history_of g) x (env x)) ->
     first_failure (arguments (subst env (q_args q1)) (subst env (q_kwargs q1))) = None) ->
  In (q_id q2) (map fst (history_of g w)) -> precedes (q_id q1) (q_id q2) (map fst (history_of g w)).
Proof. exact held_in_order. Qed.
Print Assumptions C61_order_partial.

Example C61_order_case : gvalid (g_prog ag2) /\ placed [2; 3] (g_prog ag2) /\ ~ In RError (c_seen (g_c ag2)) /\
  g_prog ag2 = firstn 5 aprog2 ++ GC 3 nm held1 :: firstn 1 (skipn 6 aprog2) ++ GC 3 nm free1 :: [] /\
  qrefs held1 = [t; y] /\ (forall x, In x (qrefs held1) -> held (firstn 5 aprog2) (c_seen (g_c ag2)) x) /\
  (forall env, (forall x, In x (qrefs held1) -> gives xbody xmbody (g_prog ag2) (history_of ag2) x (env x)) ->
     first_failure (arguments (subst env (q_args held1)) (subst env (q_kwargs held1))) = None) /\
  map fst (history_of ag2 3) = [2; 3].
Proof. exact c61_order_case. Qed.

(** In general the second call can overtake the first. *)
Theorem C61_order_refuted : exists workers body mbody is_async,
  (forall f a k, no_refs_returned (body f a k)) /\ (forall h c, no_refs_returned (mbody h c)) /\ NoDup workers /\
  (forall c, is_async c = false) /\ exists mgr ops, let g := grun workers body mbody is_async mgr ops in
  gvalid (g_prog g) /\ placed workers (g_prog g) /\ ~ In RError (c_seen (g_c g)) /\
  exists a w nd1 q1 b nd2 q2 d, g_prog g = a ++ GC w nd1 q1 :: b ++ GC w nd2 q2 :: d /\
    precedes (q_id q2) (q_id q1) (map fst (history_of g w)).
Proof. exact c61_refuted. Qed.
Print Assumptions C61_order_refuted.

(** C62: a cleanup is sent only when no task is open: proved when no methods of actors were called, also with coroutines.
    Missing: programs with calls (false: C62_refuted). *)
Theorem C62_no_calls_partial : forall workers body mbody is_async,
  (forall f a k, no_refs_returned (body f a k)) -> (forall h c, no_refs_returned (mbody h c)) -> NoDup workers ->
  forall mgr ops ds, ~ In 0 workers ->
  let g := grun workers body mbody is_async mgr ops in
  gvalid (g_prog g) -> placed workers (g_prog g) -> gcalls (g_prog g) = [] ->
  c_seen (g_c (gstep workers body mbody is_async g (GRoot (GP (RClean ds))))) = c_seen (g_c g) ++ [RCleaned ds] ->
  (forall w, In w workers -> pend (c_work (g_c g) w) = [] /\ running (c_work (g_c g) w) = []) /\
  (~ In RError (c_seen (g_c g)) ->
    forall dest q, In (GP (RSubmit dest q)) (g_prog g) -> In (q_id q) (ended (log (c_work (g_c g) dest)))).
Proof. exact cleaned_all. Qed.
Print Assumptions C62_no_calls_partial.

Example C62_case : gvalid (g_prog ag5) /\ placed [2; 3] (g_prog ag5) /\ gcalls (g_prog ag5) = [] /\ ~ In RError (c_seen (g_c ag5)) /\
  c_seen (g_c (gstep [2; 3] xbody xmbody xasync ag5 (GRoot (GP (RClean [y]))))) = c_seen (g_c ag5) ++ [RCleaned [y]] /\
  ended (log (c_work (g_c ag5) 2)) = [1] /\ ended (log (c_work (g_c ag5) 3)) = [2] /\
  In (EvIn (WFinish 0)) (log (c_work (g_c ag5) 2)).
Proof. exact c62_case. Qed.

(** With calls, at most as many tasks and calls are open as methods were called. *)
Theorem C62_few_partial : forall workers body mbody is_async,
  (forall f a k, no_refs_returned (body f a k)) -> (forall h c, no_refs_returned (mbody h c)) -> NoDup workers ->
  forall mgr ops ds, ~ In 0 workers ->
  let g := grun workers body mbody is_async mgr ops in
  gvalid (g_prog g) -> placed workers (g_prog g) ->
  c_seen (g_c (gstep workers body mbody is_async g (GRoot (GP (RClean ds))))) = c_seen (g_c g) ++ [RCleaned ds] ->
  ~ In RError (c_seen (g_c g)) ->
  exists l, length l <= length (gcalls (g_prog g)) /\
    forall dest q, In (dest, q) (gsubmitted (g_prog g)) -> In (q_id q) (ended (log (c_work (g_c g) dest))) \/ In (q_id q) l.
Proof. exact cleaned_few. Qed.
Print Assumptions C62_few_partial.

Example C62_few_case : let g := grun [2; 3] xbody xmbody xsync cmgr (firstn 12 aops4) in
  gvalid (g_prog g) /\ placed [2; 3] (g_prog g) /\ length (gcalls (g_prog g)) = 1 /\ ~ In RError (c_seen (g_c g)) /\
  c_seen (g_c (gstep [2; 3] xbody xmbody xsync g (GRoot (GP (RClean [y]))))) = c_seen (g_c g) ++ [RCleaned [y]].
Proof. exact c62_few_case. Qed.

(** A cleanup with an open task: the task's argument is removed, the task never ends and get waits for ever. *)
Theorem C62_refuted : exists workers body mbody is_async,
  (forall f a k, no_refs_returned (body f a k)) /\ (forall h c, no_refs_returned (mbody h c)) /\ NoDup workers /\ ~ In 0 workers /\
  (forall c, is_async c = false) /\ exists mgr ops, let g := grun workers body mbody is_async mgr ops in
  gvalid (g_prog g) /\ valid workers (map as_task (g_prog g)) /\ tidy (map as_task (g_prog g)) /\
  (forall w, c_dead (g_c g) w = false) /\ ~ In RError (c_seen (g_c g)) /\ idle (g_c g) /\
  (exists ds, In (RCleaned ds) (c_seen (g_c g))) /\ c_left (g_c g) <> 0 /\
  exists dest q, In (GP (RSubmit dest q)) (g_prog g) /\ ~ In (q_id q) (ended (log (c_work (g_c g) dest))).
Proof. exact c62_refuted. Qed.
Print Assumptions C62_refuted.

(** C63: a program without cleanups can get stuck, with coroutines only ... *)
Theorem C63_coroutine_refuted : exists workers body mbody is_async,
  (forall f a k, no_refs_returned (body f a k)) /\ (forall h c, no_refs_returned (mbody h c)) /\ NoDup workers /\ ~ In 0 workers /\
  exists mgr ops, let g := grun workers body mbody is_async mgr ops in
  gvalid (g_prog g) /\ valid workers (map as_task (g_prog g)) /\ gcalls (g_prog g) = [] /\ stuck g.
Proof. exact c63_coroutine. Qed.
Print Assumptions C63_coroutine_refuted.

(** ... and with calls only. *)
Theorem C63_actor_refuted : exists workers body mbody is_async,
  (forall f a k, no_refs_returned (body f a k)) /\ (forall h c, no_refs_returned (mbody h c)) /\ NoDup workers /\ ~ In 0 workers /\
  (forall c, is_async c = false) /\
  exists mgr ops, let g := grun workers body mbody is_async mgr ops in
  gvalid (g_prog g) /\ valid workers (map as_task (g_prog g)) /\ stuck g.
Proof. exact c63_actor. Qed.
Print Assumptions C63_actor_refuted.

(** When tasks and methods are functions, there are no cleanups, and no task needs a result of a call on its own worker
    nor a call that of a task there: no worker dies and no operation of the root fails, and when no message is under way
    the root is not waiting in a get and every task and call has ended.
    Missing: coroutines and dependences between tasks and calls on one worker (refuted above); cleanups. *)
Theorem C63_nothing_stuck_partial : forall workers body mbody is_async,
  (forall f a k, no_refs_returned (body f a k)) -> (forall h c, no_refs_returned (mbody h c)) ->
  (forall c, is_async c = false) -> ~ In 0 workers -> NoDup workers ->
  forall mgr ops, let g := grun workers body mbody is_async mgr ops in
  gvalid (g_prog g) -> valid workers (map as_task (g_prog g)) -> tidy (map as_task (g_prog g)) ->
  (forall ds, ~ In (GP (RClean ds)) (g_prog g)) -> greturns_enough body mbody (g_prog g) -> separate (g_prog g) ->
  (forall w, c_dead (g_c g) w = false) /\ ~ In RError (c_seen (g_c g)) /\
  (idle (g_c g) -> c_left (g_c g) = 0 /\
    forall dest q, In (dest, q) (gsubmitted (g_prog g)) -> In (q_id q) (ended (log (c_work (g_c g) dest)))).
Proof. exact act_not_stuck. Qed.
Print Assumptions C63_nothing_stuck_partial.

(** A message under way can always be taken, and every sequence of deliveries ends. *)
Theorem C63_deliveries_end_partial : forall workers body mbody is_async,
  (forall f a k, no_refs_returned (body f a k)) -> (forall h c, no_refs_returned (mbody h c)) ->
  (forall c, is_async c = false) -> ~ In 0 workers -> NoDup workers ->
  forall mgr ops, let g := grun workers body mbody is_async mgr ops in
  gvalid (g_prog g) -> valid workers (map as_task (g_prog g)) -> tidy (map as_task (g_prog g)) ->
  (forall ds, ~ In (GP (RClean ds)) (g_prog g)) -> greturns_enough body mbody (g_prog g) ->
  (forall s d m l, c_chan (g_c g) s d = m :: l ->
     c_in (g_c (gstep workers body mbody is_async g (if Nat.eqb d 0 then GReply s else GTake s d))) d = c_in (g_c g) d ++ [(s, m)]) /\
  Acc (fun y x => gdelivery workers body mbody is_async x y) g.
Proof. exact act_deliveries. Qed.
Print Assumptions C63_deliveries_end_partial.

(** Every call of get returns or raises, in the order of the program, except the one in progress. *)
Theorem C63_gets_answered_partial : forall workers body mbody is_async,
  (forall f a k, no_refs_returned (body f a k)) -> (forall h c, no_refs_returned (mbody h c)) ->
  (forall c, is_async c = false) -> ~ In 0 workers -> NoDup workers ->
  forall mgr ops, let g := grun workers body mbody is_async mgr ops in
  gvalid (g_prog g) -> valid workers (map as_task (g_prog g)) -> tidy (map as_task (g_prog g)) ->
  (forall ds, ~ In (GP (RClean ds)) (g_prog g)) -> greturns_enough body mbody (g_prog g) ->
  gets_over (c_seen (g_c g)) ++ (if Nat.eqb (c_left (g_c g)) 0 then [] else [c_want (g_c g)]) = gets_of (map as_task (g_prog g)).
Proof. exact act_gets. Qed.
Print Assumptions C63_gets_answered_partial.

Example C63_case : gvalid (g_prog ag9) /\ valid [2; 3] (map as_task (g_prog ag9)) /\ tidy (map as_task (g_prog ag9)) /\
  (forall ds, ~ In (GP (RClean ds)) (g_prog ag9)) /\ greturns_enough xbody xmbody (g_prog ag9) /\ separate (g_prog ag9) /\
  idle (g_c ag9) /\ In (3, req 3 (FMethod 1) [VRef u; VList [VRef z]; VLeaf 1] [] (OMany [v; t])) (gsubmitted (g_prog ag9)) /\
  c_seen (g_c ag9) = [RGot [(1, 1); v] [VLeaf 104; VLeaf 1]].
Proof. exact c63_case. Qed.
