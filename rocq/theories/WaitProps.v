(** wait in the MPI backend as a whole, with tasks, calls and coroutines. The words used are in WaitSpec and ActSpec. *)
From Verif Require Import Lib ValModel ShmModel PushModel WorkerModel WorkerSpec WorkerCases MonModel MonSpec CtrlModel
  ClusterModel ClusterSpec ClusterCases ActModel ActSpec ActCases WaitModel WaitSpec WaitThms WaitCases.
From Coq Require Import Permutation.

(** C64: what wait returns is a partition of the references into as many as asked for, each of them finished, and the
    rest. *)
Theorem C64_partition : forall workers body mbody is_async,
  (forall f a k, no_refs_returned (body f a k)) -> (forall h c, no_refs_returned (mbody h c)) -> forall mgr ops,
  let v := vrun workers body mbody is_async mgr ops in gvalid (g_prog (v_g v)) ->
  forall ds n r nr, In (WGave ds n r nr) (v_seen v) ->
  (1 <= n <= Z.of_nat (length ds))%Z /\ Permutation (r ++ nr) ds /\ Z.of_nat (length r) = n /\ Forall (finished (v_g v)) r.
Proof. exact wait_sound. Qed.
Print Assumptions C64_partition.

Example C64_case : gvalid (g_prog (v_g vg1)) /\ In (WGave [z; (1, 1); u] 2 [(1, 1); z] [u]) (v_seen vg1) /\
  In (WGave [y; f2; (1, 1); v] 3 [f2; y; v] [(1, 1)]) (v_seen vg1).
Proof. exact c64_sound_case. Qed.

(** Calls of wait return in the order of the program; only the last can be pending, and none raises a KeyError. *)
Theorem C64_in_order : forall workers body mbody is_async,
  (forall f a k, no_refs_returned (body f a k)) -> (forall h c, no_refs_returned (mbody h c)) -> forall mgr ops,
  let v := vrun workers body mbody is_async mgr ops in gvalid (g_prog (v_g v)) ->
  map call_of (v_seen v) ++ waiting v = v_calls v /\ forall ds n, ~ In (WFailed ds n) (v_seen v).
Proof. exact waits_in_order. Qed.
Print Assumptions C64_in_order.

(** wait changes nothing else: without the calls of wait some execution of the program has the same results of get,
    the same stores, workers and messages. So what is proved of those (C61, C62, C63) holds with wait as well. *)
Theorem C64_transparent : forall workers body mbody is_async mgr ops, exists ops',
  let g := grun workers body mbody is_async mgr ops' in let c := g_c g in
  let c' := g_c (v_g (vrun workers body mbody is_async mgr ops)) in
  g_prog g = g_prog (v_g (vrun workers body mbody is_async mgr ops)) /\ c_seen c = c_seen c' /\ c_vals c = c_vals c' /\
  c_work c = c_work c' /\ c_chan c = c_chan c' /\ c_left c = c_left c'.
Proof. exact waits_transparent. Qed.
Print Assumptions C64_transparent.

(** When no message is under way, a call of wait for n references, n of which are held by the root or results of tasks
    or calls that returned, is over. Missing: references to the results of tasks that failed (C64_failed_refuted), and
    num_returns = 0 (C64_zero_refuted). *)
Theorem C64_wait_ends_partial : forall workers body mbody is_async,
  (forall f a k, no_refs_returned (body f a k)) -> (forall h c, no_refs_returned (mbody h c)) -> forall mgr ops,
  let v := vrun workers body mbody is_async mgr ops in gvalid (g_prog (v_g v)) -> settled v ->
  forall ds n l l', In (ds, n) (v_calls v) -> Permutation (l ++ l') ds -> Forall (ended_well (v_g v)) l ->
  (1 <= n <= Z.of_nat (length l))%Z -> exists r nr, In (WGave ds n r nr) (v_seen v).
Proof. exact wait_returns. Qed.
Print Assumptions C64_wait_ends_partial.

Example C64_ends_case : gvalid (g_prog (v_g vg1)) /\ settled vg1 /\ In ([z; (1, 1); u], 2%Z) (v_calls vg1) /\
  Permutation ([z; u] ++ [(1, 1)]) [z; (1, 1); u] /\ Forall (ended_well (v_g vg1)) [z; u].
Proof. exact c64_ends_case. Qed.

(** Programs of functions and methods that are not coroutines, without cleanups (conditions of C63): when no message is
    under way and no task or call has failed, get is not waiting and every call of wait on references the program may
    use, for at least one and at most all of them, is over.
    Missing: as in C63 and C64_wait_ends_partial. *)
Theorem C64_nothing_stuck_partial : forall workers body mbody is_async,
  (forall f a k, no_refs_returned (body f a k)) -> (forall h c, no_refs_returned (mbody h c)) ->
  (forall c, is_async c = false) -> ~ In 0 workers -> NoDup workers ->
  forall mgr ops, let v := vrun workers body mbody is_async mgr ops in let prog := g_prog (v_g v) in
  gvalid prog -> valid workers (map as_task prog) -> tidy (map as_task prog) ->
  (forall ds, ~ In (GP (RClean ds)) prog) -> greturns_enough body mbody prog -> separate prog ->
  (forall w, c_dead (g_c (v_g v)) w = false) /\ ~ In RError (c_seen (g_c (v_g v))) /\
  (settled v -> c_left (g_c (v_g v)) = 0 /\ over v /\
    (none_failed (v_g v) -> forall ds n, In (ds, n) (v_calls v) -> Forall (usable prog) ds -> (1 <= n <= Z.of_nat (length ds))%Z ->
      exists r nr, In (WGave ds n r nr) (v_seen v))).
Proof. exact waits_not_stuck. Qed.
Print Assumptions C64_nothing_stuck_partial.

Example C64_stuck_case : let prog := g_prog (v_g vg1) in
  gvalid prog /\ valid [2; 3] (map as_task prog) /\ tidy (map as_task prog) /\
  (forall ds, ~ In (GP (RClean ds)) prog) /\ greturns_enough xbody xmbody prog /\ separate prog /\ settled vg1 /\
  none_failed (v_g vg1) /\ In ([y; f2; (1, 1); v], 3%Z) (v_calls vg1) /\ Forall (usable prog) [y; f2; (1, 1); v].
Proof. exact c64_stuck_case. Qed.

(** A wait on the result of a task that raises never ends, though everything else is over ... *)
Theorem C64_failed_refuted : exists workers body mbody is_async,
  (forall f a k, no_refs_returned (body f a k)) /\ (forall h c, no_refs_returned (mbody h c)) /\ (forall c, is_async c = false) /\
  exists mgr ops, let v := vrun workers body mbody is_async mgr ops in
  gvalid (g_prog (v_g v)) /\ settled v /\ over v /\ exists ds n, In (ds, n) (waiting v) /\ (1 <= n <= Z.of_nat (length ds))%Z /\
    Forall (usable (g_prog (v_g v))) ds.
Proof. exact c64_failed. Qed.
Print Assumptions C64_failed_refuted.

(** ... nor one with num_returns = 0, whatever has been computed; by C64_partition no such call ever returns. *)
Theorem C64_zero_refuted : exists workers body mbody is_async,
  (forall f a k, no_refs_returned (body f a k)) /\ (forall h c, no_refs_returned (mbody h c)) /\ (forall c, is_async c = false) /\
  exists mgr ops, let v := vrun workers body mbody is_async mgr ops in
  gvalid (g_prog (v_g v)) /\ settled v /\ over v /\ none_failed (v_g v) /\ exists ds, In (ds, 0%Z) (waiting v) /\
    Forall (usable (g_prog (v_g v))) ds.
Proof. exact c64_zero. Qed.
Print Assumptions C64_zero_refuted.
