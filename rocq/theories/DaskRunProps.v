(** C57-C59: calls on the Dask backend. [body], [cbody], [mbody] and [item] are what the user's functions,
    constructors, methods and the subscription of values do. *)
From Verif Require Import Lib ValModel PyseqModel DaskRunModel DaskRunSpec DaskRunProofs DaskRunCases.

(** C57: the history is what the main process called, every call gave as many references as it asked for, and no
    reference was given twice. *)
Theorem C57_references body cbody mbody item ops :
  legal body cbody mbody item ops ->
  let st := drun body cbody mbody item ops in
  map fst (d_hist st) = filter is_call ops /\
  (forall o out, In (o, out) (d_hist st) -> length (refs_out out) = returns o) /\
  NoDup (flat_map (fun e => refs_out (snd e)) (d_hist st)).
Proof. exact (refs_ok body cbody mbody item ops). Qed.
Print Assumptions C57_references.

(** C57: whatever the scheduler does, a reference that can be read holds what direct execution gives. *)
Theorem C57_results body cbody mbody item ops d r :
  legal body cbody mbody item ops ->
  let st := drun body cbody mbody item ops in
  In d (flat_map (fun e => refs_out (snd e)) (d_hist st)) -> dget st d = Some r ->
  gives body cbody mbody item (d_hist st) (d_log st) d r.
Proof. exact (results body cbody mbody item ops d r). Qed.
Print Assumptions C57_results.

(** C57: an actor's object is in the state left by the methods that were run, one after the other. *)
Theorem C57_objects body cbody mbody item ops :
  legal body cbody mbody item ops ->
  let st := drun body cbody mbody item ops in
  d_actors st = snd (direct body mbody (made cbody 0 (d_hist st)) (d_log st)).
Proof. exact (objects body cbody mbody item ops). Qed.
Print Assumptions C57_objects.

(** C57: a function or method is run with the values of its arguments, which were there before. *)
Theorem C57_arguments body cbody mbody item ops l1 c e l2 :
  legal body cbody mbody item ops ->
  let st := drun body cbody mbody item ops in
  d_log st = l1 ++ (c, e) :: l2 ->
  exists o out s, nth_error (d_hist st) c = Some (o, out) /\ entry o s = Some e /\
    forall x, In x (refs_in o) -> gives body cbody mbody item (d_hist st) l1 x (Ret (s x)).
Proof. exact (args_first body cbody mbody item ops l1 c e l2). Qed.
Print Assumptions C57_arguments.

Example C57_case :
  legal kb kc km ki k_ops /\ d_actors (drun kb kc km ki k_ops) = [VList [VLeaf 5; VLeaf 1]] /\
  In (0, 9) (flat_map (fun e => refs_out (snd e)) (d_hist (drun kb kc km ki k_ops))) /\
  dget (drun kb kc km ki k_ops) (0, 9) = Some (Ret (VLeaf 5)) /\ dget (drun kb kc km ki k_ops) (0, 5) = Some (Exn 7).
Proof. exact c57_case. Qed.

(** C58: no call is run twice. *)
Theorem C58_at_most_once body cbody mbody item ops :
  legal body cbody mbody item ops -> NoDup (map fst (d_log (drun body cbody mbody item ops))).
Proof. exact (once body cbody mbody item ops). Qed.
Print Assumptions C58_at_most_once.

(** C58: a call of which a reference is kept is run, if its arguments did not fail. *)
Theorem C58_kept_calls_are_run_partial body cbody mbody item ops c o out d :
  legal body cbody mbody item ops ->
  let st := drun body cbody mbody item ops in
  at_rest body cbody mbody item st ->
  nth_error (d_hist st) c = Some (o, out) -> In d (refs_out out) -> In d (d_held st) ->
  (forall x e, In x (refs_in o) -> ~ gives body cbody mbody item (d_hist st) (d_log st) x (Exn e)) ->
  (exists v, o = DPut v) \/ In c (map fst (d_log st)).
Proof. exact (kept_run body cbody mbody item ops c o out d). Qed.
Print Assumptions C58_kept_calls_are_run_partial.

(** C58: a reference that is kept can be read in the end, and the end comes. *)
Theorem C58_kept_references_finish body cbody mbody item ops d :
  legal body cbody mbody item ops ->
  let st := drun body cbody mbody item ops in
  at_rest body cbody mbody item st -> In d (d_held st) -> exists r, dget st d = Some r.
Proof. exact (kept_finished body cbody mbody item ops d). Qed.
Print Assumptions C58_kept_references_finish.

Theorem C58_scheduler_ends body cbody mbody item ops :
  legal body cbody mbody item ops ->
  Acc (fun st' st => progress body cbody mbody item st st') (drun body cbody mbody item ops).
Proof. exact (sched_ends body cbody mbody item ops). Qed.
Print Assumptions C58_scheduler_ends.

(** C58 is false of the code: a call with num_returns=0, or one whose reference is dropped, may never be run. *)
Theorem C58_forgotten_refuted :
  exists body cbody mbody item ops,
    legal body cbody mbody item ops /\ at_rest body cbody mbody item (drun body cbody mbody item ops) /\
    nth_error (d_hist (drun body cbody mbody item ops)) 0 = Some (DSubmit 0 [VLeaf 1] [] 0 false, DNone) /\
    nth_error (d_hist (drun body cbody mbody item ops)) 1 = Some (DSubmit 0 [VLeaf 1] [] 1 false, DRef (0, 1)) /\
    d_log (drun body cbody mbody item ops) = [].
Proof. exact (ex_intro _ kb (ex_intro _ kc (ex_intro _ km (ex_intro _ ki (ex_intro _ k_forget not_run))))). Qed.
Print Assumptions C58_forgotten_refuted.

Example C58_case :
  legal kb kc km ki k_ops /\ at_rest kb kc km ki (drun kb kc km ki k_ops) /\
  nth_error (d_hist (drun kb kc km ki k_ops)) 6 = Some (DCall 0 0 [VRef (0, 0)] [] 2, DRefs [(0, 9); (0, 10)]) /\
  In (0, 10) (d_held (drun kb kc km ki k_ops)) /\ In 6 (map fst (d_log (drun kb kc km ki k_ops))).
Proof. exact c58_case. Qed.

(** C59 is false of the code: of two calls of one actor's methods the later one may be run first. *)
Theorem C59_order_refuted :
  exists body cbody mbody item ops c c' a m m' args args' n n' o o',
    legal body cbody mbody item ops /\ c < c' /\
    nth_error (d_hist (drun body cbody mbody item ops)) c = Some (DCall a m args [] n, o) /\
    nth_error (d_hist (drun body cbody mbody item ops)) c' = Some (DCall a m' args' [] n', o') /\
    run_before (d_log (drun body cbody mbody item ops)) c' c.
Proof. exact order_refuted. Qed.
Print Assumptions C59_order_refuted.

(** C59: a call made after the result of an earlier one could be read is run after it. *)
Theorem C59_waited_for_partial body cbody mbody item ops ops' c o out d r c' :
  legal body cbody mbody item (ops ++ ops') ->
  let st := drun body cbody mbody item ops in
  nth_error (d_hist st) c = Some (o, out) -> In d (refs_out out) -> dget st d = Some r ->
  length (d_hist st) <= c' ->
  (forall x e, In x (refs_in o) -> ~ gives body cbody mbody item (d_hist st) (d_log st) x (Exn e)) ->
  (exists v, o = DPut v) \/ run_before (d_log (drun body cbody mbody item (ops ++ ops'))) c c'.
Proof. exact (waited_order body cbody mbody item ops ops' c o out d r c'). Qed.
Print Assumptions C59_waited_for_partial.

(** C59: a call that gets a result of another one is run after it. *)
Theorem C59_dependent_partial body cbody mbody item ops c o out d c' o' out' :
  legal body cbody mbody item ops ->
  let st := drun body cbody mbody item ops in
  nth_error (d_hist st) c = Some (o, out) -> In d (refs_out out) ->
  nth_error (d_hist st) c' = Some (o', out') -> In d (refs_in o') -> In c' (map fst (d_log st)) ->
  (exists v, o = DPut v) \/ run_before (d_log st) c c'.
Proof. exact (dependent_order body cbody mbody item ops c o out d c' o' out'). Qed.
Print Assumptions C59_dependent_partial.

Example C59_case :
  legal kb kc km ki (firstn 7 k_ops ++ skipn 7 k_ops) /\
  nth_error (d_hist (drun kb kc km ki (firstn 7 k_ops))) 1 =
    Some (DSubmit 0 [VList [VRef (0, 0)]] [] 2 false, DRefs [(0, 2); (0, 3)]) /\
  dget (drun kb kc km ki (firstn 7 k_ops)) (0, 2) = Some (Ret (VList [VLeaf 5])) /\
  length (d_hist (drun kb kc km ki (firstn 7 k_ops))) <= 5 /\
  run_before (d_log (drun kb kc km ki k_ops)) 1 5.
Proof. exact c59_case. Qed.
