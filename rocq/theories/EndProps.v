(** C85, C86: shutdown of programs whose tasks may call the API themselves (MPI). [place] gives the machine of each rank,
    [addr] the address of each machine, [shm] says whether the shared object store is used; [big] says which messages MPI
    does not buffer. Everything happens in any order. *)
From Verif Require Import Lib ShmModel TopoModel MonModel ValModel WorkerModel WorkerSpec ClusterModel NestModel NestSpec NestCases NestStuckCases
  ShutModel ShutSpec ShutCases EndModel EndSpec EndThms EndCases EndNever EndLate.

(** With two workers, when shutdown has been called and nothing can happen any more: shutdown has returned and every
    worker and monitor has left; or a task is in the middle of a get; or two workers wait until their messages to each
    other, not buffered, have been received. *)
Theorem C85_ends_partial : forall place addr shm c,
  (forall a b, In a place -> In b place -> addr a = addr b -> a = b) -> 2 <= length place ->
  (shm = true -> forall k, In k place -> 2 <= count_occ Nat.eq_dec place k) -> cluster place addr shm = Some c ->
  forall body big main g, (forall f a k, refs a = [] -> refs k = [] -> refless (body f a k)) -> refless main ->
  (forall f a k, refs a = [] -> refs k = [] -> closed [] [] (body f a k)) -> closed [] [] main ->
  (shm = true -> nth 1 place 0 = nth 0 place 0) ->
  forall ops, let e := erun c body big main g ops in results_fit (n_hist (e_n e)) ->
  (exists w1 w2, In w1 (s_workers c) /\ In w2 (s_workers c) /\ w1 <> w2) -> e_called e = true -> stuck c body big e ->
  (returned e /\ forall r, In r (s_workers c ++ s_monitors c) -> gone c (e_s e) r) \/
  (exists w, In w (s_workers c) /\ in_get (e_n e) w) \/
  (exists w w' m, In w (s_workers c) /\ In w' (s_workers c) /\ finishing e w /\ finishing e w' /\ In m (n_chan (e_n e) w w') /\ big m = true).
Proof. exact e_ends. Qed.
Print Assumptions C85_ends_partial.

(** If no task calls get, the second case does not arise. *)
Theorem C85_getless_partial : forall place addr shm c,
  (forall a b, In a place -> In b place -> addr a = addr b -> a = b) -> 2 <= length place ->
  (shm = true -> forall k, In k place -> 2 <= count_occ Nat.eq_dec place k) -> cluster place addr shm = Some c ->
  forall body big main g, (forall f a k, refs a = [] -> refs k = [] -> refless (body f a k)) -> refless main ->
  (forall f a k, refs a = [] -> refs k = [] -> closed [] [] (body f a k)) -> closed [] [] main ->
  (shm = true -> nth 1 place 0 = nth 0 place 0) ->
  forall ops, let e := erun c body big main g ops in (forall f a k, refs a = [] -> refs k = [] -> getless (body f a k)) ->
  results_fit (n_hist (e_n e)) ->
  (exists w1 w2, In w1 (s_workers c) /\ In w2 (s_workers c) /\ w1 <> w2) -> e_called e = true -> stuck c body big e ->
  (returned e /\ forall r, In r (s_workers c ++ s_monitors c) -> gone c (e_s e) r) \/
  (exists w w' m, In w (s_workers c) /\ In w' (s_workers c) /\ finishing e w /\ finishing e w' /\ In m (n_chan (e_n e) w w') /\ big m = true).
Proof. exact e_getless. Qed.
Print Assumptions C85_getless_partial.

(** Nor does it if every task submitted has ended when shutdown is called. *)
Theorem C85_when_done_partial : forall place addr shm c,
  (forall a b, In a place -> In b place -> addr a = addr b -> a = b) -> 2 <= length place ->
  (shm = true -> forall k, In k place -> 2 <= count_occ Nat.eq_dec place k) -> cluster place addr shm = Some c ->
  forall body big main g, (forall f a k, refs a = [] -> refs k = [] -> refless (body f a k)) -> refless main ->
  (forall f a k, refs a = [] -> refs k = [] -> closed [] [] (body f a k)) -> closed [] [] main ->
  (shm = true -> nth 1 place 0 = nth 0 place 0) ->
  forall before after, let e0 := erun c body big main g before in let e := erun c body big main g (before ++ ECall :: after) in
  e_called (erun c body big main g (before ++ [ECall])) = true ->
  (forall t w q, In (t, HSubmit w q) (n_hist (e_n e0)) -> done (n_hist (e_n e0)) q) ->
  results_fit (n_hist (e_n e)) ->
  (exists w1 w2, In w1 (s_workers c) /\ In w2 (s_workers c) /\ w1 <> w2) -> stuck c body big e ->
  (returned e /\ forall r, In r (s_workers c ++ s_monitors c) -> gone c (e_s e) r) \/
  (exists w w' m, In w (s_workers c) /\ In w' (s_workers c) /\ finishing e w /\ finishing e w' /\ In m (n_chan (e_n e) w w') /\ big m = true).
Proof. exact e_when_done. Qed.
Print Assumptions C85_when_done_partial.

(** The tasks call others without waiting for them; the main program gets two results, all tasks end, and shutdown
    returns although values are not buffered. *)
Example C85_ends_case : cluster [0; 0; 0; 0] (fun k => k) false = Some ecluster /\
  (forall f a k, refs a = [] -> refs k = [] -> refless (gbody f a k)) /\ refless gmain /\
  (forall f a k, refs a = [] -> refs k = [] -> closed [] [] (gbody f a k)) /\ closed [] [] gmain /\
  (forall f a k, refs a = [] -> refs k = [] -> getless (gbody f a k)) /\
  results_fit (n_hist (e_n pcase)) /\ (exists w1 w2, In w1 (s_workers ecluster) /\ In w2 (s_workers ecluster) /\ w1 <> w2) /\
  e_called (erun ecluster gbody big_values gmain xmgr (pbefore ++ [ECall])) = true /\ e_called pcase = true /\
  stuck ecluster gbody big_values pcase /\ returned pcase /\
  let e0 := erun ecluster gbody big_values gmain xmgr pbefore in
  (forall t w q, In (t, HSubmit w q) (n_hist (e_n e0)) -> done (n_hist (e_n e0)) q) /\ exists q, In (1, HSubmit 3 q) (n_hist (e_n e0)).
Proof.
  exact (conj estarted (conj gbody_ok (conj gmain_ok (conj gbody_closed (conj gmain_closed (conj (fun f a k _ _ => gbody_getless f a k) (conj pcase_fits
    (conj etwo (conj (proj2 pcase_called) (conj (proj1 pcase_called) (conj pcase_stuck (conj pcase_returned pbefore_done)))))))))))).
Qed.

(** The second case arises: outer on worker 2 calls inner on worker 3, which has taken CANCEL and ignores the call; outer
    waits in get for ever and shutdown never returns, whatever happens next. *)
Theorem C85_nested_get_refuted : exists c body main ops, cluster [0; 0; 0; 0] (fun k => k) false = Some c /\
  (forall f a k, refs a = [] -> refs k = [] -> refless (body f a k)) /\ refless main /\
  (forall f a k, refs a = [] -> refs k = [] -> closed [] [] (body f a k)) /\ closed [] [] main /\
  let e := erun c body all_small main xmgr ops in results_fit (n_hist (e_n e)) /\ e_called e = true /\ stuck c body all_small e /\
  forall more, let e' := erun c body all_small main xmgr (ops ++ more) in in_get (e_n e') 2 /\ ~ returned e'.
Proof.
  exists ecluster, nbody, hmain, hops.
  exact (conj estarted (conj nbody_ok (conj hmain_ok (conj nbody_closed (conj hmain_closed (conj hcase_fits (conj (proj2 hcase_root) (conj hcase_stuck hangs_for_ever)))))))).
Qed.
Print Assumptions C85_nested_get_refuted.

(** So does the third, without nested calls: the workers 2 and 3 have sent each other a value that MPI does not buffer and
    both take CANCEL before receiving it; shutdown never returns, whatever happens next. *)
Theorem C85_unbuffered_refuted : exists c body main ops, cluster [0; 0; 0; 0] (fun k => k) false = Some c /\
  (forall f a k, refs a = [] -> refs k = [] -> refless (body f a k)) /\ refless main /\
  (forall f a k, refs a = [] -> refs k = [] -> closed [] [] (body f a k)) /\ closed [] [] main /\
  let e := erun c body big_values main xmgr ops in results_fit (n_hist (e_n e)) /\ e_called e = true /\ stuck c body big_values e /\
  (forall w, In w (s_workers c) -> ~ in_get (e_n e) w) /\
  forall more, let e' := erun c body big_values main xmgr (ops ++ more) in finishing e' 2 /\ finishing e' 3 /\ ~ returned e'.
Proof.
  exists ecluster, nbody, umain, uops.
  exact (conj estarted (conj nbody_ok (conj umain_ok (conj nbody_closed (conj umain_closed (conj ucase_fits (conj (proj2 ucase_root) (conj ucase_stuck
    (conj ucase_nobody locked_for_ever))))))))).
Qed.
Print Assumptions C85_unbuffered_refuted.

(** It arises even for a main program that has got the result of every call before it calls shutdown: the workers have asked
    each other for values which the main program then sent them itself, and their answers are still under way. *)
Theorem C85_when_done_refuted : exists c body main before after, cluster [0; 0; 0; 0] (fun k => k) false = Some c /\
  (forall f a k, refs a = [] -> refs k = [] -> refless (body f a k)) /\ refless main /\
  (forall f a k, refs a = [] -> refs k = [] -> closed [] [] (body f a k)) /\ closed [] [] main /\
  let e0 := erun c body big_values main xmgr before in
  ((forall t w q, In (t, HSubmit w q) (n_hist (e_n e0)) -> done (n_hist (e_n e0)) q) /\
   forall w q, In (0, HSubmit w q) (n_hist (e_n e0)) -> exists d v, q_out q = OOne d /\ In (0, HGet [d] (GVals [v])) (n_hist (e_n e0))) /\
  e_called (erun c body big_values main xmgr (before ++ [ECall])) = true /\
  results_fit (n_hist (e_n (erun c body big_values main xmgr (before ++ ECall :: after)))) /\
  forall more, let e := erun c body big_values main xmgr ((before ++ ECall :: after) ++ more) in finishing e 2 /\ finishing e 3 /\ ~ returned e.
Proof.
  exists ecluster, nbody, vmain, vbefore, vafter.
  exact (conj estarted (conj nbody_ok (conj vmain_ok (conj nbody_closed (conj vmain_closed (conj vbefore_done (conj vcalled (conj vcase_fits vlocked_for_ever)))))))).
Qed.
Print Assumptions C85_when_done_refuted.

(** When shutdown has returned, no task is being executed, and nothing is executed afterwards. *)
Theorem C85_no_task_after : forall place addr shm c,
  (forall a b, In a place -> In b place -> addr a = addr b -> a = b) -> 2 <= length place ->
  (shm = true -> forall k, In k place -> 2 <= count_occ Nat.eq_dec place k) -> cluster place addr shm = Some c ->
  forall body big main g ops, let e := erun c body big main g ops in returned e ->
  (forall w, In w (s_workers c) -> ~ busy e w) /\ forall more, n_hist (e_n (erun c body big main g (ops ++ more))) = n_hist (e_n e).
Proof. exact e_quiet. Qed.
Print Assumptions C85_no_task_after.

Example C85_no_task_after_case : cluster [0; 0; 0; 0] (fun k => k) false = Some ecluster /\ returned pcase.
Proof. exact (conj estarted pcase_returned). Qed.

(** Shutdown, whenever it is called, does not change what gets give: the values the references stand for, or an
    exception that one of them stands for. *)
Theorem C85_gets : forall c body big main g, (forall f a k, refs a = [] -> refs k = [] -> refless (body f a k)) -> refless main ->
  forall ops, let H := n_hist (e_n (erun c body big main g ops)) in forall t ds r, In (t, HGet ds r) H ->
  match r with
  | GVals vs => Forall2 (means body H) ds vs
  | GRaise e => exists d, In d ds /\ means body H d (VExc e)
  | GError => True
  end.
Proof. exact e_gets. Qed.
Print Assumptions C85_gets.

Example C85_gets_case : In (0, HGet [(0, 1); (0, 2)] (GVals [VLeaf 1; VLeaf 1])) (n_hist (e_n pcase)).
Proof. vm_compute. tauto. Qed.

(** When shutdown has returned, every call that the main program had made with values and references to objects that were
    put has been executed to its end. *)
Theorem C86_calls_executed_partial : forall place addr shm c,
  (forall a b, In a place -> In b place -> addr a = addr b -> a = b) -> 2 <= length place ->
  (shm = true -> forall k, In k place -> 2 <= count_occ Nat.eq_dec place k) -> cluster place addr shm = Some c ->
  forall body big main g, (forall f a k, refs a = [] -> refs k = [] -> refless (body f a k)) -> refless main ->
  (forall f a k, refs a = [] -> refs k = [] -> closed [] [] (body f a k)) -> closed [] [] main ->
  forall ops, let e := erun c body big main g ops in results_fit (n_hist (e_n e)) -> returned e ->
  forall w q, In (0, HSubmit w q) (n_hist (e_n e)) -> put_args (n_hist (e_n e)) q -> done (n_hist (e_n e)) q.
Proof. exact e_calls. Qed.
Print Assumptions C86_calls_executed_partial.

(** The second call, with the result of the first as argument, is pending on worker 3 when CANCEL comes: it is forgotten,
    shutdown returns, and the call is never executed. *)
Theorem C86_pending_refuted : exists c body main ops w q, cluster [0; 0; 0; 0] (fun k => k) false = Some c /\
  (forall f a k, refs a = [] -> refs k = [] -> refless (body f a k)) /\ refless main /\
  (forall f a k, refs a = [] -> refs k = [] -> closed [] [] (body f a k)) /\ closed [] [] main /\
  let e := erun c body all_small main xmgr ops in results_fit (n_hist (e_n e)) /\ returned e /\
  In (0, HSubmit w q) (n_hist (e_n e)) /\ forall t, ~ In (t, HStart (q_id q)) (n_hist (e_n e)).
Proof.
  exists ecluster, nbody, dmain, dops, 3, dtask.
  exact (conj estarted (conj nbody_ok (conj dmain_ok (conj nbody_closed (conj dmain_closed (conj dcase_fits (conj dcase_returned dcase_dropped))))))).
Qed.
Print Assumptions C86_pending_refuted.

(** In the same run, the first call meets the hypotheses of the theorem. *)
Example C86_case : results_fit (n_hist (e_n dcase)) /\ returned dcase /\ In (0, HSubmit 2 dfirst) (n_hist (e_n dcase)) /\ put_args (n_hist (e_n dcase)) dfirst.
Proof. exact (conj dcase_fits (conj dcase_returned dcase_put)). Qed.
