(** C66: programs with nested calls that use what they have made themselves: which errors they can meet, and when they end. *)
From Verif Require Import Lib ValModel WorkerModel WorkerSpec ClusterModel NestModel NestSpec NestLive NestRun NestCases NestStuckCases.

(** No call is refused, no get fails for a missing reference, and no worker dies. *)
Theorem C66_no_errors : forall workers body main ops, ~ In 0 workers ->
  (forall f a k, refs a = [] -> refs k = [] -> refless (body f a k)) -> refless main ->
  (forall f a k, refs a = [] -> refs k = [] -> closed [] [] (body f a k)) -> closed [] [] main ->
  let n := nrun workers body main ops in results_fit (n_hist n) ->
  (forall p, n_dead n p = false) /\
  forall t e, In (t, e) (n_hist n) -> match e with HRefused _ _ _ _ => False | HGet _ GError => False | _ => True end.
Proof. intros workers body main ops N B M Bc Mc. exact (no_errors workers body main N B M Bc Mc ops). Qed.
Print Assumptions C66_no_errors.

Example C66_no_errors_case : ~ In 0 [2; 3] /\ (forall f a k, refs a = [] -> refs k = [] -> refless (nbody f a k)) /\ refless nmain /\
  (forall f a k, refs a = [] -> refs k = [] -> closed [] [] (nbody f a k)) /\ closed [] [] nmain /\ results_fit (n_hist ncase) /\
  In (1, HGet [(2, 1)] (GVals [VLeaf 10])) (n_hist ncase).
Proof.
  split; [intros [X|[X|[]]]; discriminate|]. split; [exact nbody_ok|]. split; [exact nmain_ok|]. split; [exact nbody_closed|]. split; [exact nmain_closed|].
  split; [exact ncase_fits|]. rewrite nested_hist. simpl. tauto.
Qed.

(** With two workers or more, idle states are those that no operation changes. *)
Theorem C66_idle : forall workers body main ops w1 w2, ~ In 0 workers ->
  (forall f a k, refs a = [] -> refs k = [] -> refless (body f a k)) -> refless main ->
  (forall f a k, refs a = [] -> refs k = [] -> closed [] [] (body f a k)) -> closed [] [] main ->
  let n := nrun workers body main ops in results_fit (n_hist n) -> In w1 workers -> In w2 workers -> w1 <> w2 ->
  (idle n <-> forall o, nstep workers body n o = n).
Proof. intros workers body main ops w1 w2 N B M Bc Mc. exact (idle_means workers body main N B M Bc Mc ops w1 w2). Qed.
Print Assumptions C66_idle.

Example C66_idle_case : results_fit (n_hist ccase) /\ idle ccase /\ In 2 [2; 3] /\ In 3 [2; 3] /\ ~ all_done ccase.
Proof. split; [exact ccase_fits|]. split; [exact ccase_idle|]. simpl. split; [tauto|]. split; [tauto|]. exact ccase_not_done. Qed.

(** When nobody can go on and at most one worker is in the middle of get, the main program has returned and every task
    submitted, by whomever, has been executed to its end. Missing: any number of workers in get; see below. *)
Theorem C66_ends_partial : forall workers body main ops, ~ In 0 workers ->
  (forall f a k, refs a = [] -> refs k = [] -> refless (body f a k)) -> refless main ->
  (forall f a k, refs a = [] -> refs k = [] -> closed [] [] (body f a k)) -> closed [] [] main ->
  let n := nrun workers body main ops in results_fit (n_hist n) -> idle n ->
  (forall p p', p <> 0 -> p' <> 0 -> in_get n p -> in_get n p' -> p = p') -> all_done n.
Proof. intros workers body main ops N B M Bc Mc. exact (stuck_done workers body main N B M Bc Mc ops). Qed.
Print Assumptions C66_ends_partial.

Example C66_ends_case : idle ncase /\ (forall p, ~ in_get ncase p) /\ results_fit (n_hist ncase) /\ In (2, HEnd (RVal (VLeaf 10))) (n_hist ncase).
Proof. split; [exact ncase_idle|]. split; [exact ncase_nobody|]. split; [exact ncase_fits|]. rewrite nested_hist. simpl. tauto. Qed.

(** In particular when only the main program calls get, whatever the tasks submit. *)
Theorem C66_ends_getless : forall workers body main ops, ~ In 0 workers ->
  (forall f a k, refs a = [] -> refs k = [] -> refless (body f a k)) -> refless main ->
  (forall f a k, refs a = [] -> refs k = [] -> closed [] [] (body f a k)) -> closed [] [] main ->
  let n := nrun workers body main ops in (forall f a k, refs a = [] -> refs k = [] -> getless (body f a k)) ->
  results_fit (n_hist n) -> idle n -> all_done n.
Proof. intros workers body main ops N B M Bc Mc. exact (stuck_getless workers body main N B M Bc Mc ops). Qed.
Print Assumptions C66_ends_getless.

Example C66_ends_getless_case : (forall f a k, refs a = [] -> refs k = [] -> refless (gbody f a k)) /\ refless gmain /\
  (forall f a k, refs a = [] -> refs k = [] -> closed [] [] (gbody f a k)) /\ closed [] [] gmain /\
  (forall f a k, refs a = [] -> refs k = [] -> getless (gbody f a k)) /\ results_fit (n_hist gcase) /\ idle gcase.
Proof.
  split; [exact gbody_ok|]. split; [exact gmain_ok|]. split; [exact gbody_closed|]. split; [exact gmain_closed|]. split; [intros; apply gbody_getless|].
  split; [exact gcase_fits|exact gcase_idle].
Qed.

(** Two tasks, each on a worker of its own, that wait for calls that went to the other's worker wait for ever. *)
Theorem C66_ends_refuted : ~ (forall workers body main ops, ~ In 0 workers ->
  (forall f a k, refs a = [] -> refs k = [] -> refless (body f a k)) -> refless main ->
  (forall f a k, refs a = [] -> refs k = [] -> closed [] [] (body f a k)) -> closed [] [] main ->
  let n := nrun workers body main ops in results_fit (n_hist n) -> idle n -> all_done n).
Proof. exact (fun X => ccase_not_done (X [2; 3] nbody cmain cops two_workers nbody_ok cmain_ok nbody_closed cmain_closed ccase_fits ccase_idle)). Qed.
Print Assumptions C66_ends_refuted.

(** A task that calls a remote function with the reference under which the main program called it is refused. *)
Theorem C66_foreign_refuted : ~ (forall workers body main ops, ~ In 0 workers ->
  (forall f a k, refs a = [] -> refs k = [] -> refless (body f a k)) -> refless main -> closed [] [] main ->
  let n := nrun workers body main ops in results_fit (n_hist n) ->
  forall t f args kwargs m, In (t, HRefused f args kwargs m) (n_hist n) -> False).
Proof. exact (fun X => X [2; 3] fbody fmain fops two_workers fbody_ok fmain_ok fmain_closed fcase_fits 2 (0, 0) (VTuple []) (VDict []) 1 fcase_refused). Qed.
Print Assumptions C66_foreign_refuted.
