(** C93: tasks that exit, MPI. [xrun workers body exits main ops]: the programs of NestModel, where an exception e with exits e is
    not an Exception (SystemExit, KeyboardInterrupt). *)
From Verif Require Import Lib ValModel WorkerModel WorkerSpec ClusterModel NestModel NestSpec ReapSpec StopModel StopSpec StopProofs StopCases.

(** Also in programs with tasks that exit, the gets that return give the values their references stand for, or an exception that
    one of them stands for. *)
Theorem C93_gets : forall workers body exits main, (forall f a k, refs a = [] -> refs k = [] -> refless (body f a k)) -> refless main ->
  forall ops, let H := n_hist (x_n (xrun workers body exits main ops)) in
  forall t ds r, In (t, HGet ds r) H ->
  match r with
  | GVals vs => Forall2 (means body H) ds vs
  | GRaise e => exists d, In d ds /\ means body H d (VExc e)
  | GError => True
  end.
Proof. intros workers body exits main B M ops H t ds r I. exact (x_gets workers body exits main B M ops t ds r I). Qed.
Print Assumptions C93_gets.

Theorem C93_one_value : forall workers body exits main ops, let H := n_hist (x_n (xrun workers body exits main ops)) in
  forall d v v', means body H d v -> means body H d v' -> v = v'.
Proof. intros workers body exits main ops H d v v'. exact (x_one workers body exits main ops d v v'). Qed.
Print Assumptions C93_one_value.

(** A worker is gone only because of a task that ended with such an exception, not with another one; the main program's process is not. *)
Theorem C93_gone : forall workers body exits main ops p, let x := xrun workers body exits main ops in x_gone x p = true ->
  exists fr e, p_cur (n_proc (x_n x) p) = Some fr /\ f_act fr = ARet (RExc e) /\ exits e = true /\ f_rest fr <> LMain.
Proof. intros workers body exits main ops p. exact (gone_why workers body exits main ops p). Qed.
Print Assumptions C93_gone.

(** Nobody ends with an error and nothing is refused. *)
Theorem C93_no_errors : forall workers body exits main, ~ In 0 workers ->
  (forall f a k, refs a = [] -> refs k = [] -> refless (body f a k)) -> refless main ->
  (forall f a k, refs a = [] -> refs k = [] -> closed [] [] (body f a k)) -> closed [] [] main ->
  forall ops, let n := x_n (xrun workers body exits main ops) in results_fit (n_hist n) ->
  (forall p, n_dead n p = false) /\ forall t e, In (t, e) (n_hist n) -> match e with HRefused _ _ _ _ => False | HGet _ GError => False | _ => True end.
Proof. intros workers body exits main N B M Bc Mc ops. exact (x_no_errors workers body exits main N B M Bc Mc ops). Qed.
Print Assumptions C93_no_errors.

(** Missing: that only the task itself is lost. When nothing can go on, every call has ended or is affected by the workers that are gone or are in
    the middle of get; and the main program has ended, or gets a result of a call that is affected. *)
Theorem C93_isolated_partial : forall workers body exits main, ~ In 0 workers ->
  (forall f a k, refs a = [] -> refs k = [] -> refless (body f a k)) -> refless main ->
  (forall f a k, refs a = [] -> refs k = [] -> closed [] [] (body f a k)) -> closed [] [] main ->
  forall ops, let x := xrun workers body exits main ops in results_fit (n_hist (x_n x)) -> halted x ->
  (forall t o q, In (t, HSubmit o q) (n_hist (x_n x)) -> finished (n_hist (x_n x)) q \/ affected (blocked x) (n_hist (x_n x)) q) /\
  (main_over x \/ main_waits (blocked x) x).
Proof. intros workers body exits main N B M Bc Mc ops. exact (isolated workers body exits main N B M Bc Mc ops). Qed.
Print Assumptions C93_isolated_partial.

(** If no task calls get, by the workers that are gone. *)
Theorem C93_isolated_getless_partial : forall workers body exits main, ~ In 0 workers ->
  (forall f a k, refs a = [] -> refs k = [] -> refless (body f a k)) -> refless main ->
  (forall f a k, refs a = [] -> refs k = [] -> closed [] [] (body f a k)) -> closed [] [] main ->
  (forall f a k, refs a = [] -> refs k = [] -> getless (body f a k)) ->
  forall ops, let x := xrun workers body exits main ops in let gone w := x_gone x w = true in results_fit (n_hist (x_n x)) -> halted x ->
  (forall t o q, In (t, HSubmit o q) (n_hist (x_n x)) -> finished (n_hist (x_n x)) q \/ affected gone (n_hist (x_n x)) q) /\
  (main_over x \/ main_waits gone x).
Proof. intros workers body exits main N B M Bc Mc G ops. exact (isolated_getless workers body exits main N B M Bc Mc ops G). Qed.
Print Assumptions C93_isolated_getless_partial.

(** The calls sent to a worker that is gone and not yet finished are never finished, whatever happens afterwards. *)
Theorem C93_lost : forall workers body exits main, ~ In 0 workers ->
  (forall f a k, refs a = [] -> refs k = [] -> refless (body f a k)) -> refless main ->
  (forall f a k, refs a = [] -> refs k = [] -> closed [] [] (body f a k)) -> closed [] [] main ->
  forall ops more p t q, let x := xrun workers body exits main ops in let x' := xrun workers body exits main (ops ++ more) in
  results_fit (n_hist (x_n x)) -> x_gone x p = true -> In (t, HSubmit p q) (n_hist (x_n x)) -> ~ finished (n_hist (x_n x)) q -> ~ finished (n_hist (x_n x')) q.
Proof. intros workers body exits main N B M Bc Mc ops more p t q. exact (lost workers body exits main N B M Bc Mc ops more p t q). Qed.
Print Assumptions C93_lost.

(** The main program calls 1, which exits, and 2 twice, and gets the results of 2. A call of 2, which has nothing to do with the one that exits, was sent to the same
    worker: whatever happens, it is never finished and the main program never returns from get. *)
Theorem C93_hang_refuted : ~ In 0 [2; 3] /\
  (forall f a k, refs a = [] -> refs k = [] -> refless (zbody f a k)) /\ refless zmain /\
  (forall f a k, refs a = [] -> refs k = [] -> closed [] [] (zbody f a k)) /\ closed [] [] zmain /\
  In (0, HSubmit 2 zexit) (n_hist (x_n zcase)) /\ In (0, HSubmit 2 zlost) (n_hist (x_n zcase)) /\
  (forall d, In d (uses zlost) -> ~ In d (out_ids (q_out zexit))) /\
  forall more, let x := xrun [2; 3] zbody zexits zmain (zops ++ more) in in_get (x_n x) 0 /\ ~ finished (n_hist (x_n x)) zlost.
Proof.
  exact (conj (fun H => match H with or_introl E => Nat.neq_succ_0 _ E | or_intror (or_introl E) => Nat.neq_succ_0 _ E | or_intror (or_intror F) => F end)
        (conj zbody_ok (conj zmain_ok (conj zbody_closed (conj zmain_closed (conj (proj1 zcase_calls) (conj (proj1 (proj2 zcase_calls)) (conj zlost_other zcase_for_ever)))))))).
Qed.
Print Assumptions C93_hang_refuted.

(** There the call of 2 that was sent to the other worker has ended, and is not affected. *)
Example C93_case : results_fit (n_hist (x_n zcase)) /\ halted zcase /\ (forall p, x_gone zcase p = Nat.eqb p 2) /\
  In (0, HSubmit 3 zother) (n_hist (x_n zcase)) /\ finished (n_hist (x_n zcase)) zother /\
  ~ affected (fun w => x_gone zcase w = true) (n_hist (x_n zcase)) zother /\
  In (0, HGet [(0, 4)] (GVals [VLeaf 5])) (n_hist (x_n zcase)) /\
  (forall f a k, refs a = [] -> refs k = [] -> getless (zbody f a k)).
Proof.
  exact (conj zcase_fits (conj (proj1 zcase_halted) (conj zcase_gone (conj (proj1 (proj2 (proj2 zcase_calls))) (conj zcase_finished
        (conj zcase_others (conj (proj2 (proj2 (proj2 zcase_calls))) zbody_getless))))))).
Qed.
