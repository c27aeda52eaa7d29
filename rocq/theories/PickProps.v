(** C94: values that cannot be pickled or unpickled, MPI. [yrun workers body dumps loads main ops]: the programs of NestModel, where v can be
    pickled if dumps v and unpickled if loads v. *)
From Verif Require Import Lib ValModel WorkerModel WorkerSpec ClusterModel NestModel NestSpec ReapSpec StopModel StopSpec PickModel PickSpec PickProofs PickCases.

(** The gets that return give the values their references stand for, or an exception that one of them stands for. *)
Theorem C94_gets : forall workers body dumps loads main, (forall f a k, refs a = [] -> refs k = [] -> refless (body f a k)) -> refless main ->
  forall ops, let H := n_hist (x_n (yrun workers body dumps loads main ops)) in
  (forall d v v', means body H d v -> means body H d v' -> v = v') /\
  forall t ds r, In (t, HGet ds r) H ->
  match r with
  | GVals vs => Forall2 (means body H) ds vs
  | GRaise e => exists d, In d ds /\ means body H d (VExc e)
  | GError => True
  end.
Proof.
  intros workers body dumps loads main B M ops H. exact (conj (fun d v v' => y_one workers body dumps loads main ops d v v')
    (fun t ds r I => y_gets workers body dumps loads main B M ops t ds r I)).
Qed.
Print Assumptions C94_gets.

(** A process stops only because of a value that cannot be pickled or unpickled. *)
Theorem C94_gone : forall workers body dumps loads main ops p, let x := yrun workers body dumps loads main ops in
  x_gone x p = true -> cause dumps loads (x_n x) p.
Proof. intros workers body dumps loads main ops p. exact (gone_cause workers body dumps loads main ops p). Qed.
Print Assumptions C94_gone.

(** If all values of the program and of the tasks can be, nobody stops, and everything is as in NestModel (C65, C66). *)
Theorem C94_picklable : forall workers body dumps loads main, (forall f a k, refs a = [] -> refs k = [] -> refless (body f a k)) -> refless main ->
  (forall f a k, picklable dumps loads (body f a k)) -> picklable dumps loads main ->
  forall ops, let x := yrun workers body dumps loads main ops in (forall p, x_gone x p = false) /\ x_n x = nrun workers body main ops.
Proof. intros workers body dumps loads main B M Bf Mf ops. exact (fine_stays workers body dumps loads main B M Bf Mf ops). Qed.
Print Assumptions C94_picklable.

(** Missing: that the others are not lost. When nothing can go on, every call has ended or is affected by the workers that are gone; and the main
    program has ended, or gets a result of a call that is affected, or its get raises because an answer cannot be unpickled. *)
Theorem C94_isolated_partial : forall workers body dumps loads main, ~ In 0 workers ->
  (forall f a k, refs a = [] -> refs k = [] -> refless (body f a k)) -> refless main ->
  (forall f a k, refs a = [] -> refs k = [] -> closed [] [] (body f a k)) -> closed [] [] main ->
  (forall f a k, refs a = [] -> refs k = [] -> getless (body f a k)) ->
  forall ops, let x := yrun workers body dumps loads main ops in let gone w := x_gone x w = true in results_fit (n_hist (x_n x)) -> halted x ->
  (forall t o q, In (t, HSubmit o q) (n_hist (x_n x)) -> finished (n_hist (x_n x)) q \/ affected gone (n_hist (x_n x)) q) /\
  (main_over x \/ main_waits gone x \/ main_raises loads body x).
Proof. intros workers body dumps loads main N B M Bc Mc G ops. exact (y_isolated workers body dumps loads main N B M Bc Mc ops G). Qed.
Print Assumptions C94_isolated_partial.

(** The calls sent to a worker that is gone and not yet finished are never finished, whatever happens afterwards. *)
Theorem C94_lost : forall workers body dumps loads main, ~ In 0 workers ->
  (forall f a k, refs a = [] -> refs k = [] -> refless (body f a k)) -> refless main ->
  (forall f a k, refs a = [] -> refs k = [] -> closed [] [] (body f a k)) -> closed [] [] main ->
  forall ops more p t q, let x := yrun workers body dumps loads main ops in let x' := yrun workers body dumps loads main (ops ++ more) in
  results_fit (n_hist (x_n x)) -> x_gone x p = true -> In (t, HSubmit p q) (n_hist (x_n x)) -> ~ finished (n_hist (x_n x)) q -> ~ finished (n_hist (x_n x')) q.
Proof. intros workers body dumps loads main N B M Bc Mc ops more p t q. exact (y_lost workers body dumps loads main N B M Bc Mc ops more p t q). Qed.
Print Assumptions C94_lost.

(** The programs of the refutations meet the conditions of the theorems. *)
Example C94_programs : ~ In 0 [2; 3] /\ (forall f a k, refs a = [] -> refs k = [] -> refless (kbody f a k)) /\
  (forall f a k, refs a = [] -> refs k = [] -> closed [] [] (kbody f a k)) /\ (forall f a k, refs a = [] -> refs k = [] -> getless (kbody f a k)) /\
  forall a, refless (kget a) /\ closed [] [] (kget a) /\ refless (kuse a) /\ closed [] [] (kuse a).
Proof.
  exact (conj no_root23 (conj kbody_ok (conj kbody_closed (conj kbody_getless (fun a => conj (kget_ok a) (conj (kget_closed a) (conj (kuse_ok a) (kuse_closed a)))))))).
Qed.

(** A task returns a value that cannot be pickled: get of its result never returns, and another call sent to the same worker is never finished. *)
Theorem C94_result_refuted : In (0, HSubmit 2 (kcall 0 0 2 [])) (n_hist (x_n (kr (kget 1) kops1))) /\
  In (0, HSubmit 2 (kcall 1 1 3 [])) (n_hist (x_n (kr (kget 1) kops1))) /\
  forall more, in_get (x_n (kr (kget 1) (kops1 ++ more))) 0 /\ ~ finished (n_hist (x_n (kr (kget 1) (kops1 ++ more)))) (kcall 1 1 3 []).
Proof. exact (conj (proj1 k1_calls) (conj (proj2 k1_calls) k1_for_ever)). Qed.
Print Assumptions C94_result_refuted.

(** A task raises an exception that cannot be unpickled, and its result is an argument of another call: the worker of that call stops, a third call that has
    nothing to do with them is never finished, and get of its result never returns. *)
Theorem C94_argument_refuted : In (0, HSubmit 2 (kcall 0 0 2 [])) (n_hist (x_n (kr (kuse 2) kops2))) /\
  In (0, HSubmit 3 (kcall 1 1 3 [VRef (0, 2)])) (n_hist (x_n (kr (kuse 2) kops2))) /\ In (0, HSubmit 3 (kcall 2 1 4 [])) (n_hist (x_n (kr (kuse 2) kops2))) /\
  (forall d, In d (uses (kcall 2 1 4 [])) -> ~ In d (out_ids (q_out (kcall 0 0 2 []))) /\ ~ In d (out_ids (q_out (kcall 1 1 3 [VRef (0, 2)])))) /\
  forall more, in_get (x_n (kr (kuse 2) (kops2 ++ more))) 0 /\ ~ finished (n_hist (x_n (kr (kuse 2) (kops2 ++ more)))) (kcall 2 1 4 []).
Proof. exact (conj (proj1 k2_calls) (conj (proj1 (proj2 k2_calls)) (conj (proj2 (proj2 k2_calls)) (conj k2_other k2_for_ever)))). Qed.
Print Assumptions C94_argument_refuted.

(** A task raises an exception that cannot be pickled: it has ended, but get never returns. *)
Theorem C94_exception_refuted : forall more, in_get (x_n (kr (kget 3) (kops3 ++ more))) 0 /\ finished (n_hist (x_n (kr (kget 3) (kops3 ++ more)))) (kcall 0 0 2 []).
Proof. exact k3_for_ever. Qed.
Print Assumptions C94_exception_refuted.

(** A task raises an exception that cannot be unpickled: get neither returns nor raises the task's exception. *)
Theorem C94_other_exception_refuted : main_raises kloads kbody (kr (kget 2) kops4) /\
  forall more t ds r, ~ In (t, HGet ds r) (n_hist (x_n (kr (kget 2) (kops4 ++ more)))).
Proof. exact (conj k4_raises k4_for_ever). Qed.
Print Assumptions C94_other_exception_refuted.

(** In the second of these, the conditions of C94_isolated_partial and C94_lost hold, and the call sent to the other worker has ended and is not affected. *)
Example C94_case : results_fit (n_hist (x_n (kr (kuse 2) kops2))) /\ halted (kr (kuse 2) kops2) /\ (forall p, x_gone (kr (kuse 2) kops2) p = Nat.eqb p 3) /\
  finished (n_hist (x_n (kr (kuse 2) kops2))) (kcall 0 0 2 []) /\
  ~ affected (fun w => x_gone (kr (kuse 2) kops2) w = true) (n_hist (x_n (kr (kuse 2) kops2))) (kcall 0 0 2 []).
Proof. exact (conj k2_fits (conj k2_halted (conj k2_gone (conj k2_finished k2_affected)))). Qed.

(** A program with the same values that can be pickled: a task raises, a task that uses its result fails the same way, a third returns. *)
Example C94_picklable_case : (forall f a k, refs a = [] -> refs k = [] -> refless (fbody f a k)) /\ (forall f a k, picklable kdumps kloads (fbody f a k)) /\
  picklable kdumps kloads (kuse 2) /\ In (1, HEnd (RExc 8)) (n_hist (x_n (yrun [2; 3] fbody kdumps kloads (kuse 2) fops))) /\
  In (2, HEnd (RExc 8)) (n_hist (x_n (yrun [2; 3] fbody kdumps kloads (kuse 2) fops))) /\
  In (0, HGet [(0, 4)] (GVals [VLeaf 5])) (n_hist (x_n (yrun [2; 3] fbody kdumps kloads (kuse 2) fops))).
Proof. exact (conj fbody_ok (conj fbody_fine (conj fmain_fine fcase_hist))). Qed.
