(** C70: values and arguments are those of the moment of the call. [arun ops] is the system after any operations of any
    processes; its log [alog] has the content of what every get returned ([AGot], in a program or for the argument of a task) and of every
    argument a task was given directly ([AArg n] for the n-th submission). *)
From Verif Require Import Lib AliasModel AliasSpec AliasProofs AliasCases.

(** What was put is what any process gets, whatever the program does to the object afterwards. Missing: programs that
    change the objects they got, or tasks that change their arguments or what they have returned (false, below). *)
Theorem C70_put_partial : forall ops a p l d sh b c,
  values_left_alone ops -> ops = a ++ APut p l d sh :: b -> holds (arun a) p l c -> ~ In d (used (arun a)) ->
  forall q c', In (AGot q d c') (alog (arun ops)) -> c' = c.
Proof. exact put_value. Qed.
Print Assumptions C70_put_partial.

(** The same for what a task returns. *)
Theorem C70_result_partial : forall ops a p l d sh b c,
  values_left_alone ops -> ops = a ++ AReturn p l d sh :: b -> holds (arun a) p l c -> ~ In d (used (arun a)) ->
  forall q c', In (AGot q d c') (alog (arun ops)) -> c' = c.
Proof. exact return_value. Qed.
Print Assumptions C70_result_partial.

(** Changes of objects in the process that put or returned the value are not seen by others, even if it is that process's own copy
    of the value. *)
Theorem C70_elsewhere_partial : forall p ops a l d sh b c o,
  values_left_alone_but p ops -> ops = a ++ o :: b -> o = APut p l d sh \/ o = AReturn p l d sh ->
  holds (arun a) p l c -> ~ In d (used (arun a)) ->
  forall q c', q <> p -> In (AGot q d c') (alog (arun ops)) -> c' = c.
Proof. exact elsewhere. Qed.
Print Assumptions C70_elsewhere_partial.

(** A task is given the argument as it was when the task was submitted, if it has no out-of-band buffers, or if no program
    writes into them while the task is being sent. *)
Theorem C70_argument_partial : forall ops a p l w b c,
  c_bufs c = [] \/ buffers_left_alone ops -> ops = a ++ ASubmit p l w :: b -> holds (arun a) p l c ->
  forall c', In (AArg (nsub (arun a)) c') (alog (arun ops)) -> c' = c.
Proof. exact arg_value. Qed.
Print Assumptions C70_argument_partial.

Example C70_case : values_left_alone aops1 /\ buffers_left_alone aops1 /\
  alog (arun aops1) = [AGot 2 (0, 0) {| c_in := 5; c_bufs := [1] |}; AGot 0 (0, 0) {| c_in := 5; c_bufs := [1] |};
                       AArg 0 {| c_in := 7; c_bufs := [3] |}; AGot 0 (0, 1) {| c_in := 9; c_bufs := [] |}].
Proof. exact c70_case. Qed.

Example C70_elsewhere_case : values_left_alone_but 2 aops2 /\
  alog (arun aops2) = [AGot 2 (0, 0) {| c_in := 6; c_bufs := [] |}; AGot 0 (0, 0) {| c_in := 5; c_bufs := [] |}].
Proof. exact c70_elsewhere_case. Qed.

(** An array given as an argument and changed after the call: the task sees the change. *)
Theorem C70_argument_refuted : exists ops a p l w b c c', ops = a ++ ASubmit p l w :: b /\ holds (arun a) p l c /\
  In (AArg (nsub (arun a)) c') (alog (arun ops)) /\ c' <> c.
Proof. exact c70_argument. Qed.
Print Assumptions C70_argument_refuted.

(** An object that was got and changed: the next get of the same process returns it changed. *)
Theorem C70_got_again_refuted : exists ops a p l d sh b c c', ops = a ++ APut p l d sh :: b /\ holds (arun a) p l c /\ ~ In d (used (arun a)) /\
  In (AGot p d c') (alog (arun ops)) /\ c' <> c.
Proof. exact c70_got_again. Qed.
Print Assumptions C70_got_again_refuted.

(** A task that changes its argument: later tasks on that worker are given the changed value. *)
Theorem C70_worker_refuted : exists ops a p l d sh b c q c', ops = a ++ APut p l d sh :: b /\ holds (arun a) p l c /\ ~ In d (used (arun a)) /\
  q <> p /\ In (AGot q d c') (alog (arun ops)) /\ c' <> c.
Proof. exact c70_worker. Qed.
Print Assumptions C70_worker_refuted.

(** An actor's method returns part of the actor's state, and the state changes: the root gets the value returned, a task on the
    actor's worker the changed one. *)
Theorem C70_result_refuted : exists ops a p l d sh b c c', ops = a ++ AReturn p l d sh :: b /\ holds (arun a) p l c /\ ~ In d (used (arun a)) /\
  In (AGot 0 d c) (alog (arun ops)) /\ In (AGot p d c') (alog (arun ops)) /\ c' <> c.
Proof. exact c70_result. Qed.
Print Assumptions C70_result_refuted.
