(** C99 on Dask: programs that wait for each method call before the next one on the same actor. *)
From Verif Require Import Lib ValModel PyseqModel PyseqSpec PyseqCases PortSpec ObjSpec ObjCases ObjDoneSpec ObjDoneProofs ObjWaitSpec ObjWait ObjWaitDone ObjWaitCases.
From Verif Require DaskRunCases.

(** On Dask, where methods of an actor may be run in another order than they were called in (C99_dask_refuted), whatever get gives agrees with
    direct execution if the program does not call a method of an actor before a reference of every earlier call on that actor has finished;
    functions, other actors and the scheduler are as free as before, and references may be dropped. Partial: values are plain, functions
    and methods return as many items as are asked for, constructors do not raise. *)
Theorem C99_dask_waits_partial : forall body cbody mbody prog, oportable body cbody mbody prog ->
  forall c i r, oshows_dask_waiting body cbody mbody prog c i r ->
  agrees (result_of (fst (odirect body cbody mbody prog)) c i) r.
Proof. exact waits. Qed.
Print Assumptions C99_dask_waits_partial.

(** Such runs exist: if every method call asks for a result, a program can be run to its end while it waits, and every result can be read. Partial:
    as before, and references and actors are used after they were made. *)
Theorem C99_dask_waits_complete_partial : forall body cbody mbody prog, oportable body cbody mbody prog -> oscoped prog ->
  (forall a m args kw n, In (TMeth a m args kw n) prog -> 0 < n) ->
  forall c x i, nth_error prog c = Some x -> i < oouts x ->
  exists r, result_of (fst (odirect body cbody mbody prog)) c i = Some r /\ oshows_dask_waiting body cbody mbody prog c i r.
Proof. exact waits_done. Qed.
Print Assumptions C99_dask_waits_complete_partial.

(** The counter of ObjCases: with waiting, get gives 20, as direct execution; in the run that gives 15 the program does not wait. *)
Example C99_dask_waits_partial_case : oportable zbody xcbody zmbody oprog /\ oshows_dask_waiting zbody xcbody zmbody oprog 5 0 (Ret (VLeaf 20)) /\
  result_of (fst (odirect zbody xcbody zmbody oprog)) 5 0 = Some (Ret (VLeaf 20)) /\
  oshows OnDask zbody xcbody zmbody oprog 5 0 (Ret (VLeaf 15)) /\ ~ awaited zbody xcbody zmbody DaskRunCases.ki od_ops.
Proof.
  split; [exact o_portable|]. split; [exact ow_shows|]. split; [reflexivity|]. split; [exact odask_shows|exact od_not_awaited].
Qed.

Example C99_dask_waits_complete_partial_case : oportable zbody xcbody zmbody oprog /\ oscoped oprog /\
  (forall a m args kw n, In (TMeth a m args kw n) oprog -> 0 < n) /\ nth_error oprog 4 = Some (TMeth 0 1 [AVal (VLeaf 1)] [] 1).
Proof.
  split; [exact o_portable|]. split; [exact o_scoped|]. split; [|reflexivity].
  intros a m args kw n I. cbn in I. repeat destruct I as [I|I]; try discriminate; try contradiction; injection I; intros; subst; auto.
Qed.
