(** One program with actors on all five backends. *)
From Verif Require Import Lib ValModel PyseqModel PyseqSpec PortSpec PortShows ObjSpec ObjDoneSpec ObjWaitSpec ObjMpiSpec ObjFive ObjCases ObjMpiCases.
From Verif Require ObjDoneProofs ObjWaitCases.

(** C99: what get shows on one backend and what it shows on another are the same value, or exceptions on both. On MPI and Dask the program waits
    for method calls. Partial: plain values, as many results as asked for, constructors do not raise and give the same state; on MPI no coroutines
    and one actor on a worker. *)
Theorem C99_five_partial : forall body cbody mbody s0, plain_bodies body mbody ->
  forall prog, oportable body cbody mbody prog -> (forall c args kw, In (TMake c args kw) prog -> cbody c args kw = Ret s0) ->
  forall b b' c i r r', oshows_waiting b body cbody mbody s0 prog c i r -> oshows_waiting b' body cbody mbody s0 prog c i r' ->
  (forall e, r <> Ret (VExc e)) -> (forall e, r' <> Ret (VExc e)) -> alike r r'.
Proof. exact five_alike. Qed.
Print Assumptions C99_five_partial.

(** And every backend can show the result of direct execution (on MPI get may give an exception as a value: C22). Partial: besides, references and
    actors are used after they were made, every call asks for a result and, on the sequential
    backend, no call is given the result of a call that raises (C98_raising_argument). *)
Theorem C99_five_complete_partial : forall body cbody mbody s0, plain_bodies body mbody ->
  forall prog, oportable body cbody mbody prog -> (forall c args kw, In (TMake c args kw) prog -> cbody c args kw = Ret s0) ->
  oscoped prog -> calls_return prog ->
  forall b, (b = PySeq -> oarguments_fine body cbody mbody prog) -> forall c x i, nth_error prog c = Some x -> i < oouts x ->
  exists r r', result_of (fst (odirect body cbody mbody prog)) c i = Some r /\ oshows_waiting b body cbody mbody s0 prog c i r' /\
    (r' = r \/ exists e, b = Mpi /\ r = Exn e /\ r' = Ret (VExc e)).
Proof. exact five_done. Qed.
Print Assumptions C99_five_complete_partial.

(** The counter of ObjCases gives 20 on all five. *)
Example C99_five_partial_case : forall b, oshows_waiting b zbody xcbody zmbody (VLeaf 10) oprog 5 0 (Ret (VLeaf 20)).
Proof.
  intros []; cbn [oshows_waiting].
  - apply oseq_shows; reflexivity.
  - apply opymp_shows; vm_compute; reflexivity.
  - apply oray_shows; vm_compute; reflexivity.
  - exact ObjWaitCases.ow_shows.
  - apply om_shows; simpl; auto.
Qed.

Example C99_five_complete_partial_case : plain_bodies zbody zmbody /\ oportable zbody xcbody zmbody oprog /\
  (forall c args kw, In (TMake c args kw) oprog -> xcbody c args kw = Ret (VLeaf 10)) /\ oscoped oprog /\ calls_return oprog /\
  oarguments_fine zbody xcbody zmbody oprog /\ nth_error oprog 5 = Some (TMeth 0 0 [AVal (VLeaf 5)] [] 1).
Proof.
  destruct om_done_case as (A & B & C & D & E & _). split; [exact A|]. split; [exact B|]. split; [exact E|]. split; [exact C|]. split; [exact D|].
  split; [exact ObjDoneProofs.o_fine|reflexivity].
Qed.
