(** One program with actors on MPI and the other backends. *)
From Verif Require Import Lib ValModel PyseqModel PyseqSpec PortSpec ObjSpec ObjDoneSpec ObjMpiSpec ObjMpi ObjMpiDone ObjCases ObjMpiCases.

(** C99: if a program on MPI gets a result of each method call before it makes the next one on the same actor, or has the values of the
    call's arguments, then every get gives the value or the exception of direct execution, in every schedule. (A second get of a failed result
    gives the exception as a value: C22.) Partial: no coroutines, one actor on a worker, all actors made with the same state, plain values. *)
Theorem C99_mpi_waits_partial : forall body cbody mbody s0, plain_bodies body mbody ->
  forall prog, oportable body cbody mbody prog -> (forall c args kw, In (TMake c args kw) prog -> cbody c args kw = Ret s0) ->
  forall c i r, oshows_mpi body mbody s0 prog c i r -> (forall e, r <> Ret (VExc e)) ->
  result_of (fst (odirect body cbody mbody prog)) c i = Some r.
Proof. exact mpi_waits. Qed.
Print Assumptions C99_mpi_waits_partial.

(** So it is what the sequential, multiprocessing and Ray backends show. *)
Theorem C99_mpi_same_partial : forall body cbody mbody s0, plain_bodies body mbody ->
  forall prog, oportable body cbody mbody prog -> (forall c args kw, In (TMake c args kw) prog -> cbody c args kw = Ret s0) ->
  forall b c i r r', b <> OnDask -> oshows_mpi body mbody s0 prog c i r -> (forall e, r <> Ret (VExc e)) ->
  oshows b body cbody mbody prog c i r' -> r = r'.
Proof. exact mpi_same. Qed.
Print Assumptions C99_mpi_same_partial.

(** Such runs exist: a program whose calls ask for results can be run to its end while it waits, and every result can be read. (If the result is
    an exception and was got before, get gives it as a value: C22.) Partial: as before, and references and actors are used after they were made. *)
Theorem C99_mpi_complete_partial : forall body cbody mbody s0, plain_bodies body mbody ->
  forall prog, oportable body cbody mbody prog -> oscoped prog -> calls_return prog ->
  (forall c args kw, In (TMake c args kw) prog -> cbody c args kw = Ret s0) ->
  forall c x i, nth_error prog c = Some x -> i < oouts x ->
  exists r, result_of (fst (odirect body cbody mbody prog)) c i = Some r /\
    (oshows_mpi body mbody s0 prog c i r \/ exists e, r = Exn e /\ oshows_mpi body mbody s0 prog c i (Ret (VExc e))).
Proof. exact mpi_done. Qed.
Print Assumptions C99_mpi_complete_partial.

(** The counter of ObjCases: 20, and an exception. *)
Example C99_mpi_waits_partial_case : plain_bodies zbody zmbody /\ oportable zbody xcbody zmbody oprog /\
  (forall c args kw, In (TMake c args kw) oprog -> xcbody c args kw = Ret (VLeaf 10)) /\
  oshows_mpi zbody zmbody (VLeaf 10) oprog 5 0 (Ret (VLeaf 20)) /\ oshows_mpi zbody zmbody (VLeaf 10) oprog 4 0 (Exn 8) /\
  oshows OnPySeq zbody xcbody zmbody oprog 5 0 (Ret (VLeaf 20)).
Proof. exact om_case. Qed.

Example C99_mpi_complete_partial_case : plain_bodies zbody zmbody /\ oportable zbody xcbody zmbody oprog /\ oscoped oprog /\ calls_return oprog /\
  (forall c args kw, In (TMake c args kw) oprog -> xcbody c args kw = Ret (VLeaf 10)) /\ nth_error oprog 4 = Some (TMeth 0 1 [AVal (VLeaf 1)] [] 1).
Proof. exact om_done_case. Qed.
