(** C99: a program with actors can be run to its end, and every result can be read. *)
From Verif Require Import Lib ValModel PyseqModel PyseqSpec PyseqCases PortSpec ObjSpec ObjCases ObjDoneSpec ObjDoneProofs.

(** Every result of the program can be read with get, and what direct execution gives is a possible result on every backend, Dask included: there
    the run that finishes each call before the next one. Partial: as in C99_direct_partial; functions and methods return plain values; on
    PySeq no call is given the reference of a call that raised (it would raise itself: C98_raising_argument); on PyMp with enough processes, as
    each actor takes one for itself. *)
Theorem C99_complete_partial : forall body cbody mbody prog, plain_bodies body mbody -> oportable body cbody mbody prog -> oscoped prog ->
  forall b, osuits b body cbody mbody prog ->
  forall c x i, nth_error prog c = Some x -> i < oouts x ->
  exists r, result_of (fst (odirect body cbody mbody prog)) c i = Some r /\ oshows b body cbody mbody prog c i r.
Proof. exact ogives. Qed.
Print Assumptions C99_complete_partial.

(** Apart from Dask (C99_dask_refuted), get gives exactly what direct execution gives: value, exception, and nothing else. *)
Theorem C99_exactly_partial : forall body cbody mbody prog, plain_bodies body mbody -> oportable body cbody mbody prog -> oscoped prog ->
  forall b, b <> OnDask -> osuits b body cbody mbody prog ->
  forall c x i, nth_error prog c = Some x -> i < oouts x ->
  forall r, oshows b body cbody mbody prog c i r <-> result_of (fst (odirect body cbody mbody prog)) c i = Some r.
Proof. exact oexactly. Qed.
Print Assumptions C99_exactly_partial.

(** What get gives on one of these backends, it gives on every other, and can give on Dask. *)
Theorem C99_everywhere_partial : forall body cbody mbody prog, plain_bodies body mbody -> oportable body cbody mbody prog -> oscoped prog ->
  forall b b', b <> OnDask -> osuits b' body cbody mbody prog ->
  forall c x i, nth_error prog c = Some x -> i < oouts x ->
  forall r, oshows b body cbody mbody prog c i r -> oshows b' body cbody mbody prog c i r.
Proof. exact oeverywhere. Qed.
Print Assumptions C99_everywhere_partial.

(** The program of ObjCases: a counter that is given the result of a function, and a method that raises after it has changed its object. *)
Example C99_complete_partial_case : plain_bodies zbody zmbody /\ oportable zbody xcbody zmbody oprog /\ oscoped oprog /\
  (forall b, osuits b zbody xcbody zmbody oprog) /\ nth_error oprog 5 = Some (TMeth 0 0 [AVal (VLeaf 5)] [] 1) /\
  result_of (fst (odirect zbody xcbody zmbody oprog)) 5 0 = Some (Ret (VLeaf 20)).
Proof.
  split; [exact o_plain|]. split; [exact o_portable|]. split; [exact o_scoped|]. split; [|split; reflexivity].
  intros []; [exact o_fine|exact I|exact I|exact I].
Qed.
