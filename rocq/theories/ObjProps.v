(** C99: actors behave alike on every backend. *)
From Verif Require Import Lib ValModel PyseqModel PyseqSpec PyseqCases PortSpec ObjSpec ObjBack ObjCases.

(** Whatever get gives on the sequential, multiprocessing and Ray backends, in any run, is what direct execution of the program gives:
    functions called with the values of their arguments, methods called on their objects in the order of the program. Partial: plain
    values, as many results as asked for, constructors that do not raise; on PyMp no byte strings. Dask: C99_dask_refuted; MPI:
    C61_order_refuted. *)
Theorem C99_direct_partial : forall body cbody mbody prog, oportable body cbody mbody prog -> forall b c i r, b <> OnDask ->
  oshows b body cbody mbody prog c i r -> result_of (fst (odirect body cbody mbody prog)) c i = Some r.
Proof. exact all_direct. Qed.
Print Assumptions C99_direct_partial.

(** So it is the same on all three, values and exceptions. *)
Theorem C99_same_partial : forall body cbody mbody prog, oportable body cbody mbody prog -> forall b b' c i r r', b <> OnDask -> b' <> OnDask ->
  oshows b body cbody mbody prog c i r -> oshows b' body cbody mbody prog c i r' -> r = r'.
Proof. exact all_same. Qed.
Print Assumptions C99_same_partial.

(** On Dask a method may overtake another one of the same actor, and the results differ. *)
Theorem C99_dask_refuted : exists body cbody mbody prog c i v v', oportable body cbody mbody prog /\
  oshows OnPySeq body cbody mbody prog c i (Ret v) /\ oshows OnDask body cbody mbody prog c i (Ret v') /\ v <> v'.
Proof.
  exists zbody, xcbody, zmbody, oprog, 5, 0, (VLeaf 20), (VLeaf 15). split; [exact o_portable|]. split; [apply oseq_shows; reflexivity|]. split; [exact odask_shows|discriminate].
Qed.
Print Assumptions C99_dask_refuted.

(** ** Case: a counter; one method is given the result of a function, one raises after it has changed its object. *)
Example C99_direct_partial_case : oportable zbody xcbody zmbody oprog /\
  odirect zbody xcbody zmbody oprog = ([[Ret (VLeaf 3)]; []; [Ret (VLeaf 4)]; [Ret (VLeaf 14)]; [Exn 8]; [Ret (VLeaf 20)]], [VLeaf 20]) /\
  forall b, b <> OnDask -> oshows b zbody xcbody zmbody oprog 5 0 (Ret (VLeaf 20)) /\ oshows b zbody xcbody zmbody oprog 4 0 (Exn 8).
Proof.
  split; [exact o_portable|]. split; [reflexivity|]. intros [] N; [| | |congruence].
  - split; apply oseq_shows; reflexivity.
  - split; apply opymp_shows; vm_compute; reflexivity.
  - split; apply oray_shows; vm_compute; reflexivity.
Qed.
