(** C98: the same program gives the same results on every backend. *)
From Verif Require Import Lib ValModel PyseqModel PyseqSpec PortSpec PortShows PortProofs PortCases.

(** Whatever get shows on a backend, in any run: if direct execution of the program gives a value there, it is that value. Partial:
    programs of puts and calls of functions; no references inside containers, no exception objects as values, as many results as asked
    for; on PyMp no byte strings. *)
Theorem C98_values_partial : forall body prog, plain_functions body -> portable body prog -> forall b c i v r,
  result_of (direct body prog) c i = Some (Ret v) -> shows b body prog c i r -> r = Ret v.
Proof. exact values. Qed.
Print Assumptions C98_values_partial.

(** If direct execution gives an exception, get raises: that exception; on Dask one of those in the arguments; on MPI it raises it or
    (from the second get on) returns it. *)
Theorem C98_exceptions_partial : forall body prog, plain_functions body -> portable body prog -> forall b c i e r,
  result_of (direct body prog) c i = Some (Exn e) -> shows b body prog c i r ->
  match b with Mpi => r = Exn e \/ r = Ret (VExc e) | Dask => exists e', r = Exn e' | _ => r = Exn e end.
Proof. exact exceptions. Qed.
Print Assumptions C98_exceptions_partial.

(** The backends show nothing for which direct execution has no result. *)
Theorem C98_defined : forall body prog, plain_functions body -> portable body prog -> forall b c i r,
  shows b body prog c i r -> exists r0, result_of (direct body prog) c i = Some r0.
Proof. exact defined. Qed.
Print Assumptions C98_defined.

(** What get returns on one backend is what it gives on every other. *)
Theorem C98_same : forall body prog, plain_functions body -> portable body prog -> forall b b' c i v r,
  shows b body prog c i (Ret v) -> is_exc v = false -> shows b' body prog c i r -> r = Ret v.
Proof. exact same. Qed.
Print Assumptions C98_same.

(** A reference inside a list: PySeq hands the function the reference, Dask the value. *)
Theorem C98_nested_refuted : exists body prog c i v v', plain_functions body /\
  shows PySeq body prog c i (Ret v) /\ shows Dask body prog c i (Ret v') /\ v <> v'.
Proof. exists nbody, nprog, 1, 0, (VLeaf 1), (VLeaf 2). split; [exact n_plain|]. split; [exact n_seq|]. split; [exact n_dask|discriminate]. Qed.
Print Assumptions C98_nested_refuted.

(** The exception of a function that raised: on MPI get also returns it, as a value. *)
Theorem C98_raised_refuted : exists body prog c i e, plain_functions body /\ portable body prog /\
  shows PySeq body prog c i (Exn e) /\ shows Mpi body prog c i (Exn e) /\ shows Mpi body prog c i (Ret (VExc e)).
Proof.
  exists zbody, pprog, 3, 0, 9. split; [exact z_plain|]. split; [exact p_portable|]. split; [apply seq_shows; reflexivity|].
  split; apply (mpi_shows 3 0 _ (0, 4)); try reflexivity.
  - simpl. auto 10.
  - exists [(0, 4)], [VExc 9], 0. simpl. auto 10.
Qed.
Print Assumptions C98_raised_refuted.

(** ** Cases *)

(** A put, a pair, the sum of its items, a function that raises, on all backends. *)
Example C98_values_partial_case : plain_functions zbody /\ portable zbody pprog /\
  result_of (direct zbody pprog) 2 0 = Some (Ret (VLeaf 9)) /\ forall b, shows b zbody pprog 2 0 (Ret (VLeaf 9)).
Proof.
  split; [exact z_plain|]. split; [exact p_portable|]. split; [reflexivity|]. intros [].
  - apply seq_shows. reflexivity.
  - apply pymp_shows. vm_compute. reflexivity.
  - apply ray_shows. vm_compute. reflexivity.
  - apply dask_shows. vm_compute. reflexivity.
  - apply (mpi_shows 2 0 _ (0, 3)); [reflexivity|]. exists [(0, 3)], [VLeaf 9], 0. simpl. auto 10.
Qed.

Example C98_exceptions_partial_case : result_of (direct zbody pprog) 3 0 = Some (Exn 9) /\ forall b, shows b zbody pprog 3 0 (Exn 9).
Proof.
  split; [reflexivity|]. intros [].
  - apply seq_shows. reflexivity.
  - apply pymp_shows. vm_compute. reflexivity.
  - apply ray_shows. vm_compute. reflexivity.
  - apply dask_shows. vm_compute. reflexivity.
  - apply (mpi_shows 3 0 _ (0, 4)); [reflexivity|]. simpl. auto 10.
Qed.

(** The second of two results. *)
Example C98_same_case : shows Mpi zbody pprog 1 1 (Ret (VLeaf 5)) /\ shows Ray zbody pprog 1 1 (Ret (VLeaf 5)) /\ shows Dask zbody pprog 1 1 (Ret (VLeaf 5)).
Proof.
  split; [|split].
  - apply (mpi_shows 1 1 _ (0, 2)); [reflexivity|]. exists [(0, 1); (0, 2)], [VLeaf 4; VLeaf 5], 1. simpl. auto 10.
  - apply ray_shows. vm_compute. reflexivity.
  - apply dask_shows. vm_compute. reflexivity.
Qed.
