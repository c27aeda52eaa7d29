(** C74 and C75: what of a remote call reaches the user's code. *)
From Verif Require Import Lib BaseModel ArgsModel ArgsSpec ArgsProofs ArgsCases.
From Coq Require Import String List.
Import ListNotations.
Local Open Scope string_scope.

(** On every backend, for functions, methods and constructors, with and without options: the user's code gets exactly the arguments of the
    call, positional ones in their order and keyword arguments under their names, if and only if no keyword is one of the reserved names.
    What is missing from the property: the reserved names. *)
Theorem C74_delivered_partial :
  forall (dask_options : list string) (content : nat -> aval), In "pure" dask_options -> In "actor" dask_options ->
  forall be e args kw, keywords kw ->
    (remote_call dask_options content be e args kw = Reaches (map (gets content e) args) (gets_kw content e kw) <->
     forall k, In k (map fst kw) -> ~ In k (reserved dask_options be e)).
Proof. exact c74_iff. Qed.
Print Assumptions C74_delivered_partial.

Example C74_case : forall be, keywords kws /\
  remote_call dopts store be Function [AObj 1; ARef 1] kws = Reaches [AObj 1; AObj 101] [("x", AObj 102); ("y", ANone)] /\
  remote_call dopts store be (MethodOptions (AObj 2)) [AObj 1; ARef 1] kws = Reaches [AObj 1; AObj 101] [("x", AObj 102); ("y", ANone)] /\
  remote_call dopts store be Constructor [AObj 1; ARef 1] kws = Reaches [AObj 1; ARef 1] kws.
Proof. exact c74_case. Qed.

(** Whatever the keywords are: if the user's code is called at all, it gets all positional arguments in their order and all keyword arguments
    that are not reserved, with their values. *)
Theorem C74_nothing_altered :
  forall (dask_options : list string) (content : nat -> aval), In "pure" dask_options -> In "actor" dask_options ->
  forall be e args kw a w, remote_call dask_options content be e args kw = Reaches a w ->
    a = map (gets content e) args /\ w = gets_kw content e (unreserved dask_options be e kw).
Proof. exact c74_rest. Qed.
Print Assumptions C74_nothing_altered.

(** num_cpus and resources are not ignored where they are not supported: on every backend but Ray a call that gives one of them (other
    than None) is refused. *)
Theorem C74_unsupported_refused :
  forall (dask_options : list string) (content : nat -> aval) be e args kw k v,
    be <> Ray -> e = Function \/ e = Constructor -> k = "num_cpus" \/ k = "resources" -> In (k, v) kw -> v <> ANone ->
    remote_call dask_options content be e args kw = NotImpl \/ remote_call dask_options content be e args kw = TypeErr.
Proof. exact c74_refused. Qed.
Print Assumptions C74_unsupported_refused.

Example C74_unsupported_case : forall be, be <> Ray ->
  remote_call dopts store be Function [AObj 1] [("num_cpus", AObj 3); ("x", AObj 1)] = NotImpl /\
  remote_call dopts store be Constructor [AObj 1] [("resources", AObj 3); ("x", AObj 1)] = NotImpl.
Proof. exact c74_unsupported. Qed.

(** A function or method with a parameter num_returns is called without it, on every backend. *)
Theorem C74_swallowed_refuted : forall be,
  remote_call dopts store be Function [] [("num_returns", AObj 3); ("x", AObj 1)] = Reaches [] [("x", AObj 1)] /\
  remote_call dopts store be Method [] [("num_returns", AObj 3); ("x", AObj 1)] = Reaches [] [("x", AObj 1)].
Proof. exact c74_swallowed. Qed.
Print Assumptions C74_swallowed_refuted.

(** Names of parameters inside the backends: calls that work on one backend fail, or lose arguments, on another. *)
Theorem C74_clashes_refuted :
  remote_call dopts store Mpi Function [] [("task", AObj 1)] = TypeErr /\
  remote_call dopts store PyMp Function [] [("func", AObj 1)] = TypeErr /\
  remote_call dopts store PyMp Function [] [("data_ids", AObj 1)] = TypeErr /\
  remote_call dopts store PySeq Method [] [("func", AObj 1)] = TypeErr /\
  remote_call dopts store Dask Method [] [("method", AObj 1)] = TypeErr /\
  remote_call dopts store Dask Function [] [("key", AObj 1)] = Reaches [] [] /\
  remote_call dopts store Dask Function [] [("pure", AObj 1)] = TypeErr /\
  remote_call dopts store Dask Method [] [("pure", AObj 1)] = TypeErr /\
  remote_call dopts store Mpi Constructor [] [("cls", AObj 1)] = TypeErr /\
  remote_call dopts store Mpi Constructor [] [("owner_rank", AObj 1)] = NotCalled /\
  remote_call dopts store PySeq Constructor [] [("cls", AObj 1); ("owner_rank", AObj 1)] =
    Reaches [] [("cls", AObj 1); ("owner_rank", AObj 1)].
Proof. exact c74_clashes. Qed.
Print Assumptions C74_clashes_refuted.

(** A reference as an argument: functions and methods get the object, constructors get the reference, on every backend. *)
Theorem C74_constructor_reference_refuted :
  forall dask_options content be n, In "pure" dask_options -> In "actor" dask_options ->
    remote_call dask_options content be Function [ARef n] [] = Reaches [content n] [] /\
    remote_call dask_options content be Method [ARef n] [] = Reaches [content n] [] /\
    remote_call dask_options content be Constructor [ARef n] [] = Reaches [ARef n] [].
Proof. exact c74_constructors. Qed.
Print Assumptions C74_constructor_reference_refuted.

(** Every method whose name does not start with an underscore can be called through the handle on the MPI, PyMp and PySeq backends,
    except for a method named submit on PyMp. *)
Theorem C75_public_partial :
  forall be name, be = Mpi \/ be = PyMp \/ be = PySeq -> prefix "_" name = false ->
    (finds_method be name = true <-> ~ (be = PyMp /\ name = "submit")).
Proof. exact c75_iff. Qed.
Print Assumptions C75_public_partial.

(** The exception is real: that method cannot be called. *)
Theorem C75_submit_refuted : exists be name, (be = Mpi \/ be = PyMp \/ be = PySeq) /\ prefix "_" name = false /\
  finds_method be name = false.
Proof. exact c75_submit. Qed.
Print Assumptions C75_submit_refuted.

Example C75_case : finds_method Mpi "submit" = true /\ finds_method PySeq "submit" = true /\ finds_method PyMp "append" = true /\
  finds_method PyMp "submit" = false /\ finds_method Mpi "_remote" = false.
Proof. exact c75_case. Qed.
