(** C78: init, is_initialized, shutdown and put agree on whether there is a session. *)
From Verif Require Import Lib BaseModel LifeModel LifeSpec LifeProofs LifeCases.

(** For every backend and every program within its limits, of any length: init and put switch the session on, shutdown switches it off,
    is_initialized tells which, every call returns, and something is started exactly when the session is switched on. What is missing from
    the property is what [within] excludes: see the refutations. *)
Theorem C78_session_partial :
  forall spawn b os, within b os ->
    snd (lrun spawn b life0 os) = answers false os /\ starts (fst (lrun spawn b life0 os)) = switched_on false os.
Proof. exact life_ok. Qed.
Print Assumptions C78_session_partial.

Example C78_case :
  within Mpi [LIsInitialized; LPut; LPut; LIsInitialized; LShutdown; LShutdown] /\
  within Dask [LInit; LShutdown; LPut; LShutdown; LInit] /\
  snd (lrun true Mpi life0 [LIsInitialized; LPut; LPut; LIsInitialized; LShutdown; LShutdown]) =
    [Says false; Returned; Returned; Says true; Returned; Returned] /\
  starts (fst (lrun true Dask life0 [LInit; LShutdown; LPut; LShutdown; LInit])) = 3.
Proof. exact c78_case. Qed.

(** MPI: a second init starts a second set of processes and never returns. *)
Theorem C78_second_init_refuted :
  snd (lrun true Mpi life0 [LInit; LInit]) = [Returned; Blocked] /\ starts (fst (lrun true Mpi life0 [LInit; LInit])) = 2 /\
  answers false [LInit; LInit] = [Returned; Returned].
Proof. repeat split; reflexivity. Qed.
Print Assumptions C78_second_init_refuted.

(** MPI: after shutdown, is_initialized says yes, and init raises. *)
Theorem C78_after_shutdown_refuted :
  snd (lrun true Mpi life0 [LInit; LShutdown; LIsInitialized; LInit]) = [Returned; Returned; Says true; Raised] /\
  answers false [LInit; LShutdown; LIsInitialized; LInit] = [Returned; Returned; Says false; Returned].
Proof. repeat split; reflexivity. Qed.
Print Assumptions C78_after_shutdown_refuted.

(** PyMp: shutdown raises; PySeq: it does nothing. *)
Theorem C78_local_shutdown_refuted :
  snd (lrun true PyMp life0 [LInit; LShutdown]) = [Returned; Raised] /\
  snd (lrun true PySeq life0 [LInit; LShutdown; LIsInitialized]) = [Returned; Returned; Says true].
Proof. repeat split; reflexivity. Qed.
Print Assumptions C78_local_shutdown_refuted.

(** MPI and Dask: shutdown before init raises. *)
Theorem C78_early_shutdown_refuted :
  snd (lrun true Mpi life0 [LShutdown]) = [Raised] /\ snd (lrun true Dask life0 [LShutdown]) = [Raised] /\ answers false [LShutdown] = [Returned].
Proof. repeat split; reflexivity. Qed.
Print Assumptions C78_early_shutdown_refuted.
