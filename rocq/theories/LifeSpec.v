(** What C78 says a session should be: on or off. *)
From Verif Require Import Lib BaseModel LifeModel.

(** Whether the session is on after some calls: init and put switch it on, shutdown off. *)
Fixpoint is_on (on : bool) (os : list lop) : bool :=
  match os with
  | [] => on
  | (LInit | LPut) :: r => is_on true r
  | LShutdown :: r => is_on false r
  | LIsInitialized :: r => is_on on r
  end.

(** What the calls answer. *)
Fixpoint answers (on : bool) (os : list lop) : list lans :=
  match os with
  | [] => []
  | LIsInitialized :: r => Says on :: answers on r
  | o :: r => Returned :: answers (is_on on [o]) r
  end.

(** How often something is started: at the calls that switch it on. *)
Fixpoint switched_on (on : bool) (os : list lop) : nat :=
  match os with
  | [] => 0
  | o :: r => (if negb on && is_on on [o] then 1 else 0) + switched_on (is_on on [o]) r
  end.

(** Programs that use a backend within its limits. *)
Definition within (b : backend) (os : list lop) : Prop :=
  match b with
  | Ray => True
  | Dask => forall pre post, os = pre ++ LShutdown :: post -> is_on false pre = true
  | PyMp | PySeq => ~ In LShutdown os
  | Mpi =>
      (forall pre post, os = pre ++ LInit :: post -> is_on false pre = false) /\
      (forall pre post, os = pre ++ LShutdown :: post -> (is_on false pre = true \/ In LShutdown pre) /\ forall o, In o post -> o = LShutdown)
  end.
