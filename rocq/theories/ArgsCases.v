(** Concrete calls for C74 and C75. *)
From Verif Require Import Lib BaseModel ArgsModel ArgsSpec ArgsProofs.
From Coq Require Import String List.
Import ListNotations.
Local Open Scope string_scope.

(** Some of the options of Dask's submit. *)
Definition dopts : list string := ["key"; "workers"; "resources"; "retries"; "priority"; "fifo_timeout"; "allow_other_workers"; "actor"; "actors"; "pure"].

Definition store (n : nat) : aval := AObj (100 + n).

(** f(1, ref, x=ref2, y=None) *)
Definition kws : akw := [("x", ARef 2); ("y", ANone)].

Lemma c74_case be : keywords kws /\
  remote_call dopts store be Function [AObj 1; ARef 1] kws = Reaches [AObj 1; AObj 101] [("x", AObj 102); ("y", ANone)] /\
  remote_call dopts store be (MethodOptions (AObj 2)) [AObj 1; ARef 1] kws = Reaches [AObj 1; AObj 101] [("x", AObj 102); ("y", ANone)] /\
  remote_call dopts store be Constructor [AObj 1; ARef 1] kws = Reaches [AObj 1; ARef 1] kws.
Proof.
  split; [unfold keywords; simpl; repeat constructor; simpl; intuition discriminate|].
  destruct be; repeat split; reflexivity.
Qed.

(** A keyword argument of the user's function that is called num_returns does not reach it. *)
Lemma c74_swallowed : forall be,
  remote_call dopts store be Function [] [("num_returns", AObj 3); ("x", AObj 1)] = Reaches [] [("x", AObj 1)] /\
  remote_call dopts store be Method [] [("num_returns", AObj 3); ("x", AObj 1)] = Reaches [] [("x", AObj 1)].
Proof. intros [| | | |]; split; reflexivity. Qed.

(** Names of parameters inside the backends. *)
Lemma c74_clashes :
  remote_call dopts store Mpi Function [] [("task", AObj 1)] = TypeErr /\
  remote_call dopts store PyMp Function [] [("func", AObj 1)] = TypeErr /\
  remote_call dopts store PyMp Function [] [("data_ids", AObj 1)] = TypeErr /\
  remote_call dopts store PySeq Method [] [("func", AObj 1)] = TypeErr /\
  remote_call dopts store Dask Method [] [("method", AObj 1)] = TypeErr /\
  remote_call dopts store Dask Function [] [("key", AObj 1)] = Reaches [] [] /\
  remote_call dopts store Dask Function [] [("pure", AObj 1)] = TypeErr /\
  remote_call dopts store Dask Method [] [("pure", AObj 1)] = TypeErr /\
  remote_call dopts store Mpi Constructor [] [("cls", AObj 1)] = TypeErr /\
  remote_call dopts store Mpi Constructor [] [("owner_rank", AObj 1)] = NotCalled /\
  remote_call dopts store PySeq Constructor [] [("cls", AObj 1); ("owner_rank", AObj 1)] =
    Reaches [] [("cls", AObj 1); ("owner_rank", AObj 1)].
Proof. repeat split; reflexivity. Qed.

Lemma c75_case : finds_method Mpi "submit" = true /\ finds_method PySeq "submit" = true /\ finds_method PyMp "append" = true /\
  finds_method PyMp "submit" = false /\ finds_method Mpi "_remote" = false.
Proof. repeat split; reflexivity. Qed.

Lemma c74_unsupported : forall be, be <> Ray ->
  remote_call dopts store be Function [AObj 1] [("num_cpus", AObj 3); ("x", AObj 1)] = NotImpl /\
  remote_call dopts store be Constructor [AObj 1] [("resources", AObj 3); ("x", AObj 1)] = NotImpl.
Proof. intros [] H; try congruence; split; vm_compute; reflexivity. Qed.

Lemma c75_submit : exists be name, (be = Mpi \/ be = PyMp \/ be = PySeq) /\ prefix "_" name = false /\
  finds_method be name = false.
Proof. exists PyMp, "submit"%string. vm_compute. auto. Qed.
