(** Vocabulary for cleanups that several monitors carry out together. *)
From Verif Require Import Lib ShmModel ShmSpec CollModel.
Local Open Scope Z_scope.

(** The cleanup requests of a history, in the order in which they were sent. *)
Fixpoint told (ops : list kop) : list (list dataid) :=
  match ops with
  | [] => []
  | KTell _ ids :: r => ids :: told r
  | _ :: r => told r
  end.

(** The cleanups in a history of all monitors in which every cleanup is handled by all of them at once (C04). *)
Fixpoint cleanups (cops : list cop) : list (list dataid) :=
  match cops with
  | [] => []
  | CCleanup _ ids :: r => ids :: cleanups r
  | _ :: r => cleanups r
  end.

(** All cleanup requests come from one process. *)
Definition one_sender (src : rank) (ops : list kop) : Prop :=
  forall src' ids, In (KTell src' ids) ops -> src' = src.

(** The reservation of [d] on host [h] disappears in the step [o]. *)
Definition freed_in (s : kst) (o : kop) (h : nat) (d : dataid) : Prop :=
  exists x x', nth_error (k_hosts s) h = Some x /\ nth_error (k_hosts (kstep s o)) h = Some x' /\
    resv (k_mgr x) d <> None /\ resv (k_mgr x') d = None.

(** The monitor of host [h] has looked at the reference counts for the cleanup it is in, and saw some for [d]. *)
Definition saw_references (s : kst) (h : nat) (d : dataid) : Prop :=
  exists x refs ids fl, nth_error (k_hosts s) h = Some x /\ k_mode x = InReduce refs ids fl /\
    resv (k_mgr x) d <> None /\ 0 < refs d.

(** Nothing is left to do: every monitor waits for a message and there is none. *)
Definition drained (s : kst) : Prop :=
  forall x, In x (k_hosts s) -> k_mode x = Running /\ forall src, k_in x src = [].

(** Some monitor can take a message, or all of them can finish a cleanup. *)
Definition can_go_on (s : kst) : Prop :=
  (exists x src, In x (k_hosts s) /\ k_mode x = Running /\ k_in x src <> []) \/
  (forall x, In x (k_hosts s) -> exists refs ids fl, k_mode x = InReduce refs ids fl).

(** What monitors do by themselves, each seeing the reference counts that [look] gives for its host. *)
Definition monitor_step (look : nat -> dataid -> Z) (o : kop) : Prop :=
  match o with
  | KTake h _ refs => refs = look h
  | KReduce => True
  | _ => False
  end.
