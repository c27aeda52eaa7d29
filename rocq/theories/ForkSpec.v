(** What C89 talks about. *)
From Verif Require Import Lib ForkModel.

(** Tasks run in process p: it is a worker of some process. *)
Definition runs_tasks (w : world) (p : nat) : Prop :=
  exists q o, q < w_procs w /\ c_manager (w_proc w q) = Some o /\ In p (o_workers o).

(** The methods of some actor run in process p; worker q takes the calls. *)
Definition runs_methods (w : world) (p q : nat) : Prop := In (p, q) (w_actors w).

(** The task for these references is in the queue of worker q. *)
Definition queued (w : world) (q : nat) (ds : list nat) : Prop := exists k, In (k, ds) (w_queue w q).

(** In this history worker q does not end a task. *)
Definition q_busy (q : nat) (h : list event) : Prop := forall v, ~ In (EEnd q v) h.
