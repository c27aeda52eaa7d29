(** Specification vocabulary for values read from shared memory. *)
From Verif Require Import Lib ShmModel ShmStoreModel.

(** No reference to the object is cleaned up: no cleanup names it. *)
Definition never_cleaned (d : dataid) (ops : list sop) : Prop :=
  forall ids, In (SCleanup ids) ops -> ~ In d ids.

(** The object is not waiting in a queue of a monitor for the next cleanup. *)
Definition not_queued (st : store) (d : dataid) : Prop :=
  forall h, In h (hosts st) -> ~ In d (pending_cleanup (mgr h)).
