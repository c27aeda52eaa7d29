(** What the values of a program must satisfy to be exchanged through shared memory, and the one way in which this may fail. *)
From Coq Require Import ZArith.
From Verif Require Import Lib ValModel ShmModel ShmStoreModel ShmStoreSpec WorkerModel ClusterModel ClusterSpec SharedRunModel.

(** Every value of the program can be deserialised from what it is serialised to, which is not empty. *)
Definition round_trips (body : val -> val -> val -> result) (enc : val -> payload) (dec : payload -> option val)
  (prog : list rop) : Prop :=
  forall d v, sequential body prog d = Some v -> dec (enc v) = Some v /\ 0 < data_size (enc v).

(** A process stopped because the shared memory of its host had no room for an object it put or received. *)
Definition for_lack_of_memory (host_of : nat -> nat) (f : fault) : Prop :=
  exists st o, f = Raised st o /\ lacks_room host_of st o.

(** The hosts have usable segments with service buffers of the same size, and every process is on one of them. *)
Definition memory_fine (host_of : nat -> nat) (sizes : list (Z * Z)) : Prop :=
  sizes_ok sizes /\ (forall sz sz', In sz sizes -> In sz' sizes -> snd sz = snd sz') /\ (forall p, host_of p < length sizes).

(** Only references that were created die. *)
Definition dies_after_birth (prog : list rop) : Prop := forall a d b, prog = a ++ RDrop d :: b -> In d (introduced a).
