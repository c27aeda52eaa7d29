(** Vocabulary for C52. *)
From Verif Require Import Lib AsyncModel.

(** Recording [data] beside a handler keeps this memory alive; the request itself owns what mpi4py pickled. *)
Definition holds (data : option nat) (m : memory) : Prop :=
  match m with
  | Pickled => True
  | Whole o => data = Some o
  | Copy _ _ _ => False
  end.

(** No serialised operation is larger than one block. *)
Definition one_block (block : nat) (ops : list aop) : Prop :=
  forall op o n, In (SendSerialized op o n) ops -> n <= block.

(** The buffers handed to non-blocking sends by one operation. *)
Definition buffers (o : aop) : list nat :=
  match o with
  | SendComplex s raw => s :: raw
  | SendSerialized _ o n => if Nat.eqb n 0 then [] else [o]
  | _ => []
  end.
