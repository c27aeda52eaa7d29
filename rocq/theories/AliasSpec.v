(** Vocabulary for C70. *)
From Verif Require Import Lib AliasModel.

(** The object at l is in the memory of p, with content c. *)
Definition holds (s : ast) (p l : nat) (c : cont) : Prop := l < next s /\ o_mem (heap s l) = p /\ o_c (heap s l) = c.

(** No program changes an object that some process has as the value of a reference: one returned by get, given to a task as the value of a reference, or returned by
    a task. (It may change the objects it gave to put.) *)
Definition values_left_alone (ops : list aop) : Prop :=
  forall a o b l, ops = a ++ o :: b -> (exists p x, o = ASetIn p l x) \/ (exists p bs, o = ASetBufs p l bs) ->
  forall q d, local (arun a) q d <> Some l.

(** No program changes the buffers of an object while a task that was given the object is being sent. *)
Definition buffers_left_alone (ops : list aop) : Prop :=
  forall a p l bs b, ops = a ++ ASetBufs p l bs :: b -> forall n w x, ~ In (FArg n w x l) (air (arun a)).

(** The same, but the programs of p may change what is in p's memory. *)
Definition values_left_alone_but (p : nat) (ops : list aop) : Prop :=
  forall a o b l, ops = a ++ o :: b -> (exists r x, o = ASetIn r l x) \/ (exists r bs, o = ASetBufs r l bs) ->
  forall q d, q <> p -> local (arun a) q d <> Some l.
