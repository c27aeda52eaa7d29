(** Words used in the statements about the garbage collector. *)
From Verif Require Import Lib GcModel.

(** The references that died in a history, in order. *)
Definition deaths (ops : list gop) : list dataid :=
  flat_map (fun o => match o with
                     | GTask => []
                     | GDead d => [d]
                     | GCleanup _ _ _ early late => early ++ late end) ops.

(** No reference dies between the serialisation of the list and its clearing. *)
Definition none_late (ops : list gop) : Prop :=
  forall now executed later early late, In (GCleanup now executed later early late) ops -> late = [].

(** The number of tasks submitted. *)
Definition submitted (ops : list gop) : nat := length (filter (fun o => match o with GTask => true | _ => false end) ops).
