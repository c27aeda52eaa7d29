(** Vocabulary for the completeness part of C98. *)
From Verif Require Import Lib ValModel PyseqModel PyseqSpec PortSpec PortShows.

(** The number of references a call returns. *)
Definition outs (x : pcall) : nat := match x with CPut _ => 1 | CFun _ _ _ n => n end.

(** A program only uses references that earlier calls have returned. *)
Definition scoped (prog : list pcall) : Prop :=
  forall pre f args kw n post c i, prog = pre ++ CFun f args kw n :: post -> In (AOut c i) (args ++ map snd kw) ->
  exists x, nth_error pre c = Some x /\ i < outs x.

(** No call is given the reference of a call that raises. *)
Definition arguments_fine (body : nat -> list val -> kwargs -> res) (prog : list pcall) : Prop :=
  forall f args kw n c i, In (CFun f args kw n) prog -> In (AOut c i) (args ++ map snd kw) ->
  exists v, result_of (direct body prog) c i = Some (Ret v).

(** Every call returns references. *)
Definition calls_return (prog : list pcall) : Prop := forall x, In x prog -> 0 < outs x.

(** What a backend asks of a program in addition. *)
Definition suits (b : backend) (body : nat -> list val -> kwargs -> res) (prog : list pcall) : Prop :=
  match b with PySeq => arguments_fine body prog | Mpi => calls_return prog | _ => True end.
