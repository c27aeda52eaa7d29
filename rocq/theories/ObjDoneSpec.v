(** Vocabulary for the completeness part of C99. *)
From Verif Require Import Lib ValModel PyseqModel PyseqSpec PortSpec ObjSpec.

(** The number of references a call returns, its arguments, the number of actors a program makes. *)
Definition oouts (x : ocall) : nat := match x with TPut _ => 1 | TFun _ _ _ n | TMeth _ _ _ _ n => n | TMake _ _ _ => 0 end.
Definition oargs (x : ocall) : list parg := match x with TFun _ args kw _ | TMeth _ _ args kw _ => args ++ map snd kw | _ => [] end.
Definition makes (p : list ocall) : nat := length (filter (fun x => match x with TMake _ _ _ => true | _ => false end) p).

(** A program only uses references that earlier calls have returned, and calls methods of actors it has made before. *)
Definition oscoped (prog : list ocall) : Prop := forall pre x post, prog = pre ++ x :: post ->
  (forall c i, In (AOut c i) (oargs x) -> exists y, nth_error pre c = Some y /\ i < oouts y) /\
  (forall a m args kw n, x = TMeth a m args kw n -> a < makes pre).

(** Functions and methods return plain values. *)
Definition plain_bodies (body : nat -> list val -> kwargs -> res) (mbody : nat -> val -> list val -> kwargs -> res * val) : Prop :=
  plain_functions body /\ forall m s vs ks v s', mbody m s vs ks = (Ret v, s') -> plain v.

(** No call is given the reference of a call that raises. *)
Definition oarguments_fine (body cbody : nat -> list val -> kwargs -> res) (mbody : nat -> val -> list val -> kwargs -> res * val) (prog : list ocall) : Prop :=
  forall x c i, In x prog -> In (AOut c i) (oargs x) -> exists v, result_of (fst (odirect body cbody mbody prog)) c i = Some (Ret v).

(** What a backend asks of a program in addition. *)
Definition osuits (b : with_actors) (body cbody : nat -> list val -> kwargs -> res) (mbody : nat -> val -> list val -> kwargs -> res * val) (prog : list ocall) : Prop :=
  match b with OnPySeq => oarguments_fine body cbody mbody prog | _ => True end.
