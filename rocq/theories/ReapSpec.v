(** Cleanups in programs with nested calls: what is observed. *)
From Verif Require Import Lib ValModel WorkerModel NestModel ReapModel.

(** Task q has been executed to its end. *)
Definition finished (H : list (nat * hev)) (q : request) : Prop := exists t r, In (t, HStart (q_id q)) H /\ In (t, HEnd r) H.

(** The references among the arguments of a call, its function included. *)
Definition uses (q : request) : list dataid := (match q_fn q with FRef d => [d] | _ => [] end) ++ refs (q_args q) ++ refs (q_kwargs q).

(** A program that calls no remote function. *)
Fixpoint callless (a : act) : Prop :=
  match a with
  | ARet _ => True
  | APut _ k => forall d, callless (k d)
  | ASubmit _ _ _ _ _ => False
  | AGet _ k => forall r, callless (k r)
  end.

(** The calls that process p has not made. *)
Definition others (p : rank) (l : list (rank * request)) : list (rank * request) := filter (fun c => negb (Nat.eqb (fst c) p)) l.
