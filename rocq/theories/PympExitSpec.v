(** Worker processes that end: what is observed. *)
From Verif Require Import Lib ValModel PyseqModel PyseqSpec PympModel PympSpec PympExitModel.

(** The references a task waits for: those among its arguments. *)
Definition waits_for (t : task) (d : dataid) : Prop := In (VRef d) (k_args t ++ map snd (k_kw t)).

(** A task is affected by the workers bad: it was given to one of them, or waits for a result of a task that is affected, or was given
    to a worker after a task that is affected. *)
Inductive affected (bad : nat -> Prop) (log : list (nat * task)) : nat -> task -> Prop :=
  | aff_there w t : In (w, t) log -> bad w -> affected bad log w t
  | aff_waits w t w' t' d : In (w, t) log -> waits_for t d -> In d (k_out t') -> affected bad log w' t' -> affected bad log w t
  | aff_behind w t t' : In (w, t) log -> k_id t' < k_id t -> affected bad log w t' -> affected bad log w t.

Section Halt.
Variable body : nat -> list val -> kwargs -> res.
Variable mbody : nat -> val -> list val -> kwargs -> res * val.
Variable item : val -> nat -> option val.
Variable iterable bytes : val -> bool.
Variable loads : val -> res.
Variable storable : val -> bool.

(** No worker that is left can go on. *)
Definition halted (y : yst) : Prop :=
  forall w, y_gone y w = false -> work body mbody item iterable bytes loads storable (y_p y) w = None.
End Halt.
