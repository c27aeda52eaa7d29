(** What C17 talks about, independently of the receiving automaton. *)
From Verif Require Import Lib CommModel.

(** The messages received from process [i], in the order they were handed to the program. *)
Definition received_from (i : nat) (l : list (nat * message)) : list message :=
  map snd (filter (fun e => Nat.eqb (fst e) i) l).

Definition operation (m : message) : Prop :=
  match m with MReply _ | MReplyShared _ => False | _ => True end.

Definition reply (m : message) : Prop := ~ operation m.

(** Each sender sends either operations only (what every process sends to a worker's or
    monitor's main loop) or replies to blocking requests only (what workers send to the root). *)
Definition one_kind (msgs : nat -> list message) : Prop :=
  forall i, Forall operation (msgs i) \/ Forall reply (msgs i).
