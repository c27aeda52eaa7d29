(** Vocabulary for C104. *)
From Verif Require Import Lib IntrModel.

Definition in_shutdown (st : ist) : Prop := match i_root st with RSend _ | RWait | RFin => True | _ => False end.

(** Signals interrupt shutdown only while it has sent nothing. *)
Definition signals_early (n : nat) (ops : list iop) : Prop := forall pre post, ops = pre ++ ISignal :: post ->
  match i_root (irun n pre) with RSend todo => todo = seq 0 n | RWait | RFin => False | _ => True end.

Definition shut_down (n : nat) (st : ist) : Prop := i_root st = RDone /\ i_mon st = None /\ forall w, w < n -> i_wk st w = WLeft.
