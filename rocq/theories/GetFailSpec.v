(** What a program that goes on after a failed get relies on. *)
From Verif Require Import Lib ValModel WorkerModel NestModel NestSpec GetFailModel.

(** The main program is in get for these references. *)
Definition main_gets (n : nst) (ds : list dataid) : Prop :=
  exists fr g, p_cur (n_proc n 0) = Some fr /\ f_get fr = Some g /\ t_want g = ds.

(** Nothing fails: no signal, and every value can be unpickled. *)
Definition undisturbed (loads : val -> bool) (ops : list zop) : Prop := (forall v, loads v = true) /\ ~ In ZSignal ops.

(** The steps of NestModel in a list. *)
Definition plain (ops : list zop) : list nop := flat_map (fun z => match z with ZStep o => [o] | ZSignal => [] end) ops.
