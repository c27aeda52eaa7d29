(** Shutdown of a program with nested calls: what is observed. *)
From Verif Require Import Lib ShmModel MonModel ValModel WorkerModel NestModel NestSpec ShutModel ShutSpec EndModel.

(** Nothing can happen any more, apart from other operations reaching monitors. *)
Definition stuck (c : scfg) (body : val -> val -> val -> NestModel.act) (big : wmsg -> bool) (e : est) : Prop :=
  forall o, (forall r m, o <> EShut (AOther r m)) -> estep c body big e o = e.

(** Worker w is in the middle of its answer to CANCEL: it waits until its messages have been received. *)
Definition finishing (e : est) (w : rank) : Prop := e_cancelled e w = true /\ sworker (e_s e) w = WkRun.

(** shutdown has returned. *)
Definition returned (e : est) : Prop := sroot (e_s e) = RGone.

(** A task is being executed on worker w. *)
Definition busy (e : est) (w : rank) : Prop := p_cur (n_proc (e_n e) w) <> None.

(** Task q has been executed to its end. *)
Definition done (H : list (nat * hev)) (q : request) : Prop := exists t r, In (t, HStart (q_id q)) H /\ In (t, HEnd r) H.

(** The arguments of task q are values and references to objects that were put. *)
Definition put_args (H : list (nat * hev)) (q : request) : Prop :=
  forall d, In d (refs (q_args q) ++ refs (q_kwargs q)) -> exists t v, In (t, HPut d v) H.
