(** Values that cannot be pickled or unpickled: what is observed. *)
From Verif Require Import Lib ValModel WorkerModel NestModel NestSpec StopModel StopSpec PickModel.

Section Spec.
Variable dumps loads : val -> bool.

(** Why process p has stopped: a result of its task cannot be pickled; it cannot unpickle what it is sent; it is asked for what it
    cannot pickle; its get is answered with what cannot be unpickled. *)
Inductive cause (n : nst) (p : rank) : Prop :=
  | ca_result fr r d v : p_cur (n_proc n p) = Some fr -> f_act fr = ARet r -> f_rest fr <> LMain -> gives (q_out (f_q fr)) r d v -> dumps v = false -> cause n p
  | ca_value src d v : p <> 0 -> hd_error (n_chan n src p) = Some (WPut d v) -> loads v = false -> cause n p
  | ca_call src q : p <> 0 -> hd_error (n_chan n src p) = Some (WExec q) -> loads (q_args q) = false \/ loads (q_kwargs q) = false -> cause n p
  | ca_asked src r d b v : p <> 0 -> hd_error (n_chan n src p) = Some (WGet r d b) -> store (p_w (n_proc n p)) d = Some v -> dumps v = false -> cause n p
  | ca_answer src d v : in_get n p -> hd_error (n_rep n src p) = Some (d, v) -> loads v = false -> cause n p.

(** A value that can be pickled and unpickled. *)
Definition passes (v : val) : Prop := dumps v = true /\ loads v = true.

(** A program all of whose values can: those it puts, the arguments of its calls and the exceptions among them, and its results. *)
Fixpoint picklable (a : act) : Prop :=
  match a with
  | ARet r => forall o d v, gives o r d v -> passes v
  | APut v k => passes v /\ forall d, picklable (k d)
  | ASubmit _ args kwargs _ k =>
      (exists l m, args = VTuple l /\ kwargs = VDict m /\ loads args = true /\ loads kwargs = true /\
       forall e, In (VExc e) (l ++ map snd m) -> passes (VExc e)) /\ forall r, picklable (k r)
  | AGet _ k => forall r, picklable (k r)
  end.

(** The main program is in get; an answer is the value of one of the references, and cannot be unpickled. *)
Definition main_raises (body : val -> val -> val -> act) (x : xst) : Prop := exists fr g src d v,
  p_cur (n_proc (x_n x) 0) = Some fr /\ f_get fr = Some g /\ hd_error (n_rep (x_n x) src 0) = Some (d, v) /\ In d (t_want g) /\
  means body (n_hist (x_n x)) d v /\ loads v = false.

End Spec.
