(** Values that cannot be pickled, or cannot be unpickled where they arrive (MPI).

    Models, in the programs of NestModel: worker/task_store.py:346-404 (a result is serialised after the call, outside the
    try; an exception is stored as it is), controller/common.py:395-410 (a value held is serialised when it is sent),
    worker/loop.py:113-188 and controller/common.py:113-171, 217-233 (what is received is deserialised, outside any try). An
    exception raised there leaves worker_loop; the process ends and what the others send to it is not taken any more (as in
    StopModel).

    Simplifications: those of NestModel. Whether a value can be serialised or deserialised is a property of the value. A put, or
    a submission with arguments, that cannot be serialised raises in the caller and sends nothing: programs are taken not to make such
    calls. A value that was deserialised can be serialised again. The exception that get raises when an answer cannot be
    deserialised is taken to end the program that called get; in a task of a worker it would be the task's exception (the
    theorems on what is lost are about tasks that do not call get). *)
From Verif Require Import Lib ValModel WorkerModel ClusterModel NestModel StopModel.

Section Pick.
Variable workers : list rank.
Variable body : val -> val -> val -> act.
(** serialize_complex_data and deserialize_complex_data return (communication.py:849, worker/task_store.py:367, 380). *)
Variable dumps loads : val -> bool.

(** A request for d is kept (worker/request_store.py:145-160). *)
Definition asked (w : wst) (d : dataid) : bool := existsb (fun x => did_eqb (fst x) d) (gets w ++ bgets w).

(** Serialising raises at the end of a task: one of its values (worker/task_store.py:364-391), or its exception if somebody has
    asked for it already (worker/task_store.py:392, controller/common.py:397). *)
Definition result_fails (w : wst) (o : outputs) (r : result) : bool :=
  match r with
  | RVal v =>
      match o with
      | ONone => false
      | OOne _ => negb (dumps v)
      | OMany ds => match iterate v with Some vs => existsb (fun x => negb (dumps (snd x))) (combine ds vs) | None => false end
      end
  | RExc e => existsb (asked w) (out_ids o) && negb (dumps (VExc e))
  end.

(** Taking a message raises: its payload cannot be deserialised (worker/loop.py:115, 134, 161), or what is asked for cannot be
    serialised (worker/request_store.py:251-258, controller/common.py:395-397). *)
Definition message_fails (w : wst) (m : wmsg) : bool :=
  match m with
  | WExec q => negb (loads (q_args q)) || negb (loads (q_kwargs q))
  | WPut _ v => negb (loads v)
  | WGet _ d _ => match store w d with Some v => negb (dumps v) | None => false end
  | _ => false
  end.

(** The step raises: at the end of a task, in the worker's loop, or in get (worker/task_store.py:346-404, worker/loop.py:103-233,
    controller/common.py:217-222). *)
Definition leaves (n : nst) (o : nop) : bool :=
  match o with
  | NRun p _ =>
      match p_cur (n_proc n p) with
      | Some fr =>
          match f_get fr, f_act fr, f_rest fr with
          | None, ARet r, LMain => false
          | None, ARet r, _ => result_fails (p_w (n_proc n p)) (q_out (f_q fr)) r
          | _, _, _ => false
          end
      | None => false
      end
  | NTake src p =>
      match n_chan n src p, p_cur (n_proc n p) with
      | m :: _, None => negb (Nat.eqb p 0) && message_fails (p_w (n_proc n p)) m
      | _, _ => false
      end
  | NReply src p =>
      match n_rep n src p, p_cur (n_proc n p) with
      | (d, v) :: _, Some fr => match f_get fr with Some _ => negb (loads v) | None => false end
      | _, _ => false
      end
  end.

(** A step of the programs and loops; one that raises is the last of its process (worker/loop.py:103-233,
    controller/common.py:217-222). *)
Definition ystep (x : xst) (o : nop) : xst :=
  if x_gone x (actor_of o) then x
  else if leaves (x_n x) o then {| x_n := x_n x; x_gone := upd (x_gone x) (actor_of o) true |}
  else {| x_n := nstep workers body (x_n x) o; x_gone := x_gone x |}.

(** After unidist.init (controller/api.py:117-288). *)
Definition yrun (main : act) (ops : list nop) : xst := fold_left ystep ops {| x_n := ninit main; x_gone := fun _ => false |}.

End Pick.
