(** Tasks that end with an exception that is not an Exception (SystemExit from sys.exit, KeyboardInterrupt, GeneratorExit).

    Models worker/task_store.py:346 (except Exception), worker/loop.py:88-233 and
    controller/api.py:279-288 for such tasks, in the programs of NestModel. The exception leaves execute_received_task before
    any result is stored or reported, and leaves worker_loop; asyncio.run raises it again and the process ends. What the other
    processes send to it is not taken any more.

    Simplifications: those of NestModel. The finalisation of MPI in the process that exits is left out (it waits there for
    the others). Such an exception is a result of a body only; as a value (a task returns an instance of it) it would be a
    leaf, since only instances of Exception are raised by get. *)
From Verif Require Import Lib ValModel WorkerModel ClusterModel NestModel.

(** x_gone: the workers whose loop has been left (worker/loop.py:88-233). *)
Record xst := { x_n : nst; x_gone : rank -> bool }.

Section Stop.
Variable workers : list rank.
Variable body : val -> val -> val -> act.
(** Which exceptions are not instances of Exception (worker/task_store.py:346). *)
Variable exits : nat -> bool.

(** The task on p is over, with an exception that is not caught (worker/task_store.py:325-346). *)
Definition exiting (n : nst) (p : rank) : bool :=
  match p_cur (n_proc n p) with
  | Some fr =>
      match f_get fr, f_act fr, f_rest fr with
      | None, ARet (RExc e), LMain => false
      | None, ARet (RExc e), _ => exits e
      | _, _, _ => false
      end
  | None => false
  end.

(** Whose step it is: the loops and programs of controller/api.py:371-580 and worker/loop.py:103-233. *)
Definition actor_of (o : nop) : rank := match o with NRun p _ => p | NTake _ p => p | NReply _ p => p end.

(** A step of the programs and loops; the end of a task may be the end of its worker (worker/task_store.py:339-346,
    worker/loop.py:103-233). *)
Definition xstep (x : xst) (o : nop) : xst :=
  if x_gone x (actor_of o) then x
  else match o with
       | NRun p _ => if exiting (x_n x) p then {| x_n := x_n x; x_gone := upd (x_gone x) p true |}
                     else {| x_n := nstep workers body (x_n x) o; x_gone := x_gone x |}
       | _ => {| x_n := nstep workers body (x_n x) o; x_gone := x_gone x |}
       end.

(** After unidist.init (controller/api.py:117-288). *)
Definition xrun (main : act) (ops : list nop) : xst := fold_left xstep ops {| x_n := ninit main; x_gone := fun _ => false |}.

End Stop.
