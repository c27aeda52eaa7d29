(** Programs that go on after a get that failed (MPI).

    Models, in the programs of NestModel: controller/common.py:113-171, 191-233 (the loop of get takes the answers one after the
    other; an answer that cannot be deserialised raises out of the loop, before it is kept and before the other answers are taken),
    controller/api.py:262-265, 588-589 (a signal raises TypeError in the main program, because the handler takes no arguments) and
    worker/loop.py:113-188 (an operation that cannot be deserialised ends the worker's loop).

    Simplifications: those of NestModel. Whether a value can be deserialised is a property of the value, and every value can be
    serialised (PickModel is about those that cannot). A signal comes while get waits for an answer, not in the middle of one. *)
From Verif Require Import Lib ValModel WorkerModel ClusterModel NestModel.

Section Fail.
Variable workers : list rank.
Variable body : val -> val -> val -> act.
(** deserialize_complex_data returns (communication.py:849). *)
Variable loads : val -> bool.

(** The get of p is left by an exception; the program goes on as it likes. What was asked for stays asked for.
    controller/common.py:217-233. *)
Definition give_up (n : nst) (p : rank) (re : rank -> rank -> list (dataid * val)) : nst :=
  match p_cur (n_proc n p) with
  | Some fr =>
      match f_get fr, f_act fr with
      | Some g, AGet _ k =>
          put_proc n p {| p_w := no_log (p_w (n_proc n p)); p_next := p_next (n_proc n p); p_cur := Some (set_act fr (k GError) None) |}
            (n_chan n) re [] (n_tasks n) (n_runs n) [(f_run fr, HGet (t_want g) GError)]
      | _, _ => n
      end
  | None => n
  end.

(** The answer to p from src that is next has been taken (controller/common.py:220-222). *)
Definition drop_answer (re : rank -> rank -> list (dataid * val)) (src p : rank) : rank -> rank -> list (dataid * val) :=
  fun a b => if Nat.eqb a src && Nat.eqb b p then tl (re a b) else re a b.

(** The payload of an operation cannot be deserialised (worker/loop.py:113-188). *)
Definition bad_message (m : wmsg) : bool :=
  match m with
  | WExec q => negb (loads (q_args q)) || negb (loads (q_kwargs q))
  | WPut _ v => negb (loads v)
  | _ => false
  end.

(** A step of NestModel, or a signal to the main program (controller/api.py:264-265). *)
Inductive zop := ZStep (o : nop) | ZSignal.

(** controller/common.py:113-171, 217-233, worker/loop.py:103-233, controller/api.py:588-589. *)
Definition zstep (n : nst) (z : zop) : nst :=
  match z with
  | ZSignal => give_up n 0 (n_rep n)
  | ZStep (NReply src p) =>
      match n_rep n src p with
      | (d, v) :: _ => if loads v then nstep workers body n (NReply src p) else give_up n p (drop_answer (n_rep n) src p)
      | [] => n
      end
  | ZStep (NTake src p) =>
      match n_chan n src p, p_cur (n_proc n p) with
      | m :: _, None =>
          if negb (Nat.eqb p 0 || n_dead n p) && bad_message m then kill n p (drop_head (n_chan n) src p) []
          else nstep workers body n (NTake src p)
      | _, _ => n
      end
  | ZStep o => nstep workers body n o
  end.

(** Any interleaving, from the state after unidist.init (controller/api.py:117-288). *)
Definition zrun (main : act) (ops : list zop) : nst := fold_left zstep ops (ninit main).

End Fail.
