(** Functions that end with an exception that is not an Exception (SystemExit from sys.exit, KeyboardInterrupt), in the
    multiprocessing backend.

    Models pymp/core/process_manager.py:35-59 (except Exception) for such tasks, in the programs of
    PympModel. The exception leaves Worker.run before a result is stored, and the process ends; nobody takes the tasks in
    its queue any more, and nobody starts another one.

    Simplifications: those of PympModel. A method of an actor runs in the actor's manager process, whose server catches
    SystemExit for itself; the worker sees a closed connection, which is an Exception: a result that the oracle may give. *)
From Verif Require Import Lib ValModel PyseqModel PympModel.

(** y_gone: the worker processes that have ended in such a way (pymp/core/process_manager.py:35-59). *)
Record yst := { y_p : pst; y_gone : nat -> bool }.

(** After unidist.init (pymp/core/process_manager.py:90-102). *)
Definition yinit : yst := {| y_p := pinit; y_gone := fun _ => false |}.

Section Exit.
Variable nw : nat.
Variable body cbody : nat -> list val -> kwargs -> res.
Variable mbody : nat -> val -> list val -> kwargs -> res * val.
Variable item : val -> nat -> option val.
Variable iterable callable bytes : val -> bool.
Variable dumps : val -> val.
Variable loads : val -> res.
Variable storable : val -> bool.
(** The function, called with these arguments, exits (pymp/core/process_manager.py:229). *)
Variable exits : nat -> list val -> kwargs -> bool.

(** The task at the head of the queue of w is called, and exits (pymp/core/process_manager.py:35-44, 209-229). *)
Definition leaves (st : pst) (w : nat) : bool :=
  match p_queue st w with
  | t :: _ =>
      negb (p_dead st w) &&
      match k_callee t, pmat bytes loads st (k_args t), pmat bytes loads st (map snd (k_kw t)) with
      | Fun f, Mat vs, Mat ks => exits f vs (combine (map fst (k_kw t)) ks)
      | _, _, _ => false
      end
  | [] => false
  end.

(** A call of the main process, or a turn of a worker that is still there (pymp/core/process_manager.py:35-59). *)
Definition ystep (y : yst) (o : pop) : yst * option (qop * qout) :=
  let go := let (st, e) := pstep nw body cbody mbody item iterable callable bytes dumps loads storable (y_p y) o in
            ({| y_p := st; y_gone := y_gone y |}, e) in
  match o with
  | PWork w => if y_gone y w then (y, None)
               else if leaves (y_p y) w then ({| y_p := y_p y; y_gone := upd (y_gone y) w true |}, None)
               else go
  | PTake w => if y_gone y w then (y, None) else go
  | _ => go
  end.

(** Any history of the main process and the workers (pymp/core/api.py:55-149, pymp/core/process_manager.py:35-59). *)
Fixpoint yrun (y : yst) (h : hist) (ops : list pop) : yst * hist :=
  match ops with
  | [] => (y, h)
  | o :: r => match ystep y o with
              | (y', Some e) => yrun y' (e :: h) r
              | (y', None) => yrun y' h r
              end
  end.
End Exit.
