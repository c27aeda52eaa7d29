(** A shutdown that is interrupted by a signal, and the next one (MPI, one machine).

    Models unidist/core/backends/mpi/core/controller/api.py:305-340, 588-589 (shutdown, _termination_handler), mpi/core/worker/loop.py:210-229 and
    mpi/core/monitor/loop.py:186-187, 260-287. The handler of SIGINT and SIGTERM (controller/api.py:264-265) is called with two arguments and takes
    none: the signal raises TypeError wherever the main program is. If that is in shutdown, is_mpi_shutdown is still False, and the next call of
    shutdown, at the latest the one at exit (api.py:263), starts from the beginning.

    Simplified: small messages are buffered; the monitor sends its messages for the shutdown at once; pending operations and shared memory are left out;
    an interruption after MPI.Finalize is treated like one before it (either way the next shutdown does not get to its end).
    Workers have the numbers 0 to n-1. *)
From Verif Require Import Lib.

(** Where the root is (controller/api.py:314-340): outside of shutdown with is_mpi_shutdown False; sending CANCEL to the workers that are left; waiting
    for the monitor (329-332); between that and the end (335-340); after it. *)
Inductive rphase := RProg | RSend (todo : list nat) | RWait | RFin | RDone.

(** A worker: in its loop, with ready_to_shutdown_posted; left; ended by the ValueError of worker/loop.py:229. *)
Inductive wphase := WLoop (posted : bool) | WLeft | WFailed.

(** The messages under way between two processes are counted: CANCEL to a worker (api.py:322-326), READY_TO_SHUTDOWN from it (worker/loop.py:216-220),
    SHUTDOWN to it (monitor/loop.py:274-278) and to the root (279-283). [i_mon]: workers_ready_to_shutdown (monitor/loop.py:186), None after the loop. *)
Record ist := {
  i_root : rphase;
  i_cancel : nat -> nat;
  i_ready : nat -> nat;
  i_down : nat -> nat;
  i_back : nat;
  i_wk : nat -> wphase;
  i_mon : option (list nat)
}.

(** The start: controller/api.py:262-268, worker/loop.py:102, monitor/loop.py:186. *)
Definition iinit : ist :=
  {| i_root := RProg; i_cancel := fun _ => 0; i_ready := fun _ => 0; i_down := fun _ => 0; i_back := 0; i_wk := fun _ => WLoop false; i_mon := Some [] |}.

(** Steps: shutdown is called (api.py:314); the root goes on in it (319-340); a signal arrives in it (588-589); a worker takes a CANCEL (worker/loop.py:210)
    or a SHUTDOWN (222); the monitor takes a READY_TO_SHUTDOWN (monitor/loop.py:260). *)
Inductive iop := ICall | IGo | ISignal | ICancel (w : nat) | IReady (w : nat) | IDown (w : nat).

(** A function changed at one place (for the per-worker fields, controller/api.py:319-326). *)
Definition iset {A} (f : nat -> A) (k : nat) (x : A) : nat -> A := fun i => if Nat.eqb i k then x else f i.

Section Run.
Variable n : nat.

(** SharedObjectStore.finalize and MPI.Finalize return when everybody has called them (controller/api.py:335-337). *)
Definition all_left (st : ist) : bool :=
  match i_mon st with Some _ => false | None => forallb (fun w => match i_wk st w with WLeft => true | _ => false end) (seq 0 n) end.

(** None: the step is not possible. api.py:314-340, 588; worker/loop.py:210-229; monitor/loop.py:260-287. *)
Definition istep (st : ist) (o : iop) : option ist :=
  match o with
  | ICall => match i_root st with
             | RProg => Some {| i_root := RSend (seq 0 n); i_cancel := i_cancel st; i_ready := i_ready st; i_down := i_down st; i_back := i_back st;
                                i_wk := i_wk st; i_mon := i_mon st |}
             | _ => None
             end
  | IGo =>
      match i_root st with
      | RSend (w :: t) => Some {| i_root := RSend t; i_cancel := iset (i_cancel st) w (S (i_cancel st w)); i_ready := i_ready st; i_down := i_down st;
                                  i_back := i_back st; i_wk := i_wk st; i_mon := i_mon st |}
      | RSend [] => Some {| i_root := RWait; i_cancel := i_cancel st; i_ready := i_ready st; i_down := i_down st; i_back := i_back st; i_wk := i_wk st;
                            i_mon := i_mon st |}
      | RWait => match i_back st with
                 | 0 => None
                 | S b => Some {| i_root := RFin; i_cancel := i_cancel st; i_ready := i_ready st; i_down := i_down st; i_back := b; i_wk := i_wk st;
                                  i_mon := i_mon st |}
                 end
      | RFin => if all_left st
                then Some {| i_root := RDone; i_cancel := i_cancel st; i_ready := i_ready st; i_down := i_down st; i_back := i_back st; i_wk := i_wk st;
                             i_mon := i_mon st |}
                else None
      | _ => None
      end
  | ISignal => match i_root st with
               | RSend _ | RWait | RFin =>
                   Some {| i_root := RProg; i_cancel := i_cancel st; i_ready := i_ready st; i_down := i_down st; i_back := i_back st; i_wk := i_wk st;
                           i_mon := i_mon st |}
               | _ => None
               end
  | ICancel w =>
      match i_cancel st w, i_wk st w with
      | S c, WLoop _ => Some {| i_root := i_root st; i_cancel := iset (i_cancel st) w c; i_ready := iset (i_ready st) w (S (i_ready st w));
                                i_down := i_down st; i_back := i_back st; i_wk := iset (i_wk st) w (WLoop true); i_mon := i_mon st |}
      | _, _ => None
      end
  | IReady w =>
      match i_ready st w, i_mon st with
      | S c, Some l =>
          if Nat.eqb (length (l ++ [w])) n
          then Some {| i_root := i_root st; i_cancel := i_cancel st; i_ready := iset (i_ready st) w c; i_down := fun k => if Nat.ltb k n then S (i_down st k) else i_down st k;
                       i_back := S (i_back st); i_wk := i_wk st; i_mon := None |}
          else Some {| i_root := i_root st; i_cancel := i_cancel st; i_ready := iset (i_ready st) w c; i_down := i_down st;
                       i_back := i_back st; i_wk := i_wk st; i_mon := Some (l ++ [w]) |}
      | _, _ => None
      end
  | IDown w =>
      match i_down st w, i_wk st w with
      | S c, WLoop posted => Some {| i_root := i_root st; i_cancel := i_cancel st; i_ready := i_ready st; i_down := iset (i_down st) w c;
                                     i_back := i_back st; i_wk := iset (i_wk st) w (if posted then WLeft else WFailed); i_mon := i_mon st |}
      | _, _ => None
      end
  end.

(** Any interleaving (api.py:305-340); steps that are not possible change nothing. *)
Definition irun (ops : list iop) : ist := fold_left (fun st o => match istep st o with Some st' => st' | None => st end) ops iinit.
End Run.
