(** Model of the lines of the communication log: get_op_name of mpi/core/common.py:233-263 and log_operation of
    mpi/core/communication.py:35-79. A text is a list of characters. *)
From Coq Require Import String Ascii.
From Verif Require Import Lib.

(** A str (mpi/core/communication.py:54-78). *)
Definition txt := list ascii.
(** A literal (mpi/core/communication.py:54-78). *)
Definition tx (s : string) : txt := list_ascii_of_string s.

(** The members of Operation, name and value (mpi/core/common.py:70-91). *)
Definition operations : list (string * nat) :=
  [("EXECUTE", 1); ("GET", 2); ("PUT_DATA", 3); ("PUT_OWNER", 4); ("PUT_SHARED_DATA", 5); ("WAIT", 6); ("ACTOR_CREATE", 7);
   ("ACTOR_EXECUTE", 8); ("CLEANUP", 9); ("TASK_DONE", 10); ("GET_TASK_COUNT", 11); ("RESERVE_SHARED_MEMORY", 12);
   ("REQUEST_SHARED_DATA", 13); ("CANCEL", 14); ("READY_TO_SHUTDOWN", 15); ("SHUTDOWN", 16)]%string.

(** operations_dict: from value to name; inspect.getmembers gives the members by name, which matters to none as the values differ
    (mpi/core/common.py:232-238). *)
Definition operations_dict : list (nat * txt) := map (fun p => (snd p, tx (fst p))) operations.

(** get_op_name; None: KeyError (mpi/core/common.py:241-263). *)
Definition get_op_name (op : nat) : option txt :=
  match find (fun p => Nat.eqb (fst p) op) operations_dict with None => None | Some (_, n) => Some n end.

(** s * n for a str and an int; the difference of two nats is 0 where the int is negative, and the str is empty in both cases
    (mpi/core/communication.py:67-76). *)
Fixpoint rep (n : nat) (s : txt) : txt := match n with 0 => [] | S k => s ++ rep k s end.

(** The width for the name (mpi/core/communication.py:51). *)
Definition op_name_len : nat := 15.

(** The line written when process dest has received op from source, of size processes; None: KeyError
    (mpi/core/communication.py:63-78). *)
Definition log_line (size source dest op : nat) : option txt :=
  match get_op_name op with
  | None => None
  | Some name =>
      let space_after_op_name := rep (op_name_len - List.length name) (tx " ") in
      let space_before_arrow := rep (min source dest) (tx ".   ") in
      let space_after_arrow := rep (size - max source dest - 1) (tx "   .") in
      let arrow_line_str := (dest - source) + (source - dest) in
      let arrow := if source <? dest then rep arrow_line_str (tx ".---") ++ tx ">" else tx "<" ++ rep arrow_line_str (tx "---.") in
      Some (name ++ tx ":" ++ space_after_op_name ++ space_before_arrow ++ arrow ++ space_after_arrow)
  end.

(** What a process writes for the operations it receives, (operation, source): the header comes once, from the first worker, which is rank 2
    (mpi/core/communication.py:35-79, 264-269); the header is given by the numbers in it. *)
Inductive logged := Header (ranks : list nat) | Line (l : txt).
(** log_operation; the state is is_logger_header_printed (mpi/core/communication.py:39-79). *)
Definition log_operation (first_worker size rank : nat) (printed : bool) (op source : nat) : option (bool * list logged) :=
  match log_line size source rank op with
  | None => None
  | Some l => if negb printed && Nat.eqb rank first_worker then Some (true, [Header (seq 0 size); Line l]) else Some (printed, [Line l])
  end.
(** A process that receives one operation after another (mpi/core/communication.py:366-407). *)
Fixpoint log_all (first_worker size rank : nat) (printed : bool) (ops : list (nat * nat)) : option (list logged) :=
  match ops with
  | [] => Some []
  | (op, source) :: r =>
      match log_operation first_worker size rank printed op source with
      | None => None
      | Some (p, o) => match log_all first_worker size rank p r with None => None | Some q => Some (o ++ q) end
      end
  end.
