(** Model of the book-keeping of non-blocking sends: core/backends/mpi/core/async_operations.py and the
    non-blocking half of core/backends/mpi/core/communication.py.

    A send that was started is in flight until MPI completes it, at any moment. Handles are numbered in
    the order of the sends. Python objects are numbers. A pickled message (comm.isend) lives in memory that
    mpi4py makes for it and the request owns; a buffer (comm.Isend) is sent from the memory of the object
    itself. A slice of a bytes object is a new object, unless it is the whole object. *)
From Verif Require Import Lib CommModel.

(** What an MPI send reads while it is in flight: comm.isend pickles into memory of its own, comm.Isend sends the object's
    memory (communication.py:347, 372, 541-549). *)
Inductive memory :=
| Pickled                      (* made by mpi4py, owned by the request *)
| Whole (o : nat)              (* the memory of the object [o] *)
| Copy (o a b : nat).          (* a new object, the copy [o[a:b]] *)

(** AsyncOperations._send_async_handlers (async_operations.py:19-21), and MPI's own sends in flight. *)
Record ast := {
  a_next : nat;                          (* next handle *)
  a_kept : list (nat * option nat);      (* _send_async_handlers: (handler, data) *)
  a_fly : list (nat * memory)            (* sends MPI has not completed *)
}.

(** AsyncOperations.__init__ (async_operations.py:19-21). *)
Definition ainit : ast := {| a_next := 0; a_kept := []; a_fly := [] |}.

(** A send: the memory it is made from, and the data recorded beside its handler. As in h_list of communication.py:743-754,
    913-920, 960-990, 1018-1025. *)
Definition send : Type := memory * option nat.

(** isend_simple_operation (communication.py:884-920); [o] is the operation's data. *)
Definition isend_simple_operation (op o : nat) : list send := [(Pickled, Some op); (Pickled, Some o)].

(** _isend_complex_data_impl (communication.py:714-754). *)
Definition isend_complex_data_impl (s_data : nat) (raw : list nat) : list send :=
  (Pickled, None) :: (Whole s_data, Some s_data) :: map (fun b => (Whole b, Some b)) raw.

(** isend_complex_operation (communication.py:923-990). *)
Definition isend_complex_operation (s_data : nat) (raw : list nat) : list send :=
  (Pickled, None) :: isend_complex_data_impl s_data raw.

(** buffer[a:b] of a bytes object of length [n]. communication.py:541-547. *)
Definition slice_of (o n a b : nat) : memory :=
  if Nat.eqb a 0 && Nat.eqb b n then Whole o else Copy o a b.

(** mpi_isend_buffer (communication.py:508-551): blocks of at most [block] bytes. *)
Definition isend_buffer (block o n : nat) : list send :=
  (Pickled, None) ::
  map (fun ab => (slice_of o n (fst ab) (snd ab), Some o)) (intervals (partitions n block)).

(** isend_serialized_operation (communication.py:993-1025). *)
Definition isend_serialized_operation (block op o n : nat) : list send :=
  (Pickled, Some op) :: isend_buffer block o n.

(** The sends are started one after the other and AsyncOperations.extend (async_operations.py:36-45) is
    called with their handlers: push_local_data (controller/common.py:260-288), push_shared_data (319-337),
    push_data_owner (358-365), request_worker_data (190-215), submit (controller/api.py:567-575), actors
    (controller/actor.py:55-63, 120-128), TaskStore.request_worker_data (worker/task_store.py:156-163) and
    _send_cleanup_request (controller/garbage_collector.py:60-69). *)
Fixpoint start (st : ast) (l : list send) : ast :=
  match l with
  | [] => st
  | (m, o) :: r =>
      start {| a_next := S (a_next st); a_kept := a_kept st ++ [(a_next st, o)];
               a_fly := a_fly st ++ [(a_next st, m)] |} r
  end.

(** What handler.Test() reports as not complete (async_operations.py:50-56). *)
Definition flying (st : ast) (h : nat) : bool := existsb (fun hm => Nat.eqb (fst hm) h) (a_fly st).

(** AsyncOperations.check (async_operations.py:47-61): handler.Test() says whether the send is complete. *)
Definition check (st : ast) : ast :=
  {| a_next := a_next st;
     a_kept := filter (fun ho => negb (negb (flying st (fst ho)))) (a_kept st);
     a_fly := a_fly st |}.

(** MPI completes the send [h]. Not code: MPI's progress, at any moment (seen by Test in async_operations.py:51 and Wait in
    65-68). *)
Definition complete (st : ast) (h : nat) : ast :=
  {| a_next := a_next st; a_kept := a_kept st;
     a_fly := filter (fun hm => negb (Nat.eqb (fst hm) h)) (a_fly st) |}.

(** AsyncOperations.finish (async_operations.py:63-68): Wait returns when the send is complete. *)
Definition finish (st : ast) : ast :=
  let st' := fold_left complete (map fst (a_kept st)) st in
  {| a_next := a_next st'; a_kept := []; a_fly := a_fly st' |}.

(** The calls that start sends, AsyncOperations.check and finish (async_operations.py:36-68), and MPI's progress. *)
Inductive aop :=
| SendSimple (op o : nat)
| SendComplex (s_data : nat) (raw : list nat)
| SendSerialized (op o n : nat)      (* [n]: length of the bytes object [o] *)
| Completed (h : nat)                (* MPI completes a send *)
| Check
| Finish.

(** The effect of one of these (async_operations.py:36-68, communication.py:887-1025). *)
Definition astep (block : nat) (st : ast) (o : aop) : ast :=
  match o with
  | SendSimple op o => start st (isend_simple_operation op o)
  | SendComplex s raw => start st (isend_complex_operation s raw)
  | SendSerialized op o n => start st (isend_serialized_operation block op o n)
  | Completed h => complete st h
  | Check => check st
  | Finish => finish st
  end.

(** Any history of one process, from AsyncOperations.__init__ (async_operations.py:19-21). *)
Definition arun (block : nat) (ops : list aop) : ast := fold_left (astep block) ops ainit.
