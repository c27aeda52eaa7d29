(** C52: [arun block ops] is the state of the book-keeping after any history of non-blocking sends,
    completions by MPI at any moment, completion checks and shutdowns. *)
From Verif Require Import Lib AsyncModel AsyncSpec AsyncProofs.

(** The request of every send in flight is kept. *)
Theorem C52_request_kept : forall block ops h m, In (h, m) (a_fly (arun block ops)) ->
  exists data, In (h, data) (a_kept (arun block ops)).
Proof. exact request_kept. Qed.
Print Assumptions C52_request_kept.

(** If serialised operations fit one block, the memory of every send in flight is kept too. *)
Theorem C52_buffer_kept_partial : forall block ops h m, one_block block ops -> In (h, m) (a_fly (arun block ops)) ->
  exists data, In (h, data) (a_kept (arun block ops)) /\ holds data m.
Proof. exact buffer_kept. Qed.
Print Assumptions C52_buffer_kept_partial.

(** The sends in flight really are those of the buffers of the operation. *)
Theorem C52_buffers_sent_partial : forall block ops o b, one_block block (ops ++ [o]) -> In b (buffers o) ->
  exists h, In (h, Whole b) (a_fly (arun block (ops ++ [o]))).
Proof. exact buffers_sent. Qed.
Print Assumptions C52_buffers_sent_partial.

(** A completion check drops exactly the completed sends. *)
Theorem C52_check_releases : forall block ops h data, In (h, data) (a_kept (arun block (ops ++ [Check]))) ->
  exists m, In (h, m) (a_fly (arun block ops)).
Proof. exact check_releases. Qed.
Print Assumptions C52_check_releases.

Theorem C52_check_keeps : forall block ops h data, In (h, data) (a_kept (arun block ops)) ->
  (exists m, In (h, m) (a_fly (arun block ops))) -> In (h, data) (a_kept (arun block (ops ++ [Check]))).
Proof. exact check_keeps. Qed.
Print Assumptions C52_check_keeps.

(** Shutdown waits for every send and then keeps nothing. *)
Theorem C52_finish_releases : forall block ops,
  a_kept (arun block (ops ++ [Finish])) = [] /\ a_fly (arun block (ops ++ [Finish])) = [].
Proof. exact finish_releases. Qed.
Print Assumptions C52_finish_releases.

(** A serialised operation of more than one block is sent from copies; the object that is kept is the
    original, so only the request of mpi4py keeps the memory alive. *)
Theorem C52_blocks_refuted : exists block ops h m,
  In (h, m) (a_fly (arun block ops)) /\ m <> Pickled /\
  forall data, In (h, data) (a_kept (arun block ops)) -> ~ holds data m.
Proof. exact blocks_not_kept. Qed.
Print Assumptions C52_blocks_refuted.

Example C52_case : one_block 4 xas /\
  a_fly (arun 4 xas) = [(1, Pickled); (2, Pickled); (4, Whole 20); (6, Whole 22); (7, Pickled); (8, Pickled); (9, Whole 30)] /\
  a_kept (arun 4 xas) = [(0, Some 1); (1, Some 10); (2, None); (4, Some 20); (5, Some 21); (6, Some 22); (7, Some 2);
                         (8, None); (9, Some 30)].
Proof. exact xas_run. Qed.
