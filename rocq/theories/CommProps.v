(** C14 and C17. *)
From Verif Require Import Lib CommModel CommSpec CommProofs CommCases.

(** C14. Non-blocking send: the size is announced, then the blocks. The receiver gets the
    sender's bytes and leaves what follows on the wire. *)
Theorem C14_announced_transfer : forall block buffer rest, 0 < block ->
  recv_buffer block None (isend_buffer block buffer ++ rest) = Some (buffer, rest).
Proof. exact isend_recv. Qed.
Print Assumptions C14_announced_transfer.

(** C14. Blocking send into a buffer of the receiver, of the right length and any content. *)
Theorem C14_provided_buffer_transfer : forall block buffer result rest,
  0 < block -> length result = length buffer ->
  recv_buffer block (Some result) (send_buffer block buffer None ++ rest) = Some (buffer, rest).
Proof. exact send_recv_given. Qed.
Print Assumptions C14_provided_buffer_transfer.

(** C14. Blocking send with an announced size, for non-empty buffers. *)
Theorem C14_blocking_announced_transfer_partial : forall block buffer rest,
  0 < block -> buffer <> [] ->
  recv_buffer block None (send_buffer block buffer (Some (length buffer)) ++ rest)
  = Some (buffer, rest).
Proof. exact send_recv_announced. Qed.
Print Assumptions C14_blocking_announced_transfer_partial.

(** C14. An announced empty buffer is not announced by the blocking send: the receiver waits
    for ever. (No caller in /repo announces a size this way.) *)
Theorem C14_blocking_announced_empty_refuted : exists block buffer,
  0 < block /\ recv_buffer block None (send_buffer block buffer (Some (length buffer))) = None.
Proof. exists 4, []. split; [lia|exact empty_not_announced]. Qed.
Print Assumptions C14_blocking_announced_empty_refuted.

(** C14. No block is empty or longer than the limit, and together they are the buffer. *)
Theorem C14_blocks_within_limit : forall block (buffer : list Z), 0 < block ->
  Forall (fun b : list Z => 0 < length b /\ length b <= block) (blocks buffer (length buffer) block) /\
  concat (blocks buffer (length buffer) block) = buffer.
Proof. exact blocks_small. Qed.
Print Assumptions C14_blocks_within_limit.

Example C14_case :
  blocks [1; 2; 3; 4; 5]%Z 5 2 = [[1; 2]; [3; 4]; [5]]%Z /\
  recv_buffer 2 (Some [9; 9; 9; 9; 9]%Z) (send_buffer 2 [1; 2; 3; 4; 5]%Z None)
  = Some ([1; 2; 3; 4; 5]%Z, []).
Proof. split; reflexivity. Qed.

(** C17. Whatever the interleaving of senders, tags and receives, what has been received from
    each process is, message for message and byte for byte, the beginning of what it sent. *)
Theorem C17_received_in_order_and_whole_partial : forall block kind_of msgs acts i,
  0 < block -> (forall j, Forall (well_kinded kind_of) (msgs j)) -> one_kind msgs ->
  exists later, msgs i = received_from i (delivered (crun block kind_of msgs acts)) ++ later.
Proof.
  exact (fun block kind_of msgs acts i Hb Hk H1 =>
    delivered_prefix block kind_of Hb msgs Hk (one_kind_homog msgs H1) acts i).
Qed.
Print Assumptions C17_received_in_order_and_whole_partial.

(** C17. No receive ever fails (truncation, or a part of another kind). *)
Theorem C17_no_receive_error_partial : forall block kind_of msgs acts,
  0 < block -> (forall j, Forall (well_kinded kind_of) (msgs j)) -> one_kind msgs ->
  recv (crun block kind_of msgs acts) <> RFail.
Proof.
  exact (fun block kind_of msgs acts Hb Hk H1 =>
    never_fails block kind_of Hb msgs Hk (one_kind_homog msgs H1) acts).
Qed.
Print Assumptions C17_no_receive_error_partial.

(** C17. A receiver in the middle of a message finds the next part once the sender has sent
    everything it has to send. *)
Theorem C17_message_completes_partial : forall block kind_of msgs acts i t,
  0 < block -> (forall j, Forall (well_kinded kind_of) (msgs j)) -> one_kind msgs ->
  waiting (recv (crun block kind_of msgs acts)) = Some (i, t) ->
  unsent (crun block kind_of msgs acts) i = [] ->
  queue (crun block kind_of msgs acts) i t <> [].
Proof.
  exact (fun block kind_of msgs acts i t Hb Hk H1 =>
    waiting_comes block kind_of Hb msgs Hk (one_kind_homog msgs H1) acts i t).
Qed.
Print Assumptions C17_message_completes_partial.

(** C17. Once a process has sent everything, the receiver is idle and sees nothing more to
    take from it, every message of that process has been received. *)
Theorem C17_nothing_lost_partial : forall block kind_of msgs acts i,
  0 < block -> (forall j, Forall (well_kinded kind_of) (msgs j)) -> one_kind msgs ->
  recv (crun block kind_of msgs acts) = RIdle ->
  unsent (crun block kind_of msgs acts) i = [] ->
  queue (crun block kind_of msgs acts) i TagOp = [] ->
  queue (crun block kind_of msgs acts) i TagBlk = [] ->
  received_from i (delivered (crun block kind_of msgs acts)) = msgs i.
Proof.
  exact (fun block kind_of msgs acts i Hb Hk H1 =>
    all_delivered block kind_of Hb msgs Hk (one_kind_homog msgs H1) acts i).
Qed.
Print Assumptions C17_nothing_lost_partial.

(** C17. If one process sends both operations and replies to blocking requests to the same
    receiver, a reply can be given the bytes of an earlier operation. *)
Theorem C17_mixed_senders_refuted : exists block kind_of msgs acts i m,
  0 < block /\ (forall j, Forall (well_kinded kind_of) (msgs j)) /\
  In (i, m) (delivered (crun block kind_of msgs acts)) /\ ~ In m (msgs i).
Proof. exact mixed_up_ex. Qed.
Print Assumptions C17_mixed_senders_refuted.

Example C17_case :
  (one_kind msgs0 /\ (forall i, Forall (well_kinded kinds) (msgs0 i))) /\
  delivered (crun 2 kinds msgs0 acts0) =
  [(1, MReply b3); (0, MComplex 1 b3); (0, MSerial 9 [1; 2; 3; 4; 5]%Z); (2, MPlain 16);
   (0, MSimple 2 4); (1, MReplyShared 3)].
Proof. exact (conj comm_case_hyps comm_case_delivered). Qed.
