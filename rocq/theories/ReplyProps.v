(** C72: requests to the monitor and their answers. *)
From Verif Require Import Lib ShmModel MonModel MonSpec ReplyModel ReplySpec ReplyProofs ReplyCases.

(** When only the root calls wait (for at least one reference) and shutdown, whatever any process takes for an answer is the
    answer to the request it made. Missing: wait in a task; wait for no references. *)
Theorem C72_own_answers_partial : forall c mgr ops, Forall root_only ops -> exists l, history c mgr ops l /\
  forall p r a, In (p, r, a) (q_seen (qrun c mgr ops)) -> answers_to l p r a.
Proof. exact own_answers. Qed.
Print Assumptions C72_own_answers_partial.

Example C72_case : Forall root_only rops /\
  q_seen (qrun rc rg rops) =
  [(2, RReserve d2 30, PReserve {| first_index := 0; last_index := 30; service_index := 0 |} true);
   (0, RWait [d1; d2] 1, PWait [d2] [d1]); (2, RCount, PCount 1); (0, RWait [d1] 1, PWait [d1] []); (0, ROver, POver)].
Proof. exact c72_case. Qed.

(** While the monitor receives, no request is lost: it or its answer is on the way, or it is a wait for which too few
    references are complete. *)
Theorem C72_none_lost_partial : forall c mgr ops m p r, Forall root_only ops -> let s := qrun c mgr ops in
  serving s m -> q_busy s p = Some r -> r <> ROver -> in_hand s m p r.
Proof. exact none_lost. Qed.
Print Assumptions C72_none_lost_partial.

Example C72_hand_case : Forall root_only (firstn 4 rops) /\
  (exists m, serving (qrun rc rg (firstn 4 rops)) m) /\ q_busy (qrun rc rg (firstn 4 rops)) 0 = Some (RWait [d1; d2] 1) /\
  q_busy (qrun rc rg (firstn 4 rops)) 2 = Some (RReserve d2 30).
Proof. exact c72_hand_case. Qed.

(** Whoever calls wait: a process other than the root takes nothing but the answers to its own requests. *)
Theorem C72_workers : forall c mgr ops, exists l, history c mgr ops l /\
  forall p r a, p <> 0 -> In (p, r, a) (q_seen (qrun c mgr ops)) -> answers_to l p r a.
Proof. exact worker_answers. Qed.
Print Assumptions C72_workers.

(** But wait never returns in a process other than the root. *)
Theorem C72_worker_wait_refuted : forall c mgr ops p ds n a, p <> 0 -> ~ In (p, RWait ds n, a) (q_seen (qrun c mgr ops)).
Proof. exact worker_wait. Qed.
Print Assumptions C72_worker_wait_refuted.

(** The answer goes to the root, which takes it for the number of finished tasks. The worker waits; nothing is on the way. *)
Theorem C72_mixed_up_refuted : exists ops, In (QAsk 2 (RWait [d1] 1)) ops /\
  q_seen (qrun rc rg ops) = [(0, RCount, PWait [d1] [])] /\
  q_busy (qrun rc rg ops) 2 = Some (RWait [d1] 1) /\ q_in (qrun rc rg ops) 2 = [] /\ q_out (qrun rc rg ops) 2 = [].
Proof. exact c72_mixed. Qed.
Print Assumptions C72_mixed_up_refuted.

(** Or for the end of the session, and shutdown raises. *)
Theorem C72_shutdown_refuted : exists ops, In (0, ROver, PWait [d1] []) (q_seen (qrun rc rg ops)).
Proof. exact c72_shutdown. Qed.
Print Assumptions C72_shutdown_refuted.

(** A worker's wait replaces the root's: the root's reference is complete, and its wait is lost. *)
Theorem C72_replaced_refuted : exists ops m, let s := qrun rc rg ops in
  serving s m /\ q_busy s 0 = Some (RWait [d1] 1) /\ did_in d1 (mcompleted m) = true /\ ~ in_hand s m 0 (RWait [d1] 1).
Proof. exact c72_replaced. Qed.
Print Assumptions C72_replaced_refuted.
