(** C18 and C19. [after workers self ops] is the process of rank [self] after any history [ops]
    of submissions, actor creations, arrivals of actor handles and deaths of handles;
    [handles] are the ranks of the actors whose handles it holds. *)
From Verif Require Import Lib SchedModel SchedProofs.
Require Import Permutation.

(** C18. A task or actor goes to a worker other than the submitting process, on which no actor
    lives that this process holds a handle of. *)
Theorem C18_scheduled_on_legal_rank_partial : forall workers self ops o r,
  (o = OSubmit \/ o = OActor) ->
  snd (sstep workers (after workers self ops) o) = EScheduled r ->
  In r workers /\ r <> self /\ ~ In r (handles (after workers self ops)).
Proof.
  exact (fun workers self ops o r =>
    sched_event workers self (after workers self ops) o r (after_inv workers self ops)).
Qed.
Print Assumptions C18_scheduled_on_legal_rank_partial.

(** C18. Scheduling fails exactly when every worker other than the submitting process is taken by
    an actor this process holds a handle of. *)
Theorem C18_fails_only_when_none_left : forall workers self ops o,
  (o = OSubmit \/ o = OActor) ->
  (snd (sstep workers (after workers self ops) o) = EFailed <->
   forall r, In r workers -> r <> self -> In r (handles (after workers self ops))).
Proof.
  exact (fun workers self ops o =>
    sched_fails workers self (after workers self ops) o (after_inv workers self ops)).
Qed.
Print Assumptions C18_fails_only_when_none_left.

(** C18. A process does not know the reservations of another one: a worker submitting a nested
    task may choose the rank of an actor that lives (here: created by the root, rank 0). *)
Theorem C18_reserved_by_another_process_refuted : exists workers r,
  In r (handles (after workers 0 [OActor])) /\
  snd (sstep workers (after workers 3 []) OSubmit) = EScheduled r.
Proof. exists [2; 3], 2. split; [left; reflexivity|reflexivity]. Qed.
Print Assumptions C18_reserved_by_another_process_refuted.

Example C18_case :
  snd (srun [2; 3; 4] (proc_init [2; 3; 4] 3)
        [OSubmit; OActor; OSubmit; OHandle 2; OSubmit; ODrop 0; OSubmit; OActor]) =
  [EScheduled 2; EScheduled 4; EScheduled 2; ENone; EFailed; ENone; EScheduled 4; EScheduled 4].
Proof. reflexivity. Qed.

(** C19. With no handles held ([l] is then all workers but the process itself), and more generally
    with any fixed set of reservations: as many consecutive submissions as there are eligible
    ranks use each of them exactly once. *)
Theorem C19_every_round_uses_every_worker : forall workers self ops l,
  NoDup workers -> NoDup l ->
  (forall r, In r l <-> In r workers /\ r <> self /\ ~ In r (handles (after workers self ops))) ->
  l <> [] ->
  exists l', snd (srun workers (after workers self ops) (repeat OSubmit (length l)))
             = map EScheduled l' /\ Permutation l' l.
Proof. exact round_uses_all. Qed.
Print Assumptions C19_every_round_uses_every_worker.

(** C19. Over any stretch of submissions, starting after any history, the numbers of tasks given
    to two eligible workers differ by at most one. *)
Theorem C19_counts_differ_by_at_most_one : forall workers self ops k x y, NoDup workers ->
  In x workers -> x <> self -> ~ In x (handles (after workers self ops)) ->
  In y workers -> y <> self -> ~ In y (handles (after workers self ops)) ->
  let es := snd (srun workers (after workers self ops) (repeat OSubmit k)) in
  events_of x es <= events_of y es + 1.
Proof. exact stretch_fair. Qed.
Print Assumptions C19_counts_differ_by_at_most_one.

Example C19_case :
  snd (srun [2; 3; 4; 5] (after [2; 3; 4; 5] 5 [OSubmit]) (repeat OSubmit 5)) =
  map EScheduled [3; 4; 2; 3; 4] /\ handles (after [2; 3; 4; 5] 5 [OSubmit]) = [].
Proof. split; reflexivity. Qed.
