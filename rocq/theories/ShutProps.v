(** C35: shutdown. [place] gives the machine of each rank, [addr] the address of each machine, [shm]
    says whether the shared object store is used; messages arrive in any order, mixed with other
    operations at the monitors. *)
From Verif Require Import Lib ShmModel TopoModel MonModel ShutModel ShutSpec ShutCases.

(** Whatever the order of events: every worker and monitor receives the order to stop at most once,
    no worker is killed by receiving it too early, and shutdown takes boundedly many messages. *)
Theorem C35_at_most_once : forall place addr shm c,
  (forall a b, In a place -> In b place -> addr a = addr b -> a = b) -> 2 <= length place ->
  (shm = true -> forall k, In k place -> 2 <= count_occ Nat.eq_dec place k) ->
  cluster place addr shm = Some c ->
  forall g acts, let log := slog (srun c (sinit g) acts) in
  (forall r, In r (s_workers c ++ s_monitors c) -> stops log r <= 1) /\
  (forall w, In w (s_workers c) -> sworker (srun c (sinit g) acts) w <> WkDead) /\
  receipts log <= 3 * length (s_workers c) + length (s_monitors c).
Proof. exact p_once. Qed.
Print Assumptions C35_at_most_once.

(** When a process receives the order to stop, or the root learns that everybody stops, all workers
    have acknowledged before. *)
Theorem C35_not_early : forall place addr shm c,
  (forall a b, In a place -> In b place -> addr a = addr b -> a = b) -> 2 <= length place ->
  (shm = true -> forall k, In k place -> 2 <= count_occ Nat.eq_dec place k) ->
  cluster place addr shm = Some c ->
  forall g acts before e after, slog (srun c (sinit g) acts) = before ++ e :: after ->
  (exists r, e = SvGot r SStop) \/ e = SvGot 0 SStopObj ->
  forall w, In w (s_workers c) -> acknowledged c before w.
Proof. exact p_early. Qed.
Print Assumptions C35_not_early.

(** With at least one worker, and rank 1 on the root's machine or no shared store: once shutdown has
    been started and nothing is left to happen, the root is through, and every worker and monitor has
    stopped, having received the order exactly once (the root's monitor gives it, and gets none). *)
Theorem C35_everybody_stops_partial : forall place addr shm c,
  (forall a b, In a place -> In b place -> addr a = addr b -> a = b) -> 2 <= length place ->
  (shm = true -> forall k, In k place -> 2 <= count_occ Nat.eq_dec place k) ->
  cluster place addr shm = Some c ->
  forall g acts, s_workers c <> [] -> (shm = true -> nth 1 place 0 = nth 0 place 0) ->
  let s := srun c (sinit g) acts in
  sroot s <> RRun -> quiet c s ->
  sroot s = RGone /\
  forall r, In r (s_workers c ++ s_monitors c) ->
    gone c s r /\ stops (slog s) r = if Nat.eqb r (s_rmon c) then 0 else 1.
Proof. exact p_done. Qed.
Print Assumptions C35_everybody_stops_partial.

(** If rank 1 is on another machine (processes placed in turn), the root waits for ever for a message
    of rank 1, although all workers have stopped. *)
Theorem C35_round_robin_refuted : exists place addr c acts,
  (forall a b, In a place -> In b place -> addr a = addr b -> a = b) /\
  (forall k, In k place -> 2 <= count_occ Nat.eq_dec place k) /\
  cluster place addr true = Some c /\ s_workers c <> [] /\
  let s := srun c (sinit xmgr) acts in
  quiet c s /\ sroot s = RWait /\ forall w, In w (s_workers c) -> sworker s w = WkGone.
Proof. exact waits_for_ever. Qed.
Print Assumptions C35_round_robin_refuted.

(** Without workers nobody ever acknowledges, and the root waits for ever. *)
Theorem C35_no_workers_refuted : exists place addr c acts,
  (forall a b, In a place -> In b place -> addr a = addr b -> a = b) /\
  (forall k, In k place -> 2 <= count_occ Nat.eq_dec place k) /\
  cluster place addr true = Some c /\ s_rmon c = 1 /\
  let s := srun c (sinit xmgr) acts in quiet c s /\ sroot s = RWait.
Proof. exact no_workers_hang. Qed.
Print Assumptions C35_no_workers_refuted.

(** Two machines, four workers, two monitors, with another operation in between. *)
Example C35_case : cluster xplace (fun k => k + 5) true = Some xcluster /\
  let s := srun xcluster (sinit xmgr)
    ([AStart; ACancel; ACancel; ADeliver 1; AOther 4 (MCount 5); ACancel; ADeliver 1] ++ repeat ACancel 3 ++ repeat (ADeliver 0) 20) in
  sroot s = RGone /\ quiet xcluster s /\ receipts (slog s) = 14 /\ map (stops (slog s)) [1; 2; 3; 4; 5; 6] = [0; 1; 1; 1; 1; 1].
Proof. exact (conj xstarted xdone). Qed.
