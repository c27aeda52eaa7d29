(** C36, C50, C51, C60: the MPI backend as a whole. [crun workers body mgr ops] is the state after any
    interleaving [ops] of the root's program, deliveries of messages to workers, replies taken by a get and
    reports taken by the monitor; c_prog is the program the root has executed so far, c_seen what it saw. *)
From Verif Require Import Lib ValModel ShmModel PushModel WorkerModel WorkerSpec WorkerCases MonModel
  ClusterModel ClusterSpec ClusterSeq ClusterProofs ClusterCount ClusterRoot ClusterNet ClusterGhost ClusterEnd ClusterClean ClusterQuiet ClusterGone ClusterCases.

(** Whatever get returned is, position by position, what sequential evaluation of the program gives. *)
Theorem C50_values : forall workers body, (forall f a k, no_refs_returned (body f a k)) ->
  forall mgr ops ds vs, let c := crun workers body mgr ops in
  valid workers (c_prog c) -> In (RGot ds vs) (c_seen c) ->
  Forall2 (fun d v => sequential body (c_prog c) d = Some v) ds vs.
Proof. exact (fun workers body ok mgr ops ds vs V H => cb_seen _ _ (run_cb workers body ok mgr ops V) _ H). Qed.
Print Assumptions C50_values.

(** If get raised an exception, one of its references has that exception as its sequential value. *)
Theorem C50_exceptions : forall workers body, (forall f a k, no_refs_returned (body f a k)) ->
  forall mgr ops ds e, let c := crun workers body mgr ops in
  valid workers (c_prog c) -> In (RRaised ds e) (c_seen c) ->
  exists d, In d ds /\ sequential body (c_prog c) d = Some (VExc e).
Proof. exact (fun workers body ok mgr ops ds e V H => cb_seen _ _ (run_cb workers body ok mgr ops V) _ H). Qed.
Print Assumptions C50_exceptions.

(** The values on the way: whatever is in the store of a worker or of the root. *)
Theorem C50_stores : forall workers body, (forall f a k, no_refs_returned (body f a k)) ->
  forall mgr ops, let c := crun workers body mgr ops in valid workers (c_prog c) ->
  (forall d v, c_vals c d = Some v -> sequential body (c_prog c) d = Some v) /\
  (forall w d v, w <> 0 -> store (c_work c w) d = Some v -> sequential body (c_prog c) d = Some v).
Proof. exact stores_right. Qed.
Print Assumptions C50_stores.

Example C50_case : valid [2; 3] (c_prog cc1) /\
  In (RGot [z; u] [VLeaf 110; VLeaf 10]) (c_seen cc1) /\ In (RRaised [t] 9) (c_seen cc1) /\
  c_in cc1 3 <> [] /\ c_in cc1 2 <> [].
Proof. exact cc1_case. Qed.

(** A cleanup request is sent only when no worker has an unfinished task and every task sent has
    ended; if no submission raised, that is every task submitted. *)
Theorem C36_cleanup_after_tasks : forall workers body, (forall f a k, no_refs_returned (body f a k)) -> NoDup workers ->
  forall mgr ops ds, ~ In 0 workers -> let c := crun workers body mgr ops in
  valid workers (c_prog c) ->
  c_seen (cstep workers body c (CRoot (RClean ds))) = c_seen c ++ [RCleaned ds] ->
  (forall w, In w workers -> pend (c_work c w) = [] /\ apend (c_work c w) = [] /\ running (c_work c w) = []) /\
  (forall dest q, In (dest, WExec q) (c_out c) -> In (q_id q) (ended (log (c_work c dest)))) /\
  (forall dest q, In (RSubmit dest q) (c_prog c) -> ~ In RError (c_seen c) -> In (q_id q) (ended (log (c_work c dest)))).
Proof. exact (fun workers body ok nd mgr ops ds z V => cleaned_when_done workers body ok nd mgr ops ds z V). Qed.
Print Assumptions C36_cleanup_after_tasks.

(** And it can be sent: when no message and no report is under way, a cleanup that is tried is sent. *)
Theorem C36_cleanup_possible : forall workers body, (forall f a k, no_refs_returned (body f a k)) -> ~ In 0 workers ->
  NoDup workers -> forall mgr ops ds, let c := crun workers body mgr ops in
  valid workers (c_prog c) -> tidy (c_prog c) -> returns_enough body (c_prog c) ->
  idle c -> (forall w, In w workers -> c_done c w = []) ->
  c_seen (cstep workers body c (CRoot (RClean ds))) = c_seen c ++ [RCleaned ds].
Proof. exact (fun workers body ok nr nd mgr ops ds V T R => cleanup_possible workers body ok nr nd mgr ops ds V T R). Qed.
Print Assumptions C36_cleanup_possible.

Example C36_case : valid [2; 3] (c_prog cc1) /\
  c_seen (cstep [2; 3] xbody cc1 (CRoot (RClean [y]))) = c_seen cc1 ++ [RCleaned [y]] /\
  ended (log (c_work cc1 2)) = [1; 3; 4] /\ ended (log (c_work cc1 3)) = [2] /\ c_done cc1 2 = [] /\ c_done cc1 3 = [] /\
  c_seen (cstep [2; 3] xbody cc2 (CRoot (RClean [y]))) = c_seen cc2 /\ ended (log (c_work cc2 3)) = [].
Proof. exact c36_case. Qed.

(** No worker ever dies and no operation of the root fails; when no message is under way, the root is not waiting in
    a get and every submitted task has been executed. Programs may contain cleanups. *)
Theorem C51_nothing_stuck : forall workers body, (forall f a k, no_refs_returned (body f a k)) -> ~ In 0 workers -> NoDup workers ->
  forall mgr ops, let c := crun workers body mgr ops in
  valid workers (c_prog c) -> tidy (c_prog c) -> returns_enough body (c_prog c) ->
  (forall w, c_dead c w = false) /\ ~ In RError (c_seen c) /\
  (idle c -> c_left c = 0 /\ forall dest q, In (RSubmit dest q) (c_prog c) -> In (q_id q) (ended (log (c_work c dest)))).
Proof. exact nothing_stuck. Qed.
Print Assumptions C51_nothing_stuck.

(** A message under way can always be taken, and every sequence of deliveries ends: with the theorem above,
    however messages are delivered, in the end every submitted task has been executed. *)
Theorem C51_deliveries_end : forall workers body, (forall f a k, no_refs_returned (body f a k)) -> ~ In 0 workers ->
  NoDup workers -> forall mgr ops, let c := crun workers body mgr ops in
  valid workers (c_prog c) -> tidy (c_prog c) -> returns_enough body (c_prog c) ->
  (forall s d m l, c_chan c s d = m :: l ->
     c_in (cstep workers body c (if Nat.eqb d 0 then CReply s else CTake s d)) d = c_in c d ++ [(s, m)]) /\
  Acc (fun y x => delivery workers body x y) c.
Proof. exact deliveries_end. Qed.
Print Assumptions C51_deliveries_end.

(** Every call of get returns or raises, in the order of the program, except the one in progress; when no message is
    under way there is none in progress. *)
Theorem C51_gets_answered : forall workers body, (forall f a k, no_refs_returned (body f a k)) -> ~ In 0 workers -> NoDup workers ->
  forall mgr ops, let c := crun workers body mgr ops in
  valid workers (c_prog c) -> tidy (c_prog c) -> returns_enough body (c_prog c) ->
  gets_over (c_seen c) ++ (if Nat.eqb (c_left c) 0 then [] else [c_want c]) = gets_of (c_prog c) /\
  (idle c -> gets_over (c_seen c) = gets_of (c_prog c)).
Proof. exact gets_answered. Qed.
Print Assumptions C51_gets_answered.

Example C51_case : valid [2; 3] (c_prog cc3) /\ tidy (c_prog cc3) /\ returns_enough xbody (c_prog cc3) /\ idle cc3 /\
  In (RSubmit 3 (req 2 (FRef f2) [VRef y; VList [VRef f0]; VLeaf 4] [(1, VRef y)] (OOne z))) (c_prog cc3) /\
  c_seen cc3 = [RGot [z; u] [VLeaf 110; VLeaf 10]; RRaised [t] 9; RCleaned [y]; RGot [(1, 0)] [VLeaf 110]].
Proof. exact c51_case. Qed.

(** After a cleanup, when no message is under way, a copy of cleaned data is left on a worker only if that worker had
    not computed the data itself and had asked another process for it.
    Missing: that no copy is left (refuted below). *)
Theorem C60_cleaned_gone_partial : forall workers body, (forall f a k, no_refs_returned (body f a k)) -> ~ In 0 workers ->
  NoDup workers -> forall mgr ops, let c := crun workers body mgr ops in
  valid workers (c_prog c) -> tidy (c_prog c) -> returns_enough body (c_prog c) -> idle c ->
  forall ds d w, In (RCleaned ds) (c_seen c) -> In d ds -> In w workers -> store (c_work c w) d <> None ->
  ~ (exists q, In (RSubmit w q) (c_prog c) /\ In d (out_ids (q_out q))) /\ exists o, In (EvGet o d) (log (c_work c w)).
Proof. exact cleaned_gone. Qed.
Print Assumptions C60_cleaned_gone_partial.

(** The root itself keeps nothing whose last reference has died there. *)
Theorem C60_root_forgets : forall workers body, (forall f a k, no_refs_returned (body f a k)) -> ~ In 0 workers ->
  NoDup workers -> forall mgr ops, let c := crun workers body mgr ops in
  valid workers (c_prog c) -> tidy (c_prog c) -> returns_enough body (c_prog c) ->
  forall a d b, c_prog c = a ++ RDrop d :: b -> In d (introduced a) -> c_vals c d = None.
Proof. exact (fun workers body ok nr nd mgr ops V T R => root_forgets workers body ok nr nd mgr ops V T R). Qed.
Print Assumptions C60_root_forgets.

Example C60_case : valid [2; 3] (c_prog cc3) /\ tidy (c_prog cc3) /\ returns_enough xbody (c_prog cc3) /\ idle cc3 /\
  In (RCleaned [y]) (c_seen cc3) /\ In (EvStore y (VLeaf 3)) (log (c_work cc3 2)) /\
  store (c_work cc1 2) y = Some (VLeaf 3) /\ store (c_work cc1 3) y = Some (VLeaf 3) /\
  store (c_work cc3 2) y = None /\ store (c_work cc3 3) y = None.
Proof. exact c60_case. Qed.

(** If no worker is handed an object from two sources (one_source), a worker that has taken a cleanup of an object
    never has it again, no copy of a cleaned object is under way, and when no message is under way no worker has one.
    Missing: programs that hand one object to one worker first by reference and then by value. *)
Theorem C60_one_source_gone_partial : forall workers body, (forall f a k, no_refs_returned (body f a k)) -> ~ In 0 workers ->
  NoDup workers -> forall mgr ops, let c := crun workers body mgr ops in
  valid workers (c_prog c) -> tidy (c_prog c) -> returns_enough body (c_prog c) -> one_source (c_prog c) ->
  (forall src ds d w, In (src, WClean ds) (c_in c w) -> In d ds -> w <> 0 -> store (c_work c w) d = None) /\
  forall ds d, In (RCleaned ds) (c_seen c) -> In d ds ->
    (forall s w v, ~ In (WPut d v) (c_chan c s w)) /\
    (idle c -> forall w, In w workers -> store (c_work c w) d = None).
Proof. exact one_source_gone. Qed.
Print Assumptions C60_one_source_gone_partial.

Example C60_one_source_case : valid [2; 3] (c_prog cc5) /\ tidy (c_prog cc5) /\ returns_enough xbody (c_prog cc5) /\
  one_source (c_prog cc5) /\ idle cc5 /\ In (0, WClean [y]) (c_in cc5 3) /\ store (c_work cc1 3) y = Some (VLeaf 3) /\
  In (RCleaned [y]) (c_seen cc5).
Proof. exact c60_more. Qed.

(** A copy may be left for ever: an answer that comes after the cleanup is stored. *)
Theorem C60_cleaned_gone_refuted : exists workers body, (forall f a k, no_refs_returned (body f a k)) /\ ~ In 0 workers /\
  NoDup workers /\ exists mgr ops, let c := crun workers body mgr ops in
  valid workers (c_prog c) /\ tidy (c_prog c) /\ returns_enough body (c_prog c) /\ idle c /\
  exists ds d w, In (RCleaned ds) (c_seen c) /\ In d ds /\ In w workers /\ store (c_work c w) d <> None.
Proof. exact c60_refuted. Qed.
Print Assumptions C60_cleaned_gone_refuted.
