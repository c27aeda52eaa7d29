(** C90: large objects under way from one worker to another when the program is shut down. [place] gives the machine of each rank,
    [addr] the address of each machine; [lrun c mon g ops] is the state after the steps [ops], in any order: objects are made and
    sent, packages and requests are received, and shutdown goes on. [at_rest]: nothing can happen any more. *)
From Verif Require Import Lib ShmModel DataIdModel TopoModel MonModel ShutModel ShutSpec ShutCases LateModel LateSpec LateProofs LateCases.

(** If every package is received by its worker before CANCEL, or is about an object that is in the memory of the worker's machine
    already, shutdown ends as without packages. *)
Theorem C90_in_time_partial : forall place addr c,
  (forall a b, In a place -> In b place -> addr a = addr b -> a = b) ->
  (forall k, In k place -> 2 <= count_occ Nat.eq_dec place k) -> 2 <= length place ->
  cluster place addr true = Some c ->
  forall g ops, s_workers c <> [] -> nth 1 place 0 = nth 0 place 0 ->
  let st := lrun c (monitor_of place addr) g ops in
  (forall w, ~ took_late c (monitor_of place addr) g ops w) ->
  sroot (l_s st) <> RRun -> at_rest c (monitor_of place addr) st -> all_left c st.
Proof. exact late_none. Qed.
Print Assumptions C90_in_time_partial.

(** In general: all leave, or a worker that has taken a package late waits for a monitor that has left, and waits for ever. *)
Theorem C90_cases : forall place addr c,
  (forall a b, In a place -> In b place -> addr a = addr b -> a = b) ->
  (forall k, In k place -> 2 <= count_occ Nat.eq_dec place k) -> 2 <= length place ->
  cluster place addr true = Some c ->
  forall g ops, s_workers c <> [] -> nth 1 place 0 = nth 0 place 0 ->
  let st := lrun c (monitor_of place addr) g ops in
  sroot (l_s st) <> RRun -> at_rest c (monitor_of place addr) st ->
  all_left c st \/
  exists w m, In w (s_workers c) /\ took_late c (monitor_of place addr) g ops w /\ In (w, m) (l_req st) /\
    In m (s_monitors c) /\ mstopped (smon (l_s st) m) = true /\
    forall ops', sworker (l_s (lrun c (monitor_of place addr) g (ops ++ ops'))) w = WkReady.
Proof. exact late_cases. Qed.
Print Assumptions C90_cases.

(** That does happen: worker 5 of two machines takes a package after CANCEL and waits for ever. *)
Theorem C90_late_package_refuted : exists place addr c ops w,
  (forall a b, In a place -> In b place -> addr a = addr b -> a = b) /\
  (forall k, In k place -> 2 <= count_occ Nat.eq_dec place k) /\ 2 <= length place /\
  cluster place addr true = Some c /\ s_workers c <> [] /\ nth 1 place 0 = nth 0 place 0 /\
  let mon := monitor_of place addr in
  sroot (l_s (lrun c mon xmgr ops)) <> RRun /\ at_rest c mon (lrun c mon xmgr ops) /\ In w (s_workers c) /\
  forall ops', sworker (l_s (lrun c mon xmgr (ops ++ ops'))) w = WkReady.
Proof. exact late_hang. Qed.
Print Assumptions C90_late_package_refuted.

(** A worker that takes a package has its object from then on, or is waiting for this object still. *)
Theorem C90_delivered : forall c mon g ops1 i ops2 o w d,
  nth_error (l_pkgs (lrun c mon g ops1)) i = Some (o, w, d) -> lstep c mon (lrun c mon g ops1) (LTake i) <> None ->
  let st := lrun c mon g (ops1 ++ LTake i :: ops2) in In (w, d) (l_have st) \/ exists h, l_wait st w = Some (o, d, h).
Proof. exact taken_arrives. Qed.
Print Assumptions C90_delivered.

(** The same program when the package is received in time. *)
Example C90_case : ((forall a b, In a yplace -> In b yplace -> yaddr a = yaddr b -> a = b) /\
  (forall k, In k yplace -> 2 <= count_occ Nat.eq_dec yplace k) /\ 2 <= length yplace /\
  cluster yplace yaddr true = Some ycluster /\ s_workers ycluster <> [] /\ nth 1 yplace 0 = nth 0 yplace 0) /\
  let st := lrun ycluster ymon xmgr ygood in
  sroot (l_s st) = RGone /\ at_rest ycluster ymon st /\ l_have st = [(2, (2, 0)); (5, (2, 0))] /\
  forall w, ~ took_late ycluster ymon xmgr ygood w.
Proof. exact (conj yhyps ygood_end). Qed.
