(** C20 to C23: get and wait on the root. [value d] is what was put or computed for d; [truth value st]
    and the condition on the replies say that nothing else is stored or sent under d. [st] is what
    the root holds, [owner] where it thinks the rest is, [replies] what is sent to it, in any order. *)
From Verif Require Import Lib ShmModel ValModel WorkerModel WorkerSpec WorkerCases MonModel MonSpec MonCases CtrlModel CtrlSpec CtrlProofs CtrlCases.
From Coq Require Import Permutation.

(** Whatever comes back in whatever order: if get returns, each position has the value of its
    reference (a single reference the bare value); if it raises, it raises a failure of one of the
    remote references. *)
Theorem C20_values_in_order : forall value shared st owner a replies out o st',
  truth value st -> Forall (fun p => snd p = value (fst p)) replies ->
  get shared st owner a replies = (out, o, st') ->
  match o with
  | GVals vs => a = Many (arg_ids a) /\ vs = map value (arg_ids a)
  | GVal v => exists d, a = One d /\ v = value d
  | GRaise e => exists d, In d (arg_ids a) /\ st d = None /\ value d = VExc e
  | _ => True
  end.
Proof. exact get_in_order. Qed.
Print Assumptions C20_values_in_order.

(** If the owner of each remote reference is known and exactly one reply comes for each, in any
    order, get ends: it has asked exactly the owners, it holds all values, and it returns them
    (or raises, if one of the remote references failed). What it had before is unchanged. *)
Theorem C20_get_ends : forall value shared st owner a front later,
  truth value st -> Forall (fun p => snd p = value (fst p)) (front ++ later) ->
  (forall d, In d (arg_ids a) -> st d = None -> owner d <> None) ->
  Permutation (map fst front) (missing st (arg_ids a)) ->
  exists out st', map snd out = missing st (arg_ids a) /\ Forall (fun p => owner (snd p) = Some (fst p)) out /\
  (forall d, In d (arg_ids a) -> st' d = Some (value d)) /\
  (forall d, st d <> None -> st' d = st d) /\
  ((forall d e, In d (arg_ids a) -> st d = None -> value d <> VExc e) ->
     get shared st owner a (front ++ later) = (out, match a with One d => GVal (value d) | Many ds => GVals (map value ds) end, st')) /\
  ((exists d e, In d (arg_ids a) /\ st d = None /\ value d = VExc e) ->
     exists d e, In d (arg_ids a) /\ st d = None /\ value d = VExc e /\
     get shared st owner a (front ++ later) = (out, GRaise e, st')).
Proof. exact get_ends. Qed.
Print Assumptions C20_get_ends.

(** C21 is false: whatever the root holds, if a reference it does not hold occurs twice and one reply
    per reference comes, get does not return, *)
Theorem C21_repeated_remote_refuted : forall shared st owner a replies out o st',
  ~ NoDup (missing st (arg_ids a)) -> NoDup (map fst replies) ->
  get shared st owner a replies = (out, o, st') ->
  o = GBlocked \/ o = GNoOwner \/ exists d, o = GUnexpected d.
Proof. exact repeated_blocks. Qed.
Print Assumptions C21_repeated_remote_refuted.

(** and a worker that gets both requests sends only one reply. *)
Theorem C21_worker_refuted : exists w, wrun 2 xbody xmbody xsync winit xtwice = Some w /\
  stored (log w) z (VLeaf 4) /\
  forall later, snd (fst (get (fun _ => false) dempty xowner (Many [z; z]) (to_root (log w)))) = GBlocked /\
  fst (fst (get (fun _ => false) dempty xowner (Many [z; z]) later)) = [(2, z); (2, z)].
Proof. exact asked_twice. Qed.
Print Assumptions C21_worker_refuted.

(** References that the root holds may be repeated. *)
Theorem C21_local_repeats_partial : forall value shared st owner ds front later,
  truth value st -> Forall (fun p => snd p = value (fst p)) (front ++ later) ->
  (forall d, In d ds -> st d = None -> owner d <> None) ->
  Permutation (map fst front) (missing st ds) ->
  (forall d e, In d ds -> st d = None -> value d <> VExc e) ->
  exists out st', get shared st owner (Many ds) (front ++ later) = (out, GVals (map value ds), st').
Proof.
  exact (fun value shared st owner ds front later T R O P N =>
    match get_ends value shared st owner (Many ds) front later T R O P with
    | ex_intro _ out (ex_intro _ st' (conj _ (conj _ (conj _ (conj _ (conj G _)))))) =>
        ex_intro _ out (ex_intro _ st' (G N)) end).
Qed.
Print Assumptions C21_local_repeats_partial.

(** C22: a get that has to fetch a failed reference raises a failure of one of those it fetches; alone,
    its own. Missing: later gets. *)
Theorem C22_first_get_raises_partial : forall value shared st owner d e,
  truth value st -> st d = None -> owner d <> None -> value d = VExc e ->
  exists out st', forall later, Forall (fun p => snd p = value (fst p)) later ->
  get shared st owner (One d) ((d, VExc e) :: later) = (out, GRaise e, st').
Proof. exact first_get. Qed.
Print Assumptions C22_first_get_raises_partial.

(** The second get on a failed reference returns the exception object. *)
Theorem C22_second_get_refuted : exists w, wrun 2 xbody xmbody xsync winit xfails = Some w /\ In (EvEnd 1 (RExc 9)) (log w) /\
  let g1 := get (fun _ => false) dempty xowner (One z) (to_root (log w)) in
  snd (fst g1) = GRaise 9 /\
  snd (fst (get (fun _ => false) (snd g1) xowner (One z) [])) = GVal (VExc 9).
Proof. exact second_get. Qed.
Print Assumptions C22_second_get_refuted.

(** C23. What the root finds by itself: either it returns n references it holds, with the rest, or
    it goes to the monitor with the references it does not hold. *)
Theorem C23_wait_local : forall st ds n, (1 <= n)%Z ->
  match wait_local st ds n with
  | WReady r nr => Permutation (r ++ nr) ds /\ Z.of_nat (length r) = n /\ Forall (fun d => st d <> None) r
  | WAsk r nr p => Permutation (r ++ nr) ds /\ (Z.of_nat (length r) + p = n)%Z /\ (1 <= p)%Z /\
      Forall (fun d => st d <> None) r /\ Forall (fun d => st d = None) nr
  end.
Proof. exact wait_local_spec. Qed.
Print Assumptions C23_wait_local.

(** C23. With the monitor, in any state of its own and whatever it receives afterwards: as soon as n of the
    references are held by the root or reported complete, the monitor has sent its one answer, and
    wait returns a split of the references with exactly n ready ones, each held or complete. *)
Theorem C23_wait_through_monitor : forall c g st ds n r0 nr0 p ms1 ms2 s1 s, (1 <= n)%Z ->
  wait_local st ds n = WAsk r0 nr0 p ->
  orderly c (minit g) (ms1 ++ [MWait nr0 p]) -> waits ms2 = 0 ->
  mon_run c (minit g) ms1 = Some s1 ->
  mon_run c (minit g) (ms1 ++ MWait nr0 p :: ms2) = Some s -> mstopped s = false ->
  (n <= Z.of_nat (length (filter (fun d => here st d || complete (ms1 ++ ms2) d) ds)))%Z ->
  exists a r nr, answers (mlog s) = answers (mlog s1) ++ [a] /\ wait_end ds r0 a = Some (r, nr) /\
    Permutation (r ++ nr) ds /\ Z.of_nat (length r) = n /\
    Forall (fun d => st d <> None \/ complete (ms1 ++ ms2) d = true) r.
Proof. exact wait_remote. Qed.
Print Assumptions C23_wait_through_monitor.

(** C23. What a worker reports complete has a value there. *)
Theorem C23_reported_is_stored : forall self body mbody is_async ms w,
  (forall f a k, no_refs_returned (body f a k)) -> (forall h c, no_refs_returned (mbody h c)) ->
  no_refs_received ms ->
  wrun self body mbody is_async winit ms = Some w ->
  forall ds d, In ds (reports (log w)) -> In d ds -> exists v, stored (log w) d v.
Proof. exact reported_stored. Qed.
Print Assumptions C23_reported_is_stored.

(** y is held; z, t and u (failed) are not; replies in another order than the requests. *)
Example C20_C21_C22_case : truth xvalue xst /\
  snd (fst (get (fun _ => true) xst xow (Many [y; z; t; y]) [(t, VLeaf 3); (z, VTuple [VLeaf 2])])) =
    GVals [VLeaf 1; VTuple [VLeaf 2]; VLeaf 3; VLeaf 1] /\
  fst (fst (get (fun _ => true) xst xow (Many [y; z; t; y]) [])) = [(2, z); (3, t)] /\
  snd (fst (get (fun _ => true) xst xow (Many [y; z; u]) [(u, VExc 9); (z, VTuple [VLeaf 2])])) = GRaise 9 /\
  snd (fst (get (fun _ => true) xst xow (One y) [])) = GVal (VLeaf 1).
Proof. exact xget. Qed.

(** The second wait of the monitor's history in MonCases. *)
Example C23_case :
  (wait_local (dput dempty z (VLeaf 1)) [u; z; y; v; y] 4 = WAsk [z] [u; y; v; y] 3 /\
   wait_end [u; z; y; v; y] [z] ([v; y; y], [u]) = Some ([z; v; y; y], [u]) /\
   wait_local (dput dempty z (VLeaf 1)) [u; z; y; v; y] 1 = WReady [z] [u; y; v; y]) /\
  orderly xc (minit xg) xmon /\
  option_map (fun s => (answers (mlog s), mcount s)) (mon_run xc (minit xg) xmon) =
  Some ([([z], [y; u; y]); ([v; y; y], [u])], 4).
Proof. exact (conj xwait (conj xorderly xanswers)). Qed.
