(** When a monitor keeps running, read off the messages it gets. *)
From Verif Require Import Lib ShmModel ShmSpec MonModel.
Local Open Scope Z_scope.

(** All requests are for a positive amount of memory (as op_ok in ShmSpec). *)
Definition sizes_ok (ms : list mmsg) : Prop := forall src d n, In (MReserve src d n) ms -> 0 < n.

(** The sum of all sizes ever asked for. *)
Definition asked (ms : list mmsg) : Z :=
  fold_right Z.add 0 (map (fun m => match m with MReserve _ _ n => n | _ => 0 end) ms).

(** The number of requests for memory. *)
Definition requests (ms : list mmsg) : Z :=
  fold_right Z.add 0 (map (fun m => match m with MReserve _ _ _ => 1 | _ => 0 end) ms).

(** Data is asked for only when it was reserved here before and no cleanup has named it. *)
Definition known_when_asked (ms : list mmsg) : Prop :=
  forall a src d b, ms = a ++ MShared src d :: b ->
    (exists src' n, In (MReserve src' d n) a) /\ (forall ds fl, In (MClean ds fl) a -> ~ In d ds).

(** At most k data IDs are reserved. *)
Definition holds_at_most (g : manager) (k : Z) : Prop :=
  exists ds, Z.of_nat (length ds) <= k /\ forall d, resv g d <> None -> In d ds.

(** Whenever memory for new data is asked for, there is a gap of that size and fewer than k data are held. *)
Definition room (c : mcfg) (s0 : mst) (mem k : Z) (ms : list mmsg) : Prop :=
  forall a src d n b s, ms = a ++ MReserve src d n :: b -> mon_run c s0 a = Some s -> mstopped s = false ->
    resv (mmgr s) d = None ->
    gap_exists (mem_used (mmgr s)) mem n /\ holds_at_most (mmgr s) (k - 1).
