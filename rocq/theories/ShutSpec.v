(** Shutdown, read off the log of sends and receipts. *)
From Verif Require Import Lib ShmModel DataIdModel TopoModel MonModel ShutModel.

(** The ranks are those of a cluster: different processes, none of them the root, the root's
    monitor being one of the monitors. *)
Definition cluster_ok (c : scfg) : Prop :=
  NoDup (s_workers c ++ s_monitors c) /\ ~ In ROOT (s_workers c ++ s_monitors c) /\ In (s_rmon c) (s_monitors c).

(** How often r received the order to stop. *)
Definition stops (l : list sev) (r : rank) : nat :=
  length (filter (fun e => match e with SvGot x SStop => Nat.eqb x r | _ => false end) l).

(** Messages received so far. *)
Definition receipts (l : list sev) : nat :=
  length (filter (fun e => match e with SvGot _ _ => true | _ => false end) l).

(** Worker w has acknowledged CANCEL. *)
Definition acknowledged (c : scfg) (l : list sev) (w : rank) : Prop := In (SvSend w (s_rmon c) SAck) l.

(** Nothing can happen any more, apart from other operations reaching monitors. *)
Definition quiet (c : scfg) (s : ssys) : Prop :=
  sstep c s AStart = None /\ sstep c s ACancel = None /\ forall i, sstep c s (ADeliver i) = None.

Definition gone (c : scfg) (s : ssys) (r : rank) : Prop :=
  (In r (s_workers c) -> sworker s r = WkGone) /\ (In r (s_monitors c) -> mstopped (smon s r) = true).
