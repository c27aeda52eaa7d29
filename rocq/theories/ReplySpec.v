(** What a process expects of the monitor. *)
From Verif Require Import Lib ShmModel MonModel MonSpec ReplyModel.
From Coq Require Import Permutation.

(** a is the answer to request r of process p: for a wait, a split of its references with as many ready as asked for, each of
    them in a completion report that the monitor has had; for a task count, the number of completion reports it had had at
    some moment; for a reservation, what the monitor answered to this process for this datum. *)
Definition answers_to (l : list mev) (p : rank) (r : req) (a : reply) : Prop :=
  match r, a with
  | RWait ds n, PWait rdy nrdy =>
      Permutation (rdy ++ nrdy) ds /\ Z.of_nat (length rdy) = n /\
      forall d, In d rdy -> exists src out, In (MvIn (MDone src out)) l /\ In d out
  | RCount, PCount k => exists before after, l = before ++ MvIn (MCount p) :: MvCount p k :: after /\
      k = length (filter (fun e => match e with MvIn (MDone _ _) => true | _ => false end) before)
  | RReserve d n, PReserve i f => exists before after, l = before ++ MvIn (MReserve p d n) :: MvReserve p i f :: after
  | ROver, POver => True
  | _, _ => False
  end.

(** What the monitor has received and sent, also when it has ended. *)
Definition history (c : mcfg) (mgr : manager) (ops : list qop) (l : list mev) : Prop :=
  exists ops1 ops2 m, ops = ops1 ++ ops2 /\ q_mon (qrun c mgr ops1) = Some m /\ l = mlog m.

(** Only the root calls wait (for at least one reference) and shutdown. *)
Definition root_only (o : qop) : Prop :=
  match o with
  | QAsk p (RWait _ n) => p = 0 /\ (1 <= n)%Z
  | QAsk p ROver => p = 0
  | _ => True
  end.

(** The monitor receives: no exception has ended it, and not all workers have said that they are ready to shut down. *)
Definition serving (s : qst) (m : mst) : Prop := q_mon s = Some m /\ mstopped m = false.

(** A request of process p is still on its way, or its answer is, or it is a wait and too few of its references are complete. *)
Definition in_hand (s : qst) (m : mst) (p : rank) (r : req) : Prop :=
  (exists before, q_in s p = before ++ req_msg p r) \/ (exists a, q_out s p = [a]) \/
  (exists ds n, r = RWait ds n /\ (Z.of_nat (length (filter (fun d => did_in d (mcompleted m)) ds)) < n)%Z).
