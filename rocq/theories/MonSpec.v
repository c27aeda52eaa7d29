(** What a monitor does, read off the messages it gets and its log. *)
From Verif Require Import Lib ShmModel MonModel.
From Coq Require Import Permutation.

(** The answers to wait requests sent so far. *)
Definition answers (l : list mev) : list (list dataid * list dataid) :=
  flat_map (fun e => match e with MvAnswer r n => [(r, n)] | _ => [] end) l.

(** The number of wait requests among messages. *)
Definition waits (ms : list mmsg) : nat :=
  length (filter (fun m => match m with MWait _ _ => true | _ => false end) ms).

(** A completion report for d is among the messages. *)
Definition complete (ms : list mmsg) (d : dataid) : bool :=
  existsb (fun m => match m with MDone _ ds => did_in d ds | _ => false end) ms.

(** The number of completion reports among messages. *)
Definition dones (ms : list mmsg) : nat :=
  length (filter (fun m => match m with MDone _ _ => true | _ => false end) ms).

(** Every wait asks for at least one reference, and is sent when all earlier ones are answered
    (the root blocks in wait until it has the answer). *)
Definition orderly (c : mcfg) (s0 : mst) (ms : list mmsg) : Prop :=
  forall before ds n after, ms = before ++ MWait ds n :: after ->
    (1 <= n)%Z /\ exists s, mon_run c s0 before = Some s /\ length (answers (mlog s)) = waits before.

(** What is sent for a wait request on ds for n references, when the completion reports cp have come. *)
Definition answer_for (cp : list mmsg) (ds : list dataid) (n : Z) (new : list (list dataid * list dataid)) : Prop :=
  if (Z.of_nat (length (filter (complete cp) ds)) <? n)%Z then new = []
  else exists r nr, new = [(r, nr)] /\ Permutation (r ++ nr) ds /\ Z.of_nat (length r) = n /\
       Forall (fun d => complete cp d = true) r.
