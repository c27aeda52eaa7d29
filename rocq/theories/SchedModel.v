(** Model of the scheduler: class RoundRobin (core/backends/mpi/core/controller/common.py:23-110)
    and the places that use it: submit (controller/api.py:536), Actor.__init__ and
    Actor.__del__ (controller/actor.py:91-109, 196-200). Every process has its own RoundRobin. *)
From Verif Require Import Lib.

(** RoundRobin.__init__ (controller/common.py:26-38). *)
Record rr := {
  cyc : list rank;        (* itertools.cycle: the ranks, the next one first *)
  reserved : list rank    (* reserved_ranks, a list with repetitions *)
}.

(** The cycle goes over the workers except the process itself (controller/common.py:26-38). *)
Definition eligible (workers : list rank) (self : rank) : list rank :=
  filter (fun r => negb (Nat.eqb r self)) workers.

(** RoundRobin.__init__ (controller/common.py:26-38). *)
Definition rr_init (workers : list rank) (self : rank) : rr :=
  {| cyc := eligible workers self; reserved := [] |}.

(** next_rank in self.reserved_ranks (controller/common.py:62-75). *)
Definition mem (r : rank) (l : list rank) : bool := existsb (Nat.eqb r) l.

(** next() on the cycle; an empty cycle raises StopIteration. controller/common.py:62-75. *)
Definition next (c : list rank) : option (rank * list rank) :=
  match c with [] => None | x :: r => Some (x, r ++ [x]) end.

(** schedule_rank (controller/common.py:53-75): at most as many attempts as there are workers. The second component is the
    cycle afterwards; [None]: an exception ("All ranks blocked", or StopIteration). *)
Fixpoint schedule_loop (n : nat) (c : list rank) (res : list rank) : option rank * list rank :=
  match n with
  | O => (None, c)
  | S n' =>
      match next c with
      | None => (None, c)
      | Some (r, c') => if mem r res then schedule_loop n' c' res else (Some r, c')
      end
  end.

(** controller/common.py:53-75. *)
Definition schedule_rank (workers : list rank) (s : rr) : option rank * rr :=
  let (r, c) := schedule_loop (length workers) (cyc s) (reserved s) in
  (r, {| cyc := c; reserved := reserved s |}).

(** reserve_rank (77-93), release_rank (95-110: list.remove of the first occurrence). The lines are in controller/common.py.
    *)
Definition reserve_rank (s : rr) (r : rank) : rr :=
  {| cyc := cyc s; reserved := reserved s ++ [r] |}.

(** list.remove (controller/common.py:106-110). *)
Fixpoint remove_first (r : rank) (l : list rank) : list rank :=
  match l with
  | [] => []
  | x :: l' => if Nat.eqb x r then l' else x :: remove_first r l'
  end.

(** controller/common.py:95-110. *)
Definition release_rank (s : rr) (r : rank) : rr :=
  {| cyc := cyc s; reserved := remove_first r (reserved s) |}.

(** A process of the cluster: its scheduler and the actor handles it holds (each with the rank its actor lives on).
    controller/common.py:26-51, controller/actor.py:91-109. *)
Record proc := { sched : rr; handles : list rank }.

(** controller/api.py:536, controller/actor.py:91-128, 150-184, 196-200. *)
Inductive sop :=
| OSubmit                  (* submit: schedule a task *)
| OActor                   (* Actor(...): schedule, then reserve *)
| OHandle (r : rank)       (* a handle of an existing actor arrives: reserve *)
| ODrop (i : nat).         (* the i-th handle held dies: release *)

(** What is observed: the rank chosen, or that scheduling failed. controller/common.py:62-75. *)
Inductive sevent := EScheduled (r : rank) | EFailed | ENone.

(** controller/api.py:536, controller/actor.py:91-128, 196-200, controller/common.py:53-110. *)
Definition sstep (workers : list rank) (p : proc) (o : sop) : proc * sevent :=
  match o with
  | OSubmit =>
      match schedule_rank workers (sched p) with
      | (Some r, s) => ({| sched := s; handles := handles p |}, EScheduled r)
      | (None, s) => ({| sched := s; handles := handles p |}, EFailed)
      end
  | OActor =>
      match schedule_rank workers (sched p) with
      | (Some r, s) => ({| sched := reserve_rank s r; handles := handles p ++ [r] |}, EScheduled r)
      | (None, s) => ({| sched := s; handles := handles p |}, EFailed)
      end
  | OHandle r => ({| sched := reserve_rank (sched p) r; handles := handles p ++ [r] |}, ENone)
  | ODrop i =>
      match nth_error (handles p) i with
      | Some r => ({| sched := release_rank (sched p) r;
                      handles := firstn i (handles p) ++ skipn (S i) (handles p) |}, ENone)
      | None => (p, ENone)
      end
  end.

(** A new process (controller/common.py:26-51). *)
Definition proc_init (workers : list rank) (self : rank) : proc :=
  {| sched := rr_init workers self; handles := [] |}.

(** Any history of one process (controller/common.py:53-110). *)
Fixpoint srun (workers : list rank) (p : proc) (ops : list sop) : proc * list sevent :=
  match ops with
  | [] => (p, [])
  | o :: r => let (p1, e) := sstep workers p o in
              let (p2, es) := srun workers p1 r in (p2, e :: es)
  end.
