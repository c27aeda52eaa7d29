(** The collective operations of MPI that a process goes through from init to its end. Models controller/api.py:253-290 (init)
    and 313-340 (shutdown), communication.py:115-168 (MPIState), shared_object_store.py:88-115, 149-260 (the windows) and
    830-845 (finalize), worker/loop.py:94-96, 222-227, monitor/loop.py:180-182, 263-267, 284-287. *)
From Verif Require Import Lib TopoModel SizingModel.
From Coq Require Import ZArith.

(** Where a process is: in one of the collective operations, in its loop (the root: in the main program and then in the
    messages of shutdown), gone, or ended by an exception. Split_type (communication.py:127), allgather (131),
    Allocate_shared twice (shared_object_store.py:232, 249), Barrier (api.py:267, worker/loop.py:95, monitor/loop.py:181),
    Free twice (shared_object_store.py:839, 842), Finalize (api.py:337, worker/loop.py:226, monitor/loop.py:266, 286). *)
Inductive point := AtSplit | AtGather | AtAlloc | AtAllocService | AtBarrier | InLoop | AtFree | AtFreeService | AtFinalize
                 | Gone | Raised.

(** Comparison, for membership in a path; not in the code (the operations of api.py:253-340). *)
Definition point_eqb (a b : point) : bool :=
  match a, b with
  | AtSplit, AtSplit | AtGather, AtGather | AtAlloc, AtAlloc | AtAllocService, AtAllocService | AtBarrier, AtBarrier
  | InLoop, InLoop | AtFree, AtFree | AtFreeService, AtFreeService | AtFinalize, AtFinalize | Gone, Gone | Raised, Raised => true
  | _, _ => false
  end.

(** What a process finds: whether is_shared_memory_supported() (mpi/core/common.py:473-512), the memory it may use
    (_get_allowed_memory_size, shared_object_store.py:122-147), MpiSharedObjectStoreMemory, MpiSharedServiceMemory and
    MpiSharedObjectStoreThreshold. *)
Record view := { v_shm : bool; v_total : Z; v_obj : option Z; v_svc : option Z; v_threshold : Z }.

(** Who takes part in an operation: all processes, or those of one machine (host_comm, communication.py:127), or it is none.
    The splitting by address for Microsoft MPI (124-126) is not distinguished. *)
Inductive scope := World | Host | NoColl.
(** global_comm: communication.py:127, 131, api.py:267; host_comm: shared_object_store.py:239, 256; Finalize is over all
    processes. *)
Definition scope_of (x : point) : scope :=
  match x with
  | AtSplit | AtGather | AtBarrier | AtFinalize => World
  | AtAlloc | AtAllocService | AtFree | AtFreeService => Host
  | InLoop | Gone | Raised => NoColl
  end.

Section Start.
Variable place : list nat.        (* machine of rank 0, 1, ... *)
Variable addr : nat -> nat.       (* address of a machine *)
Variable long : Z.                (* MPI.LONG.size *)
Variable sees : nat -> view.      (* what the process of a rank finds *)

(** _allocate_shared_memory raises none of its three ValueErrors (shared_object_store.py:160-227). *)
Definition fits (p : nat) : bool :=
  let v := sees p in
  match allocate_shared_memory long (v_total v) (v_obj v) (v_svc v) (v_threshold v) with inl _ => false | inr _ => true end.

(** From the second window on: shared_object_store.py:249, the Barrier, the loop, finalize and Finalize. *)
Definition last_part : list point := [AtAllocService; AtBarrier; InLoop; AtFree; AtFreeService; AtFinalize; Gone].

(** What a process does, in order, if nobody makes it wait for ever. The root raises in MPIState when a machine has one process
    (communication.py:158-166; other processes go on); the sizes are checked before the first window
    (shared_object_store.py:211-227); Shared_query(MONITOR) raises when the machine has no second process (242). Without shared
    memory there are no windows (shared_object_store.py:111-112, 838-843). *)
Definition path (p : nat) : list point :=
  AtSplit :: AtGather ::
  (if v_shm (sees p)
   then if Nat.eqb p ROOT && (match monitor_processes place addr true with None => true | Some _ => false end) then [Raised]
        else if negb (fits p) then [Raised]
        else AtAlloc :: (if Nat.leb 2 (count_occ Nat.eq_dec place (nth p place 0)) then last_part else [Raised])
   else [AtBarrier; InLoop; AtFinalize; Gone]).

(** How many operations of its path each process has left. Not in the code, where it is the place in the program
    (api.py:253-340). *)
Definition st := nat -> nat.

(** Before MPIState is made (api.py:250-253). *)
Definition start : st := fun _ => 0.

(** The operation the process is in. controller/api.py:253-340. *)
Definition now (s : st) (p : nat) : point := nth (s p) (path p) Raised.

(** The process has entered operation [x], now or before. controller/api.py:253-340. *)
Definition entered (s : st) (p : nat) (x : point) : bool := existsb (point_eqb x) (firstn (S (s p)) (path p)).

(** The ranks of a communicator: global_comm or host_comm (communication.py:118, 127). *)
Definition members (p : nat) (c : scope) : list nat :=
  filter (fun q => match c with World => true | Host => Nat.eqb (nth q place 0) (nth p place 0) | NoColl => false end)
         (seq 0 (length place)).

(** A process goes on from the collective operation it is in once all members have entered it, or its loop ends: for the root
    when it has the monitor's answer in shutdown (api.py:329-334), for the others on SHUTDOWN (worker/loop.py:222,
    monitor/loop.py:263, 284; modelled in ShutModel). *)
Inductive move := Go (p : nat) | EndLoop (p : nat).

(** One process goes on (api.py:253-340); [None]: it cannot. *)
Definition step (s : st) (m : move) : option st :=
  match m with
  | Go p =>
      if Nat.ltb p (length place)
         && (match scope_of (now s p) with
             | NoColl => false
             | c => forallb (fun q => entered s q (now s p)) (members p c)
             end)
      then Some (fun x => if Nat.eqb x p then S (s p) else s x) else None
  | EndLoop p =>
      match Nat.ltb p (length place), now s p with
      | true, InLoop => Some (fun x => if Nat.eqb x p then S (s p) else s x)
      | _, _ => None
      end
  end.

(** A run: the moves that are possible are made, the others are not counted. api.py:253-340 in all processes, interleaved in
    any way. *)
Fixpoint run (s : st) (l : list move) : st * nat :=
  match l with
  | [] => (s, 0)
  | m :: r => match step s m with Some s' => let (t, n) := run s' r in (t, S n) | None => run s r end
  end.
End Start.
