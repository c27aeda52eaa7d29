(** Cleanup requests at the monitors of several hosts: each monitor serves one request at a time, in the order in which it
    takes them, and handles a CLEANUP together with the others (an Allreduce inside clear).
    Models mpi/core/monitor/loop.py:188-259 and mpi/core/monitor/shared_memory_manager.py:194-246. *)
From Verif Require Import Lib ShmModel.
Local Open Scope Z_scope.

(** The requests that concern shared memory and change it (monitor/loop.py:221-234, 254-259). REQUEST_SHARED_DATA changes nothing. *)
Inductive kmsg :=
| KReserve (d : dataid) (size : Z)
| KClean (ids : list dataid).

(** What a monitor is doing: waiting for a message (monitor/loop.py:190), inside Allreduce (shared_memory_manager.py:224-226) with
    the array it contributed, or gone after a MemoryError (shared_memory_manager.py:178-181, not caught in loop.py:225).
    [refs] is what get_ref_number gave when the array was computed (208-222); it is not kept in the code. *)
Inductive kmode :=
| Running
| InReduce (refs : dataid -> Z) (ids : list dataid) (flags : list bool)
| Dead.

(** One monitor (monitor/loop.py:173-187) and the messages under way to it, by sender: messages between two processes do not
    overtake each other. *)
Record khost := { k_mgr : manager; k_mode : kmode; k_in : rank -> list kmsg }.

(** All monitors; [k_err]: an Allreduce was called with arrays of different lengths (shared_memory_manager.py:224-226), which MPI
    does not allow; nothing is said about what follows. *)
Record kst := { k_hosts : list khost; k_err : bool }.

(** shared_memory_manager.py:111-128 on each host. *)
Definition kinit (sizes : list (Z * Z)) : kst :=
  {| k_hosts := map (fun p => {| k_mgr := manager_init (fst p) (snd p); k_mode := Running; k_in := fun _ => [] |}) sizes;
     k_err := false |}.

(** What happens next. KAsk: communication.py:1055-1086, to the monitor of the sender's host. KTell: controller/garbage_collector.py:47-69, to
    all monitors; the sends are issued in one loop and reach the monitors in any order, which is the order in which these take
    them. KTake: a monitor that waits for a message takes the oldest one of some process (monitor/loop.py:190-192). KReduce: Allreduce
    is called by all monitors and returns (shared_memory_manager.py:224-246). That some of them return earlier than others is left out:
    what each does next depends on its own state and messages only. *)
Inductive kop :=
| KAsk (src : rank) (h : nat) (d : dataid) (size : Z)
| KTell (src : rank) (ids : list dataid)
| KTake (h : nat) (src : rank) (refs : dataid -> Z)
| KReduce.

(** One message more is under way (communication.py:1072-1085, controller/garbage_collector.py:60-69). *)
Definition kpush (src : rank) (m : kmsg) (x : khost) : khost :=
  {| k_mgr := k_mgr x; k_mode := k_mode x;
     k_in := fun r => if Nat.eqb src r then k_in x r ++ [m] else k_in x r |}.

(** The messages of one sender after the first was taken (monitor/loop.py:190-192). *)
Definition kpop (src : rank) (x : khost) : rank -> list kmsg :=
  fun r => if Nat.eqb src r then tl (k_in x r) else k_in x r.

(** One turn of the loop up to the collective call (monitor/loop.py:221-234, 254-259; shared_memory_manager.py:203-222). *)
Definition ktake (src : rank) (refs : dataid -> Z) (x : khost) : khost :=
  match k_mode x with
  | Running =>
      match k_in x src with
      | [] => x
      | KReserve d size :: _ =>
          {| k_mgr := fst (mgr_reserve (k_mgr x) d size);
             k_mode := match snd (mgr_reserve (k_mgr x) d size) with Some _ => Running | None => Dead end;
             k_in := kpop src x |}
      | KClean ids :: _ =>
          {| k_mgr := k_mgr x;
             k_mode := InReduce refs ids (has_refs refs (k_mgr x) (cleanup_list (k_mgr x) ids));
             k_in := kpop src x |}
      end
  | _ => x
  end.

(** The array given to Allreduce, if the monitor is there (shared_memory_manager.py:224-226). *)
Definition given (x : khost) : option (list bool) :=
  match k_mode x with InReduce _ _ fl => Some fl | _ => None end.

(** All arrays, once every monitor is in the call (shared_memory_manager.py:224-226). *)
Fixpoint all_given (l : list khost) : option (list (list bool)) :=
  match l with
  | [] => Some []
  | x :: r => match given x, all_given r with Some f, Some fs => Some (f :: fs) | _, _ => None end
  end.

(** MPI's requirement on Allreduce: the same count everywhere (shared_memory_manager.py:225-226). *)
Definition same_lengths (fs : list (list bool)) : bool :=
  match fs with
  | [] => true
  | f :: r => forallb (fun g => Nat.eqb (length g) (length f)) r
  end.

(** What a monitor does with the reduced array (shared_memory_manager.py:230-246); then it is back at monitor/loop.py:190. *)
Definition kfinish (all_refs : list bool) (x : khost) : khost :=
  match k_mode x with
  | InReduce _ ids _ => {| k_mgr := mgr_clear (k_mgr x) ids all_refs; k_mode := Running; k_in := k_in x |}
  | _ => x
  end.

(** One event (monitor/loop.py:188-259). *)
Definition kstep (s : kst) (o : kop) : kst :=
  if k_err s then s
  else match o with
  | KAsk src h d size => {| k_hosts := upd_nth h (kpush src (KReserve d size)) (k_hosts s); k_err := false |}
  | KTell src ids => {| k_hosts := map (kpush src (KClean ids)) (k_hosts s); k_err := false |}
  | KTake h src refs => {| k_hosts := upd_nth h (ktake src refs) (k_hosts s); k_err := false |}
  | KReduce =>
      match all_given (k_hosts s) with
      | None => s
      | Some fs =>
          if same_lengths fs then {| k_hosts := map (kfinish (allreduce_max fs)) (k_hosts s); k_err := false |}
          else {| k_hosts := k_hosts s; k_err := true |}
      end
  end.

(** Any history (monitor/loop.py:188-259). *)
Definition krun (s : kst) (ops : list kop) : kst := fold_left kstep ops s.
