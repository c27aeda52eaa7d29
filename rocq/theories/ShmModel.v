(** Model of core/backends/mpi/core/monitor/shared_memory_manager.py
    and of the reservation handling of core/backends/mpi/core/monitor/loop.py.
    Shared-memory indices are Python ints: modelled by [Z]. *)
From Verif Require Import Lib.
Local Open Scope Z_scope.

(** A free range [lo, hi) -- an element of [FreeMemoryRange.range]. monitor/shared_memory_manager.py:35-36. *)
Definition range := (Z * Z)%type.

(** shared_memory_manager.py:35-36  FreeMemoryRange.__init__ *)
Definition fmr_init (range_len : Z) : list range := [(0, range_len)].

(** shared_memory_manager.py:38-66  FreeMemoryRange.occupy.
    Result: new range list and [Some (first, last)] or [None] for [(None, None)]. *)
Fixpoint occupy (count : Z) (rs : list range) : list range * option (Z * Z) :=
  match rs with
  | [] => ([], None)
  | (lo, hi) :: rest =>
      if count <=? hi - lo then
        let first := lo in
        let last := first + count in
        if hi =? last then (rest, Some (first, last))
        else ((last, hi) :: rest, Some (first, last))
      else
        let (rest', r) := occupy count rest in ((lo, hi) :: rest', r)
  end.

(** Python's [l[-1][1]] and assignments to [l[-1][1]] on a non-empty list. monitor/shared_memory_manager.py:54-103. *)
Definition last_hi (l : list range) : option Z :=
  match rev l with [] => None | (_, hi) :: _ => Some hi end.
(** Assignment to [l[-1][1]] (monitor/shared_memory_manager.py:79-103). *)
Definition set_last_hi (l : list range) (v : Z) : list range :=
  match rev l with [] => [] | (lo, _) :: r => rev ((lo, v) :: r) end.

(** shared_memory_manager.py:84-103  the [for i in range(len(self.range))] loop of
    [FreeMemoryRange.release]; [before] are the elements at indices < i and [after]
    those at indices >= i. [self.range[i - 1]] for i = 0 is Python's last element. *)
Fixpoint release_loop (first last : Z) (before after : list range) : list range :=
  match after with
  | [] => before
  | (lo, hi) :: rest =>
      if lo =? last then
        match before with
        | [] =>
            (* i = 0: self.range[-1] is the last element of the whole list *)
            match last_hi after with
            | Some h =>
                if h =? first then
                  (* self.range[-1][1] = self.range[0][1]; drop index 0 *)
                  match rest with
                  | [] => []
                  | _ :: _ => set_last_hi rest hi
                  end
                else (first, hi) :: rest
            | None => (first, hi) :: rest
            end
        | _ :: _ =>
            match last_hi before with
            | Some h =>
                if h =? first then set_last_hi before hi ++ rest
                else before ++ (first, hi) :: rest
            | None => before ++ (first, hi) :: rest
            end
        end
      else if hi =? first then
        match rest with
        | (lo2, hi2) :: rest2 =>
            if lo2 =? last then before ++ (lo, hi2) :: rest2
            else before ++ (lo, last) :: rest
        | [] => before ++ [(lo, last)]
        end
      else if lo >? last then before ++ (first, last) :: (lo, hi) :: rest
      else release_loop first last (before ++ [(lo, hi)]) rest
  end.

(** shared_memory_manager.py:68-103  FreeMemoryRange.release *)
Definition release (first last : Z) (rs : list range) : list range :=
  match last_hi rs with
  | None => [(first, last)]
  | Some h =>
      if h <? first then rs ++ [(first, last)]
      else release_loop first last [] rs
  end.

(** shared_memory_manager.py:183-189  reservation_info (ImmutableDict) *)
Record resinfo := { first_index : Z; last_index : Z; service_index : Z }.

(** shared_object_store.py:79  SharedObjectStore.INFO_SIZE *)
Definition INFO_SIZE : Z := 4.

(** shared_memory_manager.py:111-128  SharedMemoryManager.__init__
    (shared store enabled; the monitor communicator is modelled by [cluster_clear]). *)
Record manager := {
  resv : dmap resinfo;                 (* _reservation_info *)
  free_memory : list range;
  free_service : list range;           (* free_service_indexes *)
  pending_cleanup : list dataid
}.

(** SharedMemoryManager.__init__ (monitor/shared_memory_manager.py:111-128). *)
Definition manager_init (shared_memory_size service_info_max_count : Z) : manager :=
  {| resv := dempty;
     free_memory := fmr_init shared_memory_size;
     free_service := fmr_init service_info_max_count;
     pending_cleanup := [] |}.

(** shared_memory_manager.py:130-154  SharedMemoryManager.get *)
Definition mgr_get (m : manager) (d : dataid) : option resinfo := resv m d.

(** Outcome of [SharedMemoryManager.put]: a reservation, or MemoryError (178-181). The lines are in
    monitor/shared_memory_manager.py. *)
Inductive put_result :=
| PutOk (r : resinfo)
| OverflowMemory
| OverflowService.

(** shared_memory_manager.py:156-192  SharedMemoryManager.put.
    Both [occupy] calls mutate their free lists before either error is raised. *)
Definition mgr_put (m : manager) (d : dataid) (memory_len : Z) : manager * put_result :=
  let (fm, r1) := occupy memory_len (free_memory m) in
  let (fs, r2) := occupy INFO_SIZE (free_service m) in
  match r1, r2 with
  | None, _ =>
      ({| resv := resv m; free_memory := fm; free_service := fs;
          pending_cleanup := pending_cleanup m |}, OverflowMemory)
  | Some _, None =>
      ({| resv := resv m; free_memory := fm; free_service := fs;
          pending_cleanup := pending_cleanup m |}, OverflowService)
  | Some (f, l), Some (s, _) =>
      let r := {| first_index := f; last_index := l; service_index := s |} in
      ({| resv := dput (resv m) d r; free_memory := fm; free_service := fs;
          pending_cleanup := pending_cleanup m |}, PutOk r)
  end.

(** shared_memory_manager.py:232-244  body of the branch [referers == 0] for a reserved ID.
    The deletion of the service info (shared_object_store.py:678-723) is modelled in
    ShmStoreModel.v. *)
Definition mgr_free_one (m : manager) (d : dataid) : manager :=
  match resv m d with
  | None => m
  | Some r =>
      {| resv := ddel (resv m) d;
         free_memory := release (first_index r) (last_index r) (free_memory m);
         free_service := release (service_index r) (service_index r + INFO_SIZE) (free_service m);
         pending_cleanup := pending_cleanup m |}
  end.

(** shared_memory_manager.py:230-246  the loop over [zip(cleanup_list, all_refs)];
    [true] stands for [referers > 0]. *)
Fixpoint clear_loop (m : manager) (l : list (dataid * bool)) : manager :=
  match l with
  | [] => m
  | (d, referenced) :: rest =>
      if referenced then
        clear_loop {| resv := resv m; free_memory := free_memory m;
                      free_service := free_service m;
                      pending_cleanup := pending_cleanup m ++ [d] |} rest
      else clear_loop (mgr_free_one m d) rest
  end.

(** shared_memory_manager.py:205-206  cleanup_list = pending_cleanup + data_id_list *)
Definition cleanup_list (m : manager) (ids : list dataid) : list dataid :=
  pending_cleanup m ++ ids.

(** shared_memory_manager.py:208-222  has_refs for one monitor; [refs d] is what
    [SharedObjectStore.get_ref_number] returns for the reservation of [d] on this host. *)
Definition has_refs (refs : dataid -> Z) (m : manager) (l : list dataid) : list bool :=
  map (fun d => match resv m d with None => false | Some _ => 0 <? refs d end) l.

(** shared_memory_manager.py:194-246  SharedMemoryManager.clear, given the reduced array. *)
Definition mgr_clear (m : manager) (ids : list dataid) (all_refs : list bool) : manager :=
  clear_loop {| resv := resv m; free_memory := free_memory m; free_service := free_service m;
                pending_cleanup := [] |}
             (combine (cleanup_list m ids) all_refs).

(** shared_memory_manager.py:224-228  MPI.Allreduce(..., MPI.MAX): element-wise maximum over
    all monitors. *)
Fixpoint or_lists (a b : list bool) : list bool :=
  match a, b with
  | x :: a', y :: b' => orb x y :: or_lists a' b'
  | _, _ => []
  end.

(** comm.Allreduce(..., op=MAX) in monitor/shared_memory_manager.py:203-246; element by element, the flags are 0 or 1. *)
Fixpoint allreduce_max (ls : list (list bool)) : list bool :=
  match ls with
  | [] => []
  | [l] => l
  | l :: rest => or_lists l (allreduce_max rest)
  end.

(** One CLEANUP request handled by all monitors (one per host): every monitor contributes
    its own [has_refs] and all apply the reduced result.  [hosts] pairs each manager with
    the reference counts of its host. monitor/loop.py:254-259. *)
Definition cluster_clear (hosts : list (manager * (dataid -> Z))) (ids : list dataid)
  : list manager :=
  let all_refs :=
    allreduce_max (map (fun h => has_refs (snd h) (fst h) (cleanup_list (fst h) ids)) hosts) in
  map (fun h => mgr_clear (fst h) ids all_refs) hosts.

(** monitor/loop.py:221-234  RESERVE_SHARED_MEMORY: the reply carries [is_first_request];
    [None] is the escaping MemoryError. *)
Definition mgr_reserve (m : manager) (d : dataid) (size : Z)
  : manager * option (resinfo * bool) :=
  match mgr_get m d with
  | Some r => (m, Some (r, false))
  | None =>
      match mgr_put m d size with
      | (m', PutOk r) => (m', Some (r, true))
      | (m', _) => (m', None)
      end
  end.

(** Operations a monitor performs on its manager. monitor/loop.py:221-259. *)
Inductive mop :=
| Reserve (d : dataid) (size : Z)
| Query (d : dataid)                                (* REQUEST_SHARED_DATA, 235-253 *)
| Cleanup (ids : list dataid) (all_refs : list bool).

(** monitor/loop.py:221-259. *)
Definition mstep (m : manager) (o : mop) : manager :=
  match o with
  | Reserve d size => fst (mgr_reserve m d size)
  | Query _ => m
  | Cleanup ids all_refs => mgr_clear m ids all_refs
  end.

(** A history of operations on one monitor. monitor/loop.py:188-259. *)
Definition mrun (m : manager) (ops : list mop) : manager := fold_left mstep ops m.

(** Operations of a cluster with one manager per host.  Reservations go to the monitor of
    the requester's own host (communication.py:1080-1086); a CLEANUP is sent to every
    monitor (controller/garbage_collector.py:61-69) and handled collectively. [refs h d] is
    the reference count of [d] on host [h] when the cleanup is handled. *)
Inductive cop :=
| CReserve (host : nat) (d : dataid) (size : Z)
| CCleanup (refs : nat -> dataid -> Z) (ids : list dataid).

(** One monitor's manager changes; not code (each monitor has its own, monitor/loop.py:178). *)
Fixpoint upd_nth {A} (n : nat) (f : A -> A) (l : list A) : list A :=
  match l, n with
  | [], _ => []
  | x :: r, O => f x :: r
  | x :: r, S n' => x :: upd_nth n' f r
  end.

(** What get_ref_number gives on each host (shared_object_store.py:641-659), beside its manager. *)
Fixpoint with_refs (refs : nat -> dataid -> Z) (h : nat) (ms : list manager)
  : list (manager * (dataid -> Z)) :=
  match ms with
  | [] => []
  | m :: r => (m, refs h) :: with_refs refs (S h) r
  end.

(** One operation on one monitor, or a cleanup on all of them (monitor/loop.py:221-259). *)
Definition cstep (ms : list manager) (o : cop) : list manager :=
  match o with
  | CReserve h d size => upd_nth h (fun m => fst (mgr_reserve m d size)) ms
  | CCleanup refs ids => cluster_clear (with_refs refs 0 ms) ids
  end.

(** Any history of all monitors; a cleanup is collective (monitor/shared_memory_manager.py:203-246). *)
Definition crun (ms : list manager) (ops : list cop) : list manager := fold_left cstep ops ms.
