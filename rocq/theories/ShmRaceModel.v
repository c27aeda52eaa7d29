(** Cell-by-cell interleaving of the shared object store's operations on one host.
    Models the bodies of core/backends/mpi/core/shared_object_store.py: put (725-756),
    _put_service_info (350-383), _check_service_info (385-408), the check-increment-read path
    of get (758-828 with 282-316 and 425-466), _decrement_ref_number (318-348) and
    delete_service_info (678-723).
    One step of a process is one access to one cell of shared memory, or taking or releasing
    the window lock (WinLock, 35-62).  Accesses are sequentially consistent. *)
From Verif Require Import Lib ShmModel ShmStoreModel.
Local Open Scope Z_scope.

(** A cell of the data window or of the service window. shared_buffer and service_shared_buffer
    (shared_object_store.py:149-263). *)
Inductive cell := CD (a : Z) | CS (a : Z).

(** Cells of the two windows are different memory (shared_object_store.py:149-263). *)
Definition cell_eqb (x y : cell) : bool :=
  match x, y with
  | CD a, CD b => a =? b
  | CS a, CS b => a =? b
  | _, _ => false
  end.

(** The contents of both windows (shared_object_store.py:149-263). *)
Definition cmem := cell -> Z.
(** An assignment to one cell (shared_object_store.py:367-383, 485-524). *)
Definition cupd (m : cmem) (c : cell) (v : Z) : cmem := fun x => if cell_eqb x c then v else m x.

(** Where a reservation puts an object: its service slot and first byte. The monitor's answer
    (monitor/shared_memory_manager.py:172-192). *)
Record place := { p_slot : Z; p_first : Z }.

(** SharedObjectStore.put (725-756), get (758-828), the finalizer (318-348) and delete_service_info (678-723), all in
    shared_object_store.py. *)
Inductive rop :=
| RPut (d : dataid) (r : place) (bs : list Z)   (* put, after the reservation *)
| RGet (d : dataid) (s : Z) (n : nat)           (* get of a package naming slot s and n bytes *)
| RDrop (d : dataid) (s : Z)                    (* the finalizer *)
| RDelete (d : dataid) (s : Z).                 (* the monitor frees the slot *)

(** Program counters; the comment gives the next access. shared_object_store.py:282-408, 440-524, 641-659, 692-723. *)
Inductive pc :=
| PIdle
| PData (d : dataid) (r : place) (bs : list Z) (k : nat)   (* write byte k, or take the lock *)
| PPub (d : dataid) (r : place) (bs : list Z) (k : nat)    (* FIRST, REFERENCES, NUMBER, WORKER, unlock *)
| GWorker (d : dataid) (s : Z) (n : nat)                   (* read WORKER *)
| GNumber (d : dataid) (s : Z) (n : nat) (w : Z)           (* read NUMBER and compare *)
| GLock (d : dataid) (s : Z) (n : nat)                     (* take the lock *)
| GInc (d : dataid) (s : Z) (n : nat)                      (* read REFERENCES *)
| GIncW (d : dataid) (s : Z) (n : nat) (v : Z)             (* write REFERENCES *)
| GUnlock (d : dataid) (s : Z) (n : nat)                   (* release *)
| GFirst (d : dataid) (s : Z) (n : nat)                    (* read FIRST *)
| GData (d : dataid) (s : Z) (n : nat) (f : Z) (acc : list Z) (* read the next byte *)
| FWorker (d : dataid) (s : Z)
| FNumber (d : dataid) (s : Z) (w : Z)
| FLock (d : dataid) (s : Z)
| FDec (d : dataid) (s : Z)
| FDecW (d : dataid) (s : Z) (v : Z)
| FUnlock (d : dataid) (s : Z)
| DLock (d : dataid) (s : Z)
| DWorker (d : dataid) (s : Z)
| DNumber (d : dataid) (s : Z) (w : Z)
| DWrite (d : dataid) (s : Z) (k : nat)                    (* the four writes of -1, unlock *)
| PDead.                                                   (* RuntimeError *)

(** A process: what it still has to do and where it is; not a structure of the code (shared_object_store.py:282-828 is what
    it does). *)
Record thread := { todo : list rop; at_ : pc }.

(** What a process finds out or does: shared_object_store.py:282-348, 774-828. *)
Inductive event :=
| Got (d : dataid) (s : Z) (first : Z) (bs : list Z)
| Absent (d : dataid) (s : Z)
| Inc (d : dataid) (s : Z)
| Dec (d : dataid) (s : Z).

(** The memory of one host (shared_object_store.py:149-263), the window's lock (40-63) and all processes. *)
Record rstate := {
  rmem : cmem;
  rlock : option nat;
  rthreads : list thread;
  rlog : list event
}.

(** After _allocate_shared_memory (shared_object_store.py:149-263): service cells are filled with -1. *)
Definition rinit (progs : list (list rop)) : rstate :=
  {| rmem := fun c => match c with CD _ => 0 | CS _ => -1 end; rlock := None;
     rthreads := map (fun ops => {| todo := ops; at_ := PIdle |}) progs; rlog := [] |}.

(** The first access of each operation (shared_object_store.py:335-348, 405-408, 485-524, 692-723). *)
Definition start (o : rop) : pc :=
  match o with
  | RPut d r bs => PData d r bs 0
  | RGet d s n => GWorker d s n
  | RDrop d s => FWorker d s
  | RDelete d s => DLock d s
  end.

(** Effect of the next access of a process: new memory, lock, counter, events. [None]: it cannot proceed (lock taken,
    nothing to do, dead). shared_object_store.py:282-408, 440-524, 641-659, 692-723. *)
Definition access (me : nat) (m : cmem) (lk : option nat) (p : pc)
  : option (cmem * option nat * pc * list event) :=
  let take (k : pc) := match lk with None => Some (m, Some me, k, []) | Some _ => None end in
  match p with
  | PIdle => None
  | PData d r bs k =>
      match nth_error bs k with
      | Some b => Some (cupd m (CD (p_first r + Z.of_nat k)) b, lk, PData d r bs (S k), [])
      | None => take (PPub d r bs 0)
      end
  | PPub d r bs k =>
      let s := p_slot r in
      match k with
      | 0%nat => Some (cupd m (CS (s + 2)) (p_first r), lk, PPub d r bs 1, [])
      | 1%nat => Some (cupd m (CS (s + 3)) 1, lk, PPub d r bs 2, [])
      | 2%nat => Some (cupd m (CS (s + 1)) (data_number d), lk, PPub d r bs 3, [])
      | 3%nat => Some (cupd m (CS s) (worker_id d), lk, PPub d r bs 4, [])
      | _ => Some (m, None, PIdle, [])
      end
  | GWorker d s n => Some (m, lk, GNumber d s n (m (CS s)), [])
  | GNumber d s n w =>
      if (w =? worker_id d) && (m (CS (s + 1)) =? data_number d)
      then Some (m, lk, GLock d s n, [])
      else Some (m, lk, PIdle, [Absent d s])
  | GLock d s n => take (GInc d s n)
  | GInc d s n => Some (m, lk, GIncW d s n (m (CS (s + 3))), [])
  | GIncW d s n v => Some (cupd m (CS (s + 3)) (v + 1), lk, GUnlock d s n, [Inc d s])
  | GUnlock d s n => Some (m, None, GFirst d s n, [])
  | GFirst d s n => Some (m, lk, GData d s n (m (CS (s + 2))) [], [])
  | GData d s n f acc =>
      if (length acc <? n)%nat
      then Some (m, lk, GData d s n f (acc ++ [m (CD (f + Z.of_nat (length acc)))]), [])
      else Some (m, lk, PIdle, [Got d s f acc])
  | FWorker d s => Some (m, lk, FNumber d s (m (CS s)), [])
  | FNumber d s w =>
      if (w =? worker_id d) && (m (CS (s + 1)) =? data_number d)
      then Some (m, lk, FLock d s, [])
      else Some (m, lk, PIdle, [])
  | FLock d s => take (FDec d s)
  | FDec d s => Some (m, lk, FDecW d s (m (CS (s + 3))), [])
  | FDecW d s v => Some (cupd m (CS (s + 3)) (v - 1), lk, FUnlock d s, [Dec d s])
  | FUnlock d s => Some (m, None, PIdle, [])
  | DLock d s => take (DWorker d s)
  | DWorker d s => Some (m, lk, DNumber d s (m (CS s)), [])
  | DNumber d s w =>
      if (w =? worker_id d) && (m (CS (s + 1)) =? data_number d)
      then Some (m, lk, DWrite d s 0, [])
      else Some (m, None, PDead, [])
  | DWrite d s k =>
      match k with
      | 4%nat => Some (m, None, PIdle, [])
      | _ => Some (cupd m (CS (s + Z.of_nat k)) (-1), lk, DWrite d s (S k), [])
      end
  | PDead => None
  end.

(** Process [i] makes its next access (or starts its next operation). One memory access of one process
    (shared_object_store.py:282-828). *)
Definition rstep (st : rstate) (i : nat) : rstate :=
  match nth_error (rthreads st) i with
  | None => st
  | Some t =>
      match at_ t, todo t with
      | PIdle, o :: rest =>
          {| rmem := rmem st; rlock := rlock st; rlog := rlog st;
             rthreads := upd_nth i (fun _ => {| todo := rest; at_ := start o |}) (rthreads st) |}
      | PIdle, [] => st
      | p, _ =>
          match access i (rmem st) (rlock st) p with
          | None => st
          | Some (m, lk, p', evs) =>
              {| rmem := m; rlock := lk; rlog := rlog st ++ evs;
                 rthreads := upd_nth i (fun _ => {| todo := todo t; at_ := p' |}) (rthreads st) |}
          end
      end
  end.

(** Any schedule of the processes of one host (shared_object_store.py:66-845). *)
Definition rrun (progs : list (list rop)) (sched : list nat) : rstate :=
  fold_left rstep sched (rinit progs).
